(** What is claimed of the calls for extended attributes: setxattr(2), getxattr(2), listxattr(2). *)
From Verif Require Import Base Printf QuoteModel QuoteSpec TvalSpec VmSpec.
Local Open Scope N_scope.

(** [t] is a string literal for the bytes [b] *)
Definition literal (h : hexrule) (b t : list N) : Prop := exists body, t = bs """" ++ body ++ bs """" /\ unquote h Plain body = Some b.
(** A value is shown: whole if it has at most [max] bytes, or else its first [max] bytes and "...".
    A NUL at the end of what is shown is left out, and then there is no "...". *)
Definition value_text (h : hexrule) (max : N) (v t : list N) : Prop :=
  let shown := firstn (N.to_nat max) v in
  (exists u, literal h shown u /\ t = u ++ if (N.to_nat max <? length v)%nat then bs "..." else []) \/
  (exists b, shown = b ++ [0] /\ literal h b t).
(** A list of names (each with its NUL) *)
Definition list_text (h : hexrule) (max : N) (v t : list N) : Prop :=
  exists u, literal h (firstn (N.to_nat max) v) u /\ t = u ++ if (N.to_nat max <? length v)%nat then bs "..." else [].
Definition set_bits : list (N * list N) := [(0, bs "XATTR_CREATE"); (1, bs "XATTR_REPLACE")].
