(** What --secontext shows. *)
From Verif Require Import Base QuoteModel QuoteSpec SecModel.
Local Open Scope N_scope.

(** A context is user:role:type, or user:role:type:range (where the range may have colons). *)
Definition no_colon (s : list N) : Prop := ~ In (ch ":") s.
Definition with_type (s t : list N) : Prop :=
  exists u r, no_colon u /\ no_colon r /\ no_colon t /\
    (s = u ++ bs ":" ++ r ++ bs ":" ++ t \/ exists range, s = u ++ bs ":" ++ r ++ bs ":" ++ t ++ bs ":" ++ range).
(** a string with its final newlines taken away *)
Definition chomped (s t : list N) : Prop :=
  exists k, s = t ++ repeat 10 k /\ forall a, t <> a ++ [10].
(** The part of a context that is wanted: all of it, or its type; a string that has no type is taken as it is. *)
Definition wanted (full : bool) (s w : list N) : Prop :=
  (full = true /\ chomped s w) \/
  (full = false /\ exists t, with_type s t /\ chomped t w) \/
  (full = false /\ (forall t, ~ with_type s t) /\ chomped s w).

(** A text for a part: read as what stands between the quotes of a C string (with \xHH of two digits) it is the part,
    and it has no bracket and no exclamation mark. *)
Definition text_of (part t : list N) : Prop :=
  unquote Two Plain t = Some part /\ ~ In (ch "[") t /\ ~ In (ch "]") t /\ ~ In (ch "!") t.
(** The text for a context and, when known, the one expected. *)
Inductive context_text (full : bool) (ctx : list N) : option (list N) -> list N -> Prop :=
| CT_alone w t : wanted full ctx w -> text_of w t -> context_text full ctx None t
| CT_same exp w t : wanted full ctx w -> wanted full exp w -> text_of w t -> context_text full ctx (Some exp) t
| CT_differ exp w v t u : wanted full ctx w -> wanted full exp v -> w <> v -> text_of w t -> text_of v u ->
    context_text full ctx (Some exp) (t ++ bs "!!" ++ u).

(** The name, for strace, of the file that a path names for a process whose /proc directory is [p]'s: absolute paths
    start at the root of the process; others at its working directory or at the descriptor given. *)
Inductive file_named (p : N) : Z -> list N -> list N -> Prop :=
| FN_abs d rest : file_named p d (bs "/" ++ rest) (bs "/proc/" ++ dec p ++ bs "/root/" ++ rest)
| FN_cwd path : (forall rest, path <> bs "/" ++ rest) ->
    file_named p (-100)%Z path (bs "/proc/" ++ dec p ++ bs "/cwd/" ++ path)
| FN_at d path : (forall rest, path <> bs "/" ++ rest) ->
    file_named p (Z.of_N d) path (bs "/proc/" ++ dec p ++ bs "/fd/" ++ dec d ++ bs "/" ++ path).

(** The directory that each path of a call is relative to (-100: the working directory), by the call's manual page.  The
    target of a symbolic link is relative to the link's directory. *)
Definition starts_at (c : pcall) : list (Z * list N) :=
  match c with
  | CPath p => [((-100)%Z, p)]
  | CPaths p q => [((-100)%Z, p); ((-100)%Z, q)]
  | CAt d p => [(d, p)]
  | CAt2 d p e q => [(d, p); (e, q)]
  | CSymlinkAt t d p => [(d, t); (d, p)]
  | CFsconfigPath p aux => [(aux, p)]
  end.
