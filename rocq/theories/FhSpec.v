(** What is claimed of file handles, without the model: name_to_handle_at(2), open_by_handle_at(2). *)
From Verif Require Import Base Printf InfoSpec TvalSpec VmSpec.
From Verif Require QuoteHexSpec.
Local Open Scope N_scope.

(** The structure begins with the number of bytes of the handle and its type, 4 bytes each; the handle follows. *)
Definition size_of (h : list N) : N := number_at h 0 4.
Definition type_of (h : list N) (z : Z) : Prop := int_value (number_at h 4 4) z.
(** [t] is a string literal of hexadecimal escapes for the bytes [b] *)
Definition hex_literal (b t : list N) : Prop := exists body, t = bs """" ++ body ++ bs """" /\ QuoteHexSpec.shown_as QuoteHexSpec.hex_form b body.
(** The handle of [n] bytes behind the header at [a]: at most 128 bytes of it are shown *)
Definition handle_text (mem : N -> option N) (a n : N) (t : list N) : Prop :=
  (exists b u, N.of_nat (length b) = N.min n 128 /\ bytes_at mem (a + 8) b /\ hex_literal b u /\ t = u ++ if 128 <? n then bs "..." else []) \/
  (unreadable mem (a + 8) (N.to_nat (N.min n 128)) /\ t = bs "???").
(** What may be read where a structure is expected: not by NULL, with -e verbose=none, or after an error *)
Definition seen (verb ok : bool) (mem : N -> option N) (a : N) (b : list N) : Prop := a <> 0 /\ verb = true /\ ok = true /\ bytes_at mem a b.
Definition unseen (verb ok : bool) (mem : N -> option N) (a : N) (n : nat) : Prop := a = 0 \/ verb = false \/ ok = false \/ unreadable mem a n.
(** A size that the kernel has changed *)
Definition changed (n n' : N) (t : list N) : Prop := n' = n /\ t = [] \/ n' <> n /\ exists d, number d n' /\ t = bs " => " ++ d.
Definition bits : list (N * list N) :=
  [(0, bs "AT_HANDLE_MNT_ID_UNIQUE"); (1, bs "AT_HANDLE_CONNECTABLE"); (9, bs "AT_HANDLE_FID"); (10, bs "AT_SYMLINK_FOLLOW"); (12, bs "AT_EMPTY_PATH")].
(** The identity of the mount is an int; with AT_HANDLE_MNT_ID_UNIQUE it has 64 bits *)
Definition mount_size (flags : N) : nat := if N.testbit flags 0 then 8 else 4.
