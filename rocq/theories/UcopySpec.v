(** Reading and writing the memory of a tracee (C32-C35). *)
From Verif Require Import Base UcopyModel.
Local Open Scope N_scope.

(** A page can be read as a whole or not at all; a word is no longer than a page; addresses have 64 bits. *)
Record sane (M : mach) (m : mem) : Prop := {
  sn_word : wb M <= pg M; sn_page : pg M < 32; sn_top : forall a, 2 ^ 64 <= a -> m a = None;
  sn_uniform : forall a b, a / page_size M = b / page_size M -> m a = None -> m b = None }.
(** [l] is what is at [a] in the memory *)
Definition holds (m : mem) (a : N) (l : list N) : Prop := forall i, i < N.of_nat (length l) -> m (a + i) = Some (nth (N.to_nat i) l 0).
(** the [len] bytes at [a] can be read *)
Definition readable (m : mem) (a len : N) : Prop := forall i, i < len -> m (a + i) <> None.
(** the first NUL at [a] or after it is the [k]th byte, and the bytes up to it can be read *)
Definition nul_at (m : mem) (a k : N) : Prop := m (a + k) = Some 0 /\ forall i, i < k -> m (a + i) <> None /\ m (a + i) <> Some 0.
Definition no_nul (m : mem) (a len : N) : Prop := forall i, i < len -> m (a + i) <> Some 0.
(** nothing fails but for what cannot be read *)
Definition no_error (e : N -> option N) : Prop := forall a, e a = None.
(** process_vm_readv does not fail in a way that makes strace use ptrace instead *)
Definition no_fallback (ve : N -> option N) : Prop := forall a, ve a <> Some ENOSYS /\ ve a <> Some EPERM.

(** how far [a] is into its word, if the [k]th byte is in that word too *)
Definition skew (M : mach) (a k : N) : N := if residue_of M a + k <? long_size M then residue_of M a else 0.

(** What happens while strace handles events: reads, strings read, data poked into the tracee, and the
    next event, before which the tracee may have changed its memory. *)
Inductive uop :=
| URead (ve pe : N -> option N) (a len : N)
| UStr (ve pe : N -> option N) (a len : N)
| UPoke (a : N) (l : list N)
| UNext (m : mem).
Definition ustep (M : mach) (sm : uc * mem) (o : uop) : res (uc * mem) :=
  let '(s, m) := sm in
  match o with
  | URead ve pe a len => rlet (s, _) := umoven M false s m ve pe a len in Ok (s, m)
  | UStr ve pe a len => rlet (s, _) := umovestr M false s m ve pe a len in Ok (s, m)
  | UPoke a l => Ok (s, write m a l)
  | UNext m => Ok (invalidate_umove_cache s, m)
  end.
Fixpoint urun (M : mach) (sm : uc * mem) (os : list uop) : res (uc * mem) :=
  match os with [] => Ok sm | o :: r => rlet sm := ustep M sm o in urun M sm r end.
(** lengths are those of an unsigned int that is not negative as an int, and what is read does not wrap
    around; the memory stays sane *)
Definition uop_ok (M : mach) (o : uop) : Prop :=
  match o with URead _ _ a len | UStr _ _ a len => a < 2 ^ 64 /\ a + len <= 2 ^ 64 /\ len < 2 ^ 31 | UPoke _ _ => True | UNext m => sane M m end.
(** whether data was poked since the last event *)
Fixpoint poked (d : bool) (os : list uop) : bool :=
  match os with [] => d | UPoke _ _ :: r => poked true r | UNext _ :: r => poked false r | _ :: r => poked d r end.
