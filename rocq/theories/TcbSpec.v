(** What is expected of the table of tracees (C21, C22). *)
From Verif Require Import Base TcbModel.
Local Open Scope N_scope.

(** what is done with the table; a pid is added only if it is not there *)
Inductive op := Alloc (pid : N) | Drop (i : nat) | Lookup (pid : Z) | Rename (i : nat) (pid : N).
Definition absent (t : tab) (p : N) : Prop := ~ In p (pids t).
Definition allowed (t : tab) (o : op) : Prop :=
  match o with
  | Alloc p => p <> 0 /\ absent t p
  | Rename i p => p <> 0 /\ absent t p /\ pidof t i <> 0
  | _ => True
  end.
Definition do_op (t : tab) (o : op) : res tab :=
  match o with
  | Alloc p => rlet r := alloctcb t p in Ok (fst r)
  | Drop i => Ok (drop_slot t i)
  | Lookup p => Ok (fst (pid2tcb t p))
  | Rename i p => Ok (rename t i p)
  end.
Inductive history : tab -> Prop :=
| h_start : history tab0
| h_op t o t' : history t -> allowed t o -> do_op t o = Ok t' -> history t'.
(** the first entry with the pid, looked for from the start of the table *)
Definition scan (t : tab) (p : Z) : option nat := if (p <=? 0)%Z then None else find_pid (pids t) (Z.to_N p).
