(** What a number set should be, in terms of the history of requests only. *)
From Verif Require Import Base NumSetModel.
Local Open Scope N_scope.

(** A request is legitimate for an array of [k] sets of 32-bit numbers. *)
Definition op_ok (k : nat) (o : nop) : Prop :=
  match o with
  | NAdd n i => n < 2^32 /\ (i < k)%nat
  | NInvert m | NClear m => (m <= k)%nat
  end.

(** Requests concerning set [i] made after the last clearing of set [i]. *)
Fixpoint since_clear (i : nat) (acc : list nop) (ops : list nop) : list nop :=
  match ops with
  | [] => acc
  | NClear m :: r => if Nat.ltb i m then since_clear i [] r else since_clear i acc r
  | o :: r => since_clear i (acc ++ [o]) r
  end.
Definition adds (i : nat) (n : N) (o : nop) : bool :=
  match o with NAdd n' i' => (n =? n') && Nat.eqb i i' | _ => false end.
Definition inverts (i : nat) (o : nop) : bool :=
  match o with NInvert m => Nat.ltb i m | _ => false end.

(** [n] belongs to set [i]: it was listed since the last clearing, the meaning of
    the list being complemented once per inversion requested since then. *)
Definition member (i : nat) (ops : list nop) (n : N) : bool :=
  let h := since_clear i [] ops in
  xorb (existsb (adds i n) h) (Nat.odd (length (filter (inverts i) h))).
