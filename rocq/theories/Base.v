(** Common definitions: bytes, C integer wrap-around, list update, tactics.
    Nothing in this file models strace code; it is vocabulary. *)
From Coq Require Import String Ascii.
From Coq Require Export ZArith NArith Bool Lia List.
From Coq Require Export ZifyBool ZifyNat ZifyN.
Export ListNotations.
Export String.StringSyntax.

(** A byte string is a list of [N]; [bs] turns a Coq literal into bytes. *)
Definition byte := N.

Fixpoint bs (s : string) : list N :=
  match s with
  | EmptyString => []
  | String c r => N_of_ascii c :: bs r
  end.
#[global] Arguments bs s%string.
Definition ch (s : string) : N := match bs s with c :: _ => c | [] => 0%N end.

Definition is_byte (b : N) : Prop := (b < 256)%N.
Definition bytes_ok (l : list N) : Prop := Forall is_byte l.
(** C strings: no embedded NUL. *)
Definition no_nul (l : list N) : Prop := Forall (fun b => b <> 0%N) l.

(** strcmp(a,b) == 0 on NUL-free byte strings. *)
Fixpoint beqs (a b : list N) : bool :=
  match a, b with
  | [], [] => true
  | x :: a', y :: b' => N.eqb x y && beqs a' b'
  | _, _ => false
  end.
Lemma beqs_eq a b : beqs a b = true <-> a = b.
Proof.
  revert b; induction a as [|x a IH]; intros [|y b]; simpl; split; intros H;
    try discriminate; try reflexivity.
  - apply andb_true_iff in H as [H1 H2]. apply N.eqb_eq in H1. apply IH in H2. subst; reflexivity.
  - inversion H; subst. rewrite N.eqb_refl. simpl. apply IH; reflexivity.
Qed.
Lemma beqs_refl a : beqs a a = true.
Proof. apply beqs_eq; reflexivity. Qed.

Definition u8  (n : N) : N := (n mod 2^8)%N.
Definition u16 (n : N) : N := (n mod 2^16)%N.
Definition u32 (n : N) : N := (n mod 2^32)%N.
Definition u64 (n : N) : N := (n mod 2^64)%N.

(** array element update; out-of-range index is [None] (undefined behaviour in C). *)
Fixpoint upd {A} (l : list A) (i : nat) (v : A) : option (list A) :=
  match l, i with
  | [], _ => None
  | _ :: t, O => Some (v :: t)
  | h :: t, S i' => match upd t i' v with Some t' => Some (h :: t') | None => None end
  end.

Lemma upd_length {A} (l l' : list A) i v : upd l i v = Some l' -> length l' = length l.
Proof.
  revert l' i; induction l as [|h t IH]; intros l' [|i] H; simpl in *; try discriminate.
  - inversion H; reflexivity.
  - destruct (upd t i v) eqn:E; inversion H; subst; simpl; f_equal; eapply IH; eauto.
Qed.
Lemma upd_some {A} (l : list A) i v : i < length l -> exists l', upd l i v = Some l'.
Proof.
  revert i; induction l as [|h t IH]; intros [|i] H; simpl in *; try lia; eauto.
  destruct (IH i) as [l' E]; [lia|]. rewrite E; eauto.
Qed.
Lemma upd_none {A} (l : list A) i v : length l <= i -> upd l i v = None.
Proof.
  revert i; induction l as [|h t IH]; intros [|i] H; simpl in *; try lia; eauto.
  rewrite IH; [reflexivity|lia].
Qed.
Lemma upd_nth_eq {A} (l l' : list A) i v : upd l i v = Some l' -> nth_error l' i = Some v.
Proof.
  revert l' i; induction l as [|h t IH]; intros l' [|i] H; simpl in *; try discriminate.
  - inversion H; reflexivity.
  - destruct (upd t i v) eqn:E; inversion H; subst; simpl; eauto.
Qed.
Lemma upd_nth_ne {A} (l l' : list A) i j v :
  upd l i v = Some l' -> i <> j -> nth_error l' j = nth_error l j.
Proof.
  revert l' i j; induction l as [|h t IH]; intros l' [|i] [|j] H Hne; simpl in *;
    try discriminate; try congruence.
  - inversion H; reflexivity.
  - destruct (upd t i v) eqn:E; inversion H; subst; reflexivity.
  - destruct (upd t i v) eqn:E; inversion H; subst; simpl; eapply IH; eauto.
Qed.

(** option bind *)
Definition obind {A B} (x : option A) (f : A -> option B) : option B :=
  match x with Some a => f a | None => None end.
Notation "'olet' x ':=' e 'in' k" := (obind e (fun x => k))
  (at level 200, x pattern, e at level 100, k at level 200).

Lemma nth_error_repeat {A} (a : A) n i : i < n -> nth_error (repeat a n) i = Some a.
Proof. revert i; induction n as [|n IH]; intros [|i] H; simpl; try lia; auto. apply IH; lia. Qed.

Lemma nth_error_repeat_inv {A} (a x : A) n i : nth_error (repeat a n) i = Some x -> x = a.
Proof. intros H. apply nth_error_In in H. eapply repeat_spec; eauto. Qed.

(** keep [simpl] away from binary arithmetic *)
#[global] Arguments N.add : simpl never.
#[global] Arguments N.sub : simpl never.
#[global] Arguments N.mul : simpl never.
#[global] Arguments N.pow : simpl never.
#[global] Arguments N.div : simpl never.
#[global] Arguments N.modulo : simpl never.
#[global] Arguments N.shiftl : simpl never.
#[global] Arguments N.shiftr : simpl never.
#[global] Arguments N.of_nat : simpl never.
#[global] Arguments Z.add : simpl never.
#[global] Arguments Z.sub : simpl never.
#[global] Arguments Z.mul : simpl never.
#[global] Arguments Z.pow : simpl never.
#[global] Arguments Z.div : simpl never.
#[global] Arguments Z.modulo : simpl never.
#[global] Arguments Z.of_N : simpl never.
#[global] Arguments Z.to_N : simpl never.

(** Outcome of a C function that may terminate the program with an error
    message ([Die]) or have undefined behaviour ([Undef]). *)
Inductive res (A : Type) := Ok (a : A) | Die | Undef.
Arguments Ok {A} a.
Arguments Die {A}.
Arguments Undef {A}.
Definition rbind {A B} (x : res A) (f : A -> res B) : res B :=
  match x with Ok a => f a | Die => Die | Undef => Undef end.
Notation "'rlet' x ':=' e 'in' k" := (rbind e (fun x => k))
  (at level 200, x pattern, e at level 100, k at level 200).
(** an out-of-bounds access is undefined behaviour *)
Definition oob {A} (x : option A) : res A := match x with Some a => Ok a | None => Undef end.
