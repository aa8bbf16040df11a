(** What is claimed of the printing of arrays. *)
From Verif Require Import Base ArrayModel.
Import ListNotations.
Local Open Scope N_scope.

(** The address of an element. *)
Definition addr (a : arr) (i : nat) : N := start a + N.of_nat i * esize a.

(** The array lies below the end of the address space. *)
Definition fits (a : arr) : Prop :=
  0 < start a /\ 0 < nmemb a /\ 0 < esize a /\ start a + nmemb a * esize a < 2 ^ 64.

(** How many elements are to be shown: all, or with abbreviation at most
    max_strlen. *)
Definition limit (a : arr) : nat :=
  N.to_nat (if abbrev a then N.min (nmemb a) (max_strlen a) else nmemb a).

(** An element that is readable and does not end the array. *)
Definition good (a : arr) (i : nat) : Prop :=
  exists v, fetch a (addr a i) = Some v /\ cont a v = true.

(** How element [i] is shown: the bytes at its own address, preceded by its
    index if asked for. *)
Definition item (a : arr) (i : nat) : list tok :=
  match fetch a (addr a i) with
  | Some v => if paf_indices a then [IxBegin; IxVal (N.of_nat i); IxEqual; Elem v; IxEnd] else [Elem v]
  | None => []
  end.
Definition items (a : arr) (n : nat) : list (list tok) := map (item a) (seq 0 n).

(** Items separated by Next. *)
Fixpoint joined (l : list (list tok)) : list tok :=
  match l with
  | [] => []
  | [x] => x
  | x :: r => x ++ Next :: joined r
  end.
Definition brackets (l : list (list tok)) : list tok := Begin :: joined l ++ [End].
