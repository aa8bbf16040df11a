(** What a numeric option argument is. *)
From Verif Require Import Base.
Local Open Scope N_scope.

Definition blank (c : N) : Prop := c = 32 \/ (9 <= c <= 13).
Definition digit (c : N) : Prop := 48 <= c <= 57.

(** value of a decimal digit string *)
Fixpoint decimal (l : list N) : N :=
  match l with
  | [] => 0
  | d :: r => (d - 48) * 10 ^ N.of_nat (length r) + decimal r
  end.

(** [numeral s v rest]: [s] starts with blanks, an optional sign and a maximal
    non-empty run of digits of value [v]; a minus sign is acceptable only for zero. *)
Definition numeral (s : list N) (v : N) (rest : list N) : Prop :=
  exists blanks sign ds,
    s = blanks ++ sign ++ ds ++ rest /\
    Forall blank blanks /\
    (sign = [] \/ sign = [43] \/ (sign = [45] /\ v = 0)) /\
    ds <> [] /\ Forall digit ds /\
    (forall c r, rest = c :: r -> ~ digit c) /\
    v = decimal ds.
