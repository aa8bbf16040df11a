(** Floating-point constants as time arguments; what IEEE 754 says of rounding. *)
From Coq Require Import QArith Qabs.
From Verif Require Import Base FtsModel.
Local Open Scope N_scope.

(** the digits of a base, 10 or 16 *)
Definition dval (base c v : N) : Prop :=
  v < base /\ ((48 <= c <= 57 /\ v = c - 48) \/ (97 <= c <= 102 /\ v = c - 87) \/ (65 <= c <= 70 /\ v = c - 55)).
(** the number that a list of digits stands for *)
Fixpoint dsum (base : N) (l : list N) : N := match l with [] => 0 | d :: r => d * base ^ N.of_nat (length r) + dsum base r end.

(** an exponent: e or p, a sign, digits; or none *)
Definition exp_text (mark : N) (t : list N) (e : Z) : Prop :=
  (t = [] /\ e = 0%Z) \/
  exists m sg ds vs, t = m :: sg ++ ds /\ (m = mark \/ m + 32 = mark) /\ (sg = [] \/ sg = [43] \/ sg = [45]) /\
    Forall2 (dval 10) ds vs /\ ds <> [] /\ e = if beqs sg [45] then (- Z.of_N (dsum 10 vs))%Z else Z.of_N (dsum 10 vs).
(** a floating-point constant of C with a sign, decimal or hexadecimal: its sign, and its magnitude *)
Definition float_text (t : list N) (neg : bool) (q : Q) : Prop :=
  exists sg pre base eb mark ip pt fp iv fv et e,
    t = sg ++ pre ++ ip ++ pt ++ fp ++ et /\
    ((sg = [] /\ neg = false) \/ (sg = [43] /\ neg = false) \/ (sg = [45] /\ neg = true)) /\
    ((pre = [] /\ base = 10 /\ eb = 10%Z /\ mark = 101) \/ ((pre = bs "0x" \/ pre = bs "0X") /\ base = 16 /\ eb = 2%Z /\ mark = 112)) /\
    Forall2 (dval base) ip iv /\ Forall2 (dval base) fp fv /\ ip ++ fp <> [] /\
    ((pt = [] /\ fp = []) \/ pt = [46]) /\ exp_text mark et e /\
    (q == inject_Z (Z.of_N (dsum base (iv ++ fv))) * Qpower (inject_Z (Z.of_N base)) (- Z.of_nat (length fp)) * Qpower (inject_Z eb) e)%Q.
(** units, in any case *)
Definition unit_text (t : list N) (u : Z) : Prop :=
  (t = [] /\ u = 1000%Z) \/ ((t = bs "s" \/ t = bs "S") /\ u = 1000000000%Z) \/
  exists a b, t = [a; b] /\ (b = 115 \/ b = 83) /\
    (((a = 109 \/ a = 77) /\ u = 1000000%Z) \/ ((a = 117 \/ a = 85) /\ u = 1000%Z) \/ ((a = 110 \/ a = 78) /\ u = 1%Z)).

(** binary64 numbers: a number of up to 53 bits times a power of 2 (their largest is left out: nothing here comes near) *)
Definition double (x : Q) : Prop := exists m e : Z, (Z.abs m <= 2^53 /\ - 1074 <= e)%Z /\ (x == inject_Z m * Qpower 2 e)%Q.
(** rounding gives a nearest double, whichever of two; errno is set for what is too large or vanishes, and not in between *)
Record ieee (M : fpu) : Prop := {
  i_double : forall x, double (fl M x);
  i_nearest : forall x f, double f -> (Qabs (fl M x - x) <= Qabs (f - x))%Q;
  i_fine : forall q, (q == 0 \/ (Qpower 2 (-1022) <= q /\ q <= Qpower 2 1023))%Q -> erange M q = false;
  i_tiny : forall q, (0 < q)%Q -> (fl M q == 0)%Q -> erange M q = true
}.
