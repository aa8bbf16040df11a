(** Times as integer nanoseconds; what a time argument means. *)
From Verif Require Import Base StrtouSpec TimeModel.
Local Open Scope Z_scope.

Definition ns (t : ts) : Z := sec t * 1000000000 + nsec t.
Definition normal (t : ts) : Prop := 0 <= nsec t < 1000000000.

(** unit suffixes: s, ms, us, ns; the second letter may be in upper case;
    microseconds when there is none *)
Definition unit_ns (e : list N) (u : Z) : Prop :=
  (e = [] /\ u = 1000) \/ (e = bs "s" /\ u = 1000000000) \/
  ((e = bs "ms" \/ e = bs "mS") /\ u = 1000000) \/
  ((e = bs "us" \/ e = bs "uS") /\ u = 1000) \/
  ((e = bs "ns" \/ e = bs "nS") /\ u = 1).
(** [s] denotes the duration of [d] nanoseconds, without a decimal point or exponent *)
Definition duration (s : list N) (d : Z) : Prop :=
  exists v e u, numeral s v e /\ Z.of_N v <= 2^63 - 1 /\ unit_ns e u /\ d = Z.of_N v * u.
(** strings that start with something other than an integer literal: the characters
    e, E, `.' or `-' occur right after the leading run of digits and plus signs *)
Definition float_like (s : list N) : Prop :=
  exists a c b, s = a ++ c :: b /\ Forall (fun x => In x (bs "+0123456789")) a /\ In c (bs "eE.-").
