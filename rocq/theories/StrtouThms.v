(** C03: decimal option arguments (src/string_to_uint.c). *)
From Verif Require Import Base StrtouModel StrtouSpec StrtouProofs.
Local Open Scope N_scope.

Theorem C03_string_to_uint_ex : forall str max acc v rest,
  string_to_uint_ex str max acc = Some (v, rest) <->
  (0 <= v)%Z /\ numeral str (Z.to_N v) rest /\ Z.to_N v <= max /\ (v <= 2^63 - 1)%Z /\
  (rest = [] \/ exists c r a, rest = c :: r /\ acc = Some a /\ In c a).
Proof. exact string_to_uint_ex_iff. Qed.
Print Assumptions C03_string_to_uint_ex.

Theorem C03_string_to_uint_upto : forall str max v, max < 2^63 ->
  (string_to_uint_upto str max = Some v <-> numeral str v [] /\ v <= max).
Proof. exact string_to_uint_upto_iff. Qed.
Print Assumptions C03_string_to_uint_upto.

(** the specification determines value and end position *)
Theorem C03_numeral_unique : forall s v v' r r',
  numeral s v r -> numeral s v' r' -> v = v' /\ r = r'.
Proof. exact numeral_functional. Qed.
Print Assumptions C03_numeral_unique.

Example ex_plain : string_to_uint (bs "2147483647") = Some 2147483647.
Proof. vm_compute. reflexivity. Qed.
Example ex_above : string_to_uint (bs "2147483648") = None.
Proof. vm_compute. reflexivity. Qed.
Example ex_overflow : string_to_uint_ex (bs "99999999999999999999999") (2^64-1) None = None.
Proof. vm_compute. reflexivity. Qed.
Example ex_ending : string_to_uint_ex (bs "12..34") 65535 (Some (bs "+.")) = Some (12%Z, bs "..34").
Proof. vm_compute. reflexivity. Qed.
Example ex_blank : string_to_uint (bs "  +7") = Some 7.
Proof. vm_compute. reflexivity. Qed.
Example ex_minus : string_to_uint (bs "-7") = None /\ string_to_uint (bs "-0") = Some 0.
Proof. vm_compute. auto. Qed.
Example ex_junk : string_to_uint (bs "7x") = None /\ string_to_uint (bs "") = None /\ string_to_uint (bs "+") = None.
Proof. vm_compute. auto. Qed.
