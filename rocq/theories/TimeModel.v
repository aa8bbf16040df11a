(** Model of time arithmetic, time arguments and integer logarithms:
    src/util.c, src/defs.h. *)
From Verif Require Import Base StrtouModel.
Local Open Scope Z_scope.

(** struct timespec.  Fields are unbounded integers; where C would overflow is
    the subject of hypotheses. *)
Record ts := { sec : Z; nsec : Z }.

(** src/util.c:85-89 *)
Definition ts_nz (a : ts) : bool := negb (sec a =? 0) || negb (nsec a =? 0).
(** src/util.c:91-101 *)
Definition ts_cmp (a b : ts) : Z :=
  if (sec a <? sec b) || ((sec a =? sec b) && (nsec a <? nsec b)) then -1
  else if (sec b <? sec a) || ((sec a =? sec b) && (nsec b <? nsec a)) then 1
  else 0.
(** src/util.c:109-118 *)
Definition ts_add (a b : ts) : ts :=
  let s := sec a + sec b in let n := nsec a + nsec b in
  if 1000000000 <=? n then {| sec := s + 1; nsec := n - 1000000000 |} else {| sec := s; nsec := n |}.
(** src/util.c:120-129 *)
Definition ts_sub (a b : ts) : ts :=
  let s := sec a - sec b in let n := nsec a - nsec b in
  if n <? 0 then {| sec := s - 1; nsec := n + 1000000000 |} else {| sec := s; nsec := n |}.
(** conversion to uint64_t *)
Definition w64 (z : Z) : Z := z mod 2^64.
(** conversion of a uint64_t value to long long *)
Definition s64 (z : Z) : Z := if z <? 2^63 then z else z - 2^64.
(** src/util.c:131-137; the operands are converted to uint64_t, 1000000000LL too. *)
Definition ts_div (a : ts) (n : Z) : ts :=
  let q := s64 (w64 (w64 (w64 (w64 (sec a) mod n * 1000000000) + w64 (nsec a)) + n / 2) / n) in
  {| sec := s64 (w64 (w64 (sec a) / n + w64 (Z.quot q 1000000000))); nsec := Z.rem q 1000000000 |}.
(** src/util.c:139-149 *)
Definition ts_min (a b : ts) : ts := if ts_cmp a b <? 0 then a else b.
Definition ts_max (a b : ts) : ts := if 0 <? ts_cmp a b then a else b.

(** tolower(3) and strcasecmp(3) == 0 (libc) *)
Definition tolower (c : N) : N := if ((65 <=? c) && (c <=? 90))%N then (c + 32)%N else c.
Definition strcaseeq (a b : list N) : bool := beqs (map tolower a) (map tolower b).
(** src/util.c:33-59, find_xlat_val_ex without FXL_CASE_SENSITIVE, on (value, name) pairs *)
Fixpoint find_xlat (items : list (Z * list N)) (s : list N) : option Z :=
  match items with
  | [] => None
  | (v, name) :: r => if strcaseeq name s then Some v else find_xlat r s
  end.
(** src/util.c:61-83, str2timescale_ex without the width; the upper half of the
    table values only carries the width.  -1 as int stays -1. *)
Definition str2timescale_ex (arg : option (list N)) (empty_dflt null_dflt : Z) : Z :=
  match arg with
  | None => null_dflt
  | Some [] => empty_dflt
  | Some a => match find_xlat [(1000000000, bs "s"); (1000000, bs "ms"); (1000, bs "us"); (1, bs "ns")] a with
              | Some v => v
              | None => -1
              end
  end.
(** strspn(3) *)
Fixpoint strspn (acc s : list N) : nat :=
  match s with c :: r => if strchr_in acc c then S (strspn acc r) else O | [] => O end.

Inductive pts := PtsOk (t : ts) | PtsFail | PtsFloat.
(** src/util.c:151-196, parse_ts.  The floating-point branch (taken when a character
    of "eE.-" follows the leading digits) is not modelled: [PtsFloat]. *)
Definition parse_ts (s : list N) : pts :=
  if Nat.ltb (strspn (bs "+0123456789") s) (strspn (bs "eE.-+0123456789") s) then PtsFloat
  else match string_to_uint_ex s (2^63 - 1)%N (Some (bs "smun")) with
       | None => PtsFail
       | Some (v, e) =>
           let scale := str2timescale_ex (Some e) 1000 (-1) in
           if scale <=? 0 then PtsFail
           else let unit := 1000000000 / scale in
                PtsOk {| sec := v / unit; nsec := (v mod unit) * scale |}
       end.

(** src/util.c:198-205 *)
Definition ilog10_iter (div pow : Z) (st : Z * Z) : Z * Z :=
  let '(v, r) := st in if div <=? v then (v / div, r + pow) else (v, r).
(** src/util.c:208-220 *)
Definition ilog10 (v : Z) : Z :=
  snd (ilog10_iter 10 1 (ilog10_iter 100 2 (ilog10_iter 10000 4
      (ilog10_iter 100000000 8 (ilog10_iter 10000000000000000 16 (v, 0)))))).

(** src/defs.h:2055-2062 *)
Definition ilog2_iter (bit : N) (st : N * N) : N * N :=
  let '(v, r) := st in
  let shift := N.shiftl (if (2^(2^bit) - 1 <? v)%N then 1 else 0)%N bit in
  (N.shiftr v shift, N.lor r shift).
(** src/defs.h:2071-2085 *)
Definition ilog2_64 (v : N) : N :=
  snd (ilog2_iter 0 (ilog2_iter 1 (ilog2_iter 2 (ilog2_iter 3 (ilog2_iter 4 (ilog2_iter 5 (v, 0%N))))))).
(** src/defs.h:2093-2106 *)
Definition ilog2_32 (v : N) : N :=
  snd (ilog2_iter 0 (ilog2_iter 1 (ilog2_iter 2 (ilog2_iter 3 (ilog2_iter 4 (v, 0%N)))))).

(** src/util.c:222-231, print_ticks: the comment after the number, as (integer part, fraction, digits), if any
    (244-264 print_clock_t, which chooses the digits from the frequency: TickModel). *)
Definition print_ticks (raw : bool) (val freq precision : Z) : option (Z * Z * Z) :=
  if negb raw && (0 <? freq) && (0 <? val) then Some (val / freq, val mod freq, precision) else None.
