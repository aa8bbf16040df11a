(** parse_ts with its floating-point branch: src/util.c:151-196.  A double is a rational number here; an
    operation gives the exact result rounded by [fl], of which only what IEEE 754 says is used (FtsSpec.v). *)
From Coq Require Import QArith Qabs Qround.
From Verif Require Import Base StrtouModel TimeModel.
Local Open Scope N_scope.

(** [fl]: rounding to a double; [erange]: strtod(3) sets errno for this value *)
Record fpu := { fl : Q -> Q; erange : Q -> bool }.

(** ---- strtod(3) in the C locale ---- *)
Definition digit_of (base c : N) : option N :=
  let d := if (48 <=? c) && (c <=? 57) then Some (c - 48)
           else if (97 <=? tolower c) && (tolower c <=? 102) then Some (tolower c - 87) else None in
  match d with Some v => if v <? base then Some v else None | None => None end.
(** the longest run of digits, and what follows *)
Fixpoint digs (base : N) (s : list N) : list N * list N :=
  match s with
  | c :: r => match digit_of base c with Some d => let (a, b) := digs base r in (d :: a, b) | None => ([], s) end
  | [] => ([], [])
  end.
Fixpoint dnum (base acc : N) (l : list N) : N := match l with [] => acc | d :: r => dnum base (acc * base + d) r end.
(** digits with at most one point, at least one digit: number, number of digits behind the point, rest *)
Definition mantissa (base : N) (s : list N) : option (N * nat * list N) :=
  let (a, r) := digs base s in
  match r with
  | c :: r1 => if c =? 46
               then let (b, r2) := digs base r1 in match a ++ b with [] => None | _ => Some (dnum base 0 (a ++ b), length b, r2) end
               else match a with [] => None | _ => Some (dnum base 0 a, O, r) end
  | [] => match a with [] => None | _ => Some (dnum base 0 a, O, r) end
  end.
(** an exponent, if there is one *)
Definition exponent (mark : N) (s : list N) : Z * list N :=
  match s with
  | c :: r =>
      if tolower c =? mark then
        let (neg, r1) := match r with c1 :: r1 => if c1 =? 45 then (true, r1) else if c1 =? 43 then (false, r1) else (false, r) | [] => (false, r) end in
        match digs 10 r1 with
        | ([], _) => (0%Z, s)
        | (a, r2) => (if neg then (- Z.of_N (dnum 10 0 a))%Z else Z.of_N (dnum 10 0 a), r2)
        end
      else (0%Z, s)
  | [] => (0%Z, s)
  end.
Definition mkfloat (base : N) (expbase : positive) (m : N) (k : nat) (e : Z) : Q :=
  (inject_Z (Z.of_N m) * Qpower (inject_Z (Z.of_N base)) (- Z.of_nat k) * Qpower (inject_Z (Z.pos expbase)) e)%Q.
Inductive fval := Fin (neg : bool) (q : Q) | Nan | Inf (neg : bool).
Definition starts (p s : list N) : bool := beqs p (map tolower (firstn (length p) s)).
(** behind the sign; a NaN with a payload in parentheses is left out: the rest begins with the parenthesis *)
Definition unsigned_float (neg : bool) (s : list N) : option (fval * list N) :=
  let dec := match mantissa 10 s with Some (m, k, r) => let (e, r) := exponent 101 r in Some (Fin neg (mkfloat 10 10 m k e), r) | None => None end in
  if starts (bs "infinity") s then Some (Inf neg, skipn 8 s)
  else if starts (bs "inf") s then Some (Inf neg, skipn 3 s)
  else if starts (bs "nan") s then Some (Nan, skipn 3 s)
  else if starts (bs "0x") s then
    match mantissa 16 (skipn 2 s) with
    | Some (m, k, r) => let (e, r) := exponent 112 r in Some (Fin neg (mkfloat 16 2 m k e), r)
    | None => dec
    end
  else dec.
(** [None]: nothing was converted.  Leading white space cannot occur: the caller saw one of "eE.-+0123456789". *)
Definition strtod (s : list N) : option (fval * list N) :=
  match s with
  | c :: r => if c =? 45 then unsigned_float true r else if c =? 43 then unsigned_float false r else unsigned_float false s
  | [] => None
  end.

(** conversion of a double to an integer type: toward zero *)
Definition trunc (x : Q) : Z := Z.quot (Qnum x) (Z.pos (Qden x)).
(** src/util.c:184-188: [x] is float_val, [unit] is NS_IN_S / scale.  [Undef]: a conversion to time_t or
    uint64_t of a number that does not fit, or an overflow of the product *)
Definition split_float (M : fpu) (x : Q) (scale : Z) : res ts :=
  let unit := (1000000000 / scale)%Z in
  let s := trunc (fl M (x / inject_Z unit)) in
  if negb ((- 2^63 <=? s) && (s <? 2^63))%Z then Undef
  else if negb ((- 2^63 <=? s * unit) && (s * unit <? 2^63))%Z then Undef
  else let y := fl M (x - fl M (inject_Z (s * unit))) in
       let n := trunc (fl M (y * inject_Z scale)) in
       if negb ((0 <=? n) && (n <? 2^64))%Z then Undef
       else Ok {| sec := s; nsec := (n mod 1000000000)%Z |}.
(** src/util.c:151-196; [Ok None] is -1 *)
Definition parse_ts_full (M : fpu) (s : list N) : res (option ts) :=
  if Nat.ltb (strspn (bs "+0123456789") s) (strspn (bs "eE.-+0123456789") s) then
    match strtod s with
    | None => Ok None
    | Some (v, e) =>
        let scale := str2timescale_ex (Some e) 1000 (-1) in
        match v with
        | Fin neg q =>
            if erange M q then Ok None
            else let x := fl M q in
                 if neg && negb (Qle_bool x 0) then Ok None
                 else if (scale <=? 0)%Z then Ok None
                 else rlet t := split_float M x scale in Ok (Some t)
        | Inf true => Ok None
        | Nan | Inf false => if (scale <=? 0)%Z then Ok None else Undef
        end
    end
  else match parse_ts s with PtsOk t => Ok (Some t) | _ => Ok None end.
