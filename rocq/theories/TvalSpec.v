(** What is claimed of resource limits, times and dates, without the model.  Numbers are read with [rd_num] (Printf.v). *)
From Verif Require Import Base Printf.
Local Open Scope N_scope.

(** [t] is the number [n] in decimal. *)
Definition number (t : list N) (n : N) : Prop := t <> [] /\ rd_num 10 0 t = Some n.
Definition integer (t : list N) (z : Z) : Prop :=
  (exists n, number t n /\ z = Z.of_N n) \/ (exists t' n, t = bs "-" ++ t' /\ number t' n /\ 0 < n /\ z = (- Z.of_N n)%Z).
(** The bytes [b] are in memory at [a]. *)
Definition bytes_at (m : N -> option N) (a : N) (b : list N) : Prop :=
  forall i, (i < length b)%nat -> m (u64 (a + N.of_nat i)) = Some (nth i b 0).
(** Some of the [n] bytes at [a] cannot be read. *)
Definition unreadable (m : N -> option N) (a : N) (n : nat) : Prop :=
  exists i, (i < n)%nat /\ m (u64 (a + N.of_nat i)) = None.
(** An address: NULL or hexadecimal. *)
Definition address (t : list N) (a : N) : Prop :=
  a = 0 /\ t = bs "NULL" \/ a <> 0 /\ exists d, t = bs "0x" ++ d /\ d <> [] /\ rd_num 16 0 d = Some a.

(** ---- limits: what a text means; [inf] is the name of the greatest value [max] ---- *)
Inductive denotes (inf : list N) (max : N) : list N -> N -> Prop :=
| D_inf : denotes inf max inf max
| D_number t n : number t n -> denotes inf max t n
| D_times t n : number t n -> denotes inf max (t ++ bs "*1024") (n * 1024).

(** ---- dates ---- *)
Definition leap (y : Z) : bool := ((y mod 4 =? 0) && (negb (y mod 100 =? 0) || (y mod 400 =? 0)))%Z.
(** the days of the year before the month *)
Definition days_before (y : Z) (mo : N) : Z :=
  (nth (N.to_nat mo) [0; 0; 31; 59; 90; 120; 151; 181; 212; 243; 273; 304; 334] 0
   + (if leap y && (2 <? mo)%N then 1 else 0))%Z.
(** the days from 1970-01-01 to the first day of the year, in the Gregorian calendar *)
Definition days_to_year (y : Z) : Z :=
  let p := (y - 1)%Z in (365 * (y - 1970) + (p / 4 - p / 100 + p / 400) - 477)%Z.
(** the seconds since 1970-01-01 00:00:00 +0000 of a date, a time of day and an offset from UTC *)
Definition instant (y : Z) (mo d h mi s : N) (off : Z) : Z :=
  (86400 * (days_to_year y + days_before y mo + Z.of_N d - 1) + 3600 * Z.of_N h + 60 * Z.of_N mi + Z.of_N s - off)%Z.

(** Reading a date: the digits at the beginning of a text. *)
Fixpoint digits (t : list N) : list N * list N :=
  match t with
  | c :: r => if (48 <=? c) && (c <=? 57) then let '(a, b) := digits r in (c :: a, b) else ([], t)
  | [] => ([], [])
  end.
Definition int_of (neg : bool) (n : N) : Z := if neg then (- Z.of_N n)%Z else Z.of_N n.
Definition two (a b : N) : option N := rd_num 10 0 [a; b].
(** the fraction of a second, of [w] digits *)
Definition rd_fraction (w : nat) (t : list N) : option (N * list N) :=
  match t with
  | c :: r => if c =? ch "." then
                let '(f, r) := digits r in
                if (length f =? w)%nat then olet n := rd_num 10 0 f in Some (n, r) else None
              else Some (0, t)
  | [] => None
  end.
(** Y-MM-DDThh:mm:ss[.fraction](+|-)hhmm: the instant and the fraction *)
Definition rd_date (w : nat) (t : list N) : option (Z * N) :=
  let '(neg, t) := match t with c :: r => if c =? ch "-" then (true, r) else (false, t) | [] => (false, t) end in
  let '(y, t) := digits t in
  olet y := (match y with [] => None | _ => rd_num 10 0 y end) in
  match t with
  | m1 :: mo1 :: mo2 :: m2 :: d1 :: d2 :: te :: h1 :: h2 :: c1 :: mi1 :: mi2 :: c2 :: s1 :: s2 :: t =>
      if (m1 =? ch "-") && (m2 =? ch "-") && (te =? ch "T") && (c1 =? ch ":") && (c2 =? ch ":") then
        olet mo := two mo1 mo2 in olet d := two d1 d2 in olet h := two h1 h2 in olet mi := two mi1 mi2 in olet s := two s1 s2 in
        olet f := rd_fraction w t in
        match snd f with
        | [sg; a; b; c; d'] =>
            olet hh := two a b in olet mm := two c d' in
            let off := (Z.of_N (hh * 3600 + mm * 60))%Z in
            if sg =? ch "+" then Some (instant (int_of neg y) mo d h mi s off, fst f)
            else if sg =? ch "-" then Some (instant (int_of neg y) mo d h mi s (- off), fst f)
            else None
        | _ => None
        end
      else None
  | _ => None
  end.
