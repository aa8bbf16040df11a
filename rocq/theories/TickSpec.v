(** Ticks and seconds. *)
From Verif Require Import Base Printf BitsModel RetSpec.
Local Open Scope N_scope.

(** the parts before and after the point *)
Fixpoint split_point (s : list N) : list N * option (list N) :=
  match s with
  | [] => ([], None)
  | c :: r => if c =? 46 then ([], Some r) else let (a, b) := split_point r in (c :: a, b)
  end.
(** A decimal fraction, with or without a sign: [Some (neg, m, k)] is m / 10^k. *)
Definition fraction (s : list N) : option (bool * N * N) :=
  let (neg, s) := match s with c :: r => if c =? 45 then (true, r) else (false, s) | [] => (false, s) end in
  match split_point s with
  | ((_ :: _) as a, Some ((_ :: _) as b)) =>
      olet x := rd_num 10 0 a in olet y := rd_num 10 0 b in
      Some (neg, x * 10 ^ N.of_nat (length b) + y, N.of_nat (length b))
  | _ => None
  end.
(** [text] is a number of ticks, with the exact number of seconds in a comment: nothing there in raw style and for zero *)
Definition ticks_text (st : xstyle_t) (text : list N) (val : Z) (freq : N) : Prop :=
  (st = XRAW \/ val = 0%Z) /\ c_number text = Some val \/
  st <> XRAW /\ exists n t neg m k, text = n ++ bs " /* " ++ t ++ bs " s */" /\ c_number n = Some val /\
    fraction t = Some (neg, m, k) /\ (neg = true <-> (val < 0)%Z) /\ m * freq = Z.abs_N val * 10 ^ k.
