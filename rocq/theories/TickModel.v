(** Clock ticks with their seconds: src/util.c:198-264. *)
From Verif Require Import Base Printf BitsModel RetModel XlatModel.
Local Open Scope N_scope.

(** ILOG10_ITER_ and ilog10, src/util.c:198-220 *)
Definition ilog_iter (div pow : N) (s : N * N) : N * N := let (val, ret) := s in if div <=? val then (val / div, ret + pow) else s.
Definition ilog10 (val : N) : N :=
  snd (ilog_iter 10 1 (ilog_iter 100 2 (ilog_iter 10000 4 (ilog_iter 100000000 8 (ilog_iter 10000000000000000 16 (val, 0)))))).
(** print_ticks, src/util.c:222-231; freq is a long *)
Definition print_ticks (st : xstyle_t) (val : N) (freq : Z) (precision : N) : list N :=
  pr_num 10 val ++
  (match st with
   | XRAW => []
   | _ => if ((0 <? freq)%Z && (0 <? val))
          then bs " /* " ++ pr_num 10 (val / Z.to_N freq) ++ bs "." ++ pr_pad 10 (N.to_nat precision) (val mod Z.to_N freq) ++ bs " s" ++ bs " */" else []
   end).
(** print_ticks_d, src/util.c:233-244; the quotient and the remainder are truncated; [llabs] of a quotient by freq > 1
    does not overflow *)
Definition print_ticks_d (st : xstyle_t) (val : Z) (freq : Z) (precision : N) : list N :=
  pr_z val ++
  (match st with
   | XRAW => []
   | _ => if ((1 <? freq)%Z && negb (val =? 0)%Z)
          then bs " /* " ++ (if (val <? 0)%Z then bs "-" else []) ++ pr_num 10 (Z.abs_N (Z.quot val freq)) ++ bs "."
               ++ pr_pad 10 (N.to_nat precision) (Z.abs_N (Z.rem val freq)) ++ bs " s" ++ bs " */" else []
   end).
(** print_clock_t, src/util.c:246-264: [clk] is what sysconf(_SC_CLK_TCK) gives *)
Definition print_clock_t (st : xstyle_t) (clk : Z) (val : N) : list N :=
  let clk_tck := (if (clk =? 0)%Z then (-1)%Z else clk) in
  let frac_width := (if (0 <? clk_tck)%Z then N.min (ilog10 (Z.to_N clk_tck)) 9 else 0) in
  print_ticks st val clk_tck frac_width.
