(** C18, with fractions and exponents. *)
From Coq Require Import QArith Qabs Qround Qpower Lqa.
From Verif Require Import Base StrtouModel TimeModel TimeSpec TimeProofs FtsModel FtsSpec FtsProofs FtsText FtsRound.
Local Open Scope Q_scope.

Lemma full_float M s : float_like s -> parse_ts_full M s =
    match strtod s with
    | None => Ok None
    | Some (v, e) =>
        let scale := str2timescale_ex (Some e) 1000 (-1) in
        match v with
        | Fin neg q =>
            if erange M q then Ok None
            else let x := fl M q in
                 if neg && negb (Qle_bool x 0) then Ok None
                 else if (scale <=? 0)%Z then Ok None
                 else rlet t := split_float M x scale in Ok (Some t)
        | Inf true => Ok None
        | Nan | Inf false => if (scale <=? 0)%Z then Ok None else Undef
        end
    end.
Proof. intros F. apply float_len_iff in F. unfold parse_ts_full. rewrite F. reflexivity. Qed.
Lemma float_pos t neg q : float_text t neg q -> 0 <= q.
Proof.
  intros (sg & pre & base & eb & mark & ip & pt & fp & iv & fv & et & e & _ & _ & B & _ & _ & _ & _ & _ & ->).
  apply Qmult_le_0_compat; [apply Qmult_le_0_compat|]; [change 0 with (inject_Z 0); rewrite <- Zle_Qle; lia| |]; apply Qpower_pos; change 0 with (inject_Z 0); rewrite <- Zle_Qle; destruct B as [(_ & _ & -> & _)|(_ & _ & -> & _)]; lia.
Qed.
Lemma text_read M tx neg q e u : ieee M -> float_like (tx ++ e) -> float_text tx neg q -> unit_text e u -> (q == 0 \/ Qpower 2 (-1022) <= q) -> q <= Qpower 2 1023 ->
  exists q', q' == q /\ parse_ts_full M (tx ++ e) = if neg && negb (Qle_bool (fl M q') 0) then Ok None else rlet t := split_float M (fl M q') u in Ok (Some t).
Proof.
  intros I F T U Q1 Q2. destruct (strtod_run tx neg q e T (unit_follows _ _ U)) as (q' & E & EQ). exists q'. split; [exact EQ|].
  rewrite (full_float M _ F), E. cbv zeta. assert (U0 : (0 < u)%Z) by (destruct (unit_vals _ _ U) as [->|[->|[->| ->]]]; lia). rewrite (proj2 (unit_iff e u U0) U).
  rewrite (i_fine M I q') by (rewrite EQ; destruct Q1 as [Q1|Q1]; auto). replace (u <=? 0)%Z with false by (symmetry; apply Z.leb_gt; exact U0). reflexivity.
Qed.

(** A floating-point constant with a unit is accepted, as the time it denotes up to two and a half nanoseconds,
    up to 2^53 nanoseconds (104 days): whatever way of rounding to nearest the processor is in. *)
Theorem C18_fraction : forall M tx neg q e u, ieee M -> float_like (tx ++ e) -> float_text tx neg q -> unit_text e u ->
  q * inject_Z u <= inject_Z (2^53) -> (q == 0 \/ Qpower 2 (-1022) <= q) -> (neg = true -> q == 0) ->
  exists t, parse_ts_full M (tx ++ e) = Ok (Some t) /\ normal t /\ (0 <= sec t)%Z /\ Qabs (inject_Z (ns t) - q * inject_Z u) <= 5#2.
Proof.
  intros M tx neg q e u I F T U B Q1 NG. assert (Q0 := float_pos _ _ _ T). destruct (unit_vals _ _ U) as [HU|HU'] eqn:EU; clear EU.
  all: assert (U1 : 1 <= inject_Z u) by (change 1 with (inject_Z 1); rewrite <- Zle_Qle; lia).
  all: assert (Q2 : q <= Qpower 2 1023) by
    (apply Qle_trans with (inject_Z (2^53)); [apply Qle_trans with (q * inject_Z u); [|exact B]; rewrite <- (Qmult_1_r q) at 1; rewrite !(Qmult_comm q); apply Qmult_le_compat_r; assumption|];
     rewrite (p2_nat 1023) by lia; rewrite <- Zle_Qle; apply Z.pow_le_mono_r; lia).
  all: destruct (text_read M tx neg q e u I F T U Q1 Q2) as (q' & EQ & ->).
  all: assert (NN : neg && negb (Qle_bool (fl M q') 0) = false) by
    (destruct neg; [|reflexivity]; apply andb_false_iff; right; apply negb_false_iff, Qle_bool_iff; rewrite fl_exact; [rewrite EQ, (NG eq_refl); apply Qle_refl|exact I|];
     apply double_eq with 0; [rewrite EQ, (NG eq_refl); reflexivity|exists 0%Z, 0%Z; split; [lia|reflexivity]]).
  all: rewrite NN; clear NN; destruct (scalings u (unit_vals _ _ U)) as (un & e1 & k & SC).
  all: destruct (split_ok M u un e1 k q' I SC ltac:(rewrite EQ; exact Q0) ltac:(rewrite EQ; exact B)) as (t & -> & N & S0 & D).
  all: exists t; split; [reflexivity|]; split; [exact N|]; split; [exact S0|]; apply Qabs_Qle_condition; rewrite EQ in D; exact D.
Qed.
Print Assumptions C18_fraction.

Lemma fl_nonneg M q : ieee M -> 0 <= q -> 0 <= fl M q.
Proof. intros I Q. apply fl_ge; [exact I|exists 0%Z, 0%Z; split; [lia|reflexivity]|exact Q]. Qed.
(** Nothing else with a fraction, an exponent or a minus is accepted; in particular nothing negative. *)
Theorem C18_fraction_only : forall M s t, ieee M -> float_like s -> parse_ts_full M s = Ok (Some t) ->
  normal t /\ (0 <= sec t)%Z /\ exists tx neg q e u, s = tx ++ e /\ float_text tx neg q /\ unit_text e u /\ (neg = true -> q == 0).
Proof.
  intros M s t I F H. rewrite (full_float M s F) in H. destruct (strtod s) as [[v e]|] eqn:E; [|discriminate]. cbv zeta in H.
  destruct v as [neg q| |[|]]; [|destruct (_ <=? 0)%Z; discriminate|discriminate|destruct (_ <=? 0)%Z; discriminate].
  destruct (strtod_sound _ _ _ _ E) as (tx & -> & T). pose proof (float_pos _ _ _ T) as Q0. pose proof (fl_nonneg M q I Q0) as X0.
  destruct (erange M q) eqn:ER; [discriminate|]. destruct (neg && _) eqn:NG; [discriminate|]. destruct (_ <=? 0)%Z eqn:SC; [discriminate|]. apply Z.leb_gt in SC.
  pose proof (proj1 (unit_iff e _ SC) eq_refl) as U. set (u := str2timescale_ex (Some e) 1000 (-1)) in *. clearbody u.
  assert (C : normal t /\ (0 <= sec t)%Z).
  { destruct (split_float M (fl M q) u) as [t'| |] eqn:SP; try discriminate. cbn [rbind] in H. injection H as <-. unfold split_float in SP. cbv zeta in SP.
    destruct (negb _) in SP; [discriminate SP|]. destruct (negb _) in SP; [discriminate SP|]. destruct (negb _) in SP; [discriminate SP|]. injection SP as <-. unfold normal. cbn [sec nsec]. split.
    - apply Z.mod_pos_bound. lia.
    - apply trunc_pos, fl_nonneg; [exact I|]. apply Qmult_le_0_compat; [exact X0|]. apply Qinv_le_0_compat. change 0 with (inject_Z 0). rewrite <- Zle_Qle. apply Z.div_pos; [lia|exact SC]. }
  split; [apply C|]. split; [apply C|]. exists tx, neg, q, e, u. split; [reflexivity|]. split; [exact T|]. split; [exact U|]. intros ->.
  cbn in NG. apply negb_false_iff, Qle_bool_iff in NG. destruct (Qlt_le_dec 0 q) as [P|P]; [|lra]. rewrite (i_tiny M I q P) in ER by lra. discriminate.
Qed.
Print Assumptions C18_fraction_only.

(** Anything else is what C18_time_argument_partial says: with the two theorems above this is every string. *)
Theorem C18_whole : forall M s t, ~ float_like s -> (parse_ts_full M s = Ok (Some t) <-> normal t /\ (0 <= sec t)%Z /\ duration s (ns t)).
Proof.
  intros M s t F. assert (E : Nat.ltb (strspn (bs "+0123456789") s) (strspn (bs "eE.-+0123456789") s) = false) by (destruct (Nat.ltb _ _) eqn:E; [apply float_len_iff in E; tauto|reflexivity]).
  unfold parse_ts_full. rewrite E. split.
  - intros H. destruct (parse_ts s) eqn:P; try discriminate. injection H as ->. apply parse_ts_ok in P. tauto.
  - intros H. rewrite (proj2 (parse_ts_ok s t)); [reflexivity|tauto].
Qed.
Print Assumptions C18_whole.

(** Refuted: not every malformed argument is rejected.  "-nan" is let through, to a conversion without a meaning in C. *)
Theorem C18_nan_refuted : forall M, parse_ts_full M (bs "-nan") = Undef /\ parse_ts_full M (bs "-nans") = Undef.
Proof. intros M. split; reflexivity. Qed.
Print Assumptions C18_nan_refuted.
(** Refuted: nor is what does not fit into 63 bits of seconds, unless it is written without point and exponent. *)
Theorem C18_huge_refuted : forall M tx q e u, ieee M -> float_like (tx ++ e) -> float_text tx false q -> unit_text e u -> q <= Qpower 2 1023 ->
  inject_Z (2^63 * 1000000000) <= q * inject_Z u -> parse_ts_full M (tx ++ e) = Undef.
Proof.
  intros M tx q e u I F T U Q2 B.
  assert (UU : (0 < u)%Z /\ (u * (1000000000 / u) = 1000000000)%Z /\ (0 < 1000000000 / u <= 1000000000)%Z) by (destruct (unit_vals _ _ U) as [->|[->|[->| ->]]]; vm_compute; repeat split; discriminate).
  destruct UU as (U0 & UE & U1). set (un := (1000000000 / u)%Z) in *.
  assert (P0 : 0 < inject_Z u) by (change 0 with (inject_Z 0); rewrite <- Zlt_Qlt; exact U0).
  assert (P1 : 0 < inject_Z un) by (change 0 with (inject_Z 0); rewrite <- Zlt_Qlt; apply U1).
  assert (L : inject_Z un * Qpower 2 63 <= q).
  { apply Qmult_le_r with (z := inject_Z u); [exact P0|]. eapply Qle_trans; [|exact B]. rewrite (p2_nat 63) by lia. rewrite <- !inject_Z_mult, <- Zle_Qle, <- UE. lia. }
  assert (U2 : 1 <= inject_Z un) by (change 1 with (inject_Z 1); rewrite <- Zle_Qle; lia).
  assert (Q1 : Qpower 2 (-1022) <= q). { eapply Qle_trans; [|exact L]. apply Qle_trans with (1 * Qpower 2 63); [rewrite Qmult_1_l; apply Qpower_le_compat_l; [lia|discriminate]|]. apply Qmult_le_compat_r; [exact U2|apply Qlt_le_weak, p2_pos]. }
  destruct (text_read M tx false q e u I F T U (or_intror Q1) Q2) as (q' & EQ & ->). cbn [andb]. rewrite <- EQ in L. unfold split_float. cbv zeta. fold un.
  assert (X : inject_Z un * Qpower 2 63 <= fl M q') by (apply fl_ge; [exact I|apply double_s; lia|exact L]).
  assert (Y : Qpower 2 63 <= fl M (fl M q' / inject_Z un)).
  { apply fl_ge; [exact I|exists 1%Z, 63%Z; split; [lia|ring]|]. apply Qle_shift_div_l; [exact P1|]. rewrite Qmult_comm. exact X. }
  pose proof (p2_pos 63) as P63. assert (Y0 : 0 <= fl M (fl M q' / inject_Z un)) by lra. destruct (trunc_pos _ Y0) as [[_ Z1] _]. set (y := fl M (fl M q' / inject_Z un)) in *.
  assert (Z2 : (2^63 < trunc y + 1)%Z). { rewrite Zlt_Qlt, inject_Z_plus. change (inject_Z 1) with 1. rewrite <- (p2_nat 63) by lia. lra. }
  replace ((- 2 ^ 63 <=? trunc y) && (trunc y <? 2 ^ 63))%Z with false by lia. reflexivity.
Qed.
Print Assumptions C18_huge_refuted.

(** There is such a processor; "1.5s", "0.1" and "-0.0" are such arguments, "-1.0" and "1.x" are not, and "1e30" does not fit. *)
Example ex_cpu : ieee cpu. Proof. exact cpu_ieee. Qed.
Example ex_cpu_run : parse_ts_full cpu (bs "1.5s") = Ok (Some {| sec := 1; nsec := 500000000 |}) /\ parse_ts_full cpu (bs "0.1") = Ok (Some {| sec := 0; nsec := 100 |}) /\
  parse_ts_full cpu (bs "0x.8p1ms") = Ok None /\ parse_ts_full cpu (bs "-0.0") = Ok (Some {| sec := 0; nsec := 0 |}) /\ parse_ts_full cpu (bs "-1.0") = Ok None /\
  parse_ts_full cpu (bs "1.x") = Ok None /\ parse_ts_full cpu (bs "1e30") = Undef.
Proof. vm_compute. repeat split. Qed.
