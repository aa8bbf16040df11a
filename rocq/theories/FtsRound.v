(** A rounding as IEEE 754 wants it, so that there is one. *)
From Coq Require Import QArith Qabs Qround Qpower Lqa.
From Verif Require Import Base FtsModel FtsSpec FtsProofs.
Local Open Scope Q_scope.

Definition expo (x : Q) : Z :=
  let l := (Z.log2 (Qnum x) - Z.log2 (Z.pos (Qden x)))%Z in
  if Qle_bool x 0 then (-1074)%Z else Z.max (-1074) (if Qle_bool (Qpower 2 l) x then l - 52 else l - 53)%Z.
Definition rnp (x : Q) : Q := inject_Z (Qfloor (x * Qpower 2 (- expo x) + (1#2))) * Qpower 2 (expo x).
Definition rn (x : Q) : Q := if Qle_bool 0 x then rnp x else - rnp (- x).
Definition cpu : fpu := {| fl := rn; erange := fun q => negb (Qeq_bool q 0 || (Qle_bool (Qpower 2 (-1022)) q && Qle_bool q (Qpower 2 1023))) |}.

Lemma p2_shift a b : Qpower 2 (a + b) == Qpower 2 a * Qpower 2 b.
Proof. apply Qpower_plus. discriminate. Qed.
Lemma rat_log x : 0 < x -> let l := (Z.log2 (Qnum x) - Z.log2 (Z.pos (Qden x)))%Z in Qpower 2 (l - 1) < x /\ x < Qpower 2 (l + 1).
Proof.
  destruct x as [n d]. intros P l. unfold Qlt in P. cbn in P. assert (N0 : (0 < n)%Z) by lia. cbn [Qnum Qden] in l.
  pose proof (Z.log2_spec n N0) as [A1 A2]. pose proof (Z.log2_spec (Z.pos d) ltac:(lia)) as [B1 B2]. pose proof (Z.log2_nonneg n) as LA. pose proof (Z.log2_nonneg (Z.pos d)) as LB.
  set (a := Z.log2 n) in *. set (b := Z.log2 (Z.pos d)) in *. assert (E : n # d == inject_Z n / inject_Z (Z.pos d)) by (rewrite <- Qmake_Qdiv; reflexivity).
  assert (D0 : 0 < inject_Z (Z.pos d)) by reflexivity. split.
  - rewrite E. apply Qlt_shift_div_l; [exact D0|]. apply Qlt_le_trans with (Qpower 2 a).
    + setoid_replace (Qpower 2 a) with (Qpower 2 (l - 1) * Qpower 2 (b + 1)). 2:{ rewrite <- p2_shift. unfold l. replace (a - b - 1 + (b + 1))%Z with a by lia. reflexivity. }
      rewrite (Qmult_comm (Qpower 2 (l - 1)) (inject_Z (Z.pos d))), (Qmult_comm (Qpower 2 (l - 1))). apply Qmult_lt_r; [apply p2_pos|]. rewrite (p2_nat (b + 1)) by lia. rewrite <- Zlt_Qlt. exact B2.
    + rewrite (p2_nat a) by lia. rewrite <- Zle_Qle. exact A1.
  - rewrite E. apply Qlt_shift_div_r; [exact D0|]. apply Qlt_le_trans with (Qpower 2 (a + 1)).
    + rewrite (p2_nat (a + 1)) by lia. rewrite <- Zlt_Qlt. exact A2.
    + setoid_replace (Qpower 2 (a + 1)) with (Qpower 2 (l + 1) * Qpower 2 b). 2:{ rewrite <- p2_shift. unfold l. replace (a - b + 1 + b)%Z with (a + 1)%Z by lia. reflexivity. }
      apply Qmult_le_l; [apply p2_pos|]. rewrite (p2_nat b) by lia. rewrite <- Zle_Qle. exact B1.
Qed.
Lemma expo_spec x : 0 <= x -> (-1074 <= expo x)%Z /\ x <= Qpower 2 53 * Qpower 2 (expo x) /\ (expo x = (-1074)%Z \/ Qpower 2 52 * Qpower 2 (expo x) <= x).
Proof.
  intros X. unfold expo. set (l := (Z.log2 (Qnum x) - Z.log2 (Z.pos (Qden x)))%Z). rewrite <- !p2_shift.
  destruct (Qle_bool x 0) eqn:E0.
  { apply Qle_bool_iff in E0. split; [lia|]. split; [|left; reflexivity]. eapply Qle_trans; [exact E0|]. apply Qlt_le_weak, p2_pos. }
  destruct (Qle_bool (Qpower 2 l) x) eqn:E.
  - apply Qle_bool_iff in E. assert (P : 0 < x) by (pose proof (p2_pos l); lra). destruct (rat_log x P) as [A B]. fold l in A, B. split; [lia|]. split.
    + eapply Qle_trans; [apply Qlt_le_weak, B|]. apply Qpower_le_compat_l; [lia|discriminate].
    + destruct (Z.max_spec (-1074) (l - 52)) as [[_ ->]|[_ ->]]; [right|left; reflexivity]. replace (52 + (l - 52))%Z with l by lia. exact E.
  - assert (E' : x < Qpower 2 l). { destruct (Qlt_le_dec x (Qpower 2 l)) as [|L]; [assumption|]. apply Qle_bool_iff in L. congruence. }
    split; [lia|]. split.
    + eapply Qle_trans; [apply Qlt_le_weak, E'|]. apply Qpower_le_compat_l; [lia|discriminate].
    + destruct (Z.max_spec (-1074) (l - 53)) as [[H ->]|[_ ->]]; [right|left; reflexivity]. destruct (Qlt_le_dec 0 x) as [P|P].
      * destruct (rat_log x P) as [A B]. fold l in A, B. replace (52 + (l - 53))%Z with (l - 1)%Z by lia. apply Qlt_le_weak, A.
      * exfalso. apply Qle_bool_iff in P. congruence.
Qed.
(** nearest among the multiples *)
Lemma floor_nearest v c : Qabs (inject_Z (Qfloor (v + (1#2))) - v) <= Qabs (inject_Z c - v).
Proof.
  pose proof (floor_bounds (v + (1#2))) as [A B]. set (m := Qfloor _) in *. assert (D : Qabs (inject_Z m - v) <= 1#2) by (apply Qabs_Qle_condition; lra).
  destruct (Z.eq_dec c m) as [->|N]; [apply Qle_refl|]. eapply Qle_trans; [exact D|].
  assert (S' : (c <= m - 1 \/ m + 1 <= c)%Z) by lia. destruct S' as [L|L]; rewrite Zle_Qle in L; unfold Zminus in L; rewrite inject_Z_plus in L; [change (inject_Z (- (1))) with (-1#1) in L; rewrite Qabs_neg by lra; lra|change (inject_Z 1) with 1 in L; rewrite Qabs_pos by lra; lra].
Qed.
Lemma abs_mult a b e : Qabs (a * Qpower 2 e - b * Qpower 2 e) == Qabs (a - b) * Qpower 2 e.
Proof. setoid_replace (a * Qpower 2 e - b * Qpower 2 e) with ((a - b) * Qpower 2 e) by ring. rewrite Qabs_Qmult. rewrite (Qabs_pos (Qpower 2 e)) by (apply Qlt_le_weak, p2_pos). reflexivity. Qed.
Lemma rnp_ok x : 0 <= x -> double (rnp x) /\ forall f, double f -> Qabs (rnp x - x) <= Qabs (f - x).
Proof.
  intros X. destruct (expo_spec x X) as (E1 & E2 & E3). unfold rnp. set (e := expo x) in *. clearbody e. pose proof (p2_pos e) as PE. pose proof (p2_pos (- e)) as PE'.
  set (v := x * Qpower 2 (- e)). assert (V : x == v * Qpower 2 e). { unfold v. setoid_replace (x * Qpower 2 (- e) * Qpower 2 e) with (x * (Qpower 2 e * Qpower 2 (- e))) by ring. rewrite p2_inv. ring. }
  assert (V0 : 0 <= v) by (unfold v; apply Qmult_le_0_compat; lra). assert (VB : v <= 9007199254740992).
  { apply Qmult_le_r with (z := Qpower 2 e); [exact PE|]. rewrite <- V. change 9007199254740992 with (Qpower 2 53). exact E2. }
  pose proof (floor_bounds (v + (1#2))) as [A B]. split.
  - apply double_s; [|exact E1]. set (m := Qfloor _) in *. assert (inject_Z (-1) < inject_Z m) as L1 by (change (inject_Z (-1)) with (-1#1); lra). assert (inject_Z m < inject_Z (2^53 + 1)) as L2 by (change (inject_Z (2^53 + 1)) with 9007199254740993; lra). rewrite <- Zlt_Qlt in L1, L2. lia.
  - assert (MULT : forall c, Qabs (inject_Z (Qfloor (v + (1 # 2))) * Qpower 2 e - x) <= Qabs (inject_Z c * Qpower 2 e - x)).
    { intros c. rewrite V at 1 2. rewrite !abs_mult. apply Qmult_le_compat_r; [apply floor_nearest|lra]. }
    intros f (m' & e' & [M1 M2] & F). destruct (Z_lt_le_dec e' e) as [L|L].
    + destruct E3 as [E3|E3]; [lia|]. eapply Qle_trans; [apply (MULT (2^52)%Z)|]. change (inject_Z (2^52)) with (Qpower 2 52). rewrite Qabs_neg by lra.
      assert (FB : f <= Qpower 2 52 * Qpower 2 e).
      { rewrite F. apply Qle_trans with (inject_Z (2^53) * Qpower 2 e'); [apply Qmult_le_compat_r; [rewrite <- Zle_Qle; lia|apply Qlt_le_weak, p2_pos]|].
        change (inject_Z (2^53)) with (Qpower 2 53). rewrite <- !p2_shift. apply Qpower_le_compat_l; [lia|discriminate]. }
      rewrite (Qabs_neg (f - x)) by lra. lra.
    + assert (FE : f == inject_Z (m' * 2 ^ (e' - e)) * Qpower 2 e). { rewrite F, inject_Z_mult, <- p2_nat by lia. setoid_replace (inject_Z m' * Qpower 2 (e' - e) * Qpower 2 e) with (inject_Z m' * (Qpower 2 (e' - e) * Qpower 2 e)) by ring. rewrite <- p2_shift. replace (e' - e + e)%Z with e' by lia. reflexivity. }
      rewrite FE. apply MULT.
Qed.
Lemma cpu_ieee : ieee cpu.
Proof.
  assert (DN : forall f, double f -> double (- f)) by (intros f (m & e & H & F); exists (- m)%Z, e; split; [lia|rewrite F, inject_Z_opp; ring]).
  split.
  - intros x. cbn [fl cpu]. unfold rn. destruct (Qle_bool 0 x) eqn:E; [apply rnp_ok, Qle_bool_iff, E|]. apply DN, rnp_ok. destruct (Qlt_le_dec x 0) as [|L]; [lra|]. apply Qle_bool_iff in L. congruence.
  - intros x f D. cbn [fl cpu]. unfold rn. destruct (Qle_bool 0 x) eqn:E; [apply rnp_ok; [apply Qle_bool_iff, E|exact D]|].
    assert (X : x < 0) by (destruct (Qlt_le_dec x 0) as [|L]; [assumption|]; apply Qle_bool_iff in L; congruence).
    pose proof (proj2 (rnp_ok (- x) ltac:(lra)) (- f) (DN f D)) as R. setoid_replace (- rnp (- x) - x) with (- (rnp (- x) - - x)) by ring. rewrite Qabs_opp. eapply Qle_trans; [exact R|]. setoid_replace (- f - - x) with (- (f - x)) by ring. rewrite Qabs_opp. apply Qle_refl.
  - intros q H. cbn [erange cpu]. destruct H as [H|[H1 H2]]; [apply Qeq_bool_iff in H; rewrite H; reflexivity|]. apply Qle_bool_iff in H1, H2. rewrite H1, H2, orb_true_r. reflexivity.
  - intros q H1 H2. cbn [erange cpu]. apply negb_true_iff. apply orb_false_iff. split.
    + destruct (Qeq_bool q 0) eqn:E; [|reflexivity]. apply Qeq_bool_iff in E. lra.
    + apply andb_false_iff. left. destruct (Qle_bool (Qpower 2 (-1022)) q) eqn:E; [|reflexivity]. apply Qle_bool_iff in E. exfalso.
      cbn [fl cpu] in H2. unfold rn in H2. assert (L : 0 <= q) by lra. pose proof L as L'. apply Qle_bool_iff in L'. rewrite L' in H2.
      assert (D : double (Qpower 2 (-1022))) by (exists 1%Z, (-1022)%Z; split; [lia|ring]). pose proof (proj2 (rnp_ok q L) _ D) as R. rewrite H2 in R. pose proof (p2_pos (-1022)) as P.
      rewrite (Qabs_neg (0 - q)) in R by lra. rewrite (Qabs_neg (_ - q)) in R by lra. lra.
Qed.
