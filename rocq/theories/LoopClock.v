(** Delays over whole runs. *)
From Verif Require Import Base TimeModel TimeSpec TimeProofs WaitModel TcbModel TcbProofs LogModel LogProofs LoopModel LoopSpec LoopFrame LoopCore LoopQueue LoopReach LoopReq LoopDelay DelaySpec.
Local Open Scope N_scope.


(** ** One turn *)
Lemma restarts_app g l l' : restarts g (l ++ l') = restarts g l ++ restarts g l'. Proof. apply filter_app. Qed.
Lemma restarts_other g l : (forall r, In r l -> r_gen r <> g) -> restarts g l = [].
Proof. unfold restarts. induction l as [|r l IH]; intros H; [reflexivity|]. cbn. destruct (Nat.eqb_spec (r_gen r) g) as [X|X]; [destruct (H r (or_introl eq_refl) X)|]. apply IH. intros x X1. apply H. right. exact X1. Qed.
Lemma next_aside c s n w s' i g x : core s -> next_event c s n = Ok (w, s') -> put_aside s i g x ->
  (forall now es, n_timer n = Some (now, es) -> (ts_cmp now x <= 0)%Z) -> put_aside s' i g x /\ restarts g (reqs s') = restarts g (reqs s).
Proof.
  intros K E [L G D X] TM. destruct (next_idle _ _ _ _ _ (o_tab _ K) E) as [I|(now & es & s1 & _ & _ & _ & NT & _ & R & I & _)].
  - assert (EQ : forall A (f : st -> A), (forall a y, f (set_intr a y) = f a) -> f (if n_intr n =? 0 then s else set_intr s (n_intr n)) = f s) by (intros A f F; destruct (n_intr n =? 0); auto).
    set (s0 := if n_intr n =? 0 then s else _) in *. assert (P0 : P s0 i = P s i) by (apply (EQ _ (fun s => P s i)); reflexivity). destruct (id_clock _ _ I) as (C1 & _).
    assert (L0 : P s0 i <> 0) by congruence. destruct (id_P _ _ I i L0) as [P1 G1]. split.
    + constructor; [congruence| | |]. * rewrite G1. unfold s0. destruct (n_intr n =? 0); exact G. * rewrite (id_delk _ _ I i L0). unfold s0. destruct (n_intr n =? 0); exact D. * rewrite C1. unfold s0. destruct (n_intr n =? 0); exact X.
    + rewrite (id_reqs _ _ I). unfold s0. destruct (n_intr n =? 0); reflexivity.
  - specialize (TM _ _ NT). destruct R as (T & [GK _] & _ & EX & _ & _ & _ & _ & _ & _ & DM & DE & _ & _ & l & RQ & RL). destruct (id_clock _ _ I) as (C1 & _).
    assert (NE : forall k, k = i -> expired s now k = false) by (intros k ->; unfold expired; rewrite X; destruct (0 <? ts_cmp now x)%Z eqn:Z; [apply Z.ltb_lt in Z; lia|]; apply andb_false_r).
    assert (D1 : fl s1 i DELAYED = true). { destruct (fl s1 i DELAYED) eqn:F; [reflexivity|]. specialize (DE i D F); rewrite (NE i eq_refl) in DE; discriminate. }
    assert (L1 : P s1 i <> 0) by (unfold P in *; rewrite T; exact L). destruct (id_P _ _ I i L1) as [P1 G1]. split.
    + constructor; [congruence|congruence|rewrite (id_delk _ _ I i L1); exact D1|congruence].
    + rewrite (id_reqs _ _ I), RQ, restarts_app, (restarts_other g l), app_nil_r; [reflexivity|]. intros r HR. destruct (RL r HR) as (k & o & -> & _ & EK & _). cbn. intros GE. assert (k = i).
      { apply (o_gens _ K); [|exact L|congruence]. unfold expired in EK. destruct (N.eqb_spec (P s k) 0); [discriminate|assumption]. }
      rewrite (NE k H) in EK. discriminate.
Qed.
Lemma dispatch_aside c s j wd e b s' i g x : core s -> dispatch_event c s (Some wd) e = Ok (b, s') -> busy wd = true -> current (lg s) = Some j -> P s j <> 0 -> c_detexec c = false -> put_aside s i g x -> (j = i -> reads wd = false) ->
  (P s' i <> 0 -> put_aside s' i g x) /\ restarts g (reqs s') = restarts g (reqs s).
Proof.
  intros K E B CU Pj DX [L G D X] NR. change DelaySpec.reads with LoopReq.reads in *. pose proof (dispatch_reqs _ _ _ _ _ _ _ (o_tab _ K) E B CU Pj (fun _ => DX)) as RQ. destruct (dispatch_delay _ _ _ _ _ _ _ (o_tab _ K) E B CU Pj (fun _ => DX)) as (PM & [GK _] & _ & _ & PP & DD).
  assert (DI : P s' i <> 0 -> fl s' i DELAYED = true /\ expiry (dl s') i = x).
  { intros Pi. destruct DD as [[(C1 & _) DD]|(RD & _ & d & n & n' & _ & (C1 & _) & DD)]; [rewrite DD, C1 by exact Pi; auto|]. rewrite DD, D by exact Pi. split; [apply orb_true_r|]. rewrite C1. assert (JI : i <> j) by (intros ->; rewrite NR in RD by reflexivity; discriminate). apply Nat.eqb_neq in JI.
    unfold delay_tcb, arm_delay_timer. destruct (_ && _ && _); cbn; rewrite JI; exact X. }
  split; [intros Pi; destruct (DI Pi); constructor; congruence|]. destruct (dies wd) eqn:DW; [rewrite RQ; reflexivity|]. destruct RQ as (k & sig & J & _ & R). destruct R as [[(o & R & O & _ & F)|[R _]]|(_ & _ & R)]; rewrite R; try reflexivity.
  rewrite restarts_app, (restarts_other g [_]), app_nil_r; [reflexivity|]. intros r [<-|[]]. cbn. intros GE.
  assert (KI : k = i /\ P s' i <> 0).
  { assert (Y : te wd = TE_STOP_BEFORE_EXECVE \/ te wd <> TE_STOP_BEFORE_EXECVE) by (destruct (te wd); auto; right; discriminate). destruct Y as [Y|Y].
    - rewrite Y in J. destruct J as [J1 J2]. assert (k = i) as -> by (apply (o_gens _ K); congruence). auto.
    - assert (k = j) as -> by (destruct (te wd); try exact J; contradiction). assert (j = i) by (apply (o_gens _ K); congruence). split; [assumption|]. rewrite (PP Y). exact L. }
  destruct KI as [-> Pi]. destruct (DI Pi) as [F' _]. congruence.
Qed.

Lemma turn_aside c s ne b s' i g x : core s -> kept s -> held s -> exec_alone c s ne -> c_detexec c = false -> turn c s ne = Ok (b, s') -> put_aside s i g x ->
  (forall now es, n_timer (fst ne) = Some (now, es) -> (ts_cmp now x <= 0)%Z) ->
  match next_event c s (fst ne) with Ok (Some wd, s1) => current (lg s1) = Some i -> reads wd = false | _ => True end ->
  (P s' i <> 0 -> put_aside s' i g x) /\ restarts g (reqs s') = restarts g (reqs s).
Proof.
  intros K KE H A DX E PA TM RD. destruct (turn_core _ _ _ _ _ K KE H A E) as (w & s1 & E1 & E2 & K1 & _ & _ & _ & _ & _ & _ & CUR). rewrite E1 in RD.
  destruct (next_aside _ _ _ _ _ _ _ _ K E1 PA TM) as [PA1 R1]. destruct w as [wd|]; [|cbn in E2; inversion E2; subst; auto].
  destruct (busy wd) eqn:BW; [|unfold dispatch_event in E2; unfold busy in BW; destruct (te wd); try discriminate; inversion E2; subst; auto].
  destruct (CUR wd eq_refl BW) as (j & CU & Pj & _). destruct (dispatch_aside _ _ _ _ _ _ _ _ _ _ K1 E2 BW CU Pj DX PA1) as [PA2 R2]; [intros ->; auto|]. split; [exact PA2|congruence].
Qed.
Lemma turns_aside c i g x l : forall s b s', core s -> kept s -> fair c s l -> c_detexec c = false -> turns c s l = Ok (b, s') -> put_aside s i g x -> sleeps c i s l ->
  (forall ne now es, In ne l -> n_timer (fst ne) = Some (now, es) -> (ts_cmp now x <= 0)%Z) ->
  put_aside s' i g x /\ restarts g (reqs s') = restarts g (reqs s).
Proof.
  induction l as [|ne l IH]; intros s b s' K KE F DX E PA SL TM; cbn [turns] in E; [inversion E; subst; auto|]. apply rbind_ok in E as ([go s1] & E1 & E). destruct F as (H & A & F). destruct SL as [S1 S2]. rewrite E1 in F, S2. destruct S2 as [L1 S2].
  destruct (turn_aside _ _ _ _ _ _ _ _ K KE H A DX E1 PA (fun n e => TM ne n e (or_introl eq_refl)) S1) as [PA1 R1]. destruct (turn_core _ _ _ _ _ K KE H A E1) as (w & s0 & _ & _ & _ & _ & _ & K1 & KE1 & _).
  destruct go; [|inversion E; subst; auto]. destruct (IH _ _ _ K1 KE1 F DX E (PA1 L1) S2 (fun n x y IN => TM n x y (or_intror IN))) as [A1 A2]. split; [exact A1|congruence].
Qed.

(** ** The timer *)
Record tick_ok (d t : Z) (s : st) : Prop := {
  to_normal : created (dl s) = true -> normal (timer_at (dl s));
  to_exp : forall k, P s k <> 0 -> fl s k DELAYED = true -> normal (expiry (dl s) k) /\ created (dl s) = true /\ armed (dl s) = true /\ (ns (timer_at (dl s)) <= ns (expiry (dl s) k) + d)%Z;
  to_past : created (dl s) = true -> armed (dl s) = false -> (ns (timer_at (dl s)) <= t)%Z;
  to_created : armed (dl s) = true -> created (dl s) = true }.
Lemma tick_later d t t' s : (t <= t')%Z -> tick_ok d t s -> tick_ok d t' s. Proof. intros L [A B C D]. constructor; auto. intros X Y. specialize (C X Y). lia. Qed.
Lemma tick_same d t s s' : same_clock s s' -> (forall k, P s' k <> 0 -> fl s' k DELAYED = true -> P s k <> 0 /\ fl s k DELAYED = true) -> tick_ok d t s -> tick_ok d t s'.
Proof. intros (E1 & E2 & E3 & E4) H [A B C D]. constructor; rewrite ?E1, ?E2, ?E3, ?E4; auto. intros k Pk Dk. destruct (H k Pk Dk). auto. Qed.
(** a delay that is set up *)
Lemma tick_delay d t s s' i diff now now' : (0 <= d)%Z -> tick_ok d t s -> same_clock (delay_tcb s i diff now now') s' -> (forall k, P s' k <> 0 -> P s k <> 0) -> (forall k, P s' k <> 0 -> fl s' k DELAYED = Nat.eqb k i || fl s k DELAYED) ->
  normal diff -> normal now -> normal now' -> (t <= ns now <= ns now')%Z -> (ns now' <= ns now + d)%Z -> (armed (dl s) = true -> (ns now' < ns (timer_at (dl s)))%Z) -> forall t', (ns now' <= t')%Z -> tick_ok d t' s'.
Proof.
  intros D0 T SC PM DL N1 N2 N3 O1 O2 AR t' O3. unfold delay_tcb in SC. destruct (ts_add_ns now diff N2 N1) as [EA NA]. set (x := ts_add now diff) in *. clearbody x.
  assert (FIN : forall s0, same_clock s0 s' -> (exists a tm, created (dl s0) = true /\ armed (dl s0) = a /\ a = true /\ timer_at (dl s0) = tm /\ normal tm /\ (forall k, expiry (dl s0) k = if Nat.eqb k i then x else expiry (dl s) k) /\
     (ns tm <= ns x + d)%Z /\ (forall k, P s k <> 0 -> fl s k DELAYED = true -> (ns tm <= ns (expiry (dl s) k) + d)%Z)) -> tick_ok d t' s').
  { intros s0 (C1 & C2 & C3 & C4) (a & tm & H1 & H2 & -> & H3 & H4 & H5 & H6 & H7). constructor; rewrite ?C1, ?C2, ?C3, ?C4, ?H1, ?H2, ?H3; auto; [|discriminate].
    intros k Pk Dk. rewrite H5. rewrite DL in Dk by exact Pk. destruct (Nat.eqb k i); [auto|]. cbn in Dk. destruct (to_exp _ _ _ T k (PM k Pk) Dk) as (Q1 & _ & _ & _). split; [exact Q1|]. split; [reflexivity|]. split; [reflexivity|]. apply H7; auto. }
  cbn [dl with_dl setf with_fl created time_left timer_at] in SC.
  destruct (created (dl s) && ts_nz (time_left _ now') && (0 <? ts_cmp diff (time_left _ now'))%Z) eqn:KEEP.
  - apply andb_true_iff in KEEP as [KEEP K3]. apply andb_true_iff in KEEP as [K1 K2]. unfold time_left in K2, K3. cbn [timer_at] in K2, K3. pose proof (to_normal _ _ _ T K1) as NT.
    pose proof (ts_cmp_ns (timer_at (dl s)) now' NT N3) as CMP. destruct (ts_cmp (timer_at (dl s)) now' <=? 0)%Z eqn:LE; [discriminate|]. apply Z.leb_gt in LE. destruct (ts_sub_ns (timer_at (dl s)) now' NT N3) as [ES NS].
    pose proof (ts_cmp_ns diff _ N1 NS) as CD. apply Z.ltb_lt in K3. apply (FIN _ SC). exists true, (timer_at (dl s)). cbn.
    assert (AM : armed (dl s) = true). { destruct (armed (dl s)) eqn:AM; [reflexivity|]. pose proof (to_past _ _ _ T K1 AM). exfalso. lia. }
    split; [exact K1|]. split; [exact AM|]. split; [reflexivity|]. split; [reflexivity|]. split; [exact NT|]. split; [reflexivity|]. split; [lia|]. intros k Pk Dk. apply (to_exp _ _ _ T k Pk Dk).
  - apply (FIN _ SC). exists true, x. cbn. rewrite Nat.eqb_refl. split; [reflexivity|]. split; [reflexivity|]. split; [reflexivity|]. split; [reflexivity|]. split; [exact NA|]. split; [reflexivity|]. split; [lia|].
    intros k Pk Dk. destruct (to_exp _ _ _ T k Pk Dk) as (Q1 & Q2 & Q3 & Q4). specialize (AR Q3). pose proof (to_normal _ _ _ T Q2) as NT. rewrite Q2 in KEEP. cbn [andb] in KEEP. unfold time_left in KEEP. cbn [timer_at] in KEEP.
    pose proof (ts_cmp_ns (timer_at (dl s)) now' NT N3) as CMP. destruct (ts_cmp (timer_at (dl s)) now' <=? 0)%Z eqn:LE; [apply Z.leb_le in LE; lia|]. destruct (ts_sub_ns (timer_at (dl s)) now' NT N3) as [ES NS].
    pose proof (ts_cmp_ns diff _ N1 NS) as CD. pose proof (ts_nz_ns _ NS) as NZ. destruct (ts_nz (ts_sub (timer_at (dl s)) now')); [|exfalso; assert (ns (ts_sub (timer_at (dl s)) now') <> 0)%Z as X by lia; apply NZ in X; discriminate].
    cbn [andb] in KEEP. apply Z.ltb_ge in KEEP. lia.
Qed.

Lemma restart_from_clock c now es is : forall s next ok s', restart_delayed_from c s now is next es = Ok (ok, s') ->
  (created (dl s') = created (dl s) /\ armed (dl s') = armed (dl s) /\ timer_at (dl s') = timer_at (dl s)) \/ (armed (dl s') = true /\ created (dl s') = true).
Proof.
  induction is as [|i is IH]; intros s next ok s' E; cbn [restart_delayed_from] in E; [inversion E; destruct next; auto|]. destruct (_ && _); [|eapply IH; exact E]. destruct (_ <? _)%Z; [|eapply IH; exact E].
  apply rbind_ok in E as ([ok1 s1] & E1 & E). destruct (restart_delayed_one _ _ _ _ _ _ E1) as (_ & _ & _ & (_ & A1 & A2 & A3) & _). rewrite <- A1, <- A2, <- A3. destruct ok1; [eapply IH; exact E|inversion E; subst; auto].
Qed.
Lemma timer_clock c s now es s' : timer_sighandler c s now es = Ok s' ->
  (created (dl s') = created (dl s) /\ armed (dl s') = false /\ timer_at (dl s') = timer_at (dl s)) \/ (armed (dl s') = true /\ created (dl s') = true).
Proof.
  unfold timer_sighandler. cbv zeta. set (s0 := with_dl s _). destruct (rfail s0); [intros E; inversion E; auto|]. intros E. apply rbind_ok in E as ([ok s1] & E1 & E). apply restart_from_clock in E1. cbn in E1. destruct ok; inversion E; subst; exact E1.
Qed.
Lemma tick_next c d t t1 s n w s' : tinv (tb s) -> next_event c s n = Ok (w, s') -> tick_ok d t s -> (t <= t1)%Z -> (0 <= d)%Z ->
  (forall now es, n_timer n = Some (now, es) -> armed (dl s) = true -> queued s = [] -> normal now /\ (ns (timer_at (dl s)) <= ns now <= t1)%Z) ->
  (rfail s = false -> rfail s' = false -> tick_ok d t1 s') /\ (rfail s' = false -> rfail s = false) /\ (w <> None -> rfail s = false -> rfail s' = false).
Proof.
  intros TI E T L D0 H. destruct (next_idle _ _ _ _ _ TI E) as [I|(now & es & s1 & _ & _ & Q & NT & AR & R & I & W & TS)].
  - set (s0 := if n_intr n =? 0 then s else _) in *. assert (R0 : rfail s0 = rfail s) by (unfold s0; destruct (_ =? 0); reflexivity). rewrite (id_rfail _ _ I), R0. split; [|auto]. intros _ _.
    apply (tick_later d t); [exact L|]. assert (T0 : tick_ok d t s0) by (unfold s0; destruct (_ =? 0); [exact T|]; destruct T; constructor; assumption). clearbody s0. apply (tick_same d t s0); [apply I| |exact T0]. intros k Pk Dk. split; [|apply (id_del _ _ I); exact Dk].
    intros Z. rewrite (id_new _ _ I k Z Pk) in Dk. discriminate.
  - destruct (H _ _ NT AR Q) as [NN B]. destruct R as (TB & _ & _ & EX & _ & _ & _ & _ & RF & _ & DM & DE & RO & RA & _). rewrite (id_rfail _ _ I). split; [|split; [intros X; destruct (rfail s) eqn:Y; [rewrite RF in X; congruence|reflexivity]|intros X _; auto]].
    intros RF0 RF1. specialize (RO RF1). specialize (RA RF1).
    assert (WT : forall k, P s1 k <> 0 -> fl s1 k DELAYED = true -> waiting s k = true /\ expired s now k = false).
    { intros k Pk Dk. assert (WK : waiting s k = true) by (unfold waiting; unfold P in *; rewrite TB in Pk; apply N.eqb_neq in Pk; rewrite Pk, (DM k Dk); reflexivity). split; [exact WK|]. specialize (RO k WK). destruct (expired s now k); [congruence|reflexivity]. }
    assert (T1 : tick_ok d t1 s1).
    { destruct (timer_clock _ _ _ _ _ TS) as [(C1 & C2 & C3)|[C1 C2]].
      - constructor; rewrite ?C1, ?C2, ?C3; [apply (to_normal _ _ _ T)| | |discriminate].
        + intros k Pk Dk. destruct (WT k Pk Dk) as [WK EK]. specialize (RO k WK). rewrite EK in RO. destruct RO as [RO _]. congruence.
        + intros _ _. lia.
      - constructor; rewrite ?C1, ?C2; [| |discriminate|reflexivity].
        + intros _. destruct (RA C1) as (k & WK & ->). unfold waiting in WK. apply andb_true_iff in WK as [W1 W2]. apply negb_true_iff, N.eqb_neq in W1. apply (to_exp _ _ _ T k W1 W2).
        + intros k Pk Dk. destruct (WT k Pk Dk) as [WK EK]. specialize (RO k WK). rewrite EK in RO. destruct RO as (_ & _ & RO). rewrite EX. unfold waiting in WK. apply andb_true_iff in WK as [W1 W2]. apply negb_true_iff, N.eqb_neq in W1. destruct (to_exp _ _ _ T k W1 W2) as (N1 & _).
          split; [exact N1|]. split; [reflexivity|]. split; [reflexivity|]. destruct (RA C1) as (k' & WK' & EK'). unfold waiting in WK'. apply andb_true_iff in WK' as [W1' W2']. apply negb_true_iff, N.eqb_neq in W1'. destruct (to_exp _ _ _ T k' W1' W2') as (N2 & _). rewrite <- EK' in N2.
          pose proof (ts_cmp_ns _ _ N2 N1). lia. }
    apply (tick_same d t1 s1); [apply I| |exact T1]. intros k Pk Dk. split; [|apply (id_del _ _ I); exact Dk]. intros Z. rewrite (id_new _ _ I k Z Pk) in Dk. discriminate.
Qed.
Lemma turns_ticks c d l : (0 <= d)%Z -> forall s t b s', core s -> kept s -> fair c s l -> c_detexec c = false -> turns c s l = Ok (b, s') -> ticks c d t s l -> tick_ok d t s -> rfail s = false -> rfail s' = false ->
  exists t', tick_ok d t' s'.
Proof.
  intros D0. induction l as [|ne l IH]; intros s t b s' K KE F DX E TK T R0 R1; cbn [turns] in E; [inversion E; subst; eauto|]. apply rbind_ok in E as ([go s2] & E1 & E). destruct F as (H & A & F). destruct TK as (t1 & t2 & LT & TM & AS & TK). rewrite E1 in F, TK.
  destruct (turn_core _ _ _ _ _ K KE H A E1) as (w & s1 & N1 & D1 & K1 & KE1 & _ & K2 & KE2 & _ & _ & CUR). rewrite N1 in AS.
  destruct (tick_next c d t t1 s (fst ne) w s1 (o_tab _ K) N1 T ltac:(lia) D0 TM) as (T1 & RB & RW).
  assert (X : rfail s2 = rfail s1 /\ (rfail s1 = false -> tick_ok d t2 s2)).
  { destruct w as [wd|]; [|cbn in D1; inversion D1; subst; split; [reflexivity|]; intros RF; apply (tick_later d t1); auto; lia].
    destruct (busy wd) eqn:BW; [|unfold dispatch_event in D1; unfold busy in BW; destruct (te wd); try discriminate; inversion D1; subst; (split; [reflexivity|]; intros RF; apply (tick_later d t1); auto; lia)].
    destruct (CUR wd eq_refl BW) as (i & CU & Pi & _). destruct (dispatch_delay _ _ _ _ _ _ _ (o_tab _ K1) D1 BW CU Pi (fun _ => DX)) as (PM & _ & _ & RF & _ & DD). split; [exact RF|]. intros RF1. specialize (T1 R0 RF1).
    destruct DD as [[SC DD]|(RD & _ & diff & now & now' & AK & SC & DD)].
    - apply (tick_same d t2 s1); [exact SC| |apply (tick_later d t1); [lia|exact T1]]. intros k Pk Dk. rewrite DD in Dk by exact Pk. auto.
    - destruct (AS RD i CU _ _ _ AK) as (B1 & B2 & B3 & B4 & B5 & B6 & B7). apply (tick_delay d t1 s1 s2 i diff now now'); auto. }
  destruct X as [X1 X2]. destruct go; [|inversion E; subst; rewrite X1 in R1; eauto]. assert (RF2 : rfail s2 = false).
  { rewrite X1. apply RW; [|exact R0]. intros ->. cbn in D1. discriminate. }
  eapply IH; eauto.
Qed.
