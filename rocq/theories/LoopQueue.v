(** Events through the queue, and new tracees, for all options (used for C21, C25, C27). *)
From Verif Require Import Base TimeModel WaitModel TcbModel TcbProofs LogModel LogSpec LogProofs LoopModel LoopFrame LoopSpec LoopTurn LoopRun LoopCore.
Local Open Scope N_scope.

(** nothing lost, nothing twice, in order *)
Definition kept (s : st) : Prop := coll (qu s) = disp (qu s) ++ queued s.
Lemma qsame_queued s s' : qsame s s' -> queued s' = queued s.
Proof.
  intros [[G1 G2] A B C D E F]. unfold queued. rewrite A, B, C, G1. f_equal. apply map_ext_in. intros k Hk. rewrite D by exact Hk. reflexivity.
Qed.
Lemma qsame_kept s s' : qsame s s' -> kept s -> kept s'.
Proof. intros Q K. unfold kept in *. rewrite (qsame_queued _ _ Q). destruct Q. congruence. Qed.

Lemma NoDup_snoc {A} (l : list A) x : NoDup l -> ~ In x l -> NoDup (l ++ [x]).
Proof.
  intros H N. induction H as [|y l Hy H IH]; cbn; [repeat constructor; intros []|]. constructor.
  - rewrite in_app_iff. intros [X|[->|[]]]; [contradiction|]. apply N. left. reflexivity.
  - apply IH. intros X. apply N. right. exact X.
Qed.
(** ** New tracees *)
Lemma new_tcb_core s pid i s' : core s -> pid <> 0 -> (forall i, P s i <> pid) -> new_tcb s pid = Ok (i, s') ->
  core s' /\ P s i = 0 /\ (forall k, P s' k = if Nat.eqb k i then pid else P s k) /\
  (forall k, gen (lg s') k = if Nat.eqb k i then ngen (lg s) else gen (lg s) k) /\
  pending (qu s') = pending (qu s) /\ extra (qu s') = extra (qu s) /\ wtab (qu s') = wtab (qu s) /\ (forall k, k <> i -> widx (qu s') k = widx (qu s) k) /\
  coll (qu s') = coll (qu s) /\ disp (qu s') = disp (qu s) /\ popen s' = popen s /\ calls s' = calls s /\ (forall k g, fl s' k g = if Nat.eqb k i then false else fl s k g).
Proof.
  intros K PN NP E. unfold new_tcb in E. pose proof (alloctcb_ok (tb s) pid (o_tab _ K) PN NP) as H. apply rbind_ok in E as ([t j] & E1 & E). rewrite E1 in H. destruct H as (T & D & PT). inversion E; subst j s'; clear E.
  match goal with |- core ?x /\ _ => set (s' := x) end.
  assert (EP : forall k, P s' k = if Nat.eqb k i then pid else P s k) by exact PT.
  assert (EG : forall k, gen (lg s') k = if Nat.eqb k i then ngen (lg s) else gen (lg s) k) by reflexivity.
  assert (EF : forall k g, fl s' k g = if Nat.eqb k i then false else fl s k g) by reflexivity.
  assert (NI : ngen (lg s') = S (ngen (lg s))) by reflexivity.
  split.
  - assert (C : calls s' = calls s) by reflexivity. assert (PE : pending (qu s') = pending (qu s)) by reflexivity. destruct K as [o_tab0 o_pend0 o_nodup0 o_gens0 o_gen0 o_alt0 o_in0 o_fresh0]. constructor.
    + exact T.
    + rewrite PE. intros k Hk. rewrite EP. destruct (Nat.eqb k i); auto.
    + rewrite PE. assumption.
    + intros k j. rewrite !EP, !EG. destruct (Nat.eqb_spec k i) as [->|], (Nat.eqb_spec j i) as [->|]; intros A B X; auto.
      * pose proof (o_gen0 j B). lia.
      * pose proof (o_gen0 k A). lia.
    + intros k. rewrite EP, EG, NI. destruct (Nat.eqb k i); [lia|]. intros A. pose proof (o_gen0 k A). lia.
    + rewrite C. exact o_alt0.
    + intros k. rewrite EP, EG, EF, C. destruct (Nat.eqb k i); [|apply o_in0]. intros _. rewrite o_fresh0 by lia. reflexivity.
    + rewrite NI, C. intros g Hg. apply o_fresh0. lia.
  - split; [exact D|]. split; [exact EP|]. split; [exact EG|]. split; [reflexivity|]. split; [reflexivity|]. split; [reflexivity|]. split; [intros k Hk; cbn; apply Nat.eqb_neq in Hk; rewrite Hk; reflexivity|]. split; [reflexivity|]. split; [reflexivity|]. split; [reflexivity|]. split; [reflexivity|exact EF].
Qed.
Lemma fold_setf_mild fs : ~ In INSYSCALL fs -> forall s i, mild s (fold_left (fun s f => setf s i f true) fs s).
Proof.
  induction fs as [|f fs IH]; intros N s i; cbn [fold_left]; [apply mild_refl|]. eapply mild_trans; [apply (mild_setf s i f true); intros ->; apply N; left; reflexivity|]. apply IH. intros H. apply N. right. exact H.
Qed.
Lemma attached_mild c s i fs : ~ In INSYSCALL fs -> mild s (attached c s i fs).
Proof.
  intros N. unfold attached. cbv zeta. eapply mild_trans; [apply (mild_setf s i ATTACHED true); discriminate|]. eapply mild_trans; [apply (mild_setf _ i STARTUP true); discriminate|].
  eapply mild_trans; [apply fold_setf_mild; exact N|]. repeat split.
Qed.
Lemma attached_popen c s i fs : popen (attached c s i fs) = popen s.
Proof. unfold attached. cbn. change (popen s) with (popen (setf (setf s i ATTACHED true) i STARTUP true)). generalize (setf (setf s i ATTACHED true) i STARTUP true). induction fs as [|f fs IH]; intros x; cbn [fold_left]; [reflexivity|]. rewrite IH. reflexivity. Qed.
Lemma traced_add s s' i pid : pid <> 0 -> P s i = 0 -> (forall k, P s' k = if Nat.eqb k i then pid else P s k) -> forall p, traced s' p <-> traced s p \/ p = pid.
Proof.
  intros PN D E p. split.
  - intros (A & k & B). rewrite E in B. destruct (Nat.eqb k i); [right; congruence|]. left. split; eauto.
  - intros [(A & k & B)| ->].
    + split; [exact A|]. exists k. rewrite E. destruct (Nat.eqb_spec k i) as [->|]; congruence.
    + split; [exact PN|]. exists i. rewrite E, Nat.eqb_refl. reflexivity.
Qed.

Lemma classic_in s p : traced s p \/ ~ traced s p.
Proof.
  destruct (N.eq_dec p 0) as [Z|Z]; [right; intros [X _]; contradiction|]. destruct (find_pid (pids (tb s)) p) as [i|] eqn:F.
  - left. split; [exact Z|]. exists i. apply find_pid_some in F as [_ F]. exact F.
  - right. intros (_ & i & A). destruct (Nat.lt_ge_cases i (length (pids (tb s)))) as [L|L]; [exact (find_pid_none _ _ F i L A)|]. apply Z. rewrite <- A. apply nth_overflow. exact L.
Qed.
(** ** Collecting *)
(** the queue while it is being filled *)
Record filling (s : st) (pos : nat) : Prop := {
  f_core : core s; f_kept : kept s; f_none : extra (qu s) = None;
  f_pos : forall k, In k (pending (qu s)) -> (widx (qu s) k < pos)%nat }.
(** what a single answer about a process does *)
Definition gained (c : cfg) (s : st) (pid status : N) (p : N) : Prop := p = pid /\ WIFSTOPPED status = true /\ c_follow c = true.
Lemma maybe_allocate_core c s pid status pos r s' : filling s pos -> pid <> 0 -> (forall i, P s i <> pid) -> maybe_allocate_tcb c s pid status = Ok (r, s') ->
  filling s' pos /\ (forall p, traced s' p <-> traced s p \/ gained c s pid status p) /\ pending (qu s') = pending (qu s) /\
  coll (qu s') = coll (qu s) /\ disp (qu s') = disp (qu s) /\ popen s' = popen s /\ (forall k, P s k <> 0 -> P s' k = P s k /\ gen (lg s') k = gen (lg s) k) /\
  match r with Some i => P s' i = pid /\ WIFSTOPPED status && c_follow c = true | None => WIFSTOPPED status && c_follow c = false end.
Proof.
  intros [K KE NO FP] PN NP E. unfold maybe_allocate_tcb in E. destruct (WIFSTOPPED status) eqn:WS; cbn [negb] in E.
  - destruct (c_follow c) eqn:CF.
    + apply rbind_ok in E as ([i s1] & E1 & E). inversion E; subst r s'; clear E. destruct (new_tcb_core _ _ _ _ K PN NP E1) as (K1 & D & EP & EG & A1 & A2 & A3 & A4 & A5 & A6 & A7 & A8 & A9).
      set (fs := if c_seize c then [] else [IGNORE_ONE_SIGSTOP]). assert (NI : ~ In INSYSCALL fs) by (unfold fs; destruct (c_seize c); [intros []|intros [|[]]; discriminate]).
      pose proof (attached_mild c s1 i fs NI) as M. destruct (mild_core _ _ K1 M) as (K2 & Q2 & T2). set (s2 := attached c s1 i fs) in *.
      assert (EP2 : forall k, P s2 k = if Nat.eqb k i then pid else P s k) by (intros k; unfold P at 1; rewrite T2; apply EP).
      assert (EG2 : forall k, gen (lg s2) k = if Nat.eqb k i then ngen (lg s) else gen (lg s) k) by (intros k; destruct M as (_ & [M _] & _); rewrite M; apply EG).
      assert (NP' : forall k, In k (pending (qu s)) -> k <> i) by (intros k Hk ->; apply (o_pend _ K i Hk); exact D).
      assert (KE2 : kept s1).
      { unfold kept, queued in *. rewrite A1, A2, A3, A5, A6, KE, NO. f_equal. f_equal. apply map_ext_in. intros k Hk. pose proof (NP' k Hk) as N. rewrite EG, A4 by exact N. apply Nat.eqb_neq in N. rewrite N. reflexivity. }
      split; [|split; [|split; [|split; [|split; [|split; [|split]]]]]].
      * constructor; [exact K2|exact (qsame_kept _ _ Q2 KE2)|rewrite (qs_extra _ _ Q2), A2; exact NO|].
        intros k. rewrite (qs_pend _ _ Q2), A1. intros Hk. rewrite (qs_widx _ _ Q2) by (rewrite A1; exact Hk). rewrite A4 by (apply NP'; exact Hk). auto.
      * intros p. rewrite (traced_add s s2 i pid PN D EP2). unfold gained. rewrite WS. tauto.
      * rewrite (qs_pend _ _ Q2). exact A1.
      * rewrite (qs_coll _ _ Q2). exact A5.
      * rewrite (qs_disp _ _ Q2). exact A6.
      * unfold s2. rewrite attached_popen. exact A7.
      * intros k Hk. rewrite EP2, EG2. destruct (Nat.eqb_spec k i) as [->|]; [congruence|auto].
      * rewrite EP2, Nat.eqb_refl. auto.
    + inversion E; subst r s'. split; [constructor; auto|]. split; [intros p; unfold gained; intuition congruence|]. split; [reflexivity|]. split; [reflexivity|]. split; [reflexivity|]. split; [reflexivity|]. split; [auto|reflexivity].
  - inversion E; subst r s'. set (s1 := if c_detexec c && (pid =? child s) then set_child s 0 else s).
    assert (M : mild s s1 /\ popen s1 = popen s) by (unfold s1; destruct (_ && _); split; try reflexivity; [apply mild_glob|apply mild_refl]). destruct M as [M PO]. destruct (mild_core _ _ K M) as (K1 & Q1 & T1).
    split; [|split; [|split; [|split; [|split; [|split; [|split]]]]]].
    + constructor; [exact K1|exact (qsame_kept _ _ Q1 KE)|rewrite (qs_extra _ _ Q1); exact NO|]. intros k. rewrite (qs_pend _ _ Q1). intros Hk. rewrite (qs_widx _ _ Q1) by exact Hk. auto.
    + intros p. rewrite (traced_tb _ _ T1). unfold gained. intuition congruence.
    + apply (qs_pend _ _ Q1).
    + apply (qs_coll _ _ Q1).
    + apply (qs_disp _ _ Q1).
    + exact PO.
    + intros k _. unfold P. rewrite T1. destruct M as (_ & [M _] & _). rewrite M. auto.
    + reflexivity.
Qed.
(** an event joins the queue *)
Lemma enqueue_core s i pos wd : filling s pos -> P s i <> 0 ->
  let s' := enqueue s i pos wd in
  core s' /\ kept s' /\ coll (qu s') = coll (qu s) ++ [(gen (lg s) i, wd)] /\ disp (qu s') = disp (qu s) /\ tb s' = tb s /\ lg s' = lg s /\ popen s' = popen s /\
  (if existsb (Nat.eqb i) (pending (qu s)) then pending (qu s') = pending (qu s) /\ In i (pending (qu s)) /\ extra (qu s') = Some (i, pos)
   else filling s' (S pos) /\ ~ In i (pending (qu s)) /\ pending (qu s') = pending (qu s) ++ [i]).
Proof.
  intros [K KE NO FP] Pi s'.
  assert (MP : forall k, In k (pending (qu s)) -> (if Nat.eqb (widx (qu s) k) pos then wd else wtab (qu s) (widx (qu s) k)) = wtab (qu s) (widx (qu s) k)).
  { intros k Hk. specialize (FP k Hk). destruct (Nat.eqb_spec (widx (qu s) k) pos); [lia|reflexivity]. }
  unfold enqueue in s'. destruct (existsb (Nat.eqb i) (pending (qu s))) eqn:EX.
  - assert (K' : core s') by (apply (core_same s); auto; reflexivity || (split; reflexivity)).
    assert (KE' : kept s').
    { unfold kept, queued in *. cbn. rewrite KE, NO, app_nil_r, <- app_assoc. f_equal. f_equal.
      - apply map_ext_in. intros k Hk. rewrite MP by exact Hk. reflexivity.
      - rewrite Nat.eqb_refl. reflexivity. }
    split; [exact K'|]. split; [exact KE'|]. split; [reflexivity|]. split; [reflexivity|]. split; [reflexivity|]. split; [reflexivity|]. split; [reflexivity|]. split; [reflexivity|]. split; [|reflexivity].
    apply existsb_exists in EX as (x & Hx & E). apply Nat.eqb_eq in E as ->. exact Hx.
  - assert (NI : ~ In i (pending (qu s))) by (intros H; assert (existsb (Nat.eqb i) (pending (qu s)) = true) by (apply existsb_exists; exists i; split; [exact H|apply Nat.eqb_refl]); congruence).
    assert (K' : core s').
    { destruct K as [o_tab0 o_pend0 o_nodup0 o_gens0 o_gen0 o_alt0 o_in0 o_fresh0]. constructor; auto.
      - intros k Hk. apply in_app_iff in Hk as [Hk|[<-|[]]]; [exact (o_pend0 k Hk)|exact Pi].
      - cbn. apply NoDup_snoc; assumption. }
    assert (KE' : kept s').
    { unfold kept, queued in *. cbn. rewrite KE, NO, !app_nil_r, map_app, <- app_assoc. f_equal. f_equal.
      - apply map_ext_in. intros k Hk. destruct (Nat.eqb_spec k i) as [->|]; [contradiction|]. rewrite MP by exact Hk. reflexivity.
      - cbn. rewrite !Nat.eqb_refl. reflexivity. }
    split; [exact K'|]. split; [exact KE'|]. split; [reflexivity|]. split; [reflexivity|]. split; [reflexivity|]. split; [reflexivity|]. split; [reflexivity|]. split; [|split; [exact NI|reflexivity]].
    constructor; [exact K'|exact KE'|exact NO|]. cbn. intros k Hk. apply in_app_iff in Hk as [Hk|[<-|[]]].
    + destruct (Nat.eqb k i); [lia|]. specialize (FP k Hk). lia.
    + rewrite Nat.eqb_refl. lia.
Qed.
Lemma heard_ext fo po k seen l hs : heard fo po k seen l hs -> forall k' seen', (forall p, k p <-> k' p) -> (forall p, In p seen <-> In p seen') -> heard fo po k' seen' l hs.
Proof.
  induction 1; intros k' seen' EK ES.
  - constructor.
  - constructor; assumption.
  - apply heard_ignored; auto. rewrite <- EK. assumption.
  - apply heard_last; auto. apply ES. assumption.
  - apply heard_next; auto; [rewrite <- ES; assumption|rewrite <- EK; assumption|]. apply IHheard; [intros q; rewrite EK; tauto|intros q; cbn; rewrite ES; tauto].
Qed.
Lemma classify_status c ign st si msg : wstatus (fst (classify c ign st si msg)) = st.
Proof. unfold classify. repeat match goal with |- context [if ?b then _ else _] => destruct b; try reflexivity end. Qed.
Definition extra_ok (s : st) : Prop := forall i idx, extra (qu s) = Some (i, idx) -> In i (pending (qu s)).
Lemma collect_core c ws : forall s nohang pos r s', filling s pos -> collect c s nohang pos ws = Ok (r, s') ->
  core s' /\ kept s' /\ extra_ok s' /\ disp (qu s') = disp (qu s) /\
  (forall k, P s k <> 0 -> P s' k = P s k /\ gen (lg s') k = gen (lg s) k) /\
  exists new hs, coll (qu s') = coll (qu s) ++ new /\ heard (c_follow c) (popen s) (traced s) (map (P s) (pending (qu s))) (answers ws) hs /\ Forall2 (matches s') new hs /\
  (forall p, traced s' p <-> traced s p \/ In p (map fst hs)).
Proof.
  induction ws as [|w ws IH]; intros s nohang pos r s' F E; cbn [collect] in E.
  { inversion E; subst r s'. destruct F as [K KE NO FP]. split; [exact K|]. split; [exact KE|]. split; [intros i idx X; congruence|]. split; [reflexivity|]. split; [auto|]. exists [], []. rewrite app_nil_r. split; [reflexivity|]. split; [constructor|]. split; [constructor|]. intros p. cbn. tauto. }
  assert (SAME : forall s1, mild s s1 -> answers (w :: ws) = [] \/ (exists p st r, answers (w :: ws) = (p, st) :: r /\ (p = 0 \/ p = popen s)) ->
     core s1 /\ kept s1 /\ extra_ok s1 /\ disp (qu s1) = disp (qu s) /\ (forall k, P s k <> 0 -> P s1 k = P s k /\ gen (lg s1) k = gen (lg s) k) /\
     exists new hs, coll (qu s1) = coll (qu s) ++ new /\ heard (c_follow c) (popen s) (traced s) (map (P s) (pending (qu s))) (answers (w :: ws)) hs /\ Forall2 (matches s1) new hs /\ (forall p, traced s1 p <-> traced s p \/ In p (map fst hs))).
  { intros s1 M AN. destruct F as [K KE NO FP]. destruct (mild_core _ _ K M) as (K1 & Q1 & T1). split; [exact K1|]. split; [exact (qsame_kept _ _ Q1 KE)|]. split; [intros i idx X; rewrite (qs_extra _ _ Q1) in X; congruence|]. split; [apply (qs_disp _ _ Q1)|].
    split; [intros k _; unfold P; rewrite T1; destruct M as (_ & [M _] & _); rewrite M; auto|]. exists [], []. rewrite app_nil_r. split; [apply (qs_coll _ _ Q1)|].
    split; [|split; [constructor|intros p; rewrite (traced_tb _ _ T1); cbn; tauto]]. destruct AN as [->|(p & st & r0 & -> & X)]; constructor; assumption. }
  destruct w as [errno|pid status siok msg].
  { assert (X : s' = s) by (destruct (errno =? EINTR); [inversion E; reflexivity|]; destruct nohang; [inversion E; reflexivity|]; destruct (_ && _); inversion E; reflexivity). subst s'. apply SAME; [apply mild_refl|left; reflexivity]. }
  destruct (N.eqb_spec pid 0) as [Z|Z].
  { inversion E; subst r s'. apply SAME; [apply mild_refl|]. right. exists pid, status. eexists. split; [reflexivity|auto]. }
  destruct (N.eqb_spec pid (popen s)) as [PO|PO].
  { inversion E; subst r s'. apply SAME; [destruct (WIFSTOPPED status); [apply mild_refl|apply mild_glob]|]. right. exists pid, status. eexists. split; [reflexivity|auto]. }
  clear SAME. change (answers (NPid pid status siok msg :: ws)) with ((pid, status) :: answers ws).
  pose proof (pid2tcb_inv (tb s) (Z.of_N pid) (o_tab _ (f_core _ _ F))) as TI. pose proof (pid2tcb_same (tb s) (Z.of_N pid)) as [TS TN]. pose proof (fun j => pid2tcb_spec (tb s) (Z.of_N pid) j (o_tab _ (f_core _ _ F))) as FIND.
  destruct (pid2tcb (tb s) (Z.of_N pid)) as [t found]. cbn [fst snd] in *.
  assert (PS : forall k, P (with_tb s t) k = P s k) by (intros k; unfold P, pidof; cbn; rewrite TS; reflexivity).
  assert (F1 : filling (with_tb s t) pos) by (destruct F as [K KE NO FP]; constructor; auto; apply core_cache; assumption).
  apply rbind_ok in E as ([fo s2] & E2 & E).
  assert (X : filling s2 pos /\ (forall p, traced s2 p <-> traced s p \/ (~ traced s pid /\ gained c s pid status p)) /\ pending (qu s2) = pending (qu s) /\ coll (qu s2) = coll (qu s) /\ disp (qu s2) = disp (qu s) /\ popen s2 = popen s /\
     (forall k, P s k <> 0 -> P s2 k = P s k /\ gen (lg s2) k = gen (lg s) k) /\
     match fo with Some i => P s2 i = pid /\ (traced s pid \/ WIFSTOPPED status && c_follow c = true) | None => ~ traced s pid /\ WIFSTOPPED status && c_follow c = false end).
  { destruct found as [i|].
    - inversion E2; subst fo s2. destruct (proj1 (FIND i) eq_refl) as [_ A]. change (pidof (tb s) i) with (P s i) in A. rewrite N2Z.id in A. assert (TP : traced s pid) by (split; [exact Z|eauto]).
      split; [exact F1|]. split; [intros p; rewrite (traced_same s (with_tb s t) PS); tauto|]. split; [reflexivity|]. split; [reflexivity|]. split; [reflexivity|]. split; [reflexivity|]. split; [intros k _; rewrite PS; auto|]. split; [rewrite PS; exact A|auto].
    - assert (NP : forall i, P s i <> pid) by (intros i A; assert (Y : None = Some i) by (apply FIND; change (pidof (tb s) i) with (P s i); lia); discriminate).
      assert (NT : ~ traced s pid) by (intros (_ & i & A); exact (NP i A)).
      destruct (maybe_allocate_core c (with_tb s t) pid status pos fo s2 F1 Z) as (A1 & A2 & A3 & A4 & A5 & A6 & A7 & A8); [intros i; rewrite PS; apply NP|exact E2|].
      split; [exact A1|]. split; [intros p; rewrite A2, (traced_same s (with_tb s t) PS); unfold gained; tauto|]. split; [exact A3|]. split; [exact A4|]. split; [exact A5|]. split; [exact A6|]. split; [intros k Hk; destruct (A7 k) as [B1 B2]; [rewrite PS; exact Hk|rewrite B1, PS; auto]|]. destruct fo; tauto. }
  clear E2 FIND TI TS TN PS F1 t found. destruct X as (F2 & TR2 & PE2 & CO2 & DI2 & PO2 & OLD2 & X2).
  assert (PD : forall k, In k (pending (qu s)) -> P s2 k = P s k) by (intros k Hk; apply OLD2; apply (o_pend _ (f_core _ _ F)); exact Hk).
  destruct fo as [i|].
  2:{ destruct (IH _ _ _ _ _ F2 E) as (A1 & A2 & A3 & A4 & A5 & new & hs & A7 & A8 & A9 & A10). destruct X2 as [NT X2].
      split; [exact A1|]. split; [exact A2|]. split; [exact A3|]. split; [congruence|]. split.
      { intros k Hk. destruct (OLD2 k Hk) as [B1 B2]. destruct (A5 k) as [B3 B4]; [congruence|]. split; congruence. }
      exists new, hs. split; [congruence|]. split; [|split; [exact A9|intros p; rewrite A10, TR2; split; [|tauto]; intros [[B|(_ & -> & B1 & B2)]|B]; auto; rewrite B1, B2 in X2; discriminate]]. apply heard_ignored; auto. eapply heard_ext; [rewrite <- PO2; exact A8| |].
      - intros p. rewrite TR2. split; [|auto]. intros [B|(_ & -> & B1 & B2)]; [exact B|]. rewrite B1, B2 in X2. discriminate.
      - intros p. rewrite PE2, (map_ext_in _ _ _ PD). reflexivity. }
  destruct X2 as [Pi X2]. pose proof (classify_status c (fl s2 i IGNORE_ONE_SIGSTOP) status siok msg) as CS. destruct (classify c (fl s2 i IGNORE_ONE_SIGSTOP) status siok msg) as [wd clr]. cbn [fst] in CS.
  set (s3 := if clr then setf s2 i IGNORE_ONE_SIGSTOP false else s2) in *.
  assert (X3 : filling s3 pos /\ tb s3 = tb s2 /\ lg s3 = lg s2 /\ qu s3 = qu s2 /\ popen s3 = popen s2).
  { unfold s3. destruct clr; [|auto]. split; [|auto]. destruct F2 as [K KE NO FP]. destruct (mild_core s2 (setf s2 i IGNORE_ONE_SIGSTOP false) K) as (K' & Q' & _); [apply mild_setf; discriminate|]. constructor; [exact K'|exact (qsame_kept _ _ Q' KE)|exact NO|exact FP]. }
  clearbody s3. destruct X3 as (F3 & T3 & L3 & QU3 & PO3).
  assert (P3 : forall k, P s3 k = P s2 k) by (intros k; unfold P; rewrite T3; reflexivity).
  pose proof (enqueue_core s3 i pos wd F3 ltac:(rewrite P3, Pi; exact Z)) as X4. cbv zeta in X4. set (s4 := enqueue s3 i pos wd) in *. clearbody s4.
  destruct X4 as (K4 & KE4 & CO4 & DI4 & T4 & L4 & PO4 & X4). rewrite QU3 in CO4, DI4, X4. rewrite L3 in CO4.
  assert (P4 : forall k, P s4 k = P s2 k) by (intros k; unfold P; rewrite T4, T3; reflexivity).
  assert (OLD4 : forall k, P s k <> 0 -> P s4 k = P s k /\ gen (lg s4) k = gen (lg s) k) by (intros k Hk; rewrite P4, L4, L3; apply OLD2; exact Hk).
  assert (PENDP : In pid (map (P s) (pending (qu s))) <-> In i (pending (qu s))).
  { rewrite <- (map_ext_in _ _ _ PD). rewrite in_map_iff. split; [|eauto]. intros (k & A & B). assert (k = i) as <-; [|exact B]. apply (t_distinct _ (o_tab _ (f_core _ _ F2))); [change (pidof (tb s2) k) with (P s2 k); congruence|]. change (P s2 k = P s2 i). congruence. }
  assert (KNOWN : forall p, traced s2 p <-> traced s p \/ In p (map fst [(pid, status)])).
  { intros p. cbn. rewrite TR2. split; [intros [B|(_ & -> & _)]; auto|]. intros [B|[<-|[]]]; [auto|]. destruct X2 as [B|B]; [auto|]. apply andb_true_iff in B as [B1 B2]. destruct (classic_in s pid) as [C|C]; [auto|]. right. split; [exact C|split; auto]. }
  destruct (existsb (Nat.eqb i) (pending (qu s2))) eqn:EX.
  - destruct X4 as (X4 & X5 & X6). rewrite X6 in E. inversion E; subst r s'. split; [exact K4|]. split; [exact KE4|]. split.
    { intros k idx Hk. rewrite X6 in Hk. inversion Hk; subst k idx. rewrite X4. exact X5. }
    split; [congruence|]. split; [exact OLD4|].
    exists [(gen (lg s2) i, wd)], [(pid, status)]. split; [congruence|]. split; [apply heard_last; auto; apply PENDP; rewrite <- PE2; exact X5|].
    split; [|intros p; rewrite (traced_same _ _ P4); apply KNOWN]. constructor; [|constructor]. split; [exact CS|]. exists i. cbn. rewrite L4, L3, P4. auto.
  - destruct X4 as (F4 & NI & PE4). rewrite (f_none _ _ F4) in E. destruct (IH _ _ _ _ _ F4 E) as (A1 & A2 & A3 & A4 & A5 & new & hs & A7 & A8 & A9 & A10).
    split; [exact A1|]. split; [exact A2|]. split; [exact A3|]. split; [congruence|]. split.
    { intros k Hk. destruct (OLD4 k Hk) as [B1 B2]. destruct (A5 k) as [B3 B4]; [congruence|]. split; congruence. }
    exists ((gen (lg s2) i, wd) :: new), ((pid, status) :: hs). split; [rewrite A7, CO4, <- app_assoc; cbn; congruence|]. split.
    + apply heard_next; auto; [rewrite PENDP, <- PE2; exact NI|]. eapply heard_ext; [rewrite <- PO2, <- PO3, <- PO4; exact A8| |].
      * intros p. rewrite (traced_same _ _ P4), TR2. split.
        -- intros [B|(_ & -> & _)]; auto.
        -- intros [->|B]; [|auto]. destruct X2 as [B|B]; [auto|]. apply andb_true_iff in B as [B1 B2]. destruct (classic_in s pid) as [C|C]; [auto|]. right. split; [exact C|split; auto].
      * intros p. rewrite PE4, map_app, in_app_iff. cbn. rewrite P4, Pi. rewrite (map_ext _ _ P4), PE2, (map_ext_in _ _ _ PD). tauto.
    + split; [|intros p; rewrite A10, (traced_same _ _ P4); cbn [map fst In]; rewrite (KNOWN p); cbn [map fst In]; tauto]. constructor; [|exact A9]. split; [exact CS|]. exists i. cbn. destruct (A5 i) as [B1 B2]; [rewrite P4, Pi; exact Z|]. rewrite B1, B2, L4, L3, P4. auto.
Qed.

(** ** Handing an event out *)
Lemma restart_delayed_tcb_mild c s i e b s' : restart_delayed_tcb c s i e = Ok (b, s') -> mild s s'.
Proof.
  unfold restart_delayed_tcb. cbv zeta. set (s1 := with_lg (setf s i DELAYED false) _). intros E. apply rbind_ok in E as ([ok s2] & E1 & E). inversion E; subst b s'; clear E.
  assert (M1 : mild s s1) by (eapply mild_trans; [apply (mild_setf s i DELAYED false); discriminate|apply mild_current]).
  unfold dispatch_event in E1. cbn [te] in E1. change (current (lg s1)) with (Some i) in E1. apply resume_mild in E1. eapply mild_trans; [exact M1|]. eapply mild_trans; [exact E1|]. eapply mild_trans; [apply mild_current|apply mild_dl].
Qed.
Lemma restart_delayed_mild c now es is : forall s next b s', restart_delayed_from c s now is next es = Ok (b, s') -> mild s s'.
Proof.
  induction is as [|i is IH]; intros s next b s' E; cbn [restart_delayed_from] in E.
  - inversion E; subst b s'. destruct next; [apply mild_dl|apply mild_refl].
  - destruct (_ && _); [|eapply IH; exact E]. destruct (0 <? ts_cmp now (expiry (dl s) i))%Z; [|eapply IH; exact E]. apply rbind_ok in E as ([ok s1] & E1 & E). apply restart_delayed_tcb_mild in E1.
    destruct ok; [|inversion E; subst; exact E1]. eapply mild_trans; [exact E1|]. eapply IH; exact E.
Qed.
Lemma timer_mild c s now es s' : timer_sighandler c s now es = Ok s' -> mild s s'.
Proof.
  unfold timer_sighandler. cbv zeta. intros E. match type of E with context [rfail ?x] => set (s1 := x) in E end. assert (M1 : mild s s1) by apply mild_dl. destruct (rfail s1); [inversion E; subst; exact M1|].
  apply rbind_ok in E as ([ok s2] & E1 & E). apply restart_delayed_mild in E1. inversion E; subst s'. eapply mild_trans; [exact M1|]. eapply mild_trans; [exact E1|]. destruct ok; [apply mild_refl|apply mild_glob].
Qed.
Lemma restart_popen o s i sig err b s' : ptrace_restart o s i sig err = Ok (b, s') -> popen s' = popen s.
Proof.
  unfold ptrace_restart. cbv zeta. destruct (_ || _); [intros E; inversion E; reflexivity|]. intros E. apply rbind_ok in E as (s1 & E1 & E). inversion E; subst s1. change (popen s) with (popen (ask s i o sig)).
  destruct (current _); [|inversion E1; reflexivity]. destruct (_ =? 0); [inversion E1; reflexivity|]. apply rbind_ok in E1 as (s2 & E1 & E2). inversion E2; subst s'. apply tpr_only in E1 as [_ ->]. reflexivity.
Qed.
Lemma resume_popen s i wd o sig e b s' : resume s i wd o sig e = Ok (b, s') -> popen s' = popen s.
Proof.
  unfold resume. cbv zeta. set (s1 := if e_intr e =? 0 then s else _). assert (X : popen s1 = popen s) by (unfold s1; destruct (e_intr e =? 0); reflexivity). intros E.
  destruct (negb _); [inversion E; subst; exact X|]. destruct (fl s1 i DELAYED); [inversion E; subst; exact X|]. apply rbind_ok in E as ([ok s2] & E1 & E). apply restart_popen in E1. destruct ok; inversion E; subst; cbn; congruence.
Qed.
Lemma restart_delayed_popen c now es is : forall s next b s', restart_delayed_from c s now is next es = Ok (b, s') -> popen s' = popen s.
Proof.
  induction is as [|i is IH]; intros s next b s' E; cbn [restart_delayed_from] in E.
  - inversion E; subst b s'. destruct next; reflexivity.
  - destruct (_ && _); [|eapply IH; exact E]. destruct (0 <? ts_cmp now (expiry (dl s) i))%Z; [|eapply IH; exact E]. apply rbind_ok in E as ([ok s1] & E1 & E).
    assert (X : popen s1 = popen s).
    { unfold restart_delayed_tcb in E1. cbv zeta in E1. apply rbind_ok in E1 as ([ok' s2] & E1 & E2). unfold dispatch_event in E1. cbn [te] in E1. cbn [with_lg lg set_current current] in E1. apply resume_popen in E1. inversion E2; subst. exact E1. }
    destruct ok; [|inversion E; subst; exact X]. rewrite (IH _ _ _ _ E). exact X.
Qed.
Lemma timer_popen c s now es s' : timer_sighandler c s now es = Ok s' -> popen s' = popen s.
Proof.
  unfold timer_sighandler. cbv zeta. intros E. match type of E with context [rfail ?x] => set (s1 := x) in E end. destruct (rfail s1); [inversion E; subst; reflexivity|].
  apply rbind_ok in E as ([ok s2] & E1 & E). apply restart_delayed_popen in E1. inversion E; subst s'. destruct ok; exact E1.
Qed.
Lemma Forall2_impl' {A B} (R R' : A -> B -> Prop) l l' : (forall x y, R x y -> R' x y) -> Forall2 R l l' -> Forall2 R' l l'.
Proof. intros H. induction 1; constructor; auto. Qed.
Lemma event_exit_core c s i oe gn w s' : core s -> event_exit c s i oe gn = Ok (w, s') ->
  core s' /\ w = Some (wtab (qu s) (widx (qu s) i)) /\ tb s' = tb s /\ current (lg s') = Some i /\ gk (lg s) (lg s') /\
  qu s' = {| pending := pending (qu s); extra := extra (qu s); wtab := wtab (qu s); widx := widx (qu s); coll := coll (qu s); disp := disp (qu s) ++ [(gen (lg s) i, wtab (qu s) (widx (qu s) i))] |}.
Proof.
  intros K E. unfold event_exit in E. apply rbind_ok in E as (s1 & E1 & E).
  assert (X : mild s s1 /\ lg s1 = lg s).
  { destruct (fl s i STARTUP); [|inversion E1; subst; split; [apply mild_refl|reflexivity]]. unfold startup_tcb in E1. cbv zeta in E1. destruct (_ && _); [discriminate|]. clear E. injection E1 as <-.
    assert (M : mild s (setf s i STARTUP false)) by (apply mild_setf; discriminate). match goal with |- context [if ?b then _ else _] => destruct b end; (split; [|reflexivity]); [eapply mild_trans; [exact M|repeat split]|exact M]. }
  destruct X as [M L]. destruct (mild_core _ _ K M) as (K1 & Q1 & T1). assert (QU : qu s1 = qu s) by apply M. cbv zeta in E. rewrite QU, L in E. inversion E; subst w s'; clear E.
  split; [|split; [reflexivity|split; [exact T1|split; [reflexivity|split; [split; reflexivity|reflexivity]]]]].
  apply (core_same s1); auto; [rewrite L; split; reflexivity|cbn; rewrite QU; reflexivity].
Qed.
(** the event handed out and the rest of the queue *)
Definition handed (s s' : st) (w : option wdata) : Prop :=
  exists i wd, w = Some wd /\ current (lg s') = Some i /\ P s' i <> 0 /\ ~ In i (pending (qu s')) /\ queued s = (gen (lg s') i, wd) :: queued s' /\
  disp (qu s') = disp (qu s) ++ [(gen (lg s') i, wd)] /\ coll (qu s') = coll (qu s) /\ tb s' = tb s /\ gk (lg s) (lg s').
Lemma core_queue s q : core s -> (forall i, In i (pending q) -> P s i <> 0) -> NoDup (pending q) -> core (with_qu s q).
Proof. intros [] A B. constructor; auto. Qed.
Lemma get_tcp_core c s oe gn w s' : core s -> extra (qu s) = None \/ pending (qu s) <> [] -> get_tcp c s oe gn = Ok (w, s') ->
  core s' /\ (handed s s' w \/ (queued s = [] /\ queued s' = [] /\ disp (qu s') = disp (qu s) /\ coll (qu s') = coll (qu s) /\ tb s' = tb s /\ gk (lg s) (lg s') /\ exists wd, w = Some wd /\ busy wd = false)).
Proof.
  intros K NE E. unfold get_tcp in E. destruct (pending (qu s)) as [|i r] eqn:PE.
  - inversion E; subst w s'; clear E. destruct NE as [NE|]; [|congruence]. split; [apply core_queue; [exact K|intros i []|constructor]|]. right. unfold queued. cbn. rewrite PE, NE. split; [reflexivity|]. split; [reflexivity|]. split; [reflexivity|]. split; [reflexivity|]. split; [reflexivity|]. split; [split; reflexivity|eauto].
  - pose proof (o_pend _ K) as OP. pose proof (o_nodup _ K) as ND. rewrite PE in OP, ND. inversion ND as [|x y NI ND']; subst x y.
    destruct (event_exit_core _ _ _ _ _ _ _ (core_queue s {| pending := r; extra := extra (qu s); wtab := wtab (qu s); widx := widx (qu s); coll := coll (qu s); disp := disp (qu s) |} K (fun k H => OP k (or_intror H)) ND') E) as (K1 & W & T & CU & [G1 G2] & QU). cbn in T, W, QU, G1, G2. split; [exact K1|]. left.
    exists i, (wtab (qu s) (widx (qu s) i)). split; [exact W|]. split; [exact CU|]. split; [unfold P; rewrite T; apply OP; left; reflexivity|]. rewrite QU. cbn. split; [exact NI|]. rewrite G1. split; [|split; [reflexivity|split; [reflexivity|split; [exact T|split; assumption]]]].
    unfold queued. rewrite QU, PE, G1. reflexivity.
Qed.
Lemma extra_core c s i idx oe gn w s' : core s -> pending (qu s) = [] -> extra (qu s) = Some (i, idx) -> P s i <> 0 ->
  event_exit c (with_qu s {| pending := []; extra := None; wtab := wtab (qu s); widx := fun j => if Nat.eqb j i then idx else widx (qu s) j; coll := coll (qu s); disp := disp (qu s) |}) i oe gn = Ok (w, s') ->
  core s' /\ handed s s' w.
Proof.
  intros K PE EX Pi E. destruct (event_exit_core _ _ _ _ _ _ _ (core_queue s {| pending := []; extra := None; wtab := wtab (qu s); widx := fun j => if Nat.eqb j i then idx else widx (qu s) j; coll := coll (qu s); disp := disp (qu s) |} K (fun k H => match H with end) (NoDup_nil _)) E) as (K1 & W & T & CU & [G1 G2] & QU).
  cbn in T, W, QU, G1, G2. rewrite Nat.eqb_refl in W, QU. split; [exact K1|]. exists i, (wtab (qu s) idx). split; [exact W|]. split; [exact CU|]. split; [unfold P; rewrite T; exact Pi|]. rewrite QU. cbn. split; [auto|]. rewrite G1.
  split; [|split; [reflexivity|split; [reflexivity|split; [exact T|split; assumption]]]]. unfold queued. rewrite QU, PE, EX. reflexivity.
Qed.
(** what [next_event] does to queue and table *)
Definition next_ok (c : cfg) (s : st) (n : nenv) (w : option wdata) (s' : st) : Prop :=
  match queued s with
  | _ :: _ => if running s n then handed s s' w else w = None /\ qsame s s' /\ tb s' = tb s
  | [] =>
      (* the events that came in, then the first of them *)
      (forall k, P s k <> 0 -> P s' k = P s k /\ gen (lg s') k = gen (lg s) k) /\
      exists new hs, coll (qu s') = coll (qu s) ++ new /\ ((hs = [] /\ w = None) \/ heard (c_follow c) (popen s) (traced s) [] (answers (n_waits n)) hs) /\ Forall2 (matches s') new hs /\ (forall p, traced s' p <-> traced s p \/ In p (map fst hs)) /\
        ((new = [] /\ disp (qu s') = disp (qu s)) \/ exists x, hd_error new = Some x /\ disp (qu s') = disp (qu s) ++ [x] /\ w = Some (snd x))
  end.
Lemma collect_more c ws : forall s pos s', collect c s true pos ws <> Ok (CNull, s').
Proof.
  induction ws as [|[e|p st si m] r IH]; intros s pos s'; cbn [collect]; [discriminate|destruct (e =? EINTR); discriminate|].
  destruct (p =? 0); [discriminate|]. destruct (p =? popen s); [discriminate|]. destruct (pid2tcb _ _) as [t f]. destruct f as [i|]; cbn [rbind].
  - destruct (classify _ _ _ _ _) as [wd cl]. destruct (extra _); [discriminate|apply IH].
  - destruct (maybe_allocate_tcb _ _ _ _) as [[[i|] s1]| |]; cbn [rbind]; try discriminate; [|apply IH]. destruct (classify _ _ _ _ _) as [wd cl]. destruct (extra _); [discriminate|apply IH].
Qed.
Lemma collect_null c s nh pos ws s' : collect c s nh pos ws = Ok (CNull, s') -> coll (qu s') = coll (qu s).
Proof.
  destruct ws as [|[e|p st si m] r]; cbn [collect]; [discriminate| |].
  - destruct (e =? EINTR); [discriminate|]. destruct nh; [discriminate|]. destruct (_ && _); [|discriminate]. intros E. inversion E; reflexivity.
  - destruct (p =? 0); [discriminate|]. destruct (p =? popen s); [discriminate|]. destruct (pid2tcb _ _) as [t f]. intros E. exfalso. destruct f as [i|]; cbn [rbind] in E.
    + destruct (classify _ _ _ _ _) as [wd cl]. destruct (extra _); [discriminate|eapply collect_more; exact E].
    + destruct (maybe_allocate_tcb _ _ _ _) as [[[i|] s1]| |]; cbn [rbind] in E; try discriminate; [|eapply collect_more; exact E]. destruct (classify _ _ _ _ _) as [wd cl]. destruct (extra _); [discriminate|eapply collect_more; exact E].
Qed.
Lemma queued_nil s : queued s = [] -> pending (qu s) = [] /\ extra (qu s) = None.
Proof. unfold queued. destruct (pending (qu s)); [|discriminate]. destruct (extra (qu s)) as [[? ?]|]; [discriminate|auto]. Qed.
Lemma next_event_core c s n w s' : core s -> kept s -> held s -> next_event c s n = Ok (w, s') ->
  core s' /\ kept s' /\ next_ok c s n w s' /\
  (forall wd, w = Some wd -> busy wd = true -> exists i, current (lg s') = Some i /\ P s' i <> 0 /\ ~ In i (pending (qu s'))).
Proof.
  intros K KE H E.
  assert (HANDED : forall s1 w s2, qsame s s1 -> tb s1 = tb s -> running s n = true -> core s2 -> handed s1 s2 w -> queued s <> [] -> core s2 /\ kept s2 /\ next_ok c s n w s2 /\ (forall wd, w = Some wd -> busy wd = true -> exists i, current (lg s2) = Some i /\ P s2 i <> 0 /\ ~ In i (pending (qu s2)))).
  { intros s1 w0 s2 Q T R K2 (i & wd & A1 & A2 & A3 & A4 & A5 & A6 & A7 & A8 & A9) NE. pose proof (qsame_queued _ _ Q) as QQ. split; [exact K2|]. split; [|split].
    - unfold kept in *. rewrite A6, A7, (qs_coll _ _ Q), KE, (qs_disp _ _ Q), <- app_assoc. cbn [app]. rewrite <- A5, QQ. reflexivity.
    - unfold next_ok. destruct (queued s) as [|x r] eqn:QS; [congruence|]. rewrite R. exists i, wd. rewrite (qs_disp _ _ Q) in A6. rewrite (qs_coll _ _ Q) in A7.
      split; [exact A1|]. split; [exact A2|]. split; [exact A3|]. split; [exact A4|]. split; [congruence|]. split; [exact A6|]. split; [exact A7|]. split; [congruence|]. eapply gk_trans; [exact (qs_gk _ _ Q)|exact A9].
    - intros wd' X _. exists i. auto. }
  assert (QUIET : forall w s2, mild s s2 -> (queued s <> [] -> running s n = false /\ w = None) -> w = None -> core s2 /\ kept s2 /\ next_ok c s n w s2 /\ (forall wd, w = Some wd -> busy wd = true -> exists i, current (lg s2) = Some i /\ P s2 i <> 0 /\ ~ In i (pending (qu s2)))).
  { intros w0 s2 M R B. destruct (mild_core _ _ K M) as (K2 & Q2 & T2). split; [exact K2|]. split; [exact (qsame_kept _ _ Q2 KE)|]. split.
    - unfold next_ok. destruct (queued s) as [|x r] eqn:QS; [|destruct (R ltac:(discriminate)) as [-> ->]; auto]. split; [intros k _; unfold P; rewrite T2; destruct M as (_ & [M _] & _); rewrite M; auto|].
      exists [], []. rewrite app_nil_r. split; [apply (qs_coll _ _ Q2)|]. split; [auto|]. split; [constructor|]. split; [intros p; rewrite (traced_tb _ _ T2); cbn; tauto|]. left. split; [reflexivity|apply (qs_disp _ _ Q2)].
    - intros wd X Y. congruence. }
  unfold next_event in E. cbv zeta in E. set (s1 := if n_intr n =? 0 then s else set_intr s (n_intr n)) in *.
  assert (M1 : mild s s1) by (unfold s1; destruct (n_intr n =? 0); [apply mild_refl|apply mild_glob]). destruct (mild_core _ _ K M1) as (K1 & Q1 & T1).
  assert (I1 : negb (intr s1 =? 0) = negb ((n_intr n =? 0) && (intr s =? 0))) by (unfold s1; destruct (n_intr n =? 0) eqn:X; cbn; [reflexivity|rewrite X; reflexivity]).
  assert (LI : limit s1 = limit s) by (unfold s1; destruct (n_intr n =? 0); reflexivity). assert (PO1 : popen s1 = popen s) by (unfold s1; destruct (n_intr n =? 0); reflexivity).
  destruct (negb (intr s1 =? 0)) eqn:II.
  { inversion E; subst w s'. apply QUIET; [exact M1| |auto]. intros _. split; [|reflexivity]. unfold running. symmetry in I1. apply negb_true_iff in I1. rewrite I1. reflexivity. }
  symmetry in I1. apply negb_false_iff in I1. rewrite LI in E. destruct (limit s =? 0)%Z eqn:LL.
  { inversion E; subst w s'. apply QUIET; [eapply mild_trans; [exact M1|apply mild_glob]| |auto]. intros _. unfold running. rewrite I1, LL. auto. }
  assert (RU : running s n = true) by (unfold running; rewrite I1, LL; reflexivity). pose proof (qsame_queued _ _ Q1) as QQ.
  destruct (pending (qu s1)) as [|i r] eqn:PE.
  2:{ assert (NN : pending (qu s1) <> []) by congruence. destruct (get_tcp_core _ _ _ _ _ _ K1 (or_intror NN) E) as [K2 [HA|(X & _)]]; [|apply queued_nil in X as [X _]; congruence].
      apply (HANDED s1); auto. rewrite <- QQ. intros X. apply queued_nil in X as [X _]. congruence. }
  destruct (extra (qu s1)) as [[i idx]|] eqn:EX.
  { destruct (extra_core c s1 i idx (n_opterr n) (n_gname n) w s' K1 PE EX) as [K2 HA]; [|exact E|].
    - unfold held in H. rewrite <- (qs_extra _ _ Q1), EX in H. unfold P. rewrite T1. exact H.
    - apply (HANDED s1); auto. rewrite <- QQ. intros X. apply queued_nil in X as [_ X]. congruence. }
  assert (QE : queued s = []) by (rewrite <- QQ; unfold queued; rewrite PE, EX; reflexivity).
  destruct (negb (popen s1 =? 0) && (NP s1 =? 0)); [inversion E; subst w s'; apply QUIET; [exact M1|congruence|auto]|].
  apply rbind_ok in E as ([stop s2] & E2 & E).
  assert (M2 : mild s s2 /\ popen s2 = popen s).
  { destruct (armed (dl s1)); [|inversion E2; subst; auto]. apply rbind_ok in E2 as (s3 & E2 & E3). inversion E3; subst s3. destruct (n_timer n) as [[now es]|]; [|inversion E2; subst; auto]. split; [eapply mild_trans; [exact M1|]; eapply timer_mild; exact E2|]. rewrite <- PO1. eapply timer_popen; exact E2. }
  destruct M2 as [M2 PO2]. destruct (mild_core _ _ K M2) as (K2 & Q2 & T2).
  destruct stop; [inversion E; subst w s'; apply QUIET; [exact M2|congruence|auto]|].
  apply rbind_ok in E as ([r s3] & E3 & E). pose proof M2 as (_ & [G2 _] & _). destruct (queued_nil _ QE) as [PE0 EX0].
  assert (F2 : filling s2 0) by (constructor; [exact K2|exact (qsame_kept _ _ Q2 KE)|rewrite (qs_extra _ _ Q2); exact EX0|rewrite (qs_pend _ _ Q2), PE0; intros k []]).
  destruct (collect_core _ _ _ _ _ _ _ F2 E3) as (K3 & KE3 & X3 & D3 & O3 & new & hs & C3 & H3 & FA3 & N3).
  assert (OLD3 : forall k, P s k <> 0 -> P s3 k = P s k /\ gen (lg s3) k = gen (lg s) k).
  { intros k Hk. destruct (O3 k) as [A B]; [unfold P; rewrite T2; exact Hk|]. rewrite A, B, G2. unfold P. rewrite T2. auto. }
  assert (NEW3 : forall p, traced s3 p <-> traced s p \/ In p (map fst hs)) by (intros p; rewrite N3, (traced_tb _ _ T2); reflexivity).
  assert (HE3 : heard (c_follow c) (popen s) (traced s) [] (answers (n_waits n)) hs).
  { rewrite <- PO2. eapply heard_ext; [exact H3|apply traced_tb; exact T2|]. rewrite (qs_pend _ _ Q2), PE0. reflexivity. }
  rewrite (qs_disp _ _ Q2) in D3. rewrite (qs_coll _ _ Q2) in C3.
  assert (QN : queued s3 = new).
  { unfold kept in KE, KE3. rewrite QE, app_nil_r in KE. rewrite C3, D3, KE in KE3. apply app_inv_head in KE3. auto. }
  destruct r.
  - assert (NE : extra (qu s3) = None \/ pending (qu s3) <> []) by (destruct (extra (qu s3)) as [[k x]|] eqn:Y; [right; intros Z; pose proof (X3 k x Y) as B; rewrite Z in B; destruct B|auto]).
    destruct (get_tcp_core _ _ _ _ _ _ K3 NE E) as [K4 [(i & wd & A1 & A2 & A3 & A4 & A5 & A6 & A7 & A8 & A9)|(A1 & A2 & A3 & A4 & A5 & A6 & wd & A7 & A8)]].
    + split; [exact K4|]. split; [unfold kept in *; rewrite A6, A7, KE3, <- app_assoc, A5; reflexivity|]. split; [|intros wd' _ _; exists i; auto].
      unfold next_ok. rewrite QE. split; [intros k Hk; unfold P; rewrite A8; destruct A9 as [A9 _]; rewrite A9; apply OLD3; exact Hk|].
      exists new, hs. split; [congruence|]. split; [auto|]. split.
      * eapply Forall2_impl'; [|exact FA3]. intros x y [B1 (k & B2 & B3)]. split; [exact B1|]. exists k. destruct A9 as [A9 _]. unfold P. rewrite A8, A9. auto.
      * split; [intros p; rewrite (traced_tb _ _ A8); apply NEW3|]. right. exists (gen (lg s') i, wd). rewrite <- QN, A5. split; [reflexivity|]. split; [congruence|exact A1].
    + split; [exact K4|]. split; [unfold kept in *; rewrite A3, A4, KE3, A1, A2; reflexivity|]. split; [|intros wd' B C; congruence].
      unfold next_ok. rewrite QE. split; [intros k Hk; unfold P; rewrite A5; destruct A6 as [A6 _]; rewrite A6; apply OLD3; exact Hk|].
      exists new, hs. split; [congruence|]. split; [auto|]. split.
      * eapply Forall2_impl'; [|exact FA3]. intros x y [B1 (k & B2 & B3)]. split; [exact B1|]. exists k. destruct A6 as [A6 _]. unfold P. rewrite A5, A6. auto.
      * split; [intros p; rewrite (traced_tb _ _ A5); apply NEW3|]. left. split; [rewrite <- QN; exact A1|congruence].
  - inversion E; subst w s'. pose proof (collect_null _ _ _ _ _ _ E3) as CN. rewrite C3, (qs_coll _ _ Q2) in CN. assert (new = []) as -> by (apply (app_inv_head (coll (qu s))); rewrite app_nil_r; exact CN). split; [exact K3|]. split; [exact KE3|]. split; [|discriminate]. unfold next_ok. rewrite QE. split; [exact OLD3|]. exists [], hs. auto 10.
Qed.
