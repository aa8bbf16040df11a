(** Signals and exit codes over whole runs. *)
From Verif Require Import Base TimeModel WaitModel TcbModel TcbProofs LogModel LogProofs LoopModel LoopSpec LoopFrame LoopCore LoopQueue LoopReach LoopReq LoopDelay.
Local Open Scope N_scope.

(** ** Start *)
Record fresh (s : st) : Prop := {
  fr_reqs : reqs s = []; fr_intr : intr s = 0; fr_rfail : rfail s = false; fr_exit : exitc s = 0; fr_created : created (dl s) = false; fr_armed : armed (dl s) = false;
  fr_del : forall k, fl s k DELAYED = false; fr_disp : disp (qu s) = [] /\ coll (qu s) = [] }.
Lemma fresh_new s pid i s' : fresh s -> new_tcb s pid = Ok (i, s') -> fresh s' /\ child s' = child s.
Proof.
  intros [] E. unfold new_tcb in E. apply rbind_ok in E as ([t j] & E1 & E). inversion E; subst j s'; clear E. split; [|reflexivity]. constructor; try assumption. intros k. cbn. destruct (Nat.eqb k i); auto.
Qed.
Lemma fresh_attached c s i fs : ~ In DELAYED fs -> fresh s -> fresh (attached c s i fs) /\ child (attached c s i fs) = child s.
Proof.
  intros N F. unfold attached. cbv zeta. assert (SET : forall f s, f <> DELAYED -> fresh s -> fresh (setf s i f true) /\ child (setf s i f true) = child s).
  { clear. intros f s N []. split; [|reflexivity]. constructor; try assumption. intros k. cbn. destruct f; try contradiction; rewrite andb_false_r; auto. }
  destruct (SET ATTACHED s) as [F1 C1]; [discriminate|exact F|]. destruct (SET STARTUP _ ltac:(discriminate) F1) as [F2 C2]. rewrite C1 in C2. set (s2 := setf (setf s i ATTACHED true) i STARTUP true) in *. clearbody s2. clear F C1 F1.
  assert (F3 : fresh (fold_left (fun s f => setf s i f true) fs s2) /\ child (fold_left (fun s f => setf s i f true) fs s2) = child s).
  { revert s2 F2 C2. induction fs as [|f fs IH]; intros s2 F2 C2; cbn [fold_left]; [auto|]. destruct (SET f s2) as [F3 C3]; [intros ->; apply N; left; reflexivity|exact F2|]. apply IH; [intros X; apply N; right; exact X|exact F3|congruence]. }
  destruct F3 as [[] C3]. split; [constructor; assumption|exact C3].
Qed.
Lemma fresh_drop c s i s' : fresh s -> droptcb c s i = Ok s' -> fresh s' /\ child s' = child s.
Proof.
  intros F E. pose proof (aside_drop _ _ _ _ E) as A. destruct (as_clock _ _ A) as (_ & C1 & C2 & _). assert (X : forall k, fl s' k DELAYED = false).
  { intros k. destruct (drop_P _ _ _ _ E) as [_ D]. destruct (Nat.eq_dec k i) as [->|N]; [|rewrite D by exact N; apply (fr_del _ F)]. unfold droptcb in E. destruct (P s i =? 0); [inversion E; subst; apply (fr_del _ F)|]. apply rbind_ok in E as (s1 & E1 & E). inversion E; subst s'. cbn. rewrite Nat.eqb_refl. reflexivity. }
  assert (Q : disp (qu s') = disp (qu s) /\ coll (qu s') = coll (qu s)).
  { unfold droptcb in E. destruct (P s i =? 0); [inversion E; subst; auto|]. apply rbind_ok in E as (s1 & E1 & E). inversion E; subst s'. assert (L : logonly s s1) by (eapply pr_only; [|exact E1]; intros l l'; apply drop_gk). destruct L as [_ ->]. split; reflexivity. }
  split; [|apply (as_child _ _ A)]. constructor; [rewrite (as_reqs _ _ A)|rewrite (as_intr _ _ A)|rewrite (as_rfail _ _ A)|rewrite (as_exit _ _ A)|rewrite C1|rewrite C2|exact X|destruct Q as [-> ->]]; apply F.
Qed.
Lemma fresh_start c ch po li ps cmd ans s : startup c (st0 ch po li) ps cmd ans = Ok s -> fresh s /\ child s = match cmd with Some (p, _) => p | None => ch end.
Proof.
  intros E. unfold startup in E. apply rbind_ok in E as (s1 & E1 & E). apply rbind_ok in E as (s2 & E2 & E).
  assert (F0 : fresh (st0 ch po li) /\ child (st0 ch po li) = ch) by (split; [constructor; auto|reflexivity]).
  assert (F1 : fresh s1 /\ child s1 = ch).
  { destruct F0 as [F0 C0]. revert E1 F0 C0. generalize (st0 ch po li) as s0. clear. induction ps as [|p ps IH]; intros s0 E F C; cbn [alloc_pids] in E; [inversion E; subst; auto|]. apply rbind_ok in E as ([i s2] & E1 & E). destruct (fresh_new _ _ _ _ F E1) as [F2 C2]. eapply IH; [exact E|exact F2|congruence]. }
  assert (F2 : fresh s2 /\ child s2 = match cmd with Some (p, _) => p | None => ch end).
  { destruct cmd as [[p sec]|]; [|inversion E2; subst; exact F1]. destruct F1 as [F1 _]. unfold startup_child in E2. cbv zeta in E2. apply rbind_ok in E2 as ([i s3] & E2 & E3).
    assert (F1' : fresh (set_child s1 p)) by (destruct F1; constructor; assumption). destruct (fresh_new _ _ _ _ F1' E2) as [F3 C3]. destruct (fresh_attached c s3 i (SKIP_DETACH_ON_FIRST_EXEC :: HIDE_LOG :: (if c_seize c then [] else [IGNORE_ONE_SIGSTOP]))) as [F4 C4]; [destruct (c_seize c); cbn; intuition discriminate|exact F3|]. inversion E3; subst s2.
    destruct sec; [|split; [exact F4|rewrite C4, C3; reflexivity]]. split; [|change (child (attached c s3 i (SKIP_DETACH_ON_FIRST_EXEC :: HIDE_LOG :: (if c_seize c then [] else [IGNORE_ONE_SIGSTOP]))) = p); rewrite C4, C3; reflexivity]. set (s4 := attached c s3 i _) in *. clearbody s4. constructor; try apply F4. intros k. cbn. rewrite andb_false_r. apply F4. }
  clear -F2 E. destruct F2 as [F2 C2]. unfold startup_attach in E. revert E F2 C2. generalize (seq 0 (length (pids (tb s2)))). intros is. revert s2. induction is as [|i is IH]; intros s0 E F C; cbn [attach_from] in E; [inversion E; subst; auto|].
  apply rbind_ok in E as (s1 & E1 & E). destruct (_ || _); [inversion E1; subst; eapply IH; eassumption|].
  assert (F1 : fresh s1 /\ child s1 = child s0).
  { unfold attach_tcb in E1. destruct (negb (fst (ans i))); [eapply fresh_drop; eassumption|]. cbv zeta in E1. set (fs := GRABBED :: _) in *. assert (ND : ~ In DELAYED fs) by (unfold fs; destruct (c_seize c); cbn; intuition discriminate). clearbody fs.
    destruct (fresh_attached c s0 i fs ND F) as [F1 C1]. rewrite <- C1. clear C1 F C IH E. revert E1 F1. generalize (attached c s0 i fs) as x. generalize (snd (ans i)) as tids. induction tids as [|t tids IH]; intros x E F; cbn [fold_left] in E; [inversion E; subst; auto|].
    cbn [rbind] in E. destruct (new_tcb x t) as [[j y]| |] eqn:N; cbn [rbind] in E.
    - destruct (fresh_new _ _ _ _ F N) as [F2 C2]. destruct (fresh_attached c y j fs ND F2) as [F3 C3]. destruct (IH _ E F3) as [F4 C4]. split; [exact F4|congruence].
    - exfalso. clear -E. induction tids as [|t tids IH]; cbn [fold_left rbind] in E; [discriminate|]. apply IH. exact E.
    - exfalso. clear -E. induction tids as [|t tids IH]; cbn [fold_left rbind] in E; [discriminate|]. apply IH. exact E. }
  destruct F1 as [F1 C1]. eapply IH; [exact E|exact F1|congruence].
Qed.

(** ** Events come from wait statuses *)
Definition classified (c : cfg) (wd : wdata) : Prop := exists ign siok msg, fst (classify c ign (wstatus wd) siok msg) = wd.
Definition all_classified (c : cfg) (s : st) : Prop := Forall (fun x => classified c (snd x)) (coll (qu s)).
Lemma classified_fate c wd : classified c wd -> fate (wstatus wd) = match te wd with TE_SIGNALLED => Some (256 + WTERMSIG (wstatus wd)) | TE_EXITED => Some (WEXITSTATUS (wstatus wd)) | _ => None end.
Proof.
  intros (ign & siok & msg & E). rewrite <- E at 2. unfold fate, classify. destruct (WIFSIGNALED (wstatus wd)); [reflexivity|]. destruct (WIFEXITED (wstatus wd)); [reflexivity|].
  repeat match goal with |- context [if ?b then _ else _] => destruct b end; reflexivity.
Qed.
Lemma collect_classified c ws : forall s nh pos r s', all_classified c s -> collect c s nh pos ws = Ok (r, s') -> all_classified c s'.
Proof.
  induction ws as [|w ws IH]; intros s nh pos r s' A E; cbn [collect] in E; [inversion E; subst; exact A|]. destruct w as [er|pid st si msg].
  - destruct (er =? EINTR); [inversion E; subst; exact A|]. destruct nh; [inversion E; subst; exact A|]. destruct (_ && _); [inversion E; subst; exact A|discriminate].
  - destruct (pid =? 0); [inversion E; subst; exact A|]. destruct (pid =? popen s); [inversion E; subst; destruct (WIFSTOPPED st); exact A|]. destruct (pid2tcb (tb s) (Z.of_N pid)) as [t found].
    apply rbind_ok in E as ([fo s2] & E1 & E). assert (A2 : all_classified c s2).
    { destruct found; [inversion E1; subst; exact A|]. unfold maybe_allocate_tcb in E1. destruct (negb _); [inversion E1; subst; destruct (_ && _); exact A|]. destruct (c_follow c); [|inversion E1; subst; exact A].
      apply rbind_ok in E1 as ([i s3] & E2 & E1). inversion E1; subst. unfold new_tcb in E2. apply rbind_ok in E2 as ([t' j] & _ & E2). inversion E2; subst. destruct (c_seize c); exact A. }
    destruct fo as [i|]; [|eapply IH; eassumption]. destruct (classify c (fl s2 i IGNORE_ONE_SIGSTOP) st si msg) as [wd cl] eqn:CL.
    set (s3 := if cl then _ else s2) in *. assert (A3 : all_classified c s3) by (unfold s3; destruct cl; exact A2).
    assert (A4 : all_classified c (enqueue s3 i pos wd)).
    { unfold all_classified, enqueue. cbn [qu with_qu]. destruct (existsb _ _); cbn [coll]; (apply Forall_app; split; [exact A3|constructor; [|constructor]]); exists (fl s2 i IGNORE_ONE_SIGSTOP), si, msg; cbn [snd]; pose proof (classify_status c (fl s2 i IGNORE_ONE_SIGSTOP) st si msg) as CS; rewrite CL in CS; cbn in CS; rewrite CS, CL; reflexivity. }
    destruct (extra _); [inversion E; subst; exact A4|]. eapply IH; eassumption.
Qed.
(** handing out an event *)
Definition hands (s : st) (w : option wdata) (s' : st) : Prop :=
  (disp (qu s') = disp (qu s) /\ (w = None \/ exists wd, w = Some wd /\ busy wd = false)) \/
  (exists i wd, w = Some wd /\ current (lg s') = Some i /\ disp (qu s') = disp (qu s) ++ [(gen (lg s') i, wd)]).
Lemma event_exit_hands c s i oe gn w s' : event_exit c s i oe gn = Ok (w, s') -> hands s w s' /\ coll (qu s') = coll (qu s).
Proof.
  intros E. unfold event_exit in E. apply rbind_ok in E as (s1 & E1 & E). assert (Q : disp (qu s1) = disp (qu s) /\ coll (qu s1) = coll (qu s)).
  { destruct (fl s i STARTUP); [|inversion E1; auto]. unfold startup_tcb in E1. cbv zeta in E1. destruct (_ && _); [discriminate|]. inversion E1; subst s1. clear. match goal with |- context [if ?b then _ else _] => destruct b end; split; reflexivity. }
  inversion E; subst w s'. split; [|apply Q]. right. exists i, (wtab (qu s1) (widx (qu s1) i)). split; [reflexivity|]. split; [reflexivity|]. cbn. rewrite (proj1 Q). reflexivity.
Qed.
Lemma get_tcp_hands c s oe gn w s' : get_tcp c s oe gn = Ok (w, s') -> hands s w s' /\ coll (qu s') = coll (qu s).
Proof.
  unfold get_tcp. cbv zeta. destruct (pending (qu s)) as [|i r]; [|intros E; apply event_exit_hands in E; exact E]. intros E. inversion E; subst w s'. split; [|reflexivity]. left. split; [reflexivity|]. right. eexists. split; [reflexivity|]. reflexivity.
Qed.
Lemma collect_disp c ws : forall s nh pos r s', collect c s nh pos ws = Ok (r, s') -> disp (qu s') = disp (qu s).
Proof.
  induction ws as [|w ws IH]; intros s nh pos r s' E; cbn [collect] in E; [inversion E; subst; reflexivity|]. destruct w as [er|pid st si msg].
  - destruct (er =? EINTR); [inversion E; subst; reflexivity|]. destruct nh; [inversion E; subst; reflexivity|]. destruct (_ && _); [inversion E; subst; reflexivity|discriminate].
  - destruct (pid =? 0); [inversion E; subst; reflexivity|]. destruct (pid =? popen s); [inversion E; subst; destruct (WIFSTOPPED st); reflexivity|]. destruct (pid2tcb (tb s) (Z.of_N pid)) as [t found].
    apply rbind_ok in E as ([fo s2] & E1 & E). assert (A2 : disp (qu s2) = disp (qu s)).
    { destruct found; [inversion E1; subst; reflexivity|]. unfold maybe_allocate_tcb in E1. destruct (negb _); [inversion E1; subst; destruct (_ && _); reflexivity|]. destruct (c_follow c); [|inversion E1; subst; reflexivity].
      apply rbind_ok in E1 as ([i s3] & E2 & E1). inversion E1; subst. unfold new_tcb in E2. apply rbind_ok in E2 as ([t' j] & _ & E2). inversion E2; subst. destruct (c_seize c); reflexivity. }
    rewrite <- A2. destruct fo as [i|]; [|eapply IH; eassumption]. destruct (classify c (fl s2 i IGNORE_ONE_SIGSTOP) st si msg) as [wd cl].
    set (s3 := if cl then _ else s2) in *. assert (A3 : disp (qu s3) = disp (qu s2)) by (unfold s3; destruct cl; reflexivity).
    assert (A4 : disp (qu (enqueue s3 i pos wd)) = disp (qu s2)) by (rewrite <- A3; unfold enqueue; cbn [qu with_qu]; destruct (existsb _ _); reflexivity). rewrite <- A4.
    destruct (extra _); [inversion E; subst; reflexivity|]. eapply IH; eassumption.
Qed.
Lemma next_hands c s n w s' : next_event c s n = Ok (w, s') -> hands s w s' /\ (all_classified c s -> all_classified c s').
Proof.
  intros E. unfold next_event in E. set (s0 := if n_intr n =? 0 then s else set_intr s (n_intr n)) in *. assert (Q : qu s0 = qu s) by (unfold s0; destruct (n_intr n =? 0); reflexivity).
  assert (X : hands s0 w s' /\ (all_classified c s0 -> all_classified c s') -> hands s w s' /\ (all_classified c s -> all_classified c s')) by (unfold hands, all_classified; rewrite Q; auto). apply X. clear X Q. clearbody s0. clear s.
  assert (NONE : w = None -> disp (qu s') = disp (qu s0) -> coll (qu s') = coll (qu s0) -> hands s0 w s' /\ (all_classified c s0 -> all_classified c s')) by (intros -> D C; split; [left; auto|unfold all_classified; rewrite C; auto]).
  assert (GOT : forall s1, disp (qu s1) = disp (qu s0) -> (all_classified c s0 -> all_classified c s1) -> hands s1 w s' /\ coll (qu s') = coll (qu s1) -> hands s0 w s' /\ (all_classified c s0 -> all_classified c s')).
  { intros s1 D C [H1 H2]. split; [unfold hands in *; rewrite <- D; exact H1|]. intros A. unfold all_classified in *. rewrite H2. auto. }
  destruct (negb _); [inversion E; subst; apply NONE; reflexivity|]. destruct (_ =? 0)%Z; [inversion E; subst; apply NONE; reflexivity|].
  destruct (pending (qu s0)) as [|i0 r0] eqn:PE; [|eapply GOT; [reflexivity|auto|eapply get_tcp_hands; exact E]].
  destruct (extra (qu s0)) as [[i idx]|]; [apply event_exit_hands in E; eapply (GOT (with_qu s0 _)); [reflexivity|auto|exact E]|]. destruct (_ && _); [inversion E; subst; apply NONE; reflexivity|].
  apply rbind_ok in E as ([stop s1] & E1 & E). assert (Q1 : qu s1 = qu s0).
  { destruct (armed (dl s0)); [|inversion E1; reflexivity]. apply rbind_ok in E1 as (s2 & E1 & E2). inversion E2; subst. destruct (n_timer n) as [[now es]|]; [|inversion E1; reflexivity]. apply timer_mild in E1 as (_ & _ & _ & _ & Q). exact Q. }
  destruct stop; [inversion E; subst; apply NONE; rewrite ?Q1; reflexivity|]. apply rbind_ok in E as ([r s2] & E2 & E). pose proof (collect_disp _ _ _ _ _ _ _ E2) as D. rewrite Q1 in D. destruct r.
  - eapply GOT; [exact D| |eapply get_tcp_hands; exact E]. intros A. eapply collect_classified; [|exact E2]. unfold all_classified. rewrite Q1. exact A.
  - inversion E; subst. apply collect_null in E2. apply NONE; [reflexivity|exact D|rewrite E2, Q1; reflexivity].
Qed.

(** ** Signals *)
Lemma passed_app g l l' : passed g (l ++ l') = passed g l ++ passed g l'.
Proof. unfold passed. rewrite filter_app, map_app, filter_app. reflexivity. Qed.
Lemma stopped_app c g l l' : stopped_by c g (l ++ l') = stopped_by c g l ++ stopped_by c g l'.
Proof. unfold stopped_by. rewrite of_app, map_app, filter_app. reflexivity. Qed.
Lemma passed_zero g l : (forall r, In r l -> r_sig r = 0) -> passed g l = [].
Proof.
  unfold passed. induction l as [|r l IH]; intros H; [reflexivity|]. cbn. destruct (_ && _); cbn; [rewrite (H r (or_introl eq_refl)); cbn|]; apply IH; intros x X; apply H; right; exact X.
Qed.
(** waiting asks for no signal *)
Lemma next_passed c s n w s' : tinv (tb s) -> next_event c s n = Ok (w, s') -> (forall g, passed g (reqs s') = passed g (reqs s)) /\ (intr s' = 0 -> intr s = 0) /\ tinv (tb s') /\ (n_intr n = 0 \/ intr s' <> 0).
Proof.
  intros T E. destruct (next_idle _ _ _ _ _ T E) as [I|(now & es & s1 & NI & I0 & _ & _ & _ & R & I & _)].
  - rewrite (id_reqs _ _ I), (id_intr _ _ I). destruct (N.eqb_spec (n_intr n) 0) as [Z|Z]; (split; [reflexivity|]; split; [|split; [apply (id_tinv _ _ I)|]]); auto. intros X. cbn in X. congruence.
  - rewrite (id_reqs _ _ I). destruct R as (_ & _ & _ & _ & _ & _ & _ & _ & _ & _ & _ & _ & _ & _ & l & RQ & RL). rewrite RQ. split; [|split; [auto|split; [apply (id_tinv _ _ I)|auto]]].
    intros g. rewrite passed_app, (passed_zero g l), app_nil_r; [reflexivity|]. intros r H. destruct (RL r H) as (k & o & -> & _). reflexivity.
Qed.
(** the record of a turn *)
Lemma turn_signals c s ne b s' : core s -> kept s -> held s -> exec_alone c s ne -> c_detexec c = false -> turn c s ne = Ok (b, s') ->
  e_sig (snd ne) = 0 ->
  match next_event c s (fst ne) with Ok (Some wd, s1) => due c wd <> 0 -> forall i, current (lg s1) = Some i -> fl s1 i DELAYED = false | _ => True end ->
  (intr s' = 0 -> intr s = 0) /\
  (intr s' = 0 -> forall g, passed g (reqs s) = stopped_by c g (disp (qu s)) -> passed g (reqs s') = stopped_by c g (disp (qu s'))).
Proof.
  intros K KE H A DX E ES AW. destruct (turn_core _ _ _ _ _ K KE H A E) as (w & s1 & E1 & E2 & K1 & KE1 & N1 & K2 & KE2 & Q & _ & CUR). rewrite E1 in AW.
  destruct (next_passed _ _ _ _ _ (o_tab _ K) E1) as (P1 & I1 & _). destruct (next_hands _ _ _ _ _ E1) as [HA _].
  assert (SAME : s' = s1 -> (forall wd, w = Some wd -> busy wd = false) -> (intr s' = 0 -> intr s = 0) /\ (intr s' = 0 -> forall g, passed g (reqs s) = stopped_by c g (disp (qu s)) -> passed g (reqs s') = stopped_by c g (disp (qu s')))).
  { intros -> NB. split; [exact I1|]. intros _ g IH. rewrite P1, IH. destruct HA as [[D _]|(i & wd & -> & _ & D)]; rewrite D; [reflexivity|]. rewrite stopped_app. specialize (NB wd eq_refl). unfold stopped_by. cbn. destruct (Nat.eqb _ _); cbn; [|rewrite app_nil_r; reflexivity]. unfold due. unfold busy in NB. destruct (te wd); try discriminate; cbn; rewrite app_nil_r; reflexivity. }
  destruct w as [wd|]; [|cbn in E2; inversion E2; subst; apply SAME; [reflexivity|discriminate]].
  destruct (busy wd) eqn:BW; [|apply SAME; [unfold dispatch_event in E2; unfold busy in BW; destruct (te wd); try discriminate; inversion E2; reflexivity|intros ? X; inversion X; subst; exact BW]].
  clear SAME. destruct (CUR wd eq_refl BW) as (i & CU & Pi & _). destruct HA as [[_ [X|(? & X & Y)]]|(i' & wd' & X & CU' & D)]; [discriminate|congruence|]. inversion X; subst wd'. assert (i' = i) as -> by congruence. clear X CU'.
  assert (T1 : tinv (tb s1)) by apply (o_tab _ K1). pose proof (dispatch_reqs _ _ _ _ _ _ _ T1 E2 BW CU Pi (fun _ => DX)) as RQ. destruct (dispatch_delay _ _ _ _ _ _ _ T1 E2 BW CU Pi (fun _ => DX)) as (_ & _ & I2 & _ & PP & DD).
  split; [auto|]. intros I0 g IH. assert (DQ : disp (qu s') = disp (qu s1)) by apply (qs_disp _ _ Q). rewrite DQ, D, stopped_app, <- IH, <- P1.
  assert (SB : stopped_by c g [(gen (lg s1) i, wd)] = if Nat.eqb (gen (lg s1) i) g && negb (due c wd =? 0) then [due c wd] else []).
  { unfold stopped_by, of. cbn. destruct (Nat.eqb _ g); cbn; [|reflexivity]. destruct (due c wd =? 0); reflexivity. }
  rewrite SB. destruct (dies wd) eqn:DI.
  { rewrite RQ. unfold due. unfold dies in DI. destruct (te wd); try discriminate; cbn; rewrite andb_false_r, app_nil_r; reflexivity. }
  destruct RQ as (j & sig & J0 & SG & G). assert (J : te wd <> TE_STOP_BEFORE_EXECVE -> j = i) by (intros X; destruct (te wd); try exact J0; contradiction). assert (SG' : sig = due c wd).
  { destruct SG as [SG|[R SG]]; [exact SG|]. rewrite SG, ES. unfold due. unfold reads in R. destruct (te wd); try discriminate; reflexivity. }
  subst sig. assert (ZERO : due c wd = 0 -> reqs s' = reqs s1 -> passed g (reqs s') = passed g (reqs s1) ++ (if Nat.eqb (gen (lg s1) i) g && negb (due c wd =? 0) then [due c wd] else [])) by (intros Z R; rewrite R, Z; cbn; rewrite andb_false_r, app_nil_r; reflexivity).
  destruct G as [[(o & R & O & _)|[R X]]|(RD & _ & R)].
  - rewrite R, passed_app. f_equal. unfold passed. cbn. rewrite O, andb_true_r. destruct (N.eqb_spec (due c wd) 0) as [Z|Z].
    + rewrite andb_false_r. destruct (Nat.eqb (gen (lg s1) j) g); cbn; [rewrite Z|]; reflexivity.
    + assert (te wd <> TE_STOP_BEFORE_EXECVE) as NX by (intros TX; apply Z; unfold due; rewrite TX; reflexivity). rewrite (J NX). destruct (Nat.eqb _ _); cbn; [|reflexivity]. apply N.eqb_neq in Z. rewrite Z. reflexivity.
  - destruct X as [X|X]; [congruence|]. apply ZERO; [|exact R]. destruct (N.eq_dec (due c wd) 0) as [Z|Z]; [exact Z|exfalso].
    assert (te wd <> TE_STOP_BEFORE_EXECVE) as NX by (intros TX; apply Z; unfold due; rewrite TX; reflexivity). assert (reads wd = false) as NR by (unfold reads, due in *; destruct (te wd); try reflexivity; contradiction).
    rewrite (J NX) in X. destruct DD as [[_ DD]|(DD & _)]; [|congruence]. rewrite DD, (AW Z i CU) in X; [discriminate|]. rewrite (PP NX). exact Pi.
  - apply ZERO; [|exact R]. unfold due. unfold reads in RD. destruct (te wd); try discriminate; reflexivity.
Qed.
Lemma turns_signals c l : forall s b s', core s -> kept s -> fair c s l -> awake c s l -> c_detexec c = false -> (forall ne, In ne l -> e_sig (snd ne) = 0) -> turns c s l = Ok (b, s') ->
  (intr s' = 0 -> intr s = 0) /\ (intr s' = 0 -> forall g, passed g (reqs s) = stopped_by c g (disp (qu s)) -> passed g (reqs s') = stopped_by c g (disp (qu s'))).
Proof.
  induction l as [|ne l IH]; intros s b s' K KE F AW DX ES E; cbn [turns] in E; [inversion E; subst; auto|]. apply rbind_ok in E as ([go s1] & E1 & E). destruct F as (H & A & F). destruct AW as [AW1 AW2].
  destruct (turn_signals _ _ _ _ _ K KE H A DX E1 (ES ne (or_introl eq_refl)) AW1) as [I1 P1]. destruct (turn_core _ _ _ _ _ K KE H A E1) as (w & s0 & _ & _ & _ & _ & _ & K1 & KE1 & _). rewrite E1 in F, AW2.
  destruct go; [|inversion E; subst; auto]. destruct (IH _ _ _ K1 KE1 F AW2 DX (fun x X => ES x (or_intror X)) E) as [I2 P2]. auto.
Qed.

(** ** Exit code *)
Lemma dispatch_exit c s i wd e b s' : tinv (tb s) -> dispatch_event c s (Some wd) e = Ok (b, s') -> busy wd = true -> current (lg s) = Some i -> P s i <> 0 -> (te wd = TE_STOP_BEFORE_EXECVE -> c_detexec c = false) ->
  if dies wd && (P s i =? child s) then child s' = 0 /\ exitc s' = match te wd with TE_EXITED => WEXITSTATUS (wstatus wd) | _ => N.lor 0x100 (WTERMSIG (wstatus wd)) end
  else child s' = child s /\ (exitc s' = exitc s \/ (exitc s' = 1 /\ b = false /\ ~ works e)).
Proof.
  intros TI E B CU Pi DX. unfold dispatch_event in E. rewrite CU in E.
  assert (R : forall s1 j o sig, child s1 = child s -> exitc s1 = exitc s -> is_restart o = true -> resume s1 j wd o sig e = Ok (b, s') -> child s' = child s /\ (exitc s' = exitc s \/ (exitc s' = 1 /\ b = false /\ ~ works e))).
  { intros s1 j o sig A1 A2 OP E1. apply resume_goes in E1 as (_ & _ & _ & _ & C & _ & X & _); [|exact OP]. split; [congruence|]. destruct X as [X|(X & Y & Z & W)]; [left; congruence|right]. split; [exact X|]. split; [exact Y|]. intros [V|V]; contradiction. }
  assert (OPR : forall s0 j, is_restart (if fl s0 j SECCOMP_FILTER then seccomp_op s0 j e else OP_SYSCALL) = true) by (intros s0 j; destruct (fl s0 j SECCOMP_FILTER); [apply seccomp_restart|reflexivity]).
  assert (SYS : rbind (trace_syscall c s i false e) (fun x => let '(r, sig, s0) := x in if (r <? 0)%Z then Ok (true, s0) else resume s0 i wd (if fl s0 i SECCOMP_FILTER then if fl s0 i INSYSCALL then OP_SYSCALL else OP_CONT else (if fl s i SECCOMP_FILTER then seccomp_op s i e else OP_SYSCALL)) sig e) = Ok (b, s') -> child s' = child s /\ (exitc s' = exitc s \/ (exitc s' = 1 /\ b = false /\ ~ works e))).
  { clear E. intros E. apply rbind_ok in E as ([[r sg] s1] & E1 & E). apply trace_syscall_frame in E1 as T. destruct (r <? 0)%Z; [inversion E; subst; split; [apply T|left; apply T]|]. eapply R; [apply T|apply T| |exact E]. repeat destruct (fl _ _ _); auto using seccomp_restart. }
  unfold dies. destruct (te wd) eqn:TE; try discriminate; try (unfold busy in B; rewrite TE in B; discriminate); cbn [andb].
  - eapply (R s); [reflexivity|reflexivity|apply OPR|exact E].
  - apply SYS; exact E.
  - apply rbind_ok in E as (s1 & E1 & E). pose proof (aside_stopped _ _ _ _ _ _ E1) as A. eapply (R s1); [apply A|apply A|apply OPR|exact E].
  - apply rbind_ok in E as (s1 & E1 & E). apply rbind_ok in E as (s2 & E2 & E). inversion E; subst b s2. pose proof (aside_drop _ _ _ _ E2) as A. rewrite (as_child _ _ A), (as_exit _ _ A). unfold print_signalled in E1. cbv zeta in E1.
    destruct (P s i =? child s); (destruct (_ && _); [apply message_only in E1 as [_ ->]|inversion E1; subst s1]); cbn; auto.
  - apply rbind_ok in E as (s1 & E1 & E). pose proof (aside_stopped _ _ _ _ _ _ E1) as A. destruct (c_seize c); (eapply (R s1); [apply A|apply A| |exact E]; [reflexivity || apply OPR]).
  - apply rbind_ok in E as (s1 & E1 & E). apply rbind_ok in E as (s2 & E2 & E). inversion E; subst b s2. pose proof (aside_drop _ _ _ _ E2) as A. rewrite (as_child _ _ A), (as_exit _ _ A). unfold print_exited in E1. cbv zeta in E1.
    destruct (P s i =? child s); (destruct (_ && _); [apply message_only in E1 as [_ ->]|inversion E1; subst s1]); cbn; auto.
  - set (s1 := setf s i CHECK_EXEC_SYSCALL false) in *. assert (A1 : aside s s1) by (apply aside_setf; discriminate). apply rbind_ok in E as ([sw s2] & E1 & E).
    destruct (aside_switch c s1 i sw s2 TI E1 CU Pi) as (A2 & j & C2 & P2 & _). rewrite C2 in E. pose proof (aside_trans _ _ _ A1 A2) as A3. apply rbind_ok in E as ([[bad sg] s3] & E2 & E). rewrite DX in E by reflexivity.
    assert (T : child s3 = child s2 /\ exitc s3 = exitc s2).
    { destruct (match sw with None => _ | Some _ => _ end); [|inv_ok E2; auto]. apply rbind_ok in E2 as ([[r sg1] s4] & E2 & E3). inv_ok E3. apply trace_syscall_frame in E2 as T. split; apply T. }
    destruct T as [T1 T2]. rewrite (as_child _ _ A3) in T1. rewrite (as_exit _ _ A3) in T2. destruct bad; [inv_ok E; auto|]. eapply (R s3); [exact T1|exact T2|apply OPR|exact E].
  - apply rbind_ok in E as (s1 & E1 & E). pose proof (aside_exit_event _ _ _ _ E1) as A. eapply (R s1); [apply A|apply A|apply OPR|exact E].
  - destruct (negb (fl s i SECCOMP_FILTER)); [refine (R (setf s i SECCOMP_FILTER true) i OP_SYSCALL 0 eq_refl eq_refl eq_refl E)|]. destruct (c_secbefore c); [refine (R s i OP_SYSCALL 0 eq_refl eq_refl eq_refl E)|apply SYS; exact E].
Qed.
Lemma timer_exit c s now es s' : (forall k, works (es k)) -> timer_sighandler c s now es = Ok s' -> exitc s' = exitc s.
Proof.
  intros W. assert (L : forall is nx s0 ok s1, restart_delayed_from c s0 now is nx es = Ok (ok, s1) -> exitc s1 = exitc s0).
  { clear s s'. induction is as [|i is IH]; intros nx s0 ok s1 E; cbn [restart_delayed_from] in E; [inversion E; destruct nx; reflexivity|]. destruct (_ && _); [|eapply IH; exact E]. destruct (_ <? _)%Z; [|eapply IH; exact E].
    apply rbind_ok in E as ([ok1 s2] & E1 & E). assert (X : exitc s2 = exitc s0); [|rewrite <- X; destruct ok1; [eapply IH; exact E|inversion E; reflexivity]].
    unfold restart_delayed_tcb in E1. cbv zeta in E1. apply rbind_ok in E1 as ([ok2 s3] & E2 & E1). inversion E1; subst ok2 s2. cbn [dispatch_event te current lg with_lg set_current] in E2.
    match type of E2 with resume _ _ _ ?o _ _ = _ => assert (OP : is_restart o = true) by (match goal with |- is_restart (if ?b then _ else _) = true => destruct b end; auto using seccomp_restart) end.
    apply resume_goes in E2 as (_ & _ & _ & _ & _ & _ & X & _); [|exact OP]. destruct X as [X|(_ & _ & Y & Z)]; [exact X|]. destruct (W i) as [V|V]; contradiction. }
  unfold timer_sighandler. cbv zeta. set (s0 := with_dl s _). destruct (rfail s0); [intros E; inversion E; reflexivity|]. intros E. apply rbind_ok in E as ([ok s1] & E1 & E). apply L in E1. destruct ok; inversion E; subst s'; exact E1.
Qed.
(** the command has not ended, or it has and its code is kept *)
Definition code_ok (p : N) (x : option N) (s : st) : Prop :=
  match x with None => exitc s = 0 /\ child s = p | Some y => exitc s = y /\ child s = 0 end.
Lemma next_child c s n w s' : tinv (tb s) -> c_detexec c = false -> next_event c s n = Ok (w, s') -> (child s' = child s \/ (child s' = 0 /\ w = None)).
Proof.
  intros T DX E. unfold next_event in E. set (s0 := if n_intr n =? 0 then s else set_intr s (n_intr n)) in *. assert (C0 : child s0 = child s) by (unfold s0; destruct (n_intr n =? 0); reflexivity). rewrite <- C0. clearbody s0. clear C0 T s.
  assert (EE : forall s1 i x y, event_exit c s1 i x y = Ok (w, s') -> child s' = child s1).
  { clear. intros s1 i x y E. unfold event_exit in E. apply rbind_ok in E as (s2 & E1 & E). inversion E; subst. cbn. destruct (fl s1 i STARTUP); [|inversion E1; reflexivity]. unfold startup_tcb in E1. cbv zeta in E1. destruct (_ && _); [discriminate|]. inversion E1; subst s2. clear. match goal with |- context [if ?b then _ else _] => destruct b end; reflexivity. }
  assert (GT : forall s1 x y, get_tcp c s1 x y = Ok (w, s') -> child s' = child s1).
  { intros s1 x y X. unfold get_tcp in X. cbv zeta in X. destruct (pending (qu s1)); [inversion X; reflexivity|]. apply EE in X. exact X. }
  destruct (negb _); [inversion E; auto|]. destruct (_ =? 0)%Z; [inversion E; auto|]. left.
  destruct (pending (qu s0)); [|eapply GT; exact E]. destruct (extra (qu s0)) as [[i idx]|]; [apply EE in E; exact E|]. destruct (_ && _); [inversion E; reflexivity|].
  apply rbind_ok in E as ([stop s1] & E1 & E). assert (C1 : child s1 = child s0).
  { destruct (armed (dl s0)); [|inversion E1; reflexivity]. apply rbind_ok in E1 as (s2 & E1 & E2). inversion E2; subst. destruct (n_timer n) as [[now es]|]; [|inversion E1; reflexivity]. apply timer_rung in E1 as (_ & _ & _ & _ & C & _). exact C. }
  rewrite <- C1. destruct stop; [inversion E; reflexivity|]. apply rbind_ok in E as ([r s2] & E2 & E). assert (C2 : child s2 = child s1).
  { revert E2. generalize (n_waits n) as ws, false as nh, 0%nat as pos, s1 as x. clear -DX. induction ws as [|[er|pid st si msg] ws IH]; intros nh pos s E; cbn [collect] in E; [inversion E; reflexivity| |].
    - destruct (er =? EINTR); [inversion E; reflexivity|]. destruct nh; [inversion E; reflexivity|]. destruct (_ && _); [inversion E; reflexivity|discriminate].
    - destruct (pid =? 0); [inversion E; reflexivity|]. destruct (pid =? popen s); [inversion E; destruct (WIFSTOPPED st); reflexivity|]. destruct (pid2tcb (tb s) (Z.of_N pid)) as [t found].
      apply rbind_ok in E as ([fo s3] & E1 & E). assert (A2 : child s3 = child s).
      { destruct found; [inversion E1; reflexivity|]. unfold maybe_allocate_tcb in E1. rewrite DX in E1. destruct (negb _); [inversion E1; reflexivity|]. destruct (c_follow c); [|inversion E1; reflexivity].
        apply rbind_ok in E1 as ([i s4] & E2 & E1). inversion E1; subst. unfold new_tcb in E2. apply rbind_ok in E2 as ([t' j] & _ & E2). inversion E2; subst. destruct (c_seize c); reflexivity. }
      rewrite <- A2. destruct fo as [i|]; [|eapply IH; exact E]. destruct (classify _ _ _ _ _) as [wd cl]. set (s4 := if cl then _ else s3) in *. assert (A4 : child (enqueue s4 i pos wd) = child s3) by (unfold s4; destruct cl; reflexivity). rewrite <- A4. destruct (extra _); [inversion E; reflexivity|]. eapply IH; exact E. }
  rewrite <- C2. destruct r; [eapply GT; exact E|inversion E; reflexivity].
Qed.
Lemma next_exit c s ne w s' : tinv (tb s) -> no_failure ne -> next_event c s (fst ne) = Ok (w, s') -> exitc s' = exitc s.
Proof.
  intros T [_ NF] E. destruct (next_idle _ _ _ _ _ T E) as [I|(now & es & s1 & _ & _ & _ & NT & _ & _ & I & _ & TS)]; rewrite (id_exit _ _ I); [destruct (_ =? 0); reflexivity|]. rewrite NT in NF. eapply timer_exit; eassumption.
Qed.
Lemma lor_termsig st : N.lor 0x100 (WTERMSIG st) = 256 + WTERMSIG st.
Proof.
  unfold WTERMSIG. change 0x7f with (N.ones 7). rewrite (N.land_ones st 7). pose proof (N.mod_lt st (2^7) ltac:(lia)) as L. set (x := st mod 2^7) in *. rewrite N.add_nocarry_lxor; [rewrite N.lxor_lor; [reflexivity|]|];
  (apply N.bits_inj_0; intros k; rewrite N.land_spec; destruct (N.lt_ge_cases k 8) as [K|K]; [change 256 with (2^8); rewrite N.pow2_bits_false by lia; reflexivity|]; rewrite andb_comm; rewrite N.bits_above_log2; [reflexivity|]; destruct (N.eq_dec x 0) as [->|X]; [cbn; lia|]; apply N.log2_lt_pow2; [lia|]; eapply N.lt_le_trans; [exact L|]; apply N.pow_le_mono_r; lia).
Qed.
Lemma turns_code c p l : p <> 0 -> forall s b s' x, core s -> kept s -> fair c s l -> c_detexec c = false -> all_classified c s -> (forall ne, In ne l -> no_failure ne) -> code_ok p x s -> turns c s l = Ok (b, s') ->
  exitc s' = match (match x with Some y => Some y | None => command_end c p s l end) with Some y => y | None => 0 end.
Proof.
  intros PZ. induction l as [|ne l IH]; intros s b s' x K KE F DX AC NF CO E; cbn [turns] in E.
  { inversion E; subst. cbn. destruct x; apply CO. }
  apply rbind_ok in E as ([go s2] & E1 & E). destruct F as (H & A & F). destruct (turn_core _ _ _ _ _ K KE H A E1) as (w & s1 & N1 & D1 & K1 & KE1 & _ & K2 & KE2 & Q & _ & CUR). rewrite E1 in F. cbn [command_end]. rewrite N1, E1.
  pose proof (NF ne (or_introl eq_refl)) as NF1. pose proof (next_exit _ _ _ _ _ (o_tab _ K) NF1 N1) as X1. pose proof (next_child _ _ _ _ _ (o_tab _ K) DX N1) as C1. destruct (next_hands _ _ _ _ _ N1) as [HA AC1]. specialize (AC1 AC).
  assert (AC2 : all_classified c s2) by (unfold all_classified; rewrite (qs_coll _ _ Q); exact AC1).
  assert (REST : forall y, code_ok p y s2 -> (go = false -> command_end c p s2 l = None \/ y <> None \/ True) -> exitc s' = match (match y with Some z => Some z | None => if go then command_end c p s2 l else None end) with Some z => z | None => 0 end).
  { intros y CO2 _. destruct go; [eapply IH; try eassumption; intros z Z; apply NF; right; exact Z|]. inversion E; subst. destruct y; apply CO2. }
  destruct w as [wd|].
  2:{ cbn in D1. inversion D1; subst go s2. inversion E; subst s'. rewrite X1. destruct x; apply CO. }
  destruct C1 as [C1|[_ C1]]; [|discriminate]. assert (CO1 : code_ok p x s1) by (unfold code_ok in *; rewrite X1, C1; exact CO).
  destruct (busy wd) eqn:BW.
  2:{ assert (s2 = s1 /\ go = negb (match te wd with TE_BREAK => true | _ => false end)) as [-> G] by (unfold dispatch_event in D1; unfold busy in BW; destruct (te wd); try discriminate; inversion D1; auto). cbn [andb].
      replace (match current (lg s1) with Some i => false | None => false end) with false by (destruct (current _); reflexivity). rewrite (REST x CO1) by auto. destruct x; [reflexivity|]. destruct go; reflexivity. }
  destruct (CUR wd eq_refl BW) as (i & CU & Pi & _). rewrite CU. cbn [andb]. pose proof (dispatch_exit _ _ _ _ _ _ _ (o_tab _ K1) D1 BW CU Pi (fun _ => DX)) as DE.
  assert (CW : classified c wd).
  { destruct HA as [[_ [X|(? & X & Y)]]|(j & wd' & X & _ & D)]; [discriminate|congruence|]. inversion X; subst wd'. unfold all_classified in AC1. rewrite KE1, D in AC1. apply Forall_app in AC1 as [AC1 _]. apply Forall_app in AC1 as [_ AC1]. inversion AC1; assumption. }
  pose proof (classified_fate _ _ CW) as FT. destruct x as [y|].
  - cbn in CO1. destruct CO1 as [Y1 Y2]. rewrite Y2 in DE. apply N.eqb_neq in Pi as Pi'. rewrite Pi', andb_false_r in DE. destruct DE as [D2 D3]. rewrite (REST (Some y)); [reflexivity| |auto]. split; [|exact D2]. destruct D3 as [D3|(_ & _ & D3)]; [congruence|]. destruct NF1 as [NF1 _]. contradiction.
  - cbn in CO1. destruct CO1 as [Y1 Y2]. rewrite Y2 in DE. destruct (P s1 i =? p).
    + rewrite FT. unfold dies in DE. destruct (te wd) eqn:TE; cbn [andb] in DE; destruct DE as [D2 D3].
      all: try (rewrite (REST None); [destruct go; reflexivity| |auto]; split; [|exact D2]; destruct D3 as [D3|(_ & _ & D3)]; [congruence|]; destruct NF1 as [NF1 _]; contradiction).
      * rewrite (REST (Some (256 + WTERMSIG (wstatus wd)))); [reflexivity| |auto]. split; [rewrite D3; apply lor_termsig|exact D2].
      * rewrite (REST (Some (WEXITSTATUS (wstatus wd)))); [reflexivity| |auto]. split; [exact D3|exact D2].
    + rewrite andb_false_r in DE. destruct DE as [D2 D3]. rewrite (REST None); [destruct go; reflexivity| |auto]. split; [|exact D2]. destruct D3 as [D3|(_ & _ & D3)]; [congruence|]. destruct NF1 as [NF1 _]. contradiction.
Qed.
