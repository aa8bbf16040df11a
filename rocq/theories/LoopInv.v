(** The event loop on a shared log without status filtering keeps the table of tracees, the log
    and the queue in order (used for C21, C23, C24). *)
From Verif Require Import Base TimeModel WaitModel TcbModel TcbProofs LogModel LogSpec LogProofs LoopModel.
Local Open Scope N_scope.

(** the result of a function that may end strace but must not go wrong *)
Definition safe {A} (r : res A) (Q : A -> Prop) : Prop := match r with Ok a => Q a | Die => True | Undef => False end.
Lemma safe_bind {A B} (x : res A) (f : A -> res B) (Q : A -> Prop) (R : B -> Prop) : safe x Q -> (forall a, Q a -> safe (f a) R) -> safe (rbind x f) R.
Proof. destruct x; cbn; auto. Qed.
Lemma safe_mono {A} (x : res A) (Q R : A -> Prop) : safe x Q -> (forall a, Q a -> R a) -> safe x R.
Proof. destruct x; cbn; auto. Qed.

Lemma frame_line_ended l : frame l (line_ended l).
Proof. unfold line_ended. destruct (current l) as [i|]; cbn; destruct (printing l) as [j|]; repeat split. Qed.

Ltac conj := repeat match goal with |- _ /\ _ => split end.

Section Inv.
Variable c : cfg.
Hypothesis NOFF : c_ff (lc c) = false.
Hypothesis ALL : c_all (lc c) = true.

(** [X]: tcbs about to be told to reprint *)
Record sinvx (X : nat -> Prop) (s : st) (a : reader) : Prop := {
  i_log : linv (P s) (lg s) a;
  i_tab : tinv (tb s);
  i_live : forall i, P s i <> 0 -> live (lg s) i;
  i_dead : forall i, P s i = 0 -> outf (lg s) i = None;
  i_gens : gens_ok (lg s);
  i_gen : forall i, live (lg s) i -> (gen (lg s) i < ngen (lg s))%nat;
  i_show : c_stats c = false -> forall i, P s i <> 0 -> fl s i INSYSCALL = true -> fl s i FILTERED = false -> has (P s) (lg s) a i (sname s i);
  i_rep : ln a = Start -> forall j, printing (lg s) = Some j -> P s j <> 0 /\ (c_stats c = true \/ fl s j REPRINT = true \/ X j);
  i_start : forall i, P s i <> 0 -> fl s i STARTUP = true -> fl s i INSYSCALL = false;
  i_pend : forall i, In i (pending (qu s)) -> P s i <> 0 }.
Notation sinv := (sinvx (fun _ => False)).
Definition inv (s : st) : Prop := exists a, sinv s a.
(** [i] is the current tracee *)
Definition cur (s : st) (i : nat) : Prop := current (lg s) = Some i /\ P s i <> 0.

Lemma sinv_step X Y s s' a a' : sinvx X s a -> tb s' = tb s -> frame (lg s) (lg s') -> linv (P s) (lg s') a' ->
  (c_stats c = false -> forall k, P s k <> 0 -> fl s' k INSYSCALL = true -> fl s' k FILTERED = false -> has (P s) (lg s') a' k (sname s' k)) ->
  (ln a' = Start -> forall j, printing (lg s') = Some j -> P s j <> 0 /\ (c_stats c = true \/ fl s' j REPRINT = true \/ Y j)) ->
  (forall k, P s k <> 0 -> fl s' k STARTUP = true -> fl s' k INSYSCALL = false) ->
  (forall k, In k (pending (qu s')) -> P s k <> 0) -> sinvx Y s' a'.
Proof.
  intros [I1 I2 I3 I4 I5 I6 I7 I8 I9 I10] T (F1 & F2 & F3 & F4) L H1 H2 H3 H4. assert (EP : P s' = P s) by (unfold P; rewrite T; reflexivity).
  constructor; try rewrite EP; auto.
  - rewrite T. exact I2.
  - intros i Hi. unfold live. rewrite F1. apply I3. exact Hi.
  - intros i Hi. rewrite F1. apply I4. exact Hi.
  - unfold gens_ok, live. rewrite F1, F3. exact I5.
  - unfold live. rewrite F1, F3, F4. exact I6.
Qed.
Lemma sinv_same s s' a : sinv s a -> tb s' = tb s -> lg s' = lg s ->
  (c_stats c = false -> forall k, P s k <> 0 -> fl s' k INSYSCALL = true -> fl s' k FILTERED = false -> has (P s) (lg s) a k (sname s' k)) ->
  (ln a = Start -> forall j, printing (lg s) = Some j -> P s j <> 0 /\ (c_stats c = true \/ fl s' j REPRINT = true \/ False)) ->
  (forall k, P s k <> 0 -> fl s' k STARTUP = true -> fl s' k INSYSCALL = false) ->
  (forall k, In k (pending (qu s')) -> P s k <> 0) -> sinv s' a.
Proof. intros I T L H1 H2 H3 H4. eapply (sinv_step _ _ s s' a a I T); try rewrite L; auto; [apply frame_refl|apply (i_log _ _ _ I)]. Qed.

(** flags the invariant does not mention *)
Definition plain_flag (f : flag) : bool := negb (flag_eqb f INSYSCALL || flag_eqb f FILTERED || flag_eqb f REPRINT || flag_eqb f STARTUP).
Lemma fl_setf_other s i f b k g : flag_eqb g f = false -> fl (setf s i f b) k g = fl s k g.
Proof. intros H. cbn. rewrite H, andb_false_r. reflexivity. Qed.
Lemma sinv_setf s a i f b : plain_flag f = true -> sinv s a -> sinv (setf s i f b) a.
Proof.
  intros F I. assert (FF : flag_eqb INSYSCALL f = false /\ flag_eqb FILTERED f = false /\ flag_eqb REPRINT f = false /\ flag_eqb STARTUP f = false) by (destruct f; try discriminate F; repeat split; reflexivity).
  destruct FF as (A1 & A2 & A3 & A4). eapply (sinv_same s); [exact I|reflexivity|reflexivity| | | |].
  - intros C k. rewrite !fl_setf_other by assumption. apply (i_show _ _ _ I C).
  - intros A j. rewrite fl_setf_other by assumption. apply (i_rep _ _ _ I A).
  - intros k. rewrite !fl_setf_other by assumption. apply (i_start _ _ _ I).
  - apply (i_pend _ _ _ I).
Qed.
(** changes of what the invariant does not mention at all *)
Lemma sinv_other s s' a : sinv s a -> tb s' = tb s -> lg s' = lg s -> fl s' = fl s -> sname s' = sname s -> pending (qu s') = pending (qu s) -> sinv s' a.
Proof.
  intros I T L F N0 Q. eapply (sinv_same s); [exact I|exact T|exact L| | | |]; rewrite ?F, ?N0, ?Q.
  - exact (i_show _ _ _ I).
  - exact (i_rep _ _ _ I).
  - exact (i_start _ _ _ I).
  - exact (i_pend _ _ _ I).
Qed.
Lemma sinv_current s a x : sinv s a -> sinv (with_lg s (set_current (lg s) x)) a.
Proof.
  intros I. assert (SL : same_log (lg s) (set_current (lg s) x)) by (repeat split).
  eapply (sinv_step _ _ s _ a a I); [reflexivity|repeat split| | | | |]; cbn.
  - eapply linv_same; [exact SL|apply (i_log _ _ _ I)].
  - intros C k H1 H2 H3. eapply has_same; [exact SL|]. apply (i_show _ _ _ I); assumption.
  - exact (i_rep _ _ _ I).
  - exact (i_start _ _ _ I).
  - exact (i_pend _ _ _ I).
Qed.

Lemma quiet_has (Q0 : nat -> N) l a k n : quiet l a -> unf a (gen l k) = Some n -> has Q0 l a k n.
Proof. intros Q U. right. split; [|exact U]. intros m [? ? X ? ? ?]. rewrite (q_ln _ _ Q) in X. discriminate. Qed.
Lemma in_call_has (Q0 : nat -> N) l a i m k n : in_call Q0 l i m a -> k <> i -> unf a (gen l k) = Some n -> has Q0 l a k n.
Proof. intros K NE U. right. split; [|exact U]. intros m' K'. apply NE. symmetry. apply (in_call_unique Q0 _ _ _ _ _ _ K K'). Qed.

(** the log changes, ending at a line start, all calls shown before being shown still *)
Lemma sinv_quiet X s a l' a' i : sinvx X s a -> P s i <> 0 -> frame (lg s) l' -> quiet l' a' -> printing l' = None ->
  keeps (P s) (lg s) a i a' -> (forall n, has (P s) (lg s) a i n -> unf a' (gen (lg s) i) = Some n) -> sinv (with_lg s l') a'.
Proof.
  intros I Pi F Q PN K Ki. eapply (sinv_step _ _ s _ a a' I); [reflexivity|exact F|left; exact Q| | | |]; cbn.
  - intros C k H1 H2 H3. pose proof (i_show _ _ _ I C k H1 H2 H3) as H. apply quiet_has; [exact Q|]. destruct F as (_ & _ & -> & _).
    destruct (Nat.eq_dec k i) as [->|NE]; [apply Ki; exact H|]. apply K; auto. apply (i_live _ _ _ I). exact H1.
  - intros _ j. rewrite PN. discriminate.
  - exact (i_start _ _ _ I).
  - exact (i_pend _ _ _ I).
Qed.
Lemma message_ok X s a i t x : sinvx X s a -> P s i <> 0 ->
  exists l' a', message c s i t x = Ok (with_lg s l') /\ sinv (with_lg s l') a' /\ current l' = Some i.
Proof.
  intros I Pi. destruct (msg_line_ok (lc c) NOFF (P s) (NP s) (lg s) i a t x (i_gens _ _ _ I) (i_log _ _ _ I) (i_live _ _ _ I i Pi)) as (l' & a' & E & Q & F & C & PN & K & Ki).
  exists l', a'. unfold message, pr. rewrite E. split; [reflexivity|]. split; [|exact C]. eapply sinv_quiet; eassumption.
Qed.
Lemma message_safe s i t x : inv s -> P s i <> 0 -> safe (message c s i t x) (fun s' => inv s' /\ cur s' i).
Proof. intros [a I] Pi. destruct (message_ok _ s a i t x I Pi) as (l' & a' & E & I' & C). rewrite E. cbn. split; [exists a'; exact I'|]. split; [exact C|exact Pi]. Qed.

Lemma restart_safe o s i sig err : inv s -> safe (ptrace_restart o s i sig err) (fun r => inv (snd r) /\ tb (snd r) = tb s /\ current (lg (snd r)) = current (lg s)).
Proof.
  intros [a I]. unfold ptrace_restart. assert (I0 : sinv (ask s i o sig) a) by (eapply (sinv_other s); [exact I|reflexivity..]). clear I.
  change (tb s) with (tb (ask s i o sig)). change (current (lg s)) with (current (lg (ask s i o sig))). generalize dependent (ask s i o sig). clear s. intros s I.
  destruct (_ || _); [cbn; split; [exists a; exact I|auto]|]. destruct (current (lg s)) as [j|] eqn:C; [|cbn; split; [exists a; exact I|auto]].
  destruct (N.eqb_spec (col (lg s) j) 0) as [Z|Z]; [cbn; split; [exists a; exact I|auto]|].
  assert (K : exists n, in_call (P s) (lg s) j n a).
  { destruct (i_log _ _ _ I) as [Q|(k & n & K)]; [destruct (Z (q_col _ _ Q j))|]. destruct (Nat.eq_dec j k) as [->|NE]; [eauto|]. destruct (Z (k_cols _ _ _ _ _ K j NE)). }
  destruct K as [n K]. destruct (norestart_ok (lc c) NOFF (P s) (lg s) j a n (bs "Cannot restart") (i_gens _ _ _ I) K C) as (l' & a' & E & F & Q & C' & PN & Ke & U).
  unfold tpr, pr. rewrite E. cbn [rbind safe snd]. split; [|split; [reflexivity|exact C']]. exists a'.
  assert (Pj : P s j <> 0). { intros X. pose proof (i_dead _ _ _ I j X) as D. pose proof (k_live _ _ _ _ _ K) as LV. unfold live in LV. congruence. }
  change (end_line (with_lg s l')) with (with_lg s (line_ended l')). eapply (sinv_quiet _ s a); eauto.
  - eapply frame_trans; [exact F|apply frame_line_ended].
  - intros m [K'|[NK _]]; [destruct (in_call_unique _ _ _ _ _ _ _ K K') as [_ ->]; exact U|destruct (NK _ K)].
Qed.
Lemma cur_same s s' i : cur s i -> tb s' = tb s -> current (lg s') = current (lg s) -> cur s' i.
Proof. intros [A B] T C. split; [congruence|]. unfold P in *. rewrite T. exact B. Qed.

(** ** System calls *)
Definition same_cols (s s' : st) : Prop := tb s' = tb s /\ lg s' = lg s.
Lemma delay_sinv s a i diff now now' : sinv s a -> sinv (delay_tcb s i diff now now') a.
Proof.
  intros I. unfold delay_tcb, arm_delay_timer. pose proof (sinv_setf s a i DELAYED true eq_refl I) as I1.
  destruct (_ && _ && _); (eapply (sinv_other (setf s i DELAYED true)); [exact I1|reflexivity..]).
Qed.
Lemma delay_same s i diff now now' : tb (delay_tcb s i diff now now') = tb s /\ lg (delay_tcb s i diff now now') = lg s /\ sname (delay_tcb s i diff now now') = sname s /\
  qu (delay_tcb s i diff now now') = qu s /\ (forall k g, flag_eqb g DELAYED = false -> fl (delay_tcb s i diff now now') k g = fl s k g) /\ dec (delay_tcb s i diff now now') = dec s.
Proof. unfold delay_tcb, arm_delay_timer. destruct (_ && _ && _); cbn; repeat split; intros k g H; rewrite H, andb_false_r; reflexivity. Qed.

(** the entry of a call is printed; then the flags are set *)
Lemma entry_sinv s a i ts : sinv s a -> P s i <> 0 -> fl s i INSYSCALL = false -> fl s i STARTUP = false -> (ts = [] \/ exists t, ts = [Txt t]) ->
  exists l' a', (rlet s := leader c s i in tpr s (Entry (sname s i) :: ts)) = Ok (with_lg s l') /\ frame (lg s) l' /\ current l' = Some i /\
    in_call (P s) l' i (sname s i) a' /\ keeps (P s) (lg s) a i a'.
Proof.
  intros I Pi NS ST T. destruct (entry_ok (lc c) NOFF (P s) (NP s) (lg s) i a (sname s i) ts (i_gens _ _ _ I) (i_log _ _ _ I) (i_live _ _ _ I i Pi) T) as (l' & a' & E & F & C & K & Ke).
  exists l', a'. split; [|split; [exact F|split; [exact C|split; [exact K|exact Ke]]]]. unfold leader, tpr, pr. destruct (printleader (P s) (lc c) (NP s) (lg s) i) as [l1| |]; cbn [rbind] in *; try discriminate.
  cbn [lg with_lg]. change (P (with_lg s l1)) with (P s). change (sname (with_lg s l1) i) with (sname s i). rewrite E. reflexivity.
Qed.
Lemma entered_sinv s a l' a' i d : sinv s a -> P s i <> 0 -> frame (lg s) l' -> in_call (P s) l' i (sname s i) a' -> keeps (P s) (lg s) a i a' -> fl s i STARTUP = false ->
  sinv (syscall_entering_finish (with_lg s l') i d) a'.
Proof.
  intros I Pi F K Ke ST. eapply (sinv_step _ _ s _ a a' I); [reflexivity|exact F|right; eauto| | | |].
  - cbn. intros C k H1 H2 H3. destruct (Nat.eq_dec k i) as [->|NE]; [left; exact K|]. replace (Nat.eqb k i) with false in * by (symmetry; apply Nat.eqb_neq; exact NE). cbn in *.
    apply (in_call_has _ _ _ _ _ _ _ K NE). pose proof (i_show _ _ _ I C k H1 H2 H3) as H. destruct F as (_ & _ & -> & _). apply Ke; auto. apply (i_live _ _ _ I). exact H1.
  - intros X. pose proof (k_ln _ _ _ _ _ K). congruence.
  - cbn. intros k H1. rewrite andb_false_r. intros H2. destruct (Nat.eqb_spec k i) as [->|]; [congruence|]. apply (i_start _ _ _ I); assumption.
  - exact (i_pend _ _ _ I).
Qed.
(** the call is filtered or only counted: nothing is printed *)
Lemma entered_silent s a i d : sinv s a -> P s i <> 0 -> fl s i STARTUP = false -> c_stats c = true \/ fl s i FILTERED = true ->
  sinv (syscall_entering_finish s i d) a.
Proof.
  intros I Pi ST H. eapply (sinv_same s); [exact I|reflexivity|reflexivity| | | |].
  - cbn. intros C k H1 H2 H3. rewrite andb_false_r in H3. destruct (Nat.eq_dec k i) as [->|NE]; [destruct H; congruence|]. replace (Nat.eqb k i) with false in * by (symmetry; apply Nat.eqb_neq; exact NE). apply (i_show _ _ _ I); assumption.
  - cbn. intros A j B. rewrite andb_false_r. apply (i_rep _ _ _ I A j B).
  - cbn. intros k H1. rewrite andb_false_r. intros H2. destruct (Nat.eqb_spec k i) as [->|]; [congruence|]. apply (i_start _ _ _ I); assumption.
  - exact (i_pend _ _ _ I).
Qed.
Lemma sinv_name s a i n : sinv s a -> fl s i INSYSCALL = false -> sinv (with_name s i n) a.
Proof.
  intros I NS. eapply (sinv_same s); [exact I|reflexivity|reflexivity| | | |].
  - cbn. intros C k H1 H2 H3. destruct (Nat.eqb_spec k i) as [->|]; [congruence|]. apply (i_show _ _ _ I); assumption.
  - exact (i_rep _ _ _ I).
  - exact (i_start _ _ _ I).
  - exact (i_pend _ _ _ I).
Qed.
Lemma sinv_filtered s a i b : sinv s a -> fl s i INSYSCALL = false -> sinv (setf s i FILTERED b) a.
Proof.
  intros I NS. eapply (sinv_same s); [exact I|reflexivity|reflexivity| | | |].
  - cbn. intros C k H1. rewrite andb_false_r. intros H2 H3. apply (i_show _ _ _ I); auto. destruct (Nat.eqb_spec k i) as [->|]; [congruence|]. exact H3.
  - cbn. intros A j. rewrite andb_false_r. apply (i_rep _ _ _ I A).
  - cbn. intros k. rewrite !andb_false_r. apply (i_start _ _ _ I).
  - exact (i_pend _ _ _ I).
Qed.

Lemma entering_trace_safe s a i rec e : sinv s a -> P s i <> 0 -> current (lg s) = Some i -> fl s i INSYSCALL = false -> fl s i STARTUP = false ->
  safe (syscall_entering_trace c s i rec e) (fun r => inv (syscall_entering_finish (snd r) i (fst (fst r))) /\ cur (snd r) i).
Proof.
  intros I Pi C NS ST. unfold syscall_entering_trace. rewrite ALL.
  set (s1 := if fl s i HIDE_LOG && e_exec e then setf (setf s i HIDE_LOG false) i CHECK_EXEC_SYSCALL true else s).
  assert (X1 : sinv s1 a /\ tb s1 = tb s /\ lg s1 = lg s /\ fl s1 i INSYSCALL = false /\ fl s1 i STARTUP = false).
  { unfold s1. destruct (fl s i HIDE_LOG && e_exec e); [|split; [exact I|split; [reflexivity|split; [reflexivity|split; assumption]]]]. split; [apply sinv_setf; [reflexivity|]; apply sinv_setf; [reflexivity|exact I]|]. cbn. rewrite !andb_false_r. conj; first [assumption|reflexivity]. }
  clearbody s1. destruct X1 as (I1 & T1 & L1 & NS1 & ST1).
  assert (P1 : P s1 i <> 0) by (unfold P in *; rewrite T1; exact Pi).
  destruct (fl s1 i HIDE_LOG || negb (e_traced e)).
  - cbn. split; [|split; [cbn; congruence|exact P1]]. exists a. apply entered_silent; [apply sinv_filtered; assumption|exact P1|cbn; rewrite andb_false_r; exact ST1|right; cbn; rewrite Nat.eqb_refl; reflexivity].
  - set (s2 := setf s1 i FILTERED false). assert (I2 : sinv s2 a) by (apply sinv_filtered; assumption).
    set (s3 := if negb (fl s i HIDE_LOG) && negb rec then
               let s := match e_delay e with Some (diff, now, now') => delay_tcb s2 i diff now now' | None => s2 end in
               if e_xdelay e then setf s i INJECT_DELAY_EXIT true else s
             else s2).
    assert (X3 : sinv s3 a /\ tb s3 = tb s /\ lg s3 = lg s /\ fl s3 i INSYSCALL = false /\ fl s3 i STARTUP = false).
    { unfold s3. assert (X2 : sinv s2 a /\ tb s2 = tb s /\ lg s2 = lg s /\ fl s2 i INSYSCALL = false /\ fl s2 i STARTUP = false) by (cbn; rewrite !andb_false_r; conj; assumption).
      destruct (negb (fl s i HIDE_LOG) && negb rec); [|exact X2].
      assert (X4 : let s0 := match e_delay e with Some (diff, now, now') => delay_tcb s2 i diff now now' | None => s2 end in sinv s0 a /\ tb s0 = tb s /\ lg s0 = lg s /\ fl s0 i INSYSCALL = false /\ fl s0 i STARTUP = false).
      { destruct (e_delay e) as [[[diff now] now']|]; [|exact X2]. destruct (delay_same s2 i diff now now') as (A1 & A2 & A3 & A4 & A5 & A6). destruct X2 as (B1 & B2 & B3 & B4 & B5).
        cbv zeta. split; [apply delay_sinv; exact B1|]. rewrite A1, A2, !A5 by reflexivity. auto. }
      cbv zeta in *. destruct X4 as (B1 & B2 & B3 & B4 & B5). destruct (e_xdelay e); [|auto]. split; [apply sinv_setf; [reflexivity|assumption]|]. cbn. rewrite !andb_false_r. conj; first [assumption|reflexivity]. }
    clearbody s3. clear I1 L1 T1 NS1 ST1 P1 I2 s2 s1. destruct X3 as (I3 & T3 & L3 & NS3 & ST3).
    assert (P3 : P s3 i <> 0) by (unfold P in *; rewrite T3; exact Pi).
    destruct (c_stats c) eqn:CS.
    + cbn. split; [|split; [cbn; congruence|exact P3]]. exists a. apply entered_silent; auto.
    + destruct (entry_sinv s3 a i [Txt (e_text e)] I3 P3 NS3 ST3) as (l' & a' & E & F & C' & K & Ke); [right; eauto|].
      destruct (leader c s3 i) as [s4| |] eqn:EL; cbn [rbind] in E |- *; try discriminate. unfold leader, pr in EL. destruct (printleader _ _ _ _ _) as [l4| |]; try discriminate. inversion EL; subst s4.
      rewrite E. cbn [rbind safe fst snd]. split; [|split; [exact C'|exact P3]]. exists a'. eapply entered_sinv; eassumption.
Qed.
Lemma entering_decode_safe s a i e : sinv s a -> P s i <> 0 -> current (lg s) = Some i -> fl s i INSYSCALL = false -> fl s i STARTUP = false ->
  safe (syscall_entering_decode c s i e) (fun r => if (fst r =? 0)%Z then inv (snd r) /\ cur (snd r) i
    else if (fst r =? 1)%Z then exists a', sinv (snd r) a' /\ cur (snd r) i /\ fl (snd r) i INSYSCALL = false /\ fl (snd r) i STARTUP = false
    else inv (syscall_entering_finish (snd r) i (Z.testbit (fst r) 6)) /\ cur (snd r) i).
Proof.
  intros I Pi C NS ST. unfold syscall_entering_decode. set (nm := if (e_scno e =? 1)%Z then e_name e else bs "????"). set (s1 := with_name s i nm).
  assert (I1 : sinv s1 a) by (apply sinv_name; assumption).
  destruct (e_scno e =? 0)%Z eqn:E0; [cbn; split; [exists a; exact I1|split; [exact C|exact Pi]]|].
  set (rc := if (e_scno e =? 1)%Z then e_args e else e_scno e). destruct (rc =? 1)%Z eqn:E1; [cbn; exists a; split; [exact I1|split; [split; [exact C|exact Pi]|split; assumption]]|].
  destruct (entry_sinv s1 a i [] I1 Pi NS ST (or_introl eq_refl)) as (l' & a' & E & F & C' & K & Ke).
  destruct (leader c s1 i) as [s4| |] eqn:EL; cbn [rbind] in E |- *; try discriminate. unfold leader, pr in EL. destruct (printleader _ _ _ _ _) as [l4| |]; try discriminate. inversion EL; subst s4.
  rewrite E. cbn [rbind safe fst snd].
  assert (CU : cur (with_lg s1 l') i) by (split; [exact C'|exact Pi]).
  destruct (rc =? 0)%Z eqn:Er.
  - split; [|exact CU]. (* args of 0: nothing was entered *)
    exists a'. eapply (sinv_step _ _ s1 _ a a' I1); [reflexivity|exact F|right; eauto| | | |].
    + intros CS k H1 H2 H3. destruct (Nat.eq_dec k i) as [->|NE]; [cbn in H2; congruence|]. apply (in_call_has _ _ _ _ _ _ _ K NE).
      pose proof (i_show _ _ _ I1 CS k H1 H2 H3) as H. destruct F as (_ & _ & F & _). cbn in F |- *. rewrite F. apply Ke; auto. apply (i_live _ _ _ I). exact H1.
    + intros X. pose proof (k_ln _ _ _ _ _ K). congruence.
    + exact (i_start _ _ _ I).
    + exact (i_pend _ _ _ I).
  - rewrite E1. split; [|exact CU]. exists a'. apply (entered_sinv s1 a l' a' i); auto.
Qed.

(** leaving a call *)
Lemma left_sinv s a i : sinv s a -> sinv (syscall_exiting_finish s i) a.
Proof.
  intros I. eapply (sinv_same s); [exact I|reflexivity|reflexivity| | | |].
  - cbn. intros C k H1. rewrite !andb_false_r, !andb_true_r. destruct (Nat.eqb_spec k i) as [->|NE]; [discriminate|]. apply (i_show _ _ _ I); assumption.
  - cbn. intros A j. rewrite !andb_false_r. apply (i_rep _ _ _ I A).
  - cbn. intros k H1. rewrite !andb_false_r, !andb_true_r. destruct (Nat.eqb_spec k i); [reflexivity|]. apply (i_start _ _ _ I); assumption.
  - exact (i_pend _ _ _ I).
Qed.
Lemma left_after s a l' a' i s' : sinv s a -> P s i <> 0 -> frame (lg s) l' -> quiet l' a' -> printing l' = None -> keeps (P s) (lg s) a i a' ->
  tb s' = tb s -> lg s' = l' -> sname s' = sname s -> qu s' = qu s ->
  (forall k g, flag_eqb g REPRINT = false -> fl s' k g = fl s k g) -> sinv (syscall_exiting_finish s' i) a'.
Proof.
  intros I Pi F Q PN Ke E1 E2 E3 E4 E5. eapply (sinv_step _ _ s _ a a' I); cbn [syscall_exiting_finish called with_dec setf with_fl tb lg]; [exact E1|rewrite E2; exact F|rewrite E2; left; exact Q| | | |].
  - cbn. intros C k H1. rewrite !andb_false_r, !andb_true_r. destruct (Nat.eqb_spec k i) as [->|NE]; [discriminate|]. rewrite !E5 by reflexivity. intros H2 H3.
    rewrite E2, E3. apply quiet_has; [exact Q|]. pose proof (i_show _ _ _ I C k H1 H2 H3) as H. destruct F as (_ & _ & -> & _). apply Ke; auto. apply (i_live _ _ _ I). exact H1.
  - cbn. rewrite E2. intros _ j. rewrite PN. discriminate.
  - cbn. intros k H1. rewrite !andb_false_r, !andb_true_r. destruct (Nat.eqb_spec k i); [reflexivity|]. rewrite !E5 by reflexivity. apply (i_start _ _ _ I); assumption.
  - cbn. rewrite E4. exact (i_pend _ _ _ I).
Qed.
Lemma exiting_trace_safe s a i rc e : sinv s a -> P s i <> 0 -> current (lg s) = Some i -> fl s i INSYSCALL = true -> fl s i FILTERED = false ->
  safe (syscall_exiting_trace c s i rc e) (fun r => inv (syscall_exiting_finish (snd r) i) /\ cur (snd r) i).
Proof.
  intros I Pi C IS NF. unfold syscall_exiting_trace. rewrite ALL. cbn [orb andb negb].
  set (s1 := if fl s i INJECT_DELAY_EXIT then let '(diff, now, now') := x_delay e in delay_tcb s i diff now now' else s).
  assert (X1 : sinv s1 a /\ tb s1 = tb s /\ lg s1 = lg s /\ fl s1 i INSYSCALL = true /\ fl s1 i FILTERED = false).
  { unfold s1. destruct (fl s i INJECT_DELAY_EXIT); [|auto]. destruct (x_delay e) as [[diff now] now']. destruct (delay_same s i diff now now') as (A1 & A2 & A3 & A4 & A5 & A6).
    split; [apply delay_sinv; exact I|]. rewrite A1, A2, !A5 by reflexivity. auto. }
  clearbody s1. destruct X1 as (I1 & T1 & L1 & IS1 & NF1). assert (P1 : P s1 i <> 0) by (unfold P in *; rewrite T1; exact Pi). assert (C1 : current (lg s1) = Some i) by congruence.
  destruct (c_stats c) eqn:CS.
  - cbn [rbind orb]. destruct (negb (rc =? 1)%Z); cbn [safe].
    + split; [exists a; apply left_sinv; exact I1|split; assumption].
    + destruct (limit s1 =? -1)%Z; cbn [safe snd]; (split; [exists a; apply left_sinv; try exact I1; (eapply (sinv_other s1); [exact I1|reflexivity..])|split; assumption]).
  - destruct (resume_ok (lc c) NOFF (P s1) (NP s1) (lg s1) i a (fl s1 i REPRINT) (sname s1 i) (i_gens _ _ _ I1) (i_log _ _ _ I1) (i_live _ _ _ I1 i P1) C1 (i_show _ _ _ I1 CS i P1 IS1 NF1)) as (r & l1 & a1 & E1 & F1 & W1 & K1 & Ke1).
    { intros A B. destruct (i_rep _ _ _ I1 A i B) as [_ [?|[?|[]]]]; [congruence|assumption]. }
    rewrite E1. cbn [rbind].
    set (s2 := if r then setf (with_lg s1 l1) i REPRINT false else with_lg s1 l1).
    assert (X2 : tb s2 = tb s1 /\ lg s2 = l1 /\ sname s2 = sname s1 /\ qu s2 = qu s1 /\ (forall k g, flag_eqb g REPRINT = false -> fl s2 k g = fl s1 k g)).
    { unfold s2. destruct r; cbn; repeat split; auto. intros k g H. rewrite H, andb_false_r. reflexivity. }
    clearbody s2. destruct X2 as (T2 & L2 & N2 & Q2 & G2).
    (* whatever is printed ends the line *)
    assert (END : forall ts t x, (ts = [] \/ exists u, ts = [Txt u]) -> exists l3 a3, tprints (P s2) (lg s2) (ts ++ [Ret t; Nl x]) = Ok l3 /\ inv (syscall_exiting_finish (with_lg s2 (line_ended l3)) i) /\ cur (with_lg s2 (line_ended l3)) i /\ a3 = a1).
    { intros ts t x Ht. assert (EP : P s2 = P s1) by (unfold P; rewrite T2; reflexivity). rewrite EP, L2.
      destruct (ret_ok (lc c) NOFF (P s1) l1 i a1 (sname s1 i) ts t x W1) as (l3 & E3 & F3 & Q3 & C3 & PN3); [rewrite (author_frame (P s1) (lg s1) l1 i F1); exact K1|exact Ht|].
      exists l3, a1. split; [exact E3|]. split; [|split; [|reflexivity]].
      - eexists. eapply (left_after s1 a (line_ended l3)); try exact Q3; try exact PN3; auto.
        + eapply frame_trans; [exact F1|]. eapply frame_trans; [exact F3|]. apply frame_line_ended.
      - split; [exact C3|]. unfold P in *. cbn. rewrite T2. exact P1. }
    destruct (negb (rc =? 1)%Z).
    + cbn [rbind]. destruct (END [] (bs "? <unavailable>") []) as (l3 & a3 & E3 & I3 & C3 & _); [left; reflexivity|]. unfold tpr at 1, pr. cbn [app] in E3. rewrite E3. cbn [rbind safe snd]. split; assumption.
    + assert (CONT : forall ts, (ts = [] \/ exists u, ts = [Txt u]) -> forall lim, exists l3, tprints (P s2) (lg s2) (ts ++ [Ret (x_ret e); Nl (x_extra e)]) = Ok l3 /\
        inv (syscall_exiting_finish (with_lg (set_limit s2 lim) (line_ended l3)) i) /\ cur (with_lg (set_limit s2 lim) (line_ended l3)) i).
      { intros ts Ht lim. destruct (END ts (x_ret e) (x_extra e) Ht) as (l3 & a3 & E3 & [a4 I3] & C3 & _). exists l3. split; [exact E3|]. split; [|exact C3]. exists a4. eapply (sinv_other _ _ a4 I3); reflexivity. }
      destruct (dec s2 i).
      * cbn [orb rbind]. destruct (limit s2 =? -1)%Z.
        -- destruct (END [] (x_ret e) (x_extra e)) as (l3 & a3 & E3 & I3 & C3 & _); [left; reflexivity|]. cbn [app] in E3. unfold tpr, pr. rewrite E3. cbn [rbind safe snd]. split; assumption.
        -- destruct (CONT [] (or_introl eq_refl) (limit s2 - 1)%Z) as (l3 & E3 & I3 & C3). cbn [app] in E3. unfold tpr, pr. cbn [rbind]. change (P (set_limit s2 (limit s2 - 1))) with (P s2). change (lg (set_limit s2 (limit s2 - 1))) with (lg s2). rewrite E3. cbn [rbind safe snd]. split; assumption.
      * cbn [orb]. unfold tpr at 1, pr. destruct (CONT [Txt (x_text e)] (or_intror (ex_intro _ _ eq_refl)) (limit s2 - 1)%Z) as (l3 & E3 & I3 & C3).
        destruct (END [Txt (x_text e)] (x_ret e) (x_extra e)) as (l3' & a3 & E3' & I3' & C3' & _); [right; eauto|]. assert (l3' = l3) by congruence. subst l3'.
        cbn [orb app tprints] in E3 |- *. destruct (tprint (P s2) (lg s2) (Txt (x_text e))) as [l4| |]; cbn [rbind] in E3 |- *; try discriminate.
        cbn [rbind]. destruct (limit (with_lg s2 l4) =? -1)%Z.
        -- unfold tpr, pr. change (P (with_lg s2 l4)) with (P s2). change (lg (with_lg s2 l4)) with l4. cbn [tprints]. rewrite E3. cbn [rbind safe snd]. split; assumption.
        -- unfold tpr, pr. change (P (set_limit (with_lg s2 l4) (limit (with_lg s2 l4) - 1))) with (P s2). change (lg (set_limit (with_lg s2 l4) (limit (with_lg s2 l4) - 1))) with l4. cbn [tprints]. rewrite E3. cbn [rbind safe snd]. split; assumption.
Qed.

Lemma trace_syscall_safe s i rec e : inv s -> cur s i -> fl s i STARTUP = false -> safe (trace_syscall c s i rec e) (fun r => inv (snd r) /\ cur (snd r) i).
Proof.
  intros [a I] [C Pi] ST. unfold trace_syscall. destruct (fl s i INSYSCALL) eqn:IS; cbn [negb].
  - unfold syscall_exiting_decode. destruct (fl s i FILTERED) eqn:NF; cbn [Z.eqb rbind safe snd].
    + split; [exists a; apply left_sinv; exact I|split; assumption].
    + set (s1 := if fl s i CHECK_EXEC_SYSCALL then setf s i HIDE_LOG true else s).
      assert (X1 : sinv s1 a /\ tb s1 = tb s /\ lg s1 = lg s /\ fl s1 i INSYSCALL = true /\ fl s1 i FILTERED = false).
      { unfold s1. destruct (fl s i CHECK_EXEC_SYSCALL); [|auto]. split; [apply sinv_setf; [reflexivity|assumption]|]. cbn. rewrite !andb_false_r. conj; first [assumption|reflexivity]. }
      clearbody s1. destruct X1 as (I1 & T1 & L1 & IS1 & NF1). assert (P1 : P s1 i <> 0) by (unfold P in *; rewrite T1; exact Pi). assert (C1 : current (lg s1) = Some i) by congruence.
      destruct (x_res e =? 0)%Z; cbn [rbind safe snd].
      * split; [exists a; apply left_sinv; exact I1|split; assumption].
      * pose proof (exiting_trace_safe s1 a i (x_res e) e I1 P1 C1 IS1 NF1) as H. destruct (syscall_exiting_trace c s1 i (x_res e) e) as [[r s2]| |]; cbn in *; auto.
  - pose proof (entering_decode_safe s a i e I Pi C IS ST) as H. destruct (syscall_entering_decode c s i e) as [[r s1]| |]; cbn [rbind safe fst snd] in *; auto.
    destruct (r =? 0)%Z eqn:R0; [cbn; exact H|]. destruct (r =? 1)%Z eqn:R1; [|cbn; exact H]. destruct H as (a' & I1 & [C1 P1] & NS1 & ST1).
    pose proof (entering_trace_safe s1 a' i rec e I1 P1 C1 NS1 ST1) as H. destruct (syscall_entering_trace c s1 i rec e) as [[[d sg] s2]| |]; cbn in *; auto.
Qed.
End Inv.
