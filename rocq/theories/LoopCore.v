(** Tracees, decoder runs and queued events through the event loop, for all options
    (used for C21, C25, C27). *)
From Verif Require Import Base TimeModel WaitModel TcbModel TcbProofs LogModel LogSpec LogProofs LoopModel LoopFrame LoopSpec.
Local Open Scope N_scope.

Lemma of_app {A} g (l l' : list (nat * A)) : of g (l ++ l') = of g l ++ of g l'.
Proof. unfold of. rewrite filter_app, map_app. reflexivity. Qed.
Lemma alternate_app l b : forall n, alternate n l -> (b = if Nat.even (length l) then n else negb n) -> alternate n (l ++ [b]).
Proof.
  induction l as [|x l IH]; intros n H E; cbn [alternate app] in *; [split; [exact E|exact I]|]. destruct H as [-> H]. split; [reflexivity|]. apply IH; [exact H|]. rewrite E. cbn [length]. rewrite Nat.even_succ, <- Nat.negb_even. destruct (Nat.even (length l)), n; reflexivity.
Qed.

Record core (s : st) : Prop := {
  o_tab : tinv (tb s);
  o_pend : forall i, In i (pending (qu s)) -> P s i <> 0;
  o_nodup : NoDup (pending (qu s));
  o_gens : forall i j, P s i <> 0 -> P s j <> 0 -> gen (lg s) i = gen (lg s) j -> i = j;
  o_gen : forall i, P s i <> 0 -> (gen (lg s) i < ngen (lg s))%nat;
  o_alt : forall g, alternate true (of g (calls s));
  o_in : forall i, P s i <> 0 -> fl s i INSYSCALL = negb (Nat.even (length (of (gen (lg s) i) (calls s))));
  o_fresh : forall g, (ngen (lg s) <= g)%nat -> of g (calls s) = [] }.
(** the queue, as far as it is read later *)
Record qsame (s s' : st) : Prop := {
  qs_gk : gk (lg s) (lg s');
  qs_pend : pending (qu s') = pending (qu s); qs_extra : extra (qu s') = extra (qu s); qs_wtab : wtab (qu s') = wtab (qu s);
  qs_widx : forall k, In k (pending (qu s)) -> widx (qu s') k = widx (qu s) k;
  qs_coll : coll (qu s') = coll (qu s); qs_disp : disp (qu s') = disp (qu s) }.
Lemma qsame_refl s : qsame s s. Proof. constructor; auto. apply gk_refl. Qed.
Lemma qsame_trans a b c : qsame a b -> qsame b c -> qsame a c.
Proof. intros [] []. constructor; try congruence; [eapply gk_trans; eassumption|]. intros k H. rewrite qs_widx1 by (rewrite qs_pend0; exact H). auto. Qed.
Lemma qsame_qu s s' : gk (lg s) (lg s') -> qu s' = qu s -> qsame s s'. Proof. intros G E. constructor; try rewrite E; auto. Qed.

Lemma core_same s s' : core s -> tb s' = tb s -> gk (lg s) (lg s') -> calls s' = calls s -> (forall k, fl s' k INSYSCALL = fl s k INSYSCALL) -> pending (qu s') = pending (qu s) -> core s'.
Proof.
  intros [] T [G1 G2] C F Q. assert (EP : forall k, P s' k = P s k) by (intros k; unfold P; rewrite T; reflexivity).
  constructor; try rewrite T; try rewrite Q; try rewrite C; try rewrite G1; try rewrite G2; auto; try (intros k; rewrite ?EP; auto; fail).
  - intros i j. rewrite !EP. auto.
  - intros i. rewrite EP, F. auto.
Qed.
Lemma core_log s s' : core s -> logonly s s' -> core s' /\ qsame s s' /\ tb s' = tb s.
Proof. intros K [G E]. rewrite E. split; [|split; [apply qsame_qu; auto|reflexivity]]. apply (core_same s); auto. Qed.

(** ** Dropping *)
Lemma droptcb_core c s i s' : core s -> droptcb c s i = Ok s' -> ~ In i (pending (qu s)) -> core s' /\ qsame s s' /\ (forall k, P s' k = if Nat.eqb k i then 0 else P s k) /\ (forall k g, k <> i -> fl s' k g = fl s k g).
Proof.
  intros K. unfold droptcb. destruct (N.eqb_spec (P s i) 0) as [Z|Z].
  - intros E NI. inv_ok E. split; [exact K|]. split; [apply qsame_refl|]. split; [|auto]. intros k. destruct (Nat.eqb_spec k i); congruence.
  - intros E NI. apply rbind_ok in E as (s1 & E1 & E). inv_ok E. assert (L : logonly s s1) by (eapply pr_only; [|exact E1]; intros l l'; apply drop_gk).
    destruct L as [[G1 G2] L]. set (l1 := lg s1) in *. clearbody l1. subst s1. cbn [with_lg tb lg fl sname dec qu dl child popen intr rfail exitc limit reqs calls] in *.
    destruct (drop_slot_ok (tb s) i (o_tab _ K)) as [T' P']. match goal with |- core ?x /\ _ => set (s' := x) end.
    assert (EP : forall k, P s' k = if Nat.eqb k i then 0 else P s k) by exact P'.
    assert (FI : filter (fun j => negb (Nat.eqb j i)) (pending (qu s)) = pending (qu s)).
    { clear -NI. induction (pending (qu s)) as [|x l IH]; [reflexivity|]. cbn. destruct (Nat.eqb_spec x i) as [->|]; [destruct NI; left; reflexivity|]. cbn. rewrite IH; [reflexivity|]. intros H. apply NI. right. exact H. }
    destruct K. split; [|split; [|split; [exact EP|]]].
    + constructor; cbn -[Nat.even of]; rewrite ?FI; auto.
      * intros k Hk. rewrite EP. destruct (Nat.eqb_spec k i) as [->|]; [contradiction|]. auto.
      * intros k j. rewrite !EP, G1. destruct (Nat.eqb k i), (Nat.eqb j i); try contradiction. auto.
      * intros k. rewrite EP, G1, G2. destruct (Nat.eqb k i); [contradiction|]. auto.
      * intros k. rewrite EP, G1. destruct (Nat.eqb k i); [intros []; reflexivity|]. apply o_in0.
      * rewrite G2. auto.
    + constructor; cbn; auto; [split; assumption|]. intros k Hk. destruct (Nat.eqb_spec k i) as [->|]; [contradiction|reflexivity].
    + intros k g N. cbn. apply Nat.eqb_neq in N. rewrite N. reflexivity.
Qed.

(** ** Decoding *)
Lemma trace_core c s i rec e r sg s' : core s -> P s i <> 0 -> trace_syscall c s i rec e = Ok (r, sg, s') -> core s' /\ qsame s s' /\ tb s' = tb s.
Proof.
  intros K Pi E. apply trace_syscall_frame in E. destruct E as [tr_tb0 tr_qu0 tr_gk0 tr_fl0 tr_fixed0 tr_sname0 _ _ _ _ _ tr_reqs0 _ _ _ tr_calls0]. assert (Q : qsame s s') by (apply qsame_qu; assumption). split; [|split; [exact Q|exact tr_tb0]].
  assert (EP : forall k, P s' k = P s k) by (intros k; unfold P; rewrite tr_tb0; reflexivity). destruct tr_gk0 as [G1 G2]. pose proof K as K0. destruct K.
  assert (CALL : forall b, b = negb (fl s i INSYSCALL) -> calls s' = calls s ++ [(gen (lg s) i, b)] -> fl s' i INSYSCALL = b -> core s').
  { intros b NB CA FB. assert (OF : forall g, of g (calls s') = of g (calls s) ++ (if Nat.eqb (gen (lg s) i) g then [b] else [])).
    { intros g. rewrite CA, of_app. f_equal. unfold of. cbn. destruct (Nat.eqb (gen (lg s) i) g); reflexivity. }
    constructor; rewrite ?tr_tb0, ?tr_qu0; auto.
    - intros k Hk. rewrite EP. auto.
    - intros k j. rewrite !EP, G1. auto.
    - intros k. rewrite EP, G1, G2. auto.
    - intros g. rewrite OF. destruct (Nat.eqb_spec (gen (lg s) i) g) as [<-|]; [|rewrite app_nil_r; auto]. apply alternate_app; [apply o_alt0|]. rewrite NB, (o_in0 i Pi). destruct (Nat.even _); reflexivity.
    - intros k. rewrite EP, G1, OF. intros Hk. destruct (Nat.eq_dec k i) as [->|NE].
      + rewrite Nat.eqb_refl, app_length, FB, NB, (o_in0 i Pi). cbn [length]. rewrite Nat.add_1_r, Nat.even_succ, <- Nat.negb_even. destruct (Nat.even _); reflexivity.
      + rewrite tr_fl0 by exact NE. destruct (Nat.eqb_spec (gen (lg s) i) (gen (lg s) k)) as [X|]; [destruct NE; symmetry; apply o_gens0; auto|]. rewrite app_nil_r. auto.
    - intros g. rewrite G2, OF. intros H. rewrite o_fresh0 by exact H. destruct (Nat.eqb_spec (gen (lg s) i) g) as [<-|]; [|reflexivity]. specialize (o_gen0 i Pi). lia. }
  destruct (fl s i INSYSCALL) eqn:IS.
  - destruct tr_calls0 as [A B]. apply (CALL false); auto.
  - assert (SAME : calls s' = calls s -> fl s' i INSYSCALL = false -> core s').
    { intros A B. apply (core_same s s' K0 tr_tb0 (conj G1 G2) A); [|rewrite tr_qu0; reflexivity]. intros k. destruct (Nat.eq_dec k i) as [->|NE]; [congruence|auto]. }
    destruct tr_calls0 as [[(A & B & _)|(A & B & _)]|[A B]]; [apply SAME; assumption..|apply (CALL true); auto].
Qed.

(** ** Requests, messages *)
(** nothing but the log, the requests, the globals, delays and flags other than INSYSCALL *)
Definition mild (s s' : st) : Prop := tb s' = tb s /\ gk (lg s) (lg s') /\ calls s' = calls s /\ (forall k, fl s' k INSYSCALL = fl s k INSYSCALL) /\ qu s' = qu s.
Lemma mild_refl s : mild s s. Proof. repeat split. Qed.
Lemma mild_trans a b c : mild a b -> mild b c -> mild a c.
Proof. intros (A1 & A2 & A3 & A4 & A5) (B1 & B2 & B3 & B4 & B5). split; [congruence|]. split; [eapply gk_trans; eassumption|]. split; [congruence|]. split; [|congruence]. intros k. rewrite B4. apply A4. Qed.
Lemma mild_log s s' : logonly s s' -> mild s s'. Proof. intros [G E]. rewrite E. split; [reflexivity|]. split; [exact G|]. split; [reflexivity|]. split; reflexivity. Qed.
Lemma mild_core s s' : core s -> mild s s' -> core s' /\ qsame s s' /\ tb s' = tb s.
Proof. intros K (A1 & A2 & A3 & A4 & A5). split; [apply (core_same s); auto; rewrite A5; reflexivity|]. split; [apply qsame_qu; assumption|exact A1]. Qed.
Lemma mild_setf s i f b : f <> INSYSCALL -> mild s (setf s i f b).
Proof. intros N. split; [reflexivity|]. split; [apply gk_refl|]. split; [reflexivity|]. split; [|reflexivity]. intros k. cbn. destruct f; try contradiction; rewrite andb_false_r; reflexivity. Qed.
Lemma mild_glob s ch po it rf ec li : mild s (with_glob s ch po it rf ec li). Proof. repeat split. Qed.
Lemma mild_ask s i o g : mild s (ask s i o g). Proof. repeat split. Qed.
Lemma mild_dl s x : mild s (with_dl s x). Proof. repeat split. Qed.
Lemma mild_current s x : mild s (with_lg s (set_current (lg s) x)). Proof. repeat split. Qed.
Lemma restart_mild o s i sig err b s' : ptrace_restart o s i sig err = Ok (b, s') -> mild s s'.
Proof.
  unfold ptrace_restart. cbv zeta. destruct (_ || _); [intros E; inv_ok E; apply mild_ask|]. intros E. apply rbind_ok in E as (s1 & E1 & E). inv_ok E. eapply mild_trans; [apply mild_ask|].
  destruct (current _); [|inv_ok E1; apply mild_refl]. destruct (_ =? 0); [inv_ok E1; apply mild_refl|]. apply rbind_ok in E1 as (s2 & E1 & E2). inv_ok E2. apply mild_log. eapply logonly_trans; [eapply tpr_only; exact E1|apply end_line_only].
Qed.
Lemma resume_mild s i wd o sig e b s' : resume s i wd o sig e = Ok (b, s') -> mild s s'.
Proof.
  unfold resume. cbv zeta. set (s1 := if e_intr e =? 0 then s else _). assert (M : mild s s1) by (unfold s1; destruct (_ =? 0); [apply mild_refl|apply mild_glob]). clearbody s1.
  destruct (negb _); [intros E; inv_ok E; exact M|]. destruct (fl s1 i DELAYED); [intros E; inv_ok E; eapply mild_trans; [exact M|apply mild_dl]|].
  intros E. apply rbind_ok in E as ([ok s2] & E1 & E). apply restart_mild in E1. destruct ok; inv_ok E; [eapply mild_trans; eassumption|]. eapply mild_trans; [exact M|]. eapply mild_trans; [exact E1|apply mild_glob].
Qed.
Lemma stopped_mild c s i sig e s' : print_stopped c s i sig e = Ok s' -> mild s s'.
Proof. unfold print_stopped. destruct (_ && _ && _); [intros E; apply mild_log; eapply message_only; exact E|intros E; inv_ok E; apply mild_refl]. Qed.
Lemma signalled_mild c s i x s' : print_signalled c s i x = Ok s' -> mild s s'.
Proof.
  unfold print_signalled. cbv zeta. set (s1 := if P s i =? child s then _ else s). assert (M : mild s s1) by (unfold s1; destruct (_ =? child s); [eapply mild_trans; apply mild_glob|apply mild_refl]). clearbody s1.
  destruct (_ && _); [intros E; eapply mild_trans; [exact M|apply mild_log; eapply message_only; exact E]|intros E; inv_ok E; exact M].
Qed.
Lemma exited_mild c s i x s' : print_exited c s i x = Ok s' -> mild s s'.
Proof.
  unfold print_exited. cbv zeta. set (s1 := if P s i =? child s then _ else s). assert (M : mild s s1) by (unfold s1; destruct (_ =? child s); [eapply mild_trans; apply mild_glob|apply mild_refl]). clearbody s1.
  destruct (_ && _); [intros E; eapply mild_trans; [exact M|apply mild_log; eapply message_only; exact E]|intros E; inv_ok E; exact M].
Qed.
Lemma exit_event_mild c s i s' : exit_event c s i = Ok s' -> mild s s'.
Proof.
  unfold exit_event. destruct (_ || _); [intros E; inv_ok E; apply mild_refl|]. intros E. apply rbind_ok in E as ([r l] & E1 & E). apply event_exit_gk in E1. inv_ok E.
  assert (M : mild s (with_lg s l)) by (apply mild_log, logonly_with; exact E1). destruct r; [|exact M]. eapply mild_trans; [exact M|apply mild_setf; discriminate].
Qed.
Lemma interrupt_mild c s i an : mild s (snd (detach_or_interrupt_or_stop c s i an)).
Proof.
  unfold detach_or_interrupt_or_stop. destruct (negb _); [apply mild_refl|]. destruct (fl s i _); [apply mild_refl|]. cbv zeta. destruct (_ =? 0); [apply mild_ask|]. destruct (negb _); [apply mild_ask|].
  destruct (negb _); [apply mild_ask|]. destruct (c_seize c); (eapply mild_trans; apply mild_ask).
Qed.
Lemma detach_stopped_mild c s i status err b s' : detach_interrupted_or_stopped c s i status err = Ok (b, s') -> mild s s'.
Proof.
  unfold detach_interrupted_or_stopped. cbv zeta. destruct (negb _); [intros E; inv_ok E; apply mild_refl|].
  destruct (c_seize c); [|destruct (WSTOPSIG status =? SIGSTOP)]; intros E; apply rbind_ok in E as ([ok s1] & E1 & E); inv_ok E; eapply restart_mild; exact E1.
Qed.
Lemma detach_wait_mild c i ws : forall s s', detach_wait c s i ws = Ok s' -> mild s s'.
Proof.
  induction ws as [|w ws IH]; intros s s' E; cbn [detach_wait] in E; [inv_ok E; apply mild_refl|]. destruct w as [[]|status err]; [apply IH; exact E|inv_ok E; apply mild_refl|].
  apply rbind_ok in E as ([d s1] & E1 & E). apply detach_stopped_mild in E1. destruct d; [inv_ok E; exact E1|]. eapply mild_trans; [exact E1|apply IH; exact E].
Qed.
Lemma detach_core c s i an ws s' : core s -> detach c s i an ws = Ok s' -> ~ In i (pending (qu s)) -> core s' /\ qsame s s' /\ (forall k, P s' k = if Nat.eqb k i then 0 else P s k).
Proof.
  intros K E NI. unfold detach in E. pose proof (interrupt_mild c s i an) as M. destruct (detach_or_interrupt_or_stop c s i an) as [w s1]. cbn [snd] in M. apply rbind_ok in E as (s2 & E1 & E).
  assert (M2 : mild s s2) by (destruct w; [eapply mild_trans; [exact M|eapply detach_wait_mild; exact E1]|inv_ok E1; exact M]). destruct (mild_core _ _ K M2) as (K2 & Q2 & T2).
  destruct (droptcb_core _ _ _ _ K2 E) as (K3 & Q3 & P3 & _); [rewrite (qs_pend _ _ Q2); exact NI|]. split; [exact K3|]. split; [eapply qsame_trans; eassumption|]. intros k. rewrite P3. unfold P. rewrite T2. reflexivity.
Qed.

(** ** Exec by another thread *)
Lemma core_cache s t : core s -> pids t = pids (tb s) -> tinv t -> core (with_tb s t).
Proof.
  intros [] E T. assert (EP : forall k, P (with_tb s t) k = P s k) by (intros k; unfold P, pidof; cbn; rewrite E; reflexivity).
  constructor; cbn -[Nat.even of]; auto; try (intros k; rewrite EP; auto; fail).
  intros k j. rewrite !EP. auto.
Qed.
Lemma switch_core c s i r s' : core s -> P s i <> 0 -> ~ In i (pending (qu s)) -> maybe_switch_current_tcp c s i = Ok (r, s') -> current (lg s) = Some i ->
  core s' /\ qsame s s' /\ (forall p, traced s' p <-> traced s p /\ ~ replaced c s i p) /\
  (exists k, current (lg s') = Some k /\ P s' k = P s i /\ (r = None -> k = i) /\ (r <> None -> r = Some k /\ k <> i) /\ ((forall p, In p (pending (qu s)) -> p <> k) \/ r <> None)).
Proof.
  intros K Pi NI E CU. unfold maybe_switch_current_tcp, maybe_switch_tcbs in E. set (old := wmsg (wtab (qu s) (widx (qu s) i))) in *.
  assert (NOSW : forall s0, core s0 -> qsame s s0 -> (forall k, P s0 k = P s k) -> current (lg s0) = Some i -> (forall p, traced s p -> ~ replaced c s i p) ->
     core s0 /\ qsame s s0 /\ (forall p, traced s0 p <-> traced s p /\ ~ replaced c s i p) /\ (exists k, current (lg s0) = Some k /\ P s0 k = P s i /\ (@None nat = None -> k = i) /\ (@None nat <> None -> @None nat = Some k /\ k <> i) /\ ((forall p, In p (pending (qu s)) -> p <> k) \/ @None nat <> None))).
  { intros s0 K0 Q0 P0 C0 NR. split; [exact K0|]. split; [exact Q0|]. split.
    - intros p. split; [intros (A & j & B); rewrite P0 in B; assert (TR : traced s p) by (split; eauto); auto|]. intros [(A & j & B) _]. split; [exact A|]. exists j. rewrite P0. exact B.
    - exists i. split; [exact C0|]. split; [apply P0|]. split; [auto|]. split; [contradiction|]. left. intros p Hp ->. contradiction. }
  destruct (c_os3 c) eqn:OS; cbn [negb] in E.
  2:{ cbn in E. inv_ok E. apply NOSW; auto; [apply qsame_refl|]. intros p _ [X _]. congruence. }
  destruct ((old <=? 0)%Z || (old =? Z.of_N (P s i))%Z) eqn:B0.
  { cbn in E. inv_ok E. apply NOSW; auto; [apply qsame_refl|]. intros p _ (_ & X & Y & Z & _). fold old in X. apply orb_true_iff in B0. lia. }
  destruct (4294967295 <? old)%Z eqn:BL.
  { cbn in E. inv_ok E. apply NOSW; auto; [apply qsame_refl|]. intros p _ (_ & X & Y & Z & W). fold old in X. lia. }
  set (arg := (if (2147483648 <=? old)%Z then (old - 4294967296)%Z else old)) in *.
  pose proof (pid2tcb_inv (tb s) arg (o_tab _ K)) as TI. pose proof (pid2tcb_same (tb s) arg) as [TS TN]. pose proof (fun j => pid2tcb_spec (tb s) arg j (o_tab _ K)) as FIND. destruct (pid2tcb (tb s) arg) as [t r0]. cbn [fst snd] in *.
  assert (PS : forall k, P (with_tb s t) k = P s k) by (intros k; unfold P, pidof; cbn; rewrite TS; reflexivity).
  pose proof (core_cache s t K TS TI) as K1.
  destruct r0 as [j|].
  2:{ cbn in E. inv_ok E. apply NOSW; auto; [constructor; auto; apply gk_refl|]. intros p (A & k & B) (_ & X & Y & Z & W). fold old in X. assert (X0 : None = Some k); [|discriminate]. apply FIND. unfold arg. destruct (2147483648 <=? old)%Z eqn:Q; [lia|]. split; [lia|]. change (pidof (tb s) k) with (P s k). lia. }
  destruct (proj1 (FIND j) eq_refl) as [A1 A2]. assert (ARG : arg = old) by (clear -A1 BL; unfold arg in *; destruct (2147483648 <=? old)%Z eqn:Q; lia).
  assert (LT : (old < 2147483648)%Z) by (clear -ARG A1 BL; unfold arg in *; destruct (2147483648 <=? old)%Z eqn:Q; lia). rewrite ARG in *. apply orb_false_iff in B0 as [B1 B2].
  assert (Pj : P s j = Z.to_N old) by exact A2. assert (NE : i <> j) by (intros ->; lia). clear arg ARG.
  apply rbind_ok in E as ([r1 s1] & E1 & E). apply rbind_ok in E1 as (s2 & E1 & E2). apply rbind_ok in E2 as (s3 & E2 & E3). apply rbind_ok in E3 as (s4 & E3 & E4). inversion E4; subst r1 s1; clear E4.
  assert (L2 : logonly (with_tb s t) s2) by (eapply pr_only; [|exact E1]; intros l l'; apply switch_gk). destruct (core_log _ _ K1 L2) as (K2 & Q2 & T2).
  assert (P2 : forall k, P s2 k = P s k) by (intros k; unfold P; rewrite T2; apply PS).
  destruct (droptcb_core _ _ _ _ K2 E2) as (K3 & Q3 & P3 & F3); [rewrite (qs_pend _ _ Q2); exact NI|].
  assert (P3' : forall k, P s3 k = if Nat.eqb k i then 0 else P s k) by (intros k; rewrite P3, P2; reflexivity).
  assert (P3j : P s3 j <> 0) by (rewrite P3'; destruct (Nat.eqb_spec j i); [congruence|lia]).
  destruct (rename_ok (tb s3) j (P s i) (o_tab _ K3) P3j Pi) as [T4 P4].
  { intros k. change (pidof (tb s3) k) with (P s3 k). rewrite P3'. destruct (Nat.eqb_spec k i) as [->|NK]; [congruence|]. intros X. apply NK. apply (t_distinct _ (o_tab _ K)); [unfold P in *; congruence|exact X]. }
  set (s5 := with_tb s3 (rename (tb s3) j (P s i))) in *.
  assert (P5 : forall k, P s5 k = if Nat.eqb k j then P s i else if Nat.eqb k i then 0 else P s k) by (intros k; rewrite <- P3'; exact (P4 k)).
  assert (P5n : forall k, P s5 k <> 0 <-> P s3 k <> 0) by (intros k; rewrite P5, P3'; destruct (Nat.eqb_spec k j) as [->|]; [|tauto]; destruct (Nat.eqb_spec j i); [congruence|]; lia).
  assert (K5 : core s5).
  { destruct K3. constructor; cbn -[Nat.even of]; auto.
    - intros k Hk. apply P5n. auto.
    - intros a b Ha Hb. apply o_gens0; apply P5n; assumption.
    - intros k Hk. apply o_gen0, P5n, Hk.
    - intros k Hk. apply o_in0, P5n, Hk. }
  assert (Q5 : qsame s s5) by (assert (Q : qsame s (with_tb s t)) by (constructor; auto; apply gk_refl); pose proof (qsame_trans _ _ _ Q (qsame_trans _ _ _ Q2 Q3)) as []; constructor; auto).
  assert (M : mild s5 s4).
  { destruct (c_stats c); [inv_ok E3; apply mild_refl|]. apply rbind_ok in E3 as (s6 & E3 & E4). inv_ok E4.
    assert (M6 : mild s5 s6) by (destruct (c_qthread c); [inv_ok E3; apply mild_refl|apply mild_log; eapply message_only; exact E3]).
    eapply mild_trans; [exact M6|]. eapply mild_trans; [|apply mild_setf; discriminate]. destruct (c_all (lc c)); [apply mild_refl|]. repeat split. }
  inv_ok E. assert (M' : mild s5 (with_lg s4 (set_current (lg s4) (Some j)))) by (eapply mild_trans; [exact M|apply mild_current]).
  destruct (mild_core _ _ K5 M') as (K6 & Q6 & T6). split; [exact K6|]. split; [eapply qsame_trans; eassumption|].
  assert (P6 : forall k, P (with_lg s4 (set_current (lg s4) (Some j))) k = if Nat.eqb k j then P s i else if Nat.eqb k i then 0 else P s k) by (intros k; rewrite <- P5; unfold P; rewrite T6; reflexivity).
  split.
  - intros p. unfold traced. split.
    + intros (A & k & B). rewrite P6 in B. destruct (Nat.eqb_spec k j) as [_|N1].
      * split; [split; [exact A|eauto]|]. intros (_ & _ & X & _). congruence.
      * destruct (Nat.eqb_spec k i) as [_|N2]; [congruence|]. split; [split; [exact A|eauto]|]. intros (_ & X & _). fold old in X. apply N1. apply (t_distinct _ (o_tab _ K)); [unfold P in *; congruence|]. change (P s k = P s j). lia.
    + intros [(A & k & B) NR]. split; [exact A|]. destruct (Nat.eq_dec k i) as [->|N1]; [exists j; rewrite P6, Nat.eqb_refl; exact B|]. destruct (Nat.eq_dec k j) as [->|N2].
      * exfalso. apply NR. split; [exact OS|]. fold old. split; [lia|]. split; [lia|]. split; [exact A|lia].
      * exists k. rewrite P6. apply Nat.eqb_neq in N1, N2. rewrite N1, N2. exact B.
  - exists j. split; [reflexivity|]. split; [rewrite P6, Nat.eqb_refl; reflexivity|]. split; [discriminate|]. split; [|right; discriminate]. intros _. split; [reflexivity|congruence].
Qed.

(** ** Events *)
Lemma switched_pid c s i j s' : core s -> maybe_switch_current_tcp c s i = Ok (Some j, s') -> Z.of_N (P s j) = wmsg (wtab (qu s) (widx (qu s) i)).
Proof.
  intros K E. unfold maybe_switch_current_tcp, maybe_switch_tcbs in E. set (old := wmsg (wtab (qu s) (widx (qu s) i))) in *. destruct (negb (c_os3 c)); [discriminate E|]. destruct (_ || _); [discriminate E|]. destruct (4294967295 <? old)%Z eqn:BL; [discriminate E|].
  set (arg := (if (2147483648 <=? old)%Z then (old - 4294967296)%Z else old)) in *. pose proof (fun j => pid2tcb_spec (tb s) arg j (o_tab _ K)) as FIND. destruct (pid2tcb (tb s) arg) as [t r0]. cbn [snd] in FIND.
  destruct r0 as [j0|]; [|discriminate E]. apply rbind_ok in E as ([r1 s1] & E1 & E). apply rbind_ok in E1 as (s2 & _ & E1). apply rbind_ok in E1 as (s3 & _ & E1). apply rbind_ok in E1 as (s4 & _ & E1). inversion E1; subst r1 s1. inversion E; subst j0.
  destruct (proj1 (FIND j) eq_refl) as [A B]. change (pidof (tb s) j) with (P s j) in B. clear -A B BL. unfold arg in *. destruct (2147483648 <=? old)%Z eqn:Q; lia.
Qed.
Lemma traced_same s s' : (forall k, P s' k = P s k) -> forall p, traced s' p <-> traced s p.
Proof. intros E p. split; intros (A & k & B); (split; [exact A|]; exists k; rewrite <- B; auto). Qed.
Lemma traced_tb s s' : tb s' = tb s -> forall p, traced s' p <-> traced s p.
Proof. intros E. apply traced_same. intros k. unfold P. rewrite E. reflexivity. Qed.
Lemma traced_drop s s' i : tinv (tb s) -> P s i <> 0 -> (forall k, P s' k = if Nat.eqb k i then 0 else P s k) -> forall p, traced s' p <-> traced s p /\ p <> P s i.
Proof.
  intros T Pi E p. split.
  - intros (A & k & B). rewrite E in B. destruct (Nat.eqb_spec k i); [congruence|]. split; [split; eauto|]. intros ->. apply n. apply (t_distinct _ T); [unfold P in *; congruence|exact B].
  - intros [(A & k & B) N]. split; [exact A|]. exists k. rewrite E. destruct (Nat.eqb_spec k i) as [->|]; congruence.
Qed.
Lemma dispatch_core c s wd e b s' : core s -> dispatch_event c s (Some wd) e = Ok (b, s') ->
  (busy wd = true -> exists i, current (lg s) = Some i /\ P s i <> 0 /\ ~ In i (pending (qu s)) /\ (te wd = TE_STOP_BEFORE_EXECVE -> undisturbed c s i)) ->
  core s' /\ qsame s s' /\ (forall i, busy wd = true -> current (lg s) = Some i -> change c s i wd s').
Proof.
  intros K E R. unfold dispatch_event in E. destruct (busy wd) eqn:BW.
  2:{ unfold busy in BW. destruct (te wd) eqn:TE; try discriminate; inv_ok E; (split; [exact K|split; [apply qsame_refl|discriminate]]). }
  destruct (R eq_refl) as (i & CU & Pi & NI & UN). clear R. rewrite CU in E.
  assert (GOAL : core s' /\ qsame s s' /\ change c s i wd s' -> core s' /\ qsame s s' /\ (forall i0, true = true -> current (lg s) = Some i0 -> change c s i0 wd s')).
  { intros (A & B & C). split; [exact A|]. split; [exact B|]. intros i0 _ X. assert (i0 = i) as -> by congruence. exact C. }
  apply GOAL. clear GOAL.
  assert (MILD : forall s1, mild s s1 -> core s1 /\ qsame s s1 /\ (forall p, traced s1 p <-> traced s p)).
  { intros s1 M. destruct (mild_core _ _ K M) as (A & B & C). split; [exact A|]. split; [exact B|]. apply traced_tb. exact C. }
  assert (SYS : forall op1, rbind (trace_syscall c s i false e) (fun '(r, sig, s1) => if (r <? 0)%Z then Ok (true, s1) else resume s1 i wd (if fl s1 i SECCOMP_FILTER then if fl s1 i INSYSCALL then OP_SYSCALL else OP_CONT else op1) sig e) = Ok (b, s') ->
     core s' /\ qsame s s' /\ (forall p, traced s' p <-> traced s p)).
  { intros op1 E1. apply rbind_ok in E1 as ([[r sig] s1] & E1 & E2). destruct (trace_core _ _ _ _ _ _ _ _ K Pi E1) as (K1 & Q1 & T1). destruct (r <? 0)%Z; [inv_ok E2; split; [exact K1|split; [exact Q1|apply traced_tb; exact T1]]|].
    apply resume_mild in E2. destruct (mild_core _ _ K1 E2) as (K2 & Q2 & T2). split; [exact K2|]. split; [eapply qsame_trans; eassumption|]. apply traced_tb. congruence. }
  assert (DROP : forall s1, mild s s1 -> droptcb c s1 i = Ok s' -> core s' /\ qsame s s' /\ (forall p, traced s' p <-> traced s p /\ p <> P s i)).
  { intros s1 M E1. destruct (mild_core _ _ K M) as (K1 & Q1 & T1). destruct (droptcb_core _ _ _ _ K1 E1) as (K2 & Q2 & P2 & _); [rewrite (qs_pend _ _ Q1); exact NI|].
    split; [exact K2|]. split; [eapply qsame_trans; eassumption|]. apply traced_drop; [exact (o_tab _ K)|exact Pi|]. intros k. rewrite P2. unfold P. rewrite T1. reflexivity. }
  unfold busy in BW. unfold change. destruct (te wd) eqn:TE; try discriminate BW; clear BW.
  - apply resume_mild in E. apply MILD; exact E.
  - eapply SYS; exact E.
  - apply rbind_ok in E as (s1 & E1 & E). apply stopped_mild in E1. apply resume_mild in E. apply MILD. eapply mild_trans; eassumption.
  - apply rbind_ok in E as (s1 & E1 & E). apply rbind_ok in E as (s2 & E2 & E). inv_ok E. apply signalled_mild in E1. eapply DROP; eassumption.
  - apply rbind_ok in E as (s1 & E1 & E). apply stopped_mild in E1. apply MILD. eapply mild_trans; [exact E1|]. destruct (c_seize c); eapply resume_mild; exact E.
  - apply rbind_ok in E as (s1 & E1 & E). apply rbind_ok in E as (s2 & E2 & E). inv_ok E. apply exited_mild in E1. eapply DROP; eassumption.
  - cbv zeta in E. set (s0 := setf s i CHECK_EXEC_SYSCALL false) in *. assert (M0 : mild s s0) by (apply mild_setf; discriminate). destruct (mild_core _ _ K M0) as (K0 & Q0 & T0).
    apply rbind_ok in E as ([sw s1] & E1 & E). destruct (switch_core c s0 i sw s1 K0) as (K1 & Q1 & TR1 & k & CU1 & Pk & NK & SK & PK); [exact Pi|exact NI|exact E1|exact CU|].
    change (P s0 i) with (P s i) in Pk. rewrite CU1 in E.
    apply rbind_ok in E as ([[bad sig] s2] & E2 & E).
    assert (X2 : core s2 /\ qsame s1 s2 /\ tb s2 = tb s1).
    { destruct (match sw with None => negb (fl s1 k INSYSCALL) | Some _ => false end); [|inv_ok E2; split; [exact K1|split; [apply qsame_refl|reflexivity]]].
      apply rbind_ok in E2 as ([[r sg] s3] & E2 & E3). inv_ok E3. eapply trace_core; [exact K1|rewrite Pk; exact Pi|exact E2]. }
    destruct X2 as (K2 & Q2 & T2). assert (TR2 : forall p, traced s2 p <-> traced s p /\ ~ replaced c s i p) by (intros p; rewrite (traced_tb _ _ T2); apply TR1).
    assert (TI : traced s (P s i)) by (split; [exact Pi|eauto]). assert (NRI : ~ replaced c s i (P s i)) by (intros (_ & _ & X & _); congruence).
    assert (Q02 : qsame s s2) by (eapply qsame_trans; [exact Q0|eapply qsame_trans; eassumption]).
    assert (DONE : forall s3, mild s2 s3 -> core s3 /\ qsame s s3 /\ (forall p, p <> P s i -> (traced s3 p <-> traced s p /\ ~ replaced c s i p)) /\ (c_detexec c = false -> traced s3 (P s i))).
    { intros s3 M. destruct (mild_core _ _ K2 M) as (K3 & Q3 & T3). split; [exact K3|]. split; [eapply qsame_trans; eassumption|]. split; [intros p _; rewrite (traced_tb _ _ T3); apply TR2|]. intros _. rewrite (traced_tb _ _ T3). apply TR2. auto. }
    destruct bad; [inv_ok E; apply DONE, mild_refl|]. destruct (c_detexec c) eqn:DE; [|apply DONE; eapply resume_mild; exact E]. destruct (fl s2 k SKIP_DETACH_ON_FIRST_EXEC).
    + apply resume_mild in E. destruct (DONE s') as (A & B & C & D); [refine (mild_trans _ _ _ _ E); apply mild_setf; discriminate|]. auto.
    + apply rbind_ok in E as (s3 & E3 & E). inv_ok E. destruct (detach_core _ _ _ _ _ _ K2 E3) as (K3 & Q3 & P3).
      { rewrite (qs_pend _ _ Q2), (qs_pend _ _ Q1). change (pending (qu s0)) with (pending (qu s)). intros Hk. destruct PK as [PK|PK]; [apply (PK k Hk); reflexivity|].
        destruct sw as [j|]; [|congruence]. destruct (SK PK) as [X NEK]. inversion X; subst j.
        (* k was the thread that called execve *)
        assert (OLD : Z.of_N (P s k) = wmsg (wtab (qu s) (widx (qu s) i))) by exact (switched_pid _ _ _ _ _ K0 E1).
        apply (UN eq_refl DE k Hk OLD). }
      split; [exact K3|]. split; [eapply qsame_trans; eassumption|]. split; [|discriminate]. intros p NP.
      assert (Pk2 : P s2 k = P s i) by (unfold P in *; rewrite T2; exact Pk).
      rewrite (traced_drop s2 s' k (o_tab _ K2)); [|rewrite Pk2; exact Pi|exact P3]. rewrite Pk2, TR2. tauto.
  - apply rbind_ok in E as (s1 & E1 & E). apply exit_event_mild in E1. apply resume_mild in E. apply MILD. eapply mild_trans; eassumption.
  - destruct (negb _); [apply resume_mild in E; apply MILD; refine (mild_trans _ _ _ _ E); apply mild_setf; discriminate|]. destruct (c_secbefore c); [apply resume_mild in E; apply MILD; exact E|]. eapply SYS; exact E.
Qed.
