(** What the turns of the event loop do to the log and to tcbs that are not concerned. *)
From Coq Require Import Relations.
From Verif Require Import Base TimeModel WaitModel TcbModel TcbProofs LogModel LoopModel LoopSpec LoopFrame LoopSig StatusSpec StatusLog.
Local Open Scope N_scope.

Definition rel (f : flag) : bool := match f with INSYSCALL | REPRINT | FILTERED | HIDE_LOG | CHECK_EXEC_SYSCALL => true | _ => false end.
Record same (i : nat) (s s' : st) : Prop := {
  sm_pid : P s' i = P s i; sm_fl : forall f, rel f = true -> fl s' i f = fl s i f; sm_dec : dec s' i = dec s i }.
Lemma same_refl i s : same i s s. Proof. constructor; auto. Qed.
Lemma same_trans i a b c : same i a b -> same i b c -> same i a c.
Proof. intros [] []. constructor; try congruence. intros f H. rewrite sm_fl1, sm_fl0 by exact H. reflexivity. Qed.

Lemma setf_other s i f b k g : k <> i -> fl (setf s i f b) k g = fl s k g.
Proof. intros N. cbn. destruct (Nat.eqb_spec k i); [contradiction|reflexivity]. Qed.
Lemma setf_rel s i f b k g : rel f = false -> rel g = true -> fl (setf s i f b) k g = fl s k g.
Proof. intros Hf Hg. cbn. destruct (Nat.eqb k i); [|reflexivity]. destruct f, g; try discriminate; reflexivity. Qed.

(** ** The table *)
Lemma nth_set_other l j p k : k <> j -> (k < length l)%nat -> nth k (set_pid l j p) 0 = nth k l 0.
Proof.
  unfold set_pid. intros N H. destruct (Nat.lt_ge_cases j (length l)) as [J|J].
  - pose proof (nth_set l j p k J) as X. unfold set_pid in X. rewrite X. destruct (Nat.eqb_spec k j); [contradiction|reflexivity].
  - rewrite firstn_all2 by lia. rewrite app_nth1 by exact H. reflexivity.
Qed.
Lemma alloc_other t pid t' i : alloctcb t pid = Ok (t', i) -> pidof t i = 0 /\ forall k, pidof t k <> 0 -> pidof t' k = pidof t k.
Proof.
  unfold alloctcb. intros E. apply rbind_ok in E as (t1 & E1 & E2).
  assert (X : forall k, pidof t1 k = pidof t k). { destruct (_ =? _); [|inv_ok E1; reflexivity]. unfold expand_tcbtab in E1. apply rbind_ok in E1 as (r & _ & E1). inv_ok E1. intros k. unfold pidof. cbn.
    destruct (Nat.lt_ge_cases k (length (pids t))) as [L|L]; [apply app_nth1; exact L|]. rewrite app_nth2 by exact L. rewrite (nth_overflow (pids t)) by exact L. generalize (k - length (pids t))%nat. generalize (N.to_nat (fst r - N.of_nat (length (pids t)))). clear. induction n; intros [|k]; cbn; auto. }
  destruct (find_pid (pids t1) 0) as [j|] eqn:F; [|discriminate]. inv_ok E2. apply find_pid_some in F as [F1 F2]. split; [rewrite <- X; exact F2|].
  intros k Hk. rewrite <- X in *. unfold pidof in *. cbn [pids]. rewrite nth_set by exact F1. destruct (Nat.eqb_spec k i) as [->|]; [congruence|reflexivity].
Qed.
Lemma drop_other t i k : k <> i -> pidof (drop_slot t i) k = pidof t k.
Proof.
  unfold drop_slot. intros N. destruct (N.eqb_spec (pidof t i) 0) as [|Z]; [reflexivity|]. apply pidof_lt in Z. unfold pidof. cbn [pids]. rewrite nth_set by exact Z. destruct (Nat.eqb_spec k i); [contradiction|reflexivity].
Qed.
Lemma pid2tcb_pids t p : forall k, pidof (fst (pid2tcb t p)) k = pidof t k. Proof. intros k. unfold pidof. rewrite (proj1 (pid2tcb_same t p)). reflexivity. Qed.
Lemma pid2tcb_hit t p j : snd (pid2tcb t p) = Some j -> (0 < p)%Z /\ pidof t j = Z.to_N p.
Proof.
  unfold pid2tcb. destruct (Z.leb_spec p 0); [discriminate|]. cbv zeta. intros E. split; [lia|]. revert E.
  assert (F : forall x, find_pid (pids t) (Z.to_N p) = Some x -> pidof t x = Z.to_N p) by (intros x Hx; apply find_pid_some in Hx; apply Hx).
  destruct (cache t _) as [x|].
  - destruct (N.eqb_spec (pidof t x) (Z.to_N p)); [intros E; inversion E; subst; assumption|]. destruct (find_pid _ _) eqn:Q; [|discriminate]. intros E; inversion E; subst. auto.
  - destruct (find_pid _ _) eqn:Q; [|discriminate]. intros E; inversion E; subst. auto.
Qed.

Section K.
Variable K : nat -> bool.
Record step (s s' : st) : Prop := {
  sf_log : lops K (lg s) (lg s'); sf_same : forall i, K i = false -> same i s s'; sf_disp : disp (qu s') = disp (qu s) }.
Record calm (s : st) : Prop := { cm_whole : whole K (lg s); cm_live : forall i, K i = false -> P s i <> 0 }.
Lemma step_refl s : step s s. Proof. constructor; [apply lops_refl|intros; apply same_refl|reflexivity]. Qed.
Lemma step_trans a b c : step a b -> step b c -> step a c.
Proof. intros [] []. constructor; [eapply lops_trans; eassumption|intros i H; eapply same_trans; eauto|congruence]. Qed.
Lemma calm_step s s' : calm s -> step s s' -> calm s'.
Proof. intros [A B] [C D _]. constructor; [eapply whole_lops; eassumption|]. intros i H. rewrite (sm_pid _ _ _ (D i H)). auto. Qed.
(** changes of parts of the state *)
Lemma step_log s l : lops K (lg s) l -> step s (with_lg s l).
Proof. intros H. constructor; [exact H|intros; constructor; auto|reflexivity]. Qed.
Lemma step_setf s i f b : K i = true \/ rel f = false -> step s (setf s i f b).
Proof.
  intros H. constructor; [apply lops_refl| |reflexivity]. intros k Hk. constructor; try reflexivity. intros g Hg. destruct H as [H|H]; [apply setf_other; congruence|apply setf_rel; assumption].
Qed.
Lemma step_other s s' : lg s' = lg s -> tb s' = tb s -> fl s' = fl s -> dec s' = dec s -> disp (qu s') = disp (qu s) -> step s s'.
Proof. intros A B C D E. constructor; [rewrite A; apply lops_refl| |exact E]. intros i _. constructor; unfold P; rewrite ?B, ?C, ?D; reflexivity. Qed.
Lemma step_dec s i b : K i = true -> step s (with_dec s i b).
Proof. intros H. constructor; [apply lops_refl| |reflexivity]. intros k Hk. constructor; try reflexivity. cbn. destruct (Nat.eqb_spec k i); [congruence|reflexivity]. Qed.
Lemma step_tb s t : (forall k, K k = false -> pidof t k = P s k) -> step s (with_tb s t).
Proof. intros H. constructor; [apply lops_refl| |reflexivity]. intros k Hk. constructor; try reflexivity. apply H. exact Hk. Qed.
Lemma step_current s x : step s (with_lg s (set_current (lg s) x)). Proof. apply step_log, lops_one, lo_cur. Qed.

(** printing *)
Lemma tpr_step s xs s' : curK K (lg s) -> tpr s xs = Ok s' -> step s s' /\ current (lg s') = current (lg s).
Proof.
  intros H E. unfold tpr, pr in E. apply rbind_ok in E as (l & E1 & E2). inv_ok E2. apply (tprints_steps K) in E1 as [A B]; auto. split; [apply step_log; exact A|exact B].
Qed.
Lemma end_line_step s : step s (end_line s) /\ current (lg (end_line s)) = current (lg s).
Proof. destruct (line_ended_steps K (lg s)) as [A B]. split; [apply step_log; exact A|exact B]. Qed.
Lemma leader_step c s i s' : calm s -> K i = true -> leader c s i = Ok s' -> step s s' /\ current (lg s') = Some i.
Proof.
  intros [W _] H E. unfold leader, pr in E. apply rbind_ok in E as (l & E1 & E2). inv_ok E2. apply (printleader_steps K) in E1 as [A B]; auto. split; [apply step_log; exact A|exact B].
Qed.
Lemma message_step c s i t x s' : calm s -> K i = true -> message c s i t x = Ok s' -> step s s' /\ current (lg s') = Some i.
Proof.
  intros [W _] H E. unfold message, pr in E. apply rbind_ok in E as (l & E1 & E2). inv_ok E2. apply (msg_line_steps K) in E1 as [A B]; auto. split; [apply step_log; exact A|exact B].
Qed.
Lemma curK_some l i : current l = Some i -> K i = true -> curK K l. Proof. intros H Hi j E. congruence. Qed.
Lemma restart_step o s i sig err b s' : curK K (lg s) -> ptrace_restart o s i sig err = Ok (b, s') -> step s s'.
Proof.
  intros H E. unfold ptrace_restart in E. cbv zeta in E. assert (A : step s (ask s i o sig)) by (apply step_other; reflexivity). destruct (_ || _); [inv_ok E; exact A|].
  apply rbind_ok in E as (s1 & E1 & E2). inv_ok E2. eapply step_trans; [exact A|]. destruct (current (lg (ask s i o sig))) as [j|]; [|inv_ok E1; apply step_refl]. destruct (_ =? 0); [inv_ok E1; apply step_refl|].
  apply rbind_ok in E1 as (s2 & E1 & E3). inv_ok E3. apply tpr_step in E1 as [B1 B2]; [|exact H]. eapply step_trans; [exact B1|apply end_line_step].
Qed.
(** a restart that succeeds leaves the log alone *)
Lemma restart_ok o s i sig err s' : ptrace_restart o s i sig err = Ok (true, s') -> s' = ask s i o sig.
Proof. unfold ptrace_restart. cbv zeta. destruct (_ || _); intros E; [inv_ok E; reflexivity|]. apply rbind_ok in E as (s1 & E1 & E2). discriminate. Qed.
Lemma resume_go s i wd o sig e s' : resume s i wd o sig e = Ok (true, s') -> lg s' = lg s /\ tb s' = tb s /\ fl s' = fl s /\ dec s' = dec s /\ disp (qu s') = disp (qu s).
Proof.
  unfold resume. cbv zeta. set (s1 := if e_intr e =? 0 then s else set_intr s (e_intr e)). assert (A : lg s1 = lg s /\ tb s1 = tb s /\ fl s1 = fl s /\ dec s1 = dec s /\ disp (qu s1) = disp (qu s)) by (unfold s1; destruct (_ =? 0); repeat split).
  clearbody s1. destruct (negb _); [discriminate|]. destruct (fl s1 i DELAYED); [intros E; inv_ok E; exact A|]. intros E. apply rbind_ok in E as ([ok s2] & E1 & E2). destruct ok; [|discriminate]. inv_ok E2. apply restart_ok in E1. subst s'. exact A.
Qed.
Lemma resume_step s i wd o sig e b s' : curK K (lg s) -> resume s i wd o sig e = Ok (b, s') -> step s s'.
Proof.
  unfold resume. cbv zeta. intros H. set (s1 := if e_intr e =? 0 then s else set_intr s (e_intr e)). assert (A : step s s1) by (unfold s1; destruct (_ =? 0); apply step_other; reflexivity). assert (C : lg s1 = lg s) by (unfold s1; destruct (_ =? 0); reflexivity).
  clearbody s1. destruct (negb _); [intros E; inv_ok E; exact A|]. destruct (fl s1 i DELAYED); [intros E; inv_ok E; eapply step_trans; [exact A|apply step_other; reflexivity]|]. intros E. apply rbind_ok in E as ([ok s2] & E1 & E2).
  apply restart_step in E1; [|rewrite C; exact H]. eapply step_trans; [exact A|]. eapply step_trans; [exact E1|]. destruct ok; inv_ok E2; [apply step_refl|apply step_other; reflexivity].
Qed.

(** tcbs come and go *)
Lemma new_step s pid i s' : calm s -> new_tcb s pid = Ok (i, s') -> step s s' /\ K i = true.
Proof.
  intros [_ L] E. unfold new_tcb in E. apply rbind_ok in E as ([t j] & E1 & E). cbv zeta in E. injection E as E0 E2. subst j s'. apply alloc_other in E1 as [A1 A2].
  assert (Ki : K i = true) by (destruct (K i) eqn:X; [reflexivity|exfalso; apply (L i X); exact A1]). split; [|exact Ki]. constructor.
  - apply lops_one. apply lo_new. exact Ki.
  - intros k Hk. assert (N : k <> i) by congruence. constructor; cbn; try (destruct (Nat.eqb_spec k i); [contradiction|reflexivity]). apply A2, L, Hk.
  - reflexivity.
Qed.
Lemma fold_setf_step i fs : K i = true -> forall s, step s (fold_left (fun s f => setf s i f true) fs s).
Proof. intros H. induction fs as [|f fs IH]; intros s; [apply step_refl|]. cbn. eapply step_trans; [apply (step_setf s i f true); auto|apply IH]. Qed.
Lemma attached_step c s i fs : K i = true -> step s (attached c s i fs).
Proof.
  intros H. unfold attached. cbv zeta. set (s1 := setf (setf s i ATTACHED true) i STARTUP true). assert (A : step s s1) by (eapply step_trans; apply step_setf; auto). eapply step_trans; [exact A|]. eapply step_trans; [apply (fold_setf_step i fs H)|].
  apply step_log, lops_one. apply lo_attach. exact H.
Qed.
Lemma drop_log_steps Q c l i l' : K i = true -> drop_log Q c l i = Ok l' -> lops K l l'.
Proof.
  intros H E. unfold drop_log in E. apply rbind_ok in E as (l1 & E1 & E). inv_ok E. assert (A : lops K l l1).
  { destruct (outf l i); [|inv_ok E1; apply lops_refl]. cbv zeta in E1. apply rbind_ok in E1 as (l2 & E2 & E1). assert (B : lops K l l2) by (destruct (c_all c); [inv_ok E2; apply lops_refl|eapply close_steps; eassumption]).
    destruct (_ && _); [|inv_ok E1; exact B]. apply rbind_ok in E1 as (l3 & E3 & E1). apply (put_steps K) in E3, E1; auto. eapply lops_trans; [exact B|]. eapply lops_trans; eassumption. }
  set (l2 := match current l1 with Some j => if Nat.eqb j i then set_current l1 None else l1 | None => l1 end). assert (A2 : lops K l l2) by (unfold l2; destruct (current l1) as [j|]; [|exact A]; destruct (Nat.eqb j i); [|exact A]; eapply lops_snoc; [exact A|apply lo_cur]).
  clearbody l2. set (l3 := match printing l2 with Some j => if Nat.eqb j i then set_printing l2 None else l2 | None => l2 end). assert (A3 : lops K l l3) by (unfold l3; destruct (printing l2) as [j|]; [|exact A2]; destruct (Nat.eqb j i); [|exact A2]; eapply lops_snoc; [exact A2|apply lo_printing]).
  eapply lops_snoc; [eapply lops_snoc; [exact A3|apply lo_col0]|apply lo_out; exact H].
Qed.
Lemma drop_step c s i s' : K i = true -> droptcb c s i = Ok s' -> step s s'.
Proof.
  intros H E. unfold droptcb in E. destruct (_ =? 0); [inv_ok E; apply step_refl|]. apply rbind_ok in E as (s1 & E1 & E). unfold pr in E1. apply rbind_ok in E1 as (l & E1 & E2). inv_ok E2. apply drop_log_steps in E1; auto. cbv zeta in E. injection E as <-. constructor.
  - exact E1.
  - intros k Hk. assert (N : k <> i) by congruence. constructor; cbn; try (destruct (Nat.eqb_spec k i); [contradiction|reflexivity]). apply (drop_other (tb s)); exact N.
  - reflexivity.
Qed.
Lemma dios_step c s i a b s' : detach_or_interrupt_or_stop c s i a = (b, s') -> step s s' /\ lg s' = lg s.
Proof.
  unfold detach_or_interrupt_or_stop. cbv zeta. intros E. repeat match type of E with (if ?b then _ else _) = _ => destruct b end; inversion E; subst; (split; [apply step_other; reflexivity|reflexivity]).
Qed.
Lemma dis_step c s i w err b s' : curK K (lg s) -> detach_interrupted_or_stopped c s i w err = Ok (b, s') -> step s s'.
Proof.
  unfold detach_interrupted_or_stopped. cbv zeta. intros H. destruct (negb _); [intros E; inv_ok E; apply step_refl|]. destruct (c_seize c); [|destruct (_ =? SIGSTOP)]; intros E; apply rbind_ok in E as ([ok s1] & E1 & E2); inv_ok E2; eapply restart_step; eassumption.
Qed.
(** while waiting for the tracee that is being detached nothing else becomes current *)
Lemma restart_cur o s i sig err b s' : ptrace_restart o s i sig err = Ok (b, s') -> current (lg s') = current (lg s).
Proof.
  unfold ptrace_restart. cbv zeta. destruct (_ || _); [intros E; inv_ok E; reflexivity|]. intros E. apply rbind_ok in E as (s1 & E1 & E2). inv_ok E2. change (current (lg s)) with (current (lg (ask s i o sig))). set (s0 := ask s i o sig) in *. clearbody s0.
  destruct (current (lg s0)) as [j|] eqn:C; [|inv_ok E1; exact C]. destruct (_ =? 0); [inv_ok E1; exact C|]. apply rbind_ok in E1 as (s2 & E1 & E3). inv_ok E3. rewrite (proj2 (end_line_step s2)).
  unfold tpr, pr in E1. apply rbind_ok in E1 as (l & E1 & E3). inv_ok E3. apply (tprints_steps (fun _ => true)) in E1 as [_ B]; [|intros ? ?; reflexivity]. cbn [lg with_lg]. congruence.
Qed.
Lemma dis_cur c s i w err b s' : detach_interrupted_or_stopped c s i w err = Ok (b, s') -> current (lg s') = current (lg s).
Proof.
  unfold detach_interrupted_or_stopped. cbv zeta. destruct (negb _); [intros E; inv_ok E; reflexivity|]. destruct (c_seize c); [|destruct (_ =? SIGSTOP)]; intros E; apply rbind_ok in E as ([ok s1] & E1 & E2); inv_ok E2; eapply restart_cur; eassumption.
Qed.
Lemma detach_wait_step c i ws : forall s s', curK K (lg s) -> detach_wait c s i ws = Ok s' -> step s s'.
Proof.
  induction ws as [|w ws IH]; intros s s' H E; cbn in E; [inv_ok E; apply step_refl|]. destruct w as [[]|w err]; [eauto|inv_ok E; apply step_refl|]. apply rbind_ok in E as ([done s1] & E1 & E2). pose proof (dis_cur _ _ _ _ _ _ _ E1) as C. apply dis_step in E1; [|exact H].
  destruct done; [inv_ok E2; exact E1|]. eapply step_trans; [exact E1|apply IH; [|exact E2]]. eapply curK_eq; [exact C|exact H].
Qed.
Lemma detach_step c s i a ws s' : curK K (lg s) -> K i = true -> detach c s i a ws = Ok s' -> step s s'.
Proof.
  unfold detach. intros H Ki E. destruct (detach_or_interrupt_or_stop c s i a) as [w s1] eqn:D. apply dios_step in D as [D1 D2]. apply rbind_ok in E as (s2 & E1 & E2). eapply step_trans; [exact D1|]. assert (X : step s1 s2) by (destruct w; [eapply detach_wait_step; [rewrite D2; exact H|exact E1]|inv_ok E1; apply step_refl]).
  eapply step_trans; [exact X|eapply drop_step; eassumption].
Qed.
Lemma delay_step s i d n n' : step s (delay_tcb s i d n n').
Proof.
  unfold delay_tcb. cbv zeta. eapply step_trans; [apply (step_setf s i DELAYED true); auto|]. match goal with |- step ?a (if ?b then ?x else ?y) => destruct b; apply step_other; reflexivity end.
Qed.
Lemma delay_cur s i d n n' : lg (delay_tcb s i d n n') = lg s.
Proof. unfold delay_tcb. cbv zeta. match goal with |- context [if ?b then _ else _] => destruct b; reflexivity end. Qed.

(** system calls *)
Lemma entering_decode_step c s i e r s' : calm s -> K i = true -> syscall_entering_decode c s i e = Ok (r, s') -> step s s' /\ (curK K (lg s) -> curK K (lg s')).
Proof.
  intros CM H E. unfold syscall_entering_decode in E. cbv zeta in E. match type of E with context [with_name s i ?n] => set (s1 := with_name s i n) in E end. assert (A : step s s1) by (apply step_other; reflexivity). assert (L1 : lg s1 = lg s) by reflexivity. assert (C1 : calm s1) by (eapply calm_step; eassumption). clearbody s1.
  destruct (_ =? 0)%Z; [inv_ok E; split; [exact A|rewrite L1; auto]|]. match type of E with (if ?b then _ else _) = _ => destruct b end; [inv_ok E; split; [exact A|rewrite L1; auto]|]. apply rbind_ok in E as (s2 & E1 & E). apply rbind_ok in E as (s3 & E2 & E3). inv_ok E3.
  apply leader_step in E1 as [B1 B2]; auto. apply tpr_step in E2 as [D1 D2]; [|eapply curK_some; eassumption]. split; [eapply step_trans; [exact A|]; eapply step_trans; eassumption|]. intros _. eapply curK_some; [rewrite D2; exact B2|exact H].
Qed.
Lemma entering_trace_step c s i rec e d sg s' : calm s -> K i = true -> syscall_entering_trace c s i rec e = Ok (d, sg, s') -> step s s' /\ (curK K (lg s) -> curK K (lg s')).
Proof.
  intros CM H E. unfold syscall_entering_trace in E. cbv zeta in E.
  set (s1 := if fl s i HIDE_LOG && e_exec e then _ else s) in E. assert (A1 : step s s1) by (unfold s1; destruct (_ && _); [eapply step_trans; apply step_setf; auto|apply step_refl]). assert (L1 : lg s1 = lg s) by (unfold s1; destruct (_ && _); reflexivity). clearbody s1.
  destruct (_ || _); [inv_ok E; split; [eapply step_trans; [exact A1|apply step_setf; auto]|cbn; rewrite L1; auto]|].
  match type of E with context [if ?b then (if e_xdelay e then _ else _) else _] => set (inj := b) in E end.
  match type of E with context [if inj then (if e_xdelay e then _ else _) else setf s1 i FILTERED false] => idtac end.
  set (s2 := if inj then _ else setf s1 i FILTERED false) in E.
  assert (A2 : step s s2). { eapply step_trans; [exact A1|]. eapply step_trans; [apply (step_setf s1 i FILTERED false); auto|]. unfold s2. destruct inj; [|apply step_refl]. set (s3 := match e_delay e with Some _ => _ | None => _ end). assert (X : step (setf s1 i FILTERED false) s3) by (unfold s3; destruct (e_delay e) as [[[x y] z]|]; [apply delay_step|apply step_refl]). clearbody s3. eapply step_trans; [exact X|]. destruct (e_xdelay e); [apply step_setf; auto|apply step_refl]. }
  assert (L2 : lg s2 = lg s). { rewrite <- L1. unfold s2. destruct inj; [|reflexivity]. destruct (e_xdelay e); destruct (e_delay e) as [[[x y] z]|]; cbn [lg setf with_fl]; rewrite ?delay_cur; reflexivity. }
  clearbody s2. destruct (c_stats c); [inv_ok E; split; [exact A2|rewrite L2; auto]|].
  set (s3 := if c_all (lc c) then s2 else _) in E. assert (A3 : step s s3) by (eapply step_trans; [exact A2|]; unfold s3; destruct (c_all (lc c)); [apply step_refl|apply step_log, lops_one, lo_open; exact H]). assert (C3 : calm s3) by (eapply calm_step; eassumption). clearbody s3.
  apply rbind_ok in E as (s4 & E1 & E). apply rbind_ok in E as (s5 & E2 & E3). inv_ok E3. apply leader_step in E1 as [B1 B2]; auto. apply tpr_step in E2 as [D1 D2]; [|eapply curK_some; eassumption]. split; [eapply step_trans; [exact A3|]; eapply step_trans; eassumption|]. intros _. eapply curK_some; [rewrite D2; exact B2|exact H].
Qed.
Lemma resumed_steps Q c np l i rp n b l' : whole K l -> K i = true -> curK K l -> print_syscall_resume Q c np l i rp n = Ok (b, l') -> lops K l l' /\ curK K l'.
Proof.
  intros W H CK E. unfold print_syscall_resume in E. apply rbind_ok in E as (l1 & E1 & E). inv_ok E. assert (A : lops K l l1 /\ curK K l1).
  { match type of E1 with (if ?b then _ else _) = _ => destruct b end; [|inv_ok E1; split; [apply lops_refl|exact CK]]. apply rbind_ok in E1 as (l2 & E1 & E2). apply (printleader_steps K) in E1 as [A1 A2]; auto. apply (tprint_steps K) in E2 as [B1 B2]; [|eapply curK_some; eassumption].
    split; [eapply lops_trans; eassumption|]. eapply curK_some; [rewrite B2; exact A2|exact H]. }
  destruct A as [A1 A2]. split; [eapply lops_snoc; [exact A1|apply lo_printing]|exact A2].
Qed.
Lemma exiting_trace_step c s i rc e r s' : calm s -> K i = true -> curK K (lg s) -> syscall_exiting_trace c s i rc e = Ok (r, s') -> step s s' /\ curK K (lg s').
Proof.
  intros CM H CK E. unfold syscall_exiting_trace in E. cbv zeta in E.
  set (s1 := if fl s i INJECT_DELAY_EXIT then _ else s) in E. assert (A1 : step s s1) by (unfold s1; destruct (fl s i INJECT_DELAY_EXIT); [destruct (x_delay e) as [[x y] z]; apply delay_step|apply step_refl]). assert (L1 : lg s1 = lg s) by (unfold s1; destruct (fl s i INJECT_DELAY_EXIT); [destruct (x_delay e) as [[x y] z]; apply delay_cur|reflexivity]). clearbody s1.
  assert (C1 : calm s1) by (eapply calm_step; eassumption). apply rbind_ok in E as (s2 & E1 & E).
  assert (A2 : step s s2 /\ curK K (lg s2)).
  { destruct (c_stats c); [inv_ok E1; split; [exact A1|rewrite L1; exact CK]|]. apply rbind_ok in E1 as ([rr l] & E1 & E2). cbv zeta in E2. apply resumed_steps in E1 as [B1 B2]; [|apply C1|exact H|rewrite L1; exact CK].
    assert (X : step s (with_lg s1 l)) by (eapply step_trans; [exact A1|apply step_log; exact B1]). destruct rr; inv_ok E2; [|split; [exact X|exact B2]]. split; [eapply step_trans; [exact X|apply step_setf; auto]|exact B2]. }
  destruct A2 as [A2 K2]. clear A1 L1 C1 E1. assert (EL : forall x, step s x -> curK K (lg x) -> step s (end_line x) /\ curK K (lg (end_line x))) by (intros x X Y; destruct (end_line_step x) as [Z1 Z2]; split; [eapply step_trans; eassumption|eapply curK_eq; eassumption]). destruct (negb (rc =? 1)%Z).
  - destruct (c_stats c); [inv_ok E; split; assumption|]. apply rbind_ok in E as (s3 & E1 & E). apply rbind_ok in E as (s4 & E2 & E). inv_ok E. apply tpr_step in E1 as [B1 B2]; [|exact K2]. assert (K3 : curK K (lg s3)) by (eapply curK_eq; eassumption). apply EL.
    + eapply step_trans; [exact A2|]. eapply step_trans; [exact B1|]. destruct (c_all (lc c)); [inv_ok E2; apply step_refl|]. unfold pr in E2. apply rbind_ok in E2 as (l & E2 & E3). inv_ok E3. apply step_log. eapply close_steps; eassumption.
    + destruct (c_all (lc c)); [inv_ok E2; exact K3|]. unfold pr in E2. apply rbind_ok in E2 as (l & E2 & E3). inv_ok E3. apply (close_steps K) in E2 as [D1 D2]; [|exact H]. eapply curK_eq; eassumption.
  - apply rbind_ok in E as (s3 & E1 & E). assert (B : step s2 s3 /\ curK K (lg s3)). { destruct (_ || _); [inv_ok E1; split; [apply step_refl|exact K2]|]. apply tpr_step in E1 as [B1 B2]; [|exact K2]. split; [exact B1|eapply curK_eq; eassumption]. }
    destruct B as [B K3]. apply rbind_ok in E as (s4 & E2 & E). assert (D : step s3 s4 /\ curK K (lg s4)). { destruct (_ || _) in E2; [inv_ok E2; split; [apply step_refl|exact K3]|]. unfold pr in E2. apply rbind_ok in E2 as (l & E2 & E3). inv_ok E3. apply (close_steps K) in E2 as [D1 D2]; [|exact H]. split; [apply step_log; exact D1|eapply curK_eq; eassumption]. }
    destruct D as [D K4]. assert (X : step s s4) by (eapply step_trans; [exact A2|]; eapply step_trans; eassumption). clear A2 B D E1 E2. destruct (negb _).
    + inv_ok E. destruct (c_stats c); [split; assumption|]. apply EL; assumption.
    + set (s5 := if (limit s4 =? -1)%Z then s4 else _) in E. assert (Y : step s s5 /\ lg s5 = lg s4) by (unfold s5; destruct (_ =? _)%Z; (split; [|reflexivity]); [exact X|eapply step_trans; [exact X|apply step_other; reflexivity]]). clearbody s5. destruct Y as [Y L5].
      assert (K5 : curK K (lg s5)) by (rewrite L5; exact K4). destruct (c_stats c); [inv_ok E; split; assumption|]. apply rbind_ok in E as (s6 & E1 & E). inv_ok E. apply tpr_step in E1 as [F1 F2]; [|exact K5]. apply EL; [eapply step_trans; eassumption|eapply curK_eq; eassumption].
Qed.
Lemma entering_finish_step s i d : K i = true -> step s (syscall_entering_finish s i d).
Proof. intros H. unfold syscall_entering_finish. eapply step_trans; [apply (step_setf s i INSYSCALL true); auto|]. eapply step_trans; [apply step_dec; exact H|apply step_other; reflexivity]. Qed.
Lemma exiting_finish_step s i : K i = true -> step s (syscall_exiting_finish s i).
Proof. intros H. unfold syscall_exiting_finish. eapply step_trans; [apply (step_setf s i INSYSCALL false); auto|]. eapply step_trans; [apply (step_setf _ i INJECT_DELAY_EXIT false); auto|]. eapply step_trans; [apply (step_dec _ i false); exact H|apply step_other; reflexivity]. Qed.
Lemma exiting_decode_step s i e r s' : K i = true -> syscall_exiting_decode s i e = (r, s') -> step s s' /\ lg s' = lg s.
Proof. unfold syscall_exiting_decode. intros H. destruct (fl s i FILTERED); [intros E; inversion E; subst; split; [apply step_refl|reflexivity]|]. intros E; inversion E; subst. destruct (fl s i CHECK_EXEC_SYSCALL); (split; [|reflexivity]); [apply step_setf; auto|apply step_refl]. Qed.
Lemma trace_syscall_step c s i rec e r sg s' : calm s -> K i = true -> curK K (lg s) -> trace_syscall c s i rec e = Ok (r, sg, s') -> step s s' /\ curK K (lg s').
Proof.
  intros CM H CK E. unfold trace_syscall in E. destruct (negb _).
  - apply rbind_ok in E as ([r1 s1] & E1 & E). apply entering_decode_step in E1 as [E1 K1]; auto. specialize (K1 CK). destruct (r1 =? 0)%Z; [inv_ok E; split; assumption|]. destruct (r1 =? 1)%Z; [|inv_ok E; split; [eapply step_trans; [exact E1|apply entering_finish_step; exact H]|exact K1]].
    apply rbind_ok in E as ([[d sg1] s2] & E2 & E). inv_ok E. apply entering_trace_step in E2 as [E2 K2]; [|eapply calm_step; eassumption|exact H]. split; [|exact (K2 K1)]. eapply step_trans; [exact E1|]. eapply step_trans; [exact E2|apply entering_finish_step; exact H].
  - destruct (syscall_exiting_decode s i e) as [r1 s1] eqn:D. apply exiting_decode_step in D as [D L]; [|exact H]. apply rbind_ok in E as ([r2 s2] & E1 & E). inv_ok E. assert (K1 : curK K (lg s1)) by (rewrite L; exact CK).
    assert (X : step s1 s2 /\ curK K (lg s2)) by (destruct (r1 =? 0)%Z; [inv_ok E1; split; [apply step_refl|exact K1]|]; eapply exiting_trace_step; [eapply calm_step; eassumption|exact H|exact K1|exact E1]).
    destruct X as [X K2]. split; [|exact K2]. eapply step_trans; [exact D|]. eapply step_trans; [exact X|apply exiting_finish_step; exact H].
Qed.

(** events *)
Lemma switch_files_steps Q l i j pid l' : K i = true -> K j = true -> switch_files Q l i j pid = Ok l' -> lops K l l' /\ current l' = current l.
Proof.
  intros Hi Hj E. unfold switch_files in E. apply rbind_ok in E as (l1 & E1 & E). inv_ok E. assert (A : lops K l l1 /\ current l1 = current l).
  { destruct (_ =? 0); [inv_ok E1; split; [apply lops_refl|reflexivity]|]. apply rbind_ok in E1 as (l2 & E1 & E2). pose proof (put_cur _ _ _ _ _ E1) as X1. pose proof (put_cur _ _ _ _ _ E2) as X2. apply (put_steps K) in E1, E2; auto. split; [eapply lops_trans; eassumption|congruence]. }
  destruct A as [A1 A2]. split; [|exact A2]. eapply lops_trans; [exact A1|]. eapply lops_snoc; [eapply lops_snoc; [apply lops_one, (lo_swap K l1 i j); assumption|apply lo_col; exact Hj]|apply lo_col0].
Qed.
Definition spares (s : st) (i : nat) : Prop := forall j, K j = false -> wmsg (wtab (qu s) (widx (qu s) i)) <> Z.of_N (P s j).
Lemma switch_step c s i r s' : calm s -> K i = true -> spares s i -> maybe_switch_tcbs c s i = Ok (r, s') -> step s s' /\ (forall j, r = Some j -> K j = true) /\ (r = None -> current (lg s') = current (lg s)).
Proof.
  intros CM Hi SP E. unfold maybe_switch_tcbs in E. cbv zeta in E. unfold spares in SP. set (old := wmsg (wtab (qu s) (widx (qu s) i))) in *.
  assert (X : forall s1, s' = s1 -> r = None -> step s s1 -> lg s1 = lg s -> step s s' /\ (forall j, r = Some j -> K j = true) /\ (r = None -> current (lg s') = current (lg s))) by (intros s1 -> -> A B; split; [exact A|split; [discriminate|rewrite B; reflexivity]]).
  destruct (negb _); [inv_ok E; apply (X s'); auto using step_refl|]. destruct (_ || _); [inv_ok E; apply (X s'); auto using step_refl|]. destruct (Z.ltb_spec 4294967295 old) as [|LT]; [inv_ok E; apply (X s'); auto using step_refl|].
  match type of E with context [pid2tcb (tb s) ?x] => set (arg := x) in E; assert (AR : (0 < arg)%Z -> arg = old) by (unfold arg; destruct (Z.leb_spec 2147483648 old); lia); pose proof (pid2tcb_pids (tb s) arg) as PP; pose proof (pid2tcb_hit (tb s) arg) as PH; destruct (pid2tcb (tb s) arg) as [t rr]; cbn [fst snd] in PP, PH end.
  assert (A0 : step s (with_tb s t)) by (apply step_tb; intros k _; apply PP). assert (C0 : calm (with_tb s t)) by (eapply calm_step; eassumption). destruct rr as [j|]; [|inv_ok E; apply (X (with_tb s t)); auto].
  destruct (PH j eq_refl) as [PH1 PH2]. specialize (AR PH1). assert (Hj : K j = true). { destruct (K j) eqn:Y; [reflexivity|exfalso]. apply (SP j Y). unfold P. rewrite PH2, Z2N.id, AR by lia. reflexivity. }
  clear X. apply rbind_ok in E as (s1 & E1 & E). unfold pr in E1. apply rbind_ok in E1 as (l1 & E1 & E2). inv_ok E2. apply switch_files_steps in E1 as [B1 B2]; auto.
  assert (A1 : step s (with_lg (with_tb s t) l1)) by (eapply step_trans; [exact A0|apply step_log; exact B1]). clear A0 C0. set (s1 := with_lg (with_tb s t) l1) in *. clearbody s1.
  apply rbind_ok in E as (s2 & E1 & E). apply drop_step in E1; [|exact Hi]. assert (A2 : step s s2) by (eapply step_trans; eassumption). assert (C2 : calm s2) by (eapply calm_step; eassumption). clear E1 A1.
  set (s3 := with_tb s2 (rename (tb s2) j (P s i))) in E. assert (A3 : step s s3). { eapply step_trans; [exact A2|]. apply step_tb. intros k Hk. unfold rename, pidof. cbn [pids]. apply nth_set_other; [congruence|]. apply pidof_lt. apply (cm_live _ C2). exact Hk. }
  clearbody s3. clear A2 C2. assert (C3 : calm s3) by (eapply calm_step; eassumption). apply rbind_ok in E as (s4 & E1 & E). inv_ok E. split; [|split; [intros x Y; inversion Y; subst; exact Hj|discriminate]].
  eapply step_trans; [exact A3|]. clear A3. destruct (c_stats c); [inv_ok E1; apply step_refl|]. apply rbind_ok in E1 as (s5 & E1 & E). cbv zeta in E.
  assert (A5 : step s3 s5) by (destruct (c_qthread c); [inv_ok E1; apply step_refl|apply message_step in E1; [apply E1|exact C3|exact Hj]]). eapply step_trans; [exact A5|]. inv_ok E. set (s6 := if c_all (lc c) then s5 else _). eapply step_trans; [|apply (step_setf s6 j REPRINT true); auto].
  unfold s6. destruct (c_all (lc c)); [apply step_refl|apply step_log, lops_one, lo_open; exact Hj].
Qed.
Lemma print_exit_steps Q c np l i rp d n b l' : whole K l -> K i = true -> curK K l -> print_event_exit Q c np l i rp d n = Ok (b, l') -> lops K l l' /\ curK K l'.
Proof.
  intros W H CK E. unfold print_event_exit in E. apply rbind_ok in E as (l1 & E1 & E). assert (A : lops K l l1 /\ curK K l1).
  { destruct (printing l) as [j|]; [|inv_ok E1; split; [apply lops_refl|exact CK]]. destruct (_ && _) eqn:B; [|inv_ok E1; split; [apply lops_refl|exact CK]]. apply andb_true_iff in B as [B B4]. apply andb_true_iff in B as [_ B3]. apply negb_true_iff, N.eqb_neq in B3.
    assert (Kj : K j = true) by (destruct (K j) eqn:KJ; [reflexivity|exfalso]; destruct (W j KJ) as [X|X]; [contradiction|]; destruct (staged l j); [discriminate|contradiction]).
    apply rbind_ok in E1 as (l2 & E3 & E4). inv_ok E4. apply (tprints_steps K) in E3 as [S1 S2]; [|intros k X; cbn in X; congruence]. split; [|intros k X; cbn in X; congruence]. eapply lops_snoc; [eapply lops_snoc; [eapply lops_trans; [apply lops_one, lo_cur|exact S1]|apply lo_col0]|apply lo_cur]. }
  destruct A as [A1 K1]. apply rbind_ok in E as ([r l2] & E2 & E). apply resumed_steps in E2 as [B1 K2]; auto; [|eapply whole_lops; eassumption]. apply rbind_ok in E as (l3 & E3 & E). assert (A3 : lops K l2 l3 /\ curK K l3) by (destruct d; [inv_ok E3; split; [apply lops_refl|exact K2]|apply (tprint_steps K) in E3 as [X Y]; [split; [exact X|eapply curK_eq; eassumption]|exact K2]]).
  destruct A3 as [A3 K3]. apply rbind_ok in E as (l4 & E4 & E). apply (tprints_steps K) in E4 as [A4 C4]; [|exact K3]. assert (K4 : curK K l4) by (eapply curK_eq; eassumption). apply rbind_ok in E as (l5 & E5 & E). assert (A5 : lops K l4 l5 /\ curK K l5) by (destruct (c_all c); [inv_ok E5; split; [apply lops_refl|exact K4]|apply (close_steps K) in E5 as [X Y]; [split; [exact X|eapply curK_eq; eassumption]|exact H]]).
  destruct A5 as [A5 K5]. inv_ok E. destruct (line_ended_steps K l5) as [A6 C6]. split; [|eapply curK_eq; eassumption]. eapply lops_trans; [exact A1|]. eapply lops_trans; [exact B1|]. eapply lops_trans; [exact A3|]. eapply lops_trans; [exact A4|]. eapply lops_trans; eassumption.
Qed.
Lemma exit_event_step c s i s' : calm s -> K i = true -> curK K (lg s) -> exit_event c s i = Ok s' -> step s s' /\ curK K (lg s').
Proof.
  intros CM H CK E. unfold exit_event in E. destruct (_ || _); [inv_ok E; split; [apply step_refl|exact CK]|]. apply rbind_ok in E as ([r l] & E1 & E). apply print_exit_steps in E1 as [A B]; auto; [|apply CM]. cbv zeta in E. destruct r; inv_ok E; (split; [|exact B]); [|apply step_log; exact A].
  eapply step_trans; [apply step_log; exact A|apply (step_setf _ i REPRINT false); auto].
Qed.
Lemma signalled_step c s i w s' : calm s -> K i = true -> print_signalled c s i w = Ok s' -> step s s'.
Proof.
  intros CM H E. unfold print_signalled in E. cbv zeta in E. set (s1 := if P s i =? child s then _ else s) in E. assert (A : step s s1) by (unfold s1; destruct (_ =? _); apply step_other; reflexivity). clearbody s1. destruct (_ && _); [|inv_ok E; exact A].
  apply message_step in E as [E _]; [|eapply calm_step; eassumption|exact H]. eapply step_trans; eassumption.
Qed.
Lemma exited_step c s i w s' : calm s -> K i = true -> print_exited c s i w = Ok s' -> step s s'.
Proof.
  intros CM H E. unfold print_exited in E. cbv zeta in E. set (s1 := if P s i =? child s then _ else s) in E. assert (A : step s s1) by (unfold s1; destruct (_ =? _); apply step_other; reflexivity). clearbody s1. destruct (_ && _); [|inv_ok E; exact A].
  apply message_step in E as [E _]; [|eapply calm_step; eassumption|exact H]. eapply step_trans; eassumption.
Qed.
Lemma stopped_step c s i sg e s' : calm s -> K i = true -> curK K (lg s) -> print_stopped c s i sg e = Ok s' -> step s s' /\ curK K (lg s').
Proof.
  intros CM H CK E. unfold print_stopped in E. destruct (_ && _); [|inv_ok E; split; [apply step_refl|exact CK]]. apply message_step in E as [E1 E2]; auto. split; [exact E1|eapply curK_some; eassumption].
Qed.
(** handling an event that is not of a tcb to be spared *)
Lemma dispatch_step c s wd e b s' : calm s -> curK K (lg s) -> (te wd = TE_STOP_BEFORE_EXECVE -> forall i, current (lg s) = Some i -> spares s i) -> dispatch_event c s (Some wd) e = Ok (b, s') -> step s s'.
Proof.
  intros CM CK SP E. unfold dispatch_event in E.
  assert (X : exists i, current (lg s) = Some i \/ te wd = TE_BREAK \/ te wd = TE_NEXT) by (destruct (te wd) eqn:T; try (exists O; auto; fail); rewrite ?T in E; destruct (current (lg s)) as [i|]; try discriminate E; exists i; auto).
  destruct X as (i & [C|[T|T]]); [|rewrite T in E; inv_ok E; apply step_refl..]. rewrite C in E, SP. assert (Hi : K i = true) by (apply CK; exact C).
  set (op0 := if fl s i SECCOMP_FILTER then _ else OP_SYSCALL) in E.
  assert (SC : forall o, (rlet (r, sig, s) := trace_syscall c s i false e in if (r <? 0)%Z then Ok (true, s) else resume s i wd (if fl s i SECCOMP_FILTER then if fl s i INSYSCALL then OP_SYSCALL else OP_CONT else o) sig e) = Ok (b, s') -> step s s').
  { intros o E1. apply rbind_ok in E1 as ([[r sg] s1] & E1 & E2). apply trace_syscall_step in E1 as [A B]; auto. destruct (r <? 0)%Z; [inv_ok E2; exact A|]. apply resume_step in E2; [|exact B]. eapply step_trans; eassumption. }
  destruct (te wd) eqn:T; try (inv_ok E; apply step_refl).
  - eapply resume_step; eassumption.
  - eapply SC. exact E.
  - apply rbind_ok in E as (s1 & E1 & E). apply stopped_step in E1 as [A B]; auto. apply resume_step in E; [|exact B]. eapply step_trans; eassumption.
  - apply rbind_ok in E as (s1 & E1 & E). apply rbind_ok in E as (s2 & E2 & E). inv_ok E. apply signalled_step in E1; auto. apply drop_step in E2; [|exact Hi]. eapply step_trans; eassumption.
  - apply rbind_ok in E as (s1 & E1 & E). apply stopped_step in E1 as [A B]; auto. eapply step_trans; [exact A|]. destruct (c_seize c); (eapply resume_step; [exact B|exact E]).
  - apply rbind_ok in E as (s1 & E1 & E). apply rbind_ok in E as (s2 & E2 & E). inv_ok E. apply exited_step in E1; auto. apply drop_step in E2; [|exact Hi]. eapply step_trans; eassumption.
  - apply rbind_ok in E as ([sw s1] & E1 & E). set (s0 := setf s i CHECK_EXEC_SYSCALL false) in E1. assert (A0 : step s s0) by (apply step_setf; auto). assert (SP0 : spares s0 i) by (apply SP; auto). assert (L0 : lg s0 = lg s) by reflexivity. clearbody s0.
    assert (A1 : step s s1 /\ exists j, current (lg s1) = Some j /\ K j = true).
    { unfold maybe_switch_current_tcp in E1. apply rbind_ok in E1 as ([r s2] & E1 & E2). apply switch_step in E1 as (B1 & B2 & B3); [|eapply calm_step; eassumption|exact Hi|exact SP0]. destruct r as [j|]; inv_ok E2; (split; [eapply step_trans; [exact A0|]; try exact B1|]).
      - eapply step_trans; [exact B1|apply step_current].
      - exists j. split; [reflexivity|apply B2; reflexivity].
      - exists i. rewrite B3, L0 by reflexivity. auto. }
    destruct A1 as (A1 & j & C1 & Kj). rewrite C1 in E. assert (K1 : curK K (lg s1)) by (eapply curK_some; eassumption). clear SP0 L0 A0 E1 SC. apply rbind_ok in E as ([[bad sig] s2] & E1 & E).
    assert (A2 : step s s2 /\ curK K (lg s2)). { destruct (match sw with None => _ | Some _ => _ end); [|inv_ok E1; split; assumption]. apply rbind_ok in E1 as ([[r sg] s3] & E1 & E2). inv_ok E2. apply trace_syscall_step in E1 as [B1 B2]; auto; [|eapply calm_step; eassumption]. split; [eapply step_trans; eassumption|exact B2]. }
    destruct A2 as [A2 K2]. destruct bad; [inv_ok E; exact A2|]. eapply step_trans; [exact A2|]. destruct (c_detexec c); [|eapply resume_step; eassumption]. destruct (fl s2 j SKIP_DETACH_ON_FIRST_EXEC).
    + eapply step_trans; [apply (step_setf s2 j SKIP_DETACH_ON_FIRST_EXEC false); auto|]. eapply resume_step; [exact K2|exact E].
    + apply rbind_ok in E as (s3 & E2 & E). inv_ok E. eapply detach_step; eassumption.
  - apply rbind_ok in E as (s1 & E1 & E). apply exit_event_step in E1 as [A B]; auto. apply resume_step in E; [|exact B]. eapply step_trans; eassumption.
  - destruct (negb _); [|destruct (c_secbefore c); [|eapply SC; exact E]].
    + eapply step_trans; [apply (step_setf s i SECCOMP_FILTER true); auto|]. eapply resume_step; [exact CK|exact E].
    + eapply resume_step; eassumption.
Qed.

(** the clock *)
Lemma restart_delayed_step c s x e s' : restart_delayed_tcb c s x e = Ok (true, s') -> step s s'.
Proof.
  unfold restart_delayed_tcb. cbv zeta. set (s1 := setf s x DELAYED false). assert (A : step s s1) by (apply step_setf; auto). assert (L1 : lg s1 = lg s) by reflexivity. clearbody s1. intros E. apply rbind_ok in E as ([ok s2] & E1 & E2). inv_ok E2. unfold dispatch_event in E1. cbn [te] in E1. cbn [lg with_lg set_current current] in E1.
  apply resume_go in E1 as (B1 & B2 & B3 & B4 & B5). eapply step_trans; [exact A|]. eapply step_trans; [apply (step_current s1 (Some x))|]. eapply step_trans; [apply (step_other _ s2); assumption|]. eapply step_trans; [apply (step_current s2 (current (lg s1)))|apply step_other; reflexivity].
Qed.
Lemma restart_from_step c now es is : forall s next s', restart_delayed_from c s now is next es = Ok (true, s') -> step s s'.
Proof.
  induction is as [|x is IH]; intros s next s' E; cbn in E; [inv_ok E; destruct next; apply step_other; reflexivity|]. destruct (_ && _); [|eauto]. destruct (0 <? _)%Z; [|eauto]. apply rbind_ok in E as ([ok s1] & E1 & E2). destruct ok; [|discriminate]. apply restart_delayed_step in E1. eapply step_trans; [exact E1|eauto].
Qed.
Lemma timer_step c s now es s' : timer_sighandler c s now es = Ok s' -> rfail s' = false -> step s s'.
Proof.
  unfold timer_sighandler. cbv zeta. match goal with |- context [with_dl s ?d] => set (s1 := with_dl s d) end. assert (A : step s s1) by (apply step_other; reflexivity). clearbody s1. intros E R. destruct (rfail s1); [inv_ok E; exact A|]. apply rbind_ok in E as ([ok s2] & E1 & E2). inv_ok E2. destruct ok; [|discriminate R].
  eapply step_trans; [exact A|]. eapply restart_from_step; exact E1.
Qed.
(** waiting *)
Lemma allocate_step c s pid w r s' : calm s -> maybe_allocate_tcb c s pid w = Ok (r, s') -> step s s'.
Proof.
  intros CM E. unfold maybe_allocate_tcb in E. destruct (negb _); [inv_ok E; destruct (_ && _); apply step_other; reflexivity|]. destruct (c_follow c); [|inv_ok E; apply step_refl]. apply rbind_ok in E as ([i s1] & E1 & E2). inv_ok E2. apply new_step in E1 as [A B]; auto. eapply step_trans; [exact A|apply attached_step; exact B].
Qed.
Lemma collect_step c ws : forall s nh pos r s', calm s -> collect c s nh pos ws = Ok (r, s') -> step s s'.
Proof.
  induction ws as [|w ws IH]; intros s nh pos r s' CM E; cbn [collect] in E; [inv_ok E; apply step_refl|]. destruct w as [er|pid w si msg].
  - destruct (er =? EINTR); [inv_ok E; apply step_refl|]. destruct nh; [inv_ok E; apply step_refl|]. destruct (_ && _); [inv_ok E; apply step_refl|discriminate].
  - destruct (pid =? 0); [inv_ok E; apply step_refl|]. destruct (pid =? popen s); [inv_ok E; destruct (WIFSTOPPED w); apply step_other; reflexivity|]. pose proof (pid2tcb_pids (tb s) (Z.of_N pid)) as PP. destruct (pid2tcb (tb s) (Z.of_N pid)) as [t found]. cbn [fst] in PP.
    assert (A : step s (with_tb s t)) by (apply step_tb; intros k _; apply PP). cbv zeta in E. apply rbind_ok in E as ([fo s2] & E1 & E). assert (A2 : step s s2) by (destruct found; [inv_ok E1; exact A|]; eapply step_trans; [exact A|]; eapply allocate_step; [eapply calm_step; eassumption|exact E1]).
    assert (C2 : calm s2) by (eapply calm_step; eassumption). destruct fo as [i|]; [|eapply step_trans; [exact A2|eapply IH; eassumption]]. destruct (classify _ _ _ _ _) as [wd cl].
    set (s3 := if cl then _ else s2) in E. assert (A3 : step s s3) by (unfold s3; destruct cl; [eapply step_trans; [exact A2|apply step_setf; auto]|exact A2]). clearbody s3. set (s4 := enqueue s3 i pos wd) in E. assert (A4 : step s s4) by (eapply step_trans; [exact A3|]; unfold s4, enqueue; destruct (existsb _ _); apply step_other; reflexivity).
    clearbody s4. destruct (extra (qu s4)); [inv_ok E; exact A4|]. eapply step_trans; [exact A4|]. eapply IH; [exact (calm_step _ _ CM A4)|exact E].
Qed.
(** handing out an event; the record of it is another matter *)
Record step0 (s s' : st) : Prop := { s0_log : lops K (lg s) (lg s'); s0_same : forall i, K i = false -> same i s s' }.
Lemma step_0 s s' : step s s' -> step0 s s'. Proof. intros []. constructor; assumption. Qed.
Lemma step0_trans a b c : step0 a b -> step0 b c -> step0 a c.
Proof. intros [] []. constructor; [eapply lops_trans; eassumption|intros i H; eapply same_trans; eauto]. Qed.
Lemma calm_step0 s s' : calm s -> step0 s s' -> calm s'.
Proof. intros [A B] [C D]. constructor; [eapply whole_lops; eassumption|]. intros i H. rewrite (sm_pid _ _ _ (D i H)). auto. Qed.
Lemma event_exit_step c s i oe gn w s' : event_exit c s i oe gn = Ok (w, s') -> step0 s s' /\ current (lg s') = Some i /\ w = Some (wtab (qu s') (widx (qu s') i)).
Proof.
  intros E. unfold event_exit in E. apply rbind_ok in E as (s1 & E1 & E). cbv zeta in E. inv_ok E. split; [|split; reflexivity]. assert (A : step s s1).
  { destruct (fl s i STARTUP); [|inv_ok E1; apply step_refl]. unfold startup_tcb in E1. cbv zeta in E1. destruct (_ && _); [discriminate|]. injection E1 as <-. eapply step_trans; [apply (step_setf s i STARTUP false); auto|]. match goal with |- context [if ?b then _ else _] => destruct b end; apply step_other; reflexivity. }
  apply step_0 in A. eapply step0_trans; [exact A|]. constructor; [apply lops_one, lo_cur|]. intros k _. constructor; reflexivity.
Qed.
Lemma get_tcp_step c s oe gn wd s' : get_tcp c s oe gn = Ok (Some wd, s') -> step0 s s' /\ (te wd = TE_NEXT \/ exists i, current (lg s') = Some i /\ wd = wtab (qu s') (widx (qu s') i)).
Proof.
  unfold get_tcp. cbv zeta. destruct (pending (qu s)) as [|i r]; intros E.
  - inv_ok E. split; [|left; reflexivity]. apply step_0, step_other; reflexivity.
  - apply event_exit_step in E as (A & B & C). inversion C. split; [|right; exists i; auto]. eapply step0_trans; [|exact A]. apply step_0, step_other; reflexivity.
Qed.
Lemma next_step c s n wd s' : calm s -> next_event c s n = Ok (Some wd, s') -> step0 s s' /\ (te wd = TE_NEXT \/ exists i, current (lg s') = Some i /\ wd = wtab (qu s') (widx (qu s') i)).
Proof.
  intros CM E. unfold next_event in E. cbv zeta in E. set (s1 := if n_intr n =? 0 then s else set_intr s (n_intr n)) in E. assert (A : step s s1) by (unfold s1; destruct (_ =? 0); apply step_other; reflexivity). assert (C1 : calm s1) by (eapply calm_step; eassumption). clearbody s1.
  destruct (negb _); [discriminate|]. destruct (_ =? 0)%Z; [discriminate|]. destruct (pending (qu s1)).
  - destruct (extra (qu s1)) as [[i idx]|].
    + apply event_exit_step in E as (B & C & D). inversion D. split; [|right; exists i; auto]. eapply step0_trans; [apply step_0; exact A|]. eapply step0_trans; [|exact B]. apply step_0, step_other; reflexivity.
    + destruct (_ && _); [discriminate|]. apply rbind_ok in E as ([stop s2] & E1 & E). destruct stop; [discriminate|]. assert (A2 : step s s2).
      { eapply step_trans; [exact A|]. destruct (armed (dl s1)); [|inv_ok E1; apply step_refl]. apply rbind_ok in E1 as (s3 & E1 & E2). injection E2 as R ->. destruct (n_timer n) as [[now es]|]; [eapply timer_step; eassumption|inv_ok E1; apply step_refl]. }
      pose proof (calm_step _ _ CM A2) as C2. apply rbind_ok in E as ([r s3] & E2 & E). apply collect_step in E2; [|exact C2]. destruct r; [|discriminate]. apply get_tcp_step in E as [B D]. split; [|exact D]. eapply step0_trans; [apply step_0; exact A2|]. eapply step0_trans; [apply step_0; exact E2|exact B].
  - apply get_tcp_step in E as [B D]. split; [|exact D]. eapply step0_trans; [apply step_0; exact A|exact B].
Qed.
End K.
