(** What the parts of the event loop leave unchanged, for all options. *)
From Verif Require Import Base TimeModel WaitModel TcbModel TcbProofs LogModel LogSpec LogProofs LoopModel.
Local Open Scope N_scope.

(** inversion of a result *)
Ltac inv_ok E := inversion E; subst; clear E.
Lemma rbind_ok {A B} (x : res A) (f : A -> res B) b : rbind x f = Ok b -> exists a, x = Ok a /\ f a = Ok b.
Proof. destruct x; cbn; try discriminate. eauto. Qed.

(** ** The log *)
Definition gk (l l' : log) : Prop := gen l' = gen l /\ ngen l' = ngen l.
Lemma gk_refl l : gk l l. Proof. split; reflexivity. Qed.
Lemma gk_trans a b c : gk a b -> gk b c -> gk a c. Proof. intros [] []. split; congruence. Qed.
Lemma write_gk l f xs : gk l (write l f xs). Proof. destruct f; split; reflexivity. Qed.
Lemma put_gk Q l i x l' : put Q l i x = Ok l' -> gk l l'.
Proof. unfold put. destruct (outf l i); [|discriminate]. intros E. inv_ok E. apply write_gk. Qed.
Lemma tprint_gk Q l x l' : tprint Q l x = Ok l' -> gk l l'.
Proof. unfold tprint. destruct (current l) as [i|]; [|intros E; inv_ok E; apply gk_refl]. intros E. apply rbind_ok in E as (l1 & E1 & E2). inv_ok E2. apply put_gk in E1. exact E1. Qed.
Lemma tprints_gk Q xs : forall l l', tprints Q l xs = Ok l' -> gk l l'.
Proof. induction xs as [|x xs IH]; intros l l' E; cbn in E; [inv_ok E; apply gk_refl|]. apply rbind_ok in E as (l1 & E1 & E2). eapply gk_trans; [eapply tprint_gk; exact E1|eauto]. Qed.
Lemma line_ended_gk l : gk l (line_ended l).
Proof. unfold line_ended. destruct (current l); cbn; destruct (printing l); split; reflexivity. Qed.
Lemma printleader_gk Q c np l i l' : printleader Q c np l i = Ok l' -> gk l l'.
Proof.
  unfold printleader. cbv zeta. set (l1 := if c_ff c then set_printing l (Some i) else l). assert (G : gk l l1) by (unfold l1; destruct (c_ff c); split; reflexivity). clearbody l1. intros E.
  apply rbind_ok in E as (l2 & E1 & E2). assert (G2 : gk l1 l2).
  { destruct (printing l1) as [j|]; [|inv_ok E1; apply gk_refl]. destruct (_ && _); [|inv_ok E1; apply gk_refl]. apply rbind_ok in E1 as (l3 & E1 & E3). inv_ok E3. apply tprints_gk in E1. exact E1. }
  apply tprint_gk in E2. eapply gk_trans; [exact G|]. eapply gk_trans; [exact G2|exact E2].
Qed.
Lemma msg_line_gk Q c np l i t x l' : msg_line Q c np l i t x = Ok l' -> gk l l'.
Proof.
  unfold msg_line. intros E. apply rbind_ok in E as (l1 & E1 & E). apply rbind_ok in E as (l2 & E2 & E). inv_ok E.
  eapply gk_trans; [eapply printleader_gk; exact E1|]. eapply gk_trans; [eapply tprints_gk; exact E2|]. apply line_ended_gk.
Qed.
Lemma close_gk l i b l' : close_memstream l i b = Ok l' -> gk l l'.
Proof.
  unfold close_memstream. destruct (staged l i) as [[m real]|]; [|intros E; inv_ok E; apply gk_refl]. destruct b; [|intros E; inv_ok E; split; reflexivity].
  destruct real as [f|]; [|discriminate]. intros E. inv_ok E. destruct f; split; reflexivity.
Qed.
Lemma resume_gk Q c np l i rp n b l' : print_syscall_resume Q c np l i rp n = Ok (b, l') -> gk l l'.
Proof.
  unfold print_syscall_resume. cbv zeta. intros E. apply rbind_ok in E as (l1 & E1 & E). inv_ok E. assert (G : gk l l1); [|exact G].
  destruct (_ || rp); [|inv_ok E1; apply gk_refl]. apply rbind_ok in E1 as (l2 & E1 & E2). eapply gk_trans; [eapply printleader_gk; exact E1|eapply tprint_gk; exact E2].
Qed.
Lemma event_exit_gk Q c np l i rp d n b l' : print_event_exit Q c np l i rp d n = Ok (b, l') -> gk l l'.
Proof.
  unfold print_event_exit. intros E. apply rbind_ok in E as (l1 & E1 & E). apply rbind_ok in E as ([r l2] & E2 & E). apply rbind_ok in E as (l3 & E3 & E). apply rbind_ok in E as (l4 & E4 & E). apply rbind_ok in E as (l5 & E5 & E). inv_ok E.
  assert (G1 : gk l l1).
  { destruct (printing l) as [j|]; [|inv_ok E1; apply gk_refl]. destruct (_ && _); [|inv_ok E1; apply gk_refl]. apply rbind_ok in E1 as (l6 & E1 & E6). inv_ok E6. apply tprints_gk in E1. exact E1. }
  apply resume_gk in E2. assert (G3 : gk l2 l3) by (destruct d; [inv_ok E3; apply gk_refl|eapply tprint_gk; exact E3]). apply tprints_gk in E4.
  assert (G5 : gk l4 l5) by (destruct (c_all c); [inv_ok E5; apply gk_refl|eapply close_gk; exact E5]).
  eapply gk_trans; [exact G1|]. eapply gk_trans; [exact E2|]. eapply gk_trans; [exact G3|]. eapply gk_trans; [exact E4|]. eapply gk_trans; [exact G5|]. apply line_ended_gk.
Qed.
Lemma drop_gk Q c l i l' : drop_log Q c l i = Ok l' -> gk l l'.
Proof.
  unfold drop_log. cbv zeta. intros E. apply rbind_ok in E as (l1 & E1 & E). inv_ok E. assert (G : gk l l1).
  { destruct (outf l i); [|inv_ok E1; apply gk_refl]. apply rbind_ok in E1 as (l2 & E1 & E2). assert (G : gk l l2) by (destruct (c_all c); [inv_ok E1; apply gk_refl|eapply close_gk; exact E1]).
    destruct (_ && _); [|inv_ok E2; exact G]. apply rbind_ok in E2 as (l3 & E2 & E3). apply put_gk in E2, E3. eapply gk_trans; [exact G|]. eapply gk_trans; eassumption. }
  eapply gk_trans; [exact G|]. destruct (current l1) as [j|]; cbn; [destruct (Nat.eqb j i)|]; cbn; destruct (printing l1) as [j'|]; cbn; try destruct (Nat.eqb j' i); split; reflexivity.
Qed.
Lemma switch_gk Q l i j pid l' : switch_files Q l i j pid = Ok l' -> gk l l'.
Proof.
  unfold switch_files. cbv zeta. intros E. apply rbind_ok in E as (l1 & E1 & E). inv_ok E. assert (G : gk l l1); [|exact G].
  destruct (col l j =? 0); [inv_ok E1; apply gk_refl|]. apply rbind_ok in E1 as (l2 & E1 & E2). apply put_gk in E1, E2. eapply gk_trans; eassumption.
Qed.

(** ** The state: only the log changes *)
Definition logonly (s s' : st) : Prop := gk (lg s) (lg s') /\ s' = with_lg s (lg s').
Lemma logonly_refl s : logonly s s. Proof. split; [apply gk_refl|destruct s; reflexivity]. Qed.
Lemma logonly_trans a b c : logonly a b -> logonly b c -> logonly a c.
Proof. intros [G1 E1] [G2 E2]. split; [eapply gk_trans; eassumption|]. rewrite E2, E1. reflexivity. Qed.
Lemma logonly_with s l : gk (lg s) l -> logonly s (with_lg s l). Proof. intros G. split; [exact G|reflexivity]. Qed.
Lemma pr_only s f s' : (forall l l', f l = Ok l' -> gk l l') -> pr s f = Ok s' -> logonly s s'.
Proof. intros H E. unfold pr in E. apply rbind_ok in E as (l & E1 & E). inv_ok E. split; [apply H; exact E1|reflexivity]. Qed.
Lemma tpr_only s xs s' : tpr s xs = Ok s' -> logonly s s'.
Proof. apply pr_only. intros l l'. apply tprints_gk. Qed.
Lemma leader_only c s i s' : leader c s i = Ok s' -> logonly s s'.
Proof. apply pr_only. intros l l'. apply printleader_gk. Qed.
Lemma message_only c s i t x s' : message c s i t x = Ok s' -> logonly s s'.
Proof. apply pr_only. intros l l'. apply msg_line_gk. Qed.
Lemma end_line_only s : logonly s (end_line s). Proof. apply logonly_with, line_ended_gk. Qed.

(** all but the log, the flags, names and decoding results of tcb i, delays and the limit *)
Record keep (i : nat) (s s' : st) : Prop := {
  kp_tb : tb s' = tb s; kp_qu : qu s' = qu s; kp_gk : gk (lg s) (lg s');
  kp_fl : forall k g, k <> i -> fl s' k g = fl s k g;
  kp_sname : forall k, k <> i -> sname s' k = sname s k; kp_dec : forall k, k <> i -> dec s' k = dec s k;
  kp_child : child s' = child s; kp_popen : popen s' = popen s; kp_intr : intr s' = intr s; kp_rfail : rfail s' = rfail s; kp_exit : exitc s' = exitc s;
  kp_reqs : reqs s' = reqs s; kp_calls : calls s' = calls s;
  kp_exp : forall k, k <> i -> expiry (dl s') k = expiry (dl s) k; kp_dwd : dwd (dl s') = dwd (dl s) }.
Lemma keep_refl i s : keep i s s. Proof. constructor; auto. apply gk_refl. Qed.
Lemma keep_trans i a b c : keep i a b -> keep i b c -> keep i a c.
Proof.
  intros [] []. constructor; try congruence.
  - eapply gk_trans; eassumption.
  - intros k g N. rewrite kp_fl1, kp_fl0 by exact N. reflexivity.
  - intros k N. rewrite kp_sname1, kp_sname0 by exact N. reflexivity.
  - intros k N. rewrite kp_dec1, kp_dec0 by exact N. reflexivity.
  - intros k N. rewrite kp_exp1, kp_exp0 by exact N. reflexivity.
Qed.
Lemma keep_log i s s' : logonly s s' -> keep i s s'.
Proof. intros [G E]. rewrite E. constructor; auto. Qed.
Lemma keep_setf i s f b : keep i s (setf s i f b).
Proof. constructor; auto; [apply gk_refl|]. intros k g N. cbn. apply Nat.eqb_neq in N. rewrite N. reflexivity. Qed.
Lemma keep_dec i s b : keep i s (with_dec s i b).
Proof. constructor; auto; [apply gk_refl|]. intros k N. cbn. apply Nat.eqb_neq in N. rewrite N. reflexivity. Qed.
Lemma keep_name i s b : keep i s (with_name s i b).
Proof. constructor; auto; [apply gk_refl|]. intros k N. cbn. apply Nat.eqb_neq in N. rewrite N. reflexivity. Qed.
Lemma keep_delay i s diff now now' : keep i s (delay_tcb s i diff now now').
Proof.
  unfold delay_tcb, arm_delay_timer. destruct (_ && _ && _); constructor; auto; try apply gk_refl; intros k; [intros g| |intros g|]; intros N; cbn; apply Nat.eqb_neq in N; rewrite N; reflexivity.
Qed.
Lemma keep_limit i s x : keep i s (set_limit s x).
Proof. constructor; auto. apply gk_refl. Qed.

(** flags that decoding does not touch *)
Definition fixed_flag (f : flag) : bool :=
  match f with STARTUP | IGNORE_ONE_SIGSTOP | ATTACHED | SKIP_DETACH_ON_FIRST_EXEC | GRABBED | SECCOMP_FILTER => true | _ => false end.
Definition fixed (i : nat) (s s' : st) : Prop := forall g, fixed_flag g = true -> fl s' i g = fl s i g.
Lemma fixed_setf i s f b : fixed_flag f = false -> fixed i s (setf s i f b).
Proof. intros H g G. cbn. destruct (flag_eqb g f) eqn:E; [|rewrite andb_false_r; reflexivity]. assert (g = f) by (destruct g, f; try discriminate E; reflexivity). congruence. Qed.
Lemma fixed_same i s s' : fl s' = fl s -> fixed i s s'. Proof. intros E g _. rewrite E. reflexivity. Qed.
Lemma fixed_trans i a b c : fixed i a b -> fixed i b c -> fixed i a c. Proof. intros H1 H2 g G. rewrite H2, H1 by exact G. reflexivity. Qed.
Lemma fixed_delay i s d n n' : fixed i s (delay_tcb s i d n n').
Proof. intros g G. unfold delay_tcb, arm_delay_timer. destruct (_ && _ && _); cbn; destruct g; try discriminate G; rewrite andb_false_r; reflexivity. Qed.
Lemma logonly_fl s s' : logonly s s' -> fl s' = fl s. Proof. intros [_ E]. rewrite E. reflexivity. Qed.
Lemma insys_delay s i d n n' k : fl (delay_tcb s i d n n') k INSYSCALL = fl s k INSYSCALL.
Proof. unfold delay_tcb, arm_delay_timer. destruct (_ && _ && _); cbn; rewrite andb_false_r; reflexivity. Qed.

Lemma entering_decode_keep c s i e r s' : syscall_entering_decode c s i e = Ok (r, s') -> keep i s s' /\ fl s' = fl s /\ dl s' = dl s /\ limit s' = limit s.
Proof.
  unfold syscall_entering_decode. cbv zeta. set (s1 := with_name s i _). assert (K : keep i s s1 /\ fl s1 = fl s /\ dl s1 = dl s /\ limit s1 = limit s) by (split; [apply keep_name|repeat split]). clearbody s1.
  destruct (e_scno e =? 0)%Z; [intros E; inv_ok E; exact K|]. destruct (_ =? 1)%Z; [intros E; inv_ok E; exact K|]. intros E. apply rbind_ok in E as (s2 & E1 & E). apply rbind_ok in E as (s3 & E2 & E). inv_ok E.
  apply leader_only in E1. apply tpr_only in E2. pose proof (logonly_trans _ _ _ E1 E2) as L. destruct K as (K & F & D & LM). split; [eapply keep_trans; [exact K|apply keep_log; exact L]|]. destruct L as [_ ->]. auto.
Qed.
Lemma entering_trace_keep c s i rec e d sg s' : syscall_entering_trace c s i rec e = Ok (d, sg, s') -> keep i s s' /\ fixed i s s' /\ fl s' i INSYSCALL = fl s i INSYSCALL /\ (sg = 0 \/ sg = e_sig e).
Proof.
  unfold syscall_entering_trace. cbv zeta. set (s1 := if fl s i HIDE_LOG && e_exec e then _ else s).
  assert (K : keep i s s1 /\ fixed i s s1 /\ fl s1 i INSYSCALL = fl s i INSYSCALL).
  { unfold s1. destruct (_ && _); [|split; [apply keep_refl|split; [intros g; reflexivity|reflexivity]]]. split; [eapply keep_trans; apply keep_setf|]. split; [eapply fixed_trans; apply fixed_setf; reflexivity|cbn; rewrite !andb_false_r; reflexivity]. }
  clearbody s1. destruct (_ || _).
  - intros E. inv_ok E. destruct K as (K & F & I). split; [eapply keep_trans; [exact K|apply keep_setf]|]. split; [eapply fixed_trans; [exact F|apply fixed_setf; reflexivity]|]. split; [|auto]. cbn. rewrite andb_false_r. exact I.
  - set (s2 := setf s1 i FILTERED false). set (s3 := if negb (fl s i HIDE_LOG) && negb rec then _ else s2). set (sg0 := if negb (fl s i HIDE_LOG) && negb rec then e_sig e else 0).
    assert (SG : sg0 = 0 \/ sg0 = e_sig e) by (unfold sg0; destruct (_ && _); auto).
    assert (K3 : keep i s s3 /\ fixed i s s3 /\ fl s3 i INSYSCALL = fl s i INSYSCALL).
    { assert (K2 : keep i s s2 /\ fixed i s s2 /\ fl s2 i INSYSCALL = fl s i INSYSCALL).
      { destruct K as (K & F & I). split; [eapply keep_trans; [exact K|apply keep_setf]|]. split; [eapply fixed_trans; [exact F|apply fixed_setf; reflexivity]|]. cbn. rewrite andb_false_r. exact I. }
      unfold s3. destruct (_ && _); [|exact K2]. clear s3 SG sg0. assert (K4 : let s0 := match e_delay e with Some (diff, now, now') => delay_tcb s2 i diff now now' | None => s2 end in keep i s s0 /\ fixed i s s0 /\ fl s0 i INSYSCALL = fl s i INSYSCALL).
      { cbv zeta. destruct (e_delay e) as [[[diff now] now']|]; [|exact K2]. destruct K2 as (A & B & C). split; [eapply keep_trans; [exact A|apply keep_delay]|]. split; [eapply fixed_trans; [exact B|apply fixed_delay]|rewrite insys_delay; exact C]. }
      cbv zeta in K4. destruct (e_xdelay e); [|exact K4]. destruct K4 as (A & B & C). split; [eapply keep_trans; [exact A|apply keep_setf]|]. split; [eapply fixed_trans; [exact B|apply fixed_setf; reflexivity]|]. cbn. rewrite andb_false_r. exact C. }
    clearbody s3. destruct (c_stats c); [intros E; inv_ok E; destruct K3 as (A & B & C); auto|].
    set (s4 := if c_all (lc c) then s3 else _). assert (L4 : logonly s3 s4) by (unfold s4; destruct (c_all (lc c)); [apply logonly_refl|apply logonly_with; split; reflexivity]). clearbody s4.
    intros E. apply rbind_ok in E as (s5 & E1 & E). apply rbind_ok in E as (s6 & E2 & E). inv_ok E. apply leader_only in E1. apply tpr_only in E2.
    pose proof (logonly_trans _ _ _ L4 (logonly_trans _ _ _ E1 E2)) as L. destruct K3 as (A & B & C). split; [eapply keep_trans; [exact A|apply keep_log; exact L]|]. apply logonly_fl in L. split; [eapply fixed_trans; [exact B|apply fixed_same; exact L]|]. split; [rewrite L; exact C|exact SG].
Qed.
Lemma exiting_trace_keep c s i rc e r s' : syscall_exiting_trace c s i rc e = Ok (r, s') -> keep i s s' /\ fixed i s s' /\ (r = 0%Z \/ r = rc).
Proof.
  unfold syscall_exiting_trace. cbv zeta. set (s1 := if fl s i INJECT_DELAY_EXIT then _ else s).
  assert (K : keep i s s1 /\ fixed i s s1).
  { unfold s1. destruct (fl s i INJECT_DELAY_EXIT); [|split; [apply keep_refl|intros g; reflexivity]]. destruct (x_delay e) as [[d n] n']. split; [apply keep_delay|apply fixed_delay]. }
  clearbody s1. intros E. apply rbind_ok in E as (s2 & E1 & E). assert (K2 : keep i s s2 /\ fixed i s s2).
  { destruct (c_stats c); [inv_ok E1; exact K|]. apply rbind_ok in E1 as ([b l] & E1 & E2). apply resume_gk in E1. inv_ok E2. destruct K as [A B].
    assert (L : logonly s1 (with_lg s1 l)) by (apply logonly_with; exact E1). destruct b.
    - split; [eapply keep_trans; [exact A|]; eapply keep_trans; [apply keep_log; exact L|apply keep_setf]|]. eapply fixed_trans; [exact B|]. eapply fixed_trans; [apply fixed_same, (logonly_fl _ _ L)|apply fixed_setf; reflexivity].
    - split; [eapply keep_trans; [exact A|apply keep_log; exact L]|]. eapply fixed_trans; [exact B|apply fixed_same, (logonly_fl _ _ L)]. }
  clear K E1 s1. assert (LOG : forall s3, logonly s2 s3 -> keep i s s3 /\ fixed i s s3).
  { intros s3 L. destruct K2 as [A B]. split; [eapply keep_trans; [exact A|apply keep_log; exact L]|]. eapply fixed_trans; [exact B|apply fixed_same, (logonly_fl _ _ L)]. }
  destruct (negb (rc =? 1)%Z).
  - destruct (c_stats c); [inv_ok E; destruct K2; auto|]. apply rbind_ok in E as (s3 & E1 & E). apply rbind_ok in E as (s4 & E2 & E). inv_ok E. apply tpr_only in E1.
    assert (L2 : logonly s3 s4) by (destruct (c_all (lc c)); [inv_ok E2; apply logonly_refl|eapply pr_only; [|exact E2]; intros l l'; apply close_gk]).
    destruct (LOG (end_line s4)) as [A B]; [eapply logonly_trans; [exact E1|]; eapply logonly_trans; [exact L2|apply end_line_only]|]. auto.
  - apply rbind_ok in E as (s3 & E1 & E). apply rbind_ok in E as (s4 & E2 & E).
    assert (L1 : logonly s2 s3) by (destruct (_ || _); [inv_ok E1; apply logonly_refl|eapply tpr_only; exact E1]).
    assert (L2 : logonly s3 s4) by (destruct (c_all (lc c) || c_stats c); [inv_ok E2; apply logonly_refl|eapply pr_only; [|exact E2]; intros l l'; apply close_gk]).
    pose proof (logonly_trans _ _ _ L1 L2) as L4. destruct (negb _).
    + inv_ok E. destruct (LOG (if c_stats c then s4 else end_line s4)) as [A B]; [destruct (c_stats c); [exact L4|eapply logonly_trans; [exact L4|apply end_line_only]]|]. auto.
    + set (s5 := if (limit s4 =? -1)%Z then s4 else set_limit s4 (limit s4 - 1)) in *. assert (K5 : keep i s s5 /\ fixed i s s5).
      { destruct (LOG s4 L4) as [A B]. unfold s5. destruct (_ =? -1)%Z; [auto|]. split; [eapply keep_trans; [exact A|apply keep_limit]|exact B]. }
      clearbody s5. destruct (c_stats c); [inv_ok E; destruct K5; auto|]. apply rbind_ok in E as (s6 & E3 & E). inv_ok E. apply tpr_only in E3. assert (L6 : logonly s5 (end_line s6)) by (eapply logonly_trans; [exact E3|apply end_line_only]).
      destruct K5 as [A B]. split; [eapply keep_trans; [exact A|apply keep_log; exact L6]|]. split; [eapply fixed_trans; [exact B|apply fixed_same, (logonly_fl _ _ L6)]|auto].
Qed.

(** everything about a decoder run but what it prints: [kind] is None if no decoder ran *)
Record traced_ok (i : nat) (e : denv) (s s' : st) (r : Z) (sg : N) : Prop := {
  tr_tb : tb s' = tb s; tr_qu : qu s' = qu s; tr_gk : gk (lg s) (lg s');
  tr_fl : forall k g, k <> i -> fl s' k g = fl s k g; tr_fixed : fixed i s s';
  tr_sname : forall k, k <> i -> sname s' k = sname s k;
  tr_child : child s' = child s; tr_popen : popen s' = popen s; tr_intr : intr s' = intr s; tr_rfail : rfail s' = rfail s; tr_exit : exitc s' = exitc s;
  tr_reqs : reqs s' = reqs s; tr_exp : forall k, k <> i -> expiry (dl s') k = expiry (dl s) k; tr_dwd : dwd (dl s') = dwd (dl s);
  tr_sig : sg = 0 \/ (sg = e_sig e /\ fl s i INSYSCALL = false);
  tr_calls : if fl s i INSYSCALL then calls s' = calls s ++ [(gen (lg s) i, false)] /\ fl s' i INSYSCALL = false
             else (calls s' = calls s /\ fl s' i INSYSCALL = false /\ r = 0%Z /\ e_scno e <> 1%Z \/ calls s' = calls s /\ fl s' i INSYSCALL = false /\ r = 0%Z /\ e_args e = 0%Z)
                  \/ (calls s' = calls s ++ [(gen (lg s) i, true)] /\ fl s' i INSYSCALL = true) }.
Lemma keep_traced i e s s1 s' r sg b : keep i s s1 -> fixed i s s' -> tb s' = tb s1 -> qu s' = qu s1 -> lg s' = lg s1 ->
  (forall k g, k <> i -> fl s' k g = fl s1 k g) -> sname s' = sname s1 -> (child s' = child s1 /\ popen s' = popen s1 /\ intr s' = intr s1 /\ rfail s' = rfail s1 /\ exitc s' = exitc s1) -> reqs s' = reqs s1 -> dl s' = dl s1 ->
  (sg = 0 \/ (sg = e_sig e /\ fl s i INSYSCALL = false)) -> fl s' i INSYSCALL = b ->
  (calls s' = calls s1 ++ [(gen (lg s1) i, b)] /\ b = negb (fl s i INSYSCALL)) -> traced_ok i e s s' r sg.
Proof.
  intros [] F T Q L FL SN (C1 & C2 & C3 & C4 & C5) R D SG IB [CA NB]. assert (GK : gk (lg s) (lg s')) by (rewrite L; exact kp_gk0). constructor; try congruence; auto.
  - intros k g N. rewrite FL, kp_fl0 by exact N. reflexivity.
  - intros k N. rewrite SN. apply kp_sname0. exact N.
  - intros k N. rewrite D. apply kp_exp0. exact N.
  - assert (G : gen (lg s1) = gen (lg s)) by apply kp_gk0. rewrite G in CA. destruct (fl s i INSYSCALL); cbn in NB; subst b; rewrite NB in *; rewrite CA, kp_calls0; [split; auto|]. right; split; auto.
Qed.
Lemma exit_done i e s s1 r : keep i s s1 -> fixed i s s1 -> fl s i INSYSCALL = true -> traced_ok i e s (syscall_exiting_finish s1 i) r 0.
Proof.
  intros K F IS. apply (keep_traced i e s s1 _ r 0 false K); try reflexivity; auto.
  - eapply fixed_trans; [exact F|]. intros g G. cbn. destruct g; try discriminate G; rewrite !andb_false_r; reflexivity.
  - intros k g N. cbn. apply Nat.eqb_neq in N. rewrite N. reflexivity.
  - cbn. rewrite !Nat.eqb_refl. reflexivity.
  - rewrite IS. split; reflexivity.
Qed.
Lemma enter_done i e s s1 r sg d : keep i s s1 -> fixed i s s1 -> fl s i INSYSCALL = false -> sg = 0 \/ sg = e_sig e -> traced_ok i e s (syscall_entering_finish s1 i d) r sg.
Proof.
  intros K F IS SG. apply (keep_traced i e s s1 _ r sg true K); try reflexivity; auto.
  - eapply fixed_trans; [exact F|]. intros g G. cbn. destruct g; try discriminate G; rewrite !andb_false_r; reflexivity.
  - intros k g N. cbn. apply Nat.eqb_neq in N. rewrite N. reflexivity.
  - destruct SG; auto.
  - cbn. rewrite !Nat.eqb_refl. reflexivity.
  - rewrite IS. split; reflexivity.
Qed.
Lemma trace_syscall_frame c s i rec e r sg s' : trace_syscall c s i rec e = Ok (r, sg, s') -> traced_ok i e s s' r sg.
Proof.
  unfold trace_syscall. destruct (fl s i INSYSCALL) eqn:IS; cbn [negb].
  - unfold syscall_exiting_decode. destruct (fl s i FILTERED) eqn:FI.
    + cbn [Z.eqb rbind]. intros E. inv_ok E. apply exit_done; [apply keep_refl|intros g; reflexivity|exact IS].
    + set (s1 := if fl s i CHECK_EXEC_SYSCALL then setf s i HIDE_LOG true else s). assert (K : keep i s s1 /\ fixed i s s1) by (unfold s1; destruct (fl s i CHECK_EXEC_SYSCALL); [split; [apply keep_setf|apply fixed_setf; reflexivity]|split; [apply keep_refl|intros g; reflexivity]]).
      clearbody s1. destruct K as [K F]. intros E. apply rbind_ok in E as ([r1 s2] & E1 & E). inv_ok E. destruct (x_res e =? 0)%Z; [inv_ok E1; apply exit_done; assumption|].
      apply exiting_trace_keep in E1 as (K2 & F2 & _). apply exit_done; [eapply keep_trans; eassumption|eapply fixed_trans; eassumption|exact IS].
  - intros E. apply rbind_ok in E as ([r1 s1] & E1 & E). pose proof E1 as E0. apply entering_decode_keep in E1 as (K1 & F1 & D1 & _). assert (FX : fixed i s s1) by (apply fixed_same; exact F1).
    destruct (r1 =? 0)%Z eqn:R0.
    + inv_ok E. destruct K1. constructor; auto. rewrite IS. left. rewrite F1. unfold syscall_entering_decode in E0. cbv zeta in E0. destruct (e_scno e =? 0)%Z eqn:S0; [left; repeat split; auto; lia|].
      destruct (e_scno e =? 1)%Z eqn:S1; [|left; repeat split; auto; lia]. right. repeat split; auto. destruct (e_args e =? 1)%Z; [inversion E0; subst; lia|]. apply rbind_ok in E0 as (s3 & _ & E0). apply rbind_ok in E0 as (s4 & _ & E0). inversion E0; subst. lia.
    + destruct (r1 =? 1)%Z.
      * apply rbind_ok in E as ([[d sg1] s2] & E2 & E). inv_ok E. apply entering_trace_keep in E2 as (K2 & F2 & I2 & SG). apply enter_done; [eapply keep_trans; eassumption|eapply fixed_trans; eassumption|exact IS|exact SG].
      * inv_ok E. apply enter_done; auto.
Qed.
