(** The invariant of LoopInv over whole turns of the event loop, startup and cleanup. *)
From Verif Require Import Base TimeModel WaitModel TcbModel TcbProofs LogModel LogSpec LogProofs LoopModel LoopSpec LoopInv.
Local Open Scope N_scope.

Section Turn.
Variable c : cfg.
Hypothesis NOFF : c_ff (lc c) = false.
Hypothesis ALL : c_all (lc c) = true.
Notation sinvx := (sinvx c).
Notation sinv := (sinvx (fun _ => False)).
Notation inv := (inv c).

Definition dropped (s s' : st) (i : nat) : Prop :=
  (forall k, P s' k = if Nat.eqb k i then 0 else P s k) /\
  current (lg s') = (match current (lg s) with Some j => if Nat.eqb j i then None else current (lg s) | None => None end) /\
  (forall k g, k <> i -> fl s' k g = fl s k g) /\ extra (qu s') = extra (qu s) /\ (forall k, k <> i -> sname s' k = sname s k).
Lemma droptcb_ok X s a i : sinvx X s a -> P s i <> 0 ->
  exists s' a', droptcb c s i = Ok s' /\ sinvx X s' a' /\ dropped s s' i /\ (forall k m, in_call (P s') (lg s') k m a' -> in_call (P s) (lg s) k m a).
Proof.
  intros I Pi. unfold droptcb. replace (P s i =? 0) with false by (symmetry; apply N.eqb_neq; exact Pi).
  destruct (drop_log_ok (lc c) NOFF (P s) (lg s) i a ALL (i_gens _ _ _ _ I) (i_log _ _ _ _ I) (or_introl (i_live _ _ _ _ I i Pi))) as (l' & a' & E & L' & O & Ge & Ng & Cu & Pr & NI & ST & BK & H).
  unfold pr. rewrite E. cbn [rbind]. do 2 eexists. split; [reflexivity|].
  destruct (drop_slot_ok (tb s) i (i_tab _ _ _ _ I)) as [T' P'].
  match goal with |- sinvx X ?x _ /\ _ => set (s' := x) end.
  assert (EP : forall k, P s' k = if Nat.eqb k i then 0 else P s k) by exact P'.
  assert (EXT : forall k n, in_call (P s) l' k n a' -> P s' k = P s k).
  { intros k n K. rewrite EP. destruct (Nat.eqb_spec k i) as [->|]; [destruct (NI _ K)|reflexivity]. }
  assert (LV : forall k, live l' k -> k <> i /\ live (lg s) k).
  { intros k. unfold live. rewrite O. destruct (Nat.eqb_spec k i) as [->|]; [discriminate|auto]. }
  split; [|split].
  - constructor.
    + cbn. apply (linv_ext (P s)); [exact EXT|exact L'].
    + exact T'.
    + intros k. rewrite EP. destruct (Nat.eqb_spec k i) as [->|NE]; [congruence|]. intros Hk. unfold live. cbn. rewrite O. apply Nat.eqb_neq in NE. rewrite NE. apply (i_live _ _ _ _ I). exact Hk.
    + intros k. rewrite EP. cbn. rewrite O. destruct (Nat.eqb k i); [reflexivity|]. apply (i_dead _ _ _ _ I).
    + intros k j Hk Hj. cbn in *. rewrite Ge. apply (i_gens _ _ _ _ I); [apply (LV k Hk)|apply (LV j Hj)].
    + intros k Hk. cbn in *. rewrite Ge, Ng. apply (i_gen _ _ _ _ I). apply (LV k Hk).
    + intros C k. rewrite EP. cbn. destruct (Nat.eqb_spec k i) as [->|NE]; [congruence|]. intros H1 H2 H3. apply (has_ext (P s)); [exact L'|exact EXT|]. apply H; [exact NE|]. apply (i_show _ _ _ _ I); assumption.
    + cbn. intros A j B. destruct (ST A) as [A'|A']; [|congruence]. rewrite Pr in B. destruct (printing (lg s)) as [j0|] eqn:Ej; [|discriminate]. destruct (Nat.eqb_spec j0 i) as [->|NE]; [discriminate|].
      inversion B; subst j0. apply Nat.eqb_neq in NE. rewrite EP, NE. apply (i_rep _ _ _ _ I A' j Ej).
    + intros k. rewrite EP. cbn. destruct (Nat.eqb_spec k i) as [->|NE]; [congruence|]. apply (i_start _ _ _ _ I).
    + intros k. cbn. rewrite filter_In. intros [H1 H2]. rewrite EP. destruct (Nat.eqb k i); [discriminate|]. apply (i_pend _ _ _ _ I). exact H1.
  - split; [exact EP|]. split; [exact Cu|]. split; [|split; [reflexivity|]]; cbn; intros k; [intros g|]; intros NE; apply Nat.eqb_neq in NE as ->; reflexivity.
  - intros k m K. cbn in K. apply BK. destruct L' as [Q|(j & n & K0)]; [rewrite (q_ln _ _ Q) in *; pose proof (k_ln _ _ _ _ _ K) as Z; rewrite (q_ln _ _ Q) in Z; discriminate|].
    destruct (in_call_who _ _ _ _ _ _ _ _ K0 K) as [-> ->]. exact K0.
Qed.
Lemma droptcb_safe s i : inv s -> safe (droptcb c s i) (fun s' => inv s' /\ (forall k, P s' k = if Nat.eqb k i then 0 else P s k)).
Proof.
  intros [a I]. destruct (N.eqb_spec (P s i) 0) as [Z|Z].
  - unfold droptcb. rewrite Z. cbn. split; [exists a; exact I|]. intros k. destruct (Nat.eqb_spec k i); congruence.
  - destruct (droptcb_ok _ s a i I Z) as (s' & a' & E & I' & (D & _) & _). rewrite E. cbn. split; [exists a'; exact I'|exact D].
Qed.

(** ** Detaching *)
Lemma ask_inv s i o g : inv s -> inv (ask s i o g).
Proof. intros [a I]. exists a. eapply (sinv_other c s); [exact I|reflexivity..]. Qed.
Lemma interrupt_inv s i an : inv s -> inv (snd (detach_or_interrupt_or_stop c s i an)) /\ tb (snd (detach_or_interrupt_or_stop c s i an)) = tb s.
Proof.
  intros I. unfold detach_or_interrupt_or_stop. destruct (negb (fl s i ATTACHED)); [auto|]. destruct (fl s i IGNORE_ONE_SIGSTOP); [auto|].
  destruct (a_detach an =? 0); [split; [apply ask_inv; exact I|reflexivity]|]. destruct (negb (a_detach an =? ESRCH)); [split; [apply ask_inv; exact I|reflexivity]|].
  destruct (negb (a_alive an =? 0)); [split; [apply ask_inv; exact I|reflexivity]|]. destruct (c_seize c); (split; [apply ask_inv, ask_inv; exact I|reflexivity]).
Qed.
Lemma stopped_safe s i status err : inv s -> safe (detach_interrupted_or_stopped c s i status err) (fun r => inv (snd r) /\ tb (snd r) = tb s).
Proof.
  intros I. unfold detach_interrupted_or_stopped. destruct (negb (WIFSTOPPED status)); [cbn; auto|]. cbv zeta.
  assert (R : forall o sig, safe (ptrace_restart o s i sig err) (fun r => inv (snd r) /\ tb (snd r) = tb s)).
  { intros o sig. eapply safe_mono; [apply (restart_safe c NOFF); assumption|]. intros r (A & B & _). auto. }
  destruct (c_seize c); [|destruct (WSTOPSIG status =? SIGSTOP)]; (eapply safe_bind; [apply R|intros [b s1] H; exact H]).
Qed.
Lemma detach_wait_safe ws : forall s i, inv s -> safe (detach_wait c s i ws) (fun s' => inv s' /\ tb s' = tb s).
Proof.
  induction ws as [|w ws IH]; intros s i I; cbn [detach_wait]; [cbn; auto|]. destruct w as [[]|status err]; [apply IH; exact I|cbn; auto|].
  eapply safe_bind; [apply stopped_safe; exact I|]. intros [d s1] [I1 T1]. cbn [snd] in *. destruct d; [cbn; auto|]. eapply safe_mono; [apply IH; exact I1|]. intros s2 [I2 T2]. split; [exact I2|congruence].
Qed.
Lemma detach_safe s i an ws : inv s -> safe (detach c s i an ws) (fun s' => inv s' /\ (forall k, P s' k = if Nat.eqb k i then 0 else P s k)).
Proof.
  intros I. unfold detach. destruct (interrupt_inv s i an I) as [I1 T1]. destruct (detach_or_interrupt_or_stop c s i an) as [w s1]. cbn [snd] in *.
  eapply (safe_bind _ _ (fun s' => inv s' /\ tb s' = tb s)).
  - destruct w; [|cbn; auto]. eapply safe_mono; [apply detach_wait_safe; exact I1|]. intros s2 [I2 T2]. split; [exact I2|congruence].
  - intros s2 [I2 T2]. eapply safe_mono; [apply droptcb_safe; exact I2|]. intros s3 [I3 P3]. split; [exact I3|]. intros k. rewrite P3. unfold P. rewrite T2. reflexivity.
Qed.

(** ** Events *)
Lemma sinv_glob s a ch po it rf ec li : sinv s a -> sinv (with_glob s ch po it rf ec li) a.
Proof. intros I. eapply (sinv_other c s); [exact I|reflexivity..]. Qed.
Lemma inv_glob s ch po it rf ec li : inv s -> inv (with_glob s ch po it rf ec li).
Proof. intros [a I]. exists a. apply sinv_glob. exact I. Qed.
Lemma print_signalled_safe s i status : inv s -> cur s i -> safe (print_signalled c s i status) (fun s' => inv s' /\ cur s' i).
Proof.
  intros I C. unfold print_signalled. set (s1 := if P s i =? child s then _ else s). assert (I1 : inv s1 /\ cur s1 i) by (unfold s1; destruct (P s i =? child s); [split; [apply inv_glob, inv_glob; exact I|exact C]|auto]). clearbody s1.
  destruct (_ && _); [|exact I1]. apply (message_safe c NOFF); [apply I1|apply (proj2 I1)].
Qed.
Lemma print_exited_safe s i status : inv s -> cur s i -> safe (print_exited c s i status) (fun s' => inv s' /\ cur s' i).
Proof.
  intros I C. unfold print_exited. set (s1 := if P s i =? child s then _ else s). assert (I1 : inv s1 /\ cur s1 i) by (unfold s1; destruct (P s i =? child s); [split; [apply inv_glob, inv_glob; exact I|exact C]|auto]). clearbody s1.
  destruct (_ && _); [|exact I1]. apply (message_safe c NOFF); [apply I1|apply (proj2 I1)].
Qed.
Lemma print_stopped_safe s i sig e : inv s -> cur s i -> safe (print_stopped c s i sig e) (fun s' => inv s' /\ cur s' i).
Proof. intros I C. unfold print_stopped. destruct (_ && _ && _); [|cbn; auto]. apply (message_safe c NOFF); [exact I|apply C]. Qed.
Lemma sinv_reprint s a i b : sinv s a -> (b = true \/ printing (lg s) = None \/ ln a <> Start) -> sinv (setf s i REPRINT b) a.
Proof.
  intros I B. eapply (sinv_same c s); [exact I|reflexivity|reflexivity| | | |].
  - cbn. intros C k. rewrite !andb_false_r. apply (i_show _ _ _ _ I C).
  - cbn. intros A j E. rewrite andb_true_r. destruct (i_rep _ _ _ _ I A j E) as [PJ D]. split; [exact PJ|]. destruct D as [|[R|[]]]; [auto|]. destruct (Nat.eqb j i); [|auto]. destruct B as [->|[Z|Z]]; [auto|congruence|contradiction].
  - cbn. intros k. rewrite !andb_false_r. apply (i_start _ _ _ _ I).
  - exact (i_pend _ _ _ _ I).
Qed.
Lemma exit_event_safe s i : inv s -> cur s i -> safe (exit_event c s i) (fun s' => inv s' /\ cur s' i).
Proof.
  intros [a I] [C Pi]. unfold exit_event. destruct (fl s i INSYSCALL) eqn:IS; cbn [negb orb]; [|cbn; split; [exists a; exact I|split; assumption]].
  destruct (fl s i FILTERED) eqn:NF; cbn [orb]; [cbn; split; [exists a; exact I|split; assumption]|]. destruct (fl s i HIDE_LOG); cbn [orb]; [cbn; split; [exists a; exact I|split; assumption]|].
  destruct (c_stats c) eqn:CS; [cbn; split; [exists a; exact I|split; assumption]|].
  destruct (print_event_exit_ok (lc c) NOFF (P s) (NP s) (lg s) i a (fl s i REPRINT) (dec s i) (sname s i) ALL (i_gens _ _ _ _ I) (i_log _ _ _ _ I) (i_live _ _ _ _ I i Pi) C (i_show _ _ _ _ I CS i Pi IS NF)) as (r & l' & a' & E & F & Q & C' & PN & Ke & U).
  { intros A B. destruct (i_rep _ _ _ _ I A i B) as [_ [|[|[]]]]; [congruence|assumption]. }
  rewrite E. cbn [rbind safe].
  assert (I' : sinv (with_lg s l') a').
  { eapply (sinv_quiet c _ s a l' a' i); eauto. intros n H. rewrite U. pose proof (i_show _ _ _ _ I CS i Pi IS NF) as H0. destruct H as [K|[NK X]], H0 as [K0|[NK0 X0]].
    - destruct (in_call_unique _ _ _ _ _ _ _ K K0) as [_ ->]. reflexivity.
    - destruct (NK0 _ K).
    - destruct (NK _ K0).
    - congruence. }
  split; [exists a'|split; [|]]; destruct r; auto. apply sinv_reprint; auto.
Qed.

Lemma resume_safe s i wd o sig e : inv s -> safe (resume s i wd o sig e) (fun r => inv (snd r) /\ tb (snd r) = tb s /\ current (lg (snd r)) = current (lg s)).
Proof.
  intros I. unfold resume. set (s1 := if e_intr e =? 0 then s else set_intr s (e_intr e)).
  assert (X : inv s1 /\ tb s1 = tb s /\ lg s1 = lg s) by (unfold s1; destruct (e_intr e =? 0); [auto|split; [apply inv_glob; exact I|split; reflexivity]]). clearbody s1. destruct X as (I1 & T1 & L1).
  destruct (negb (intr s1 =? 0)); [cbn; rewrite L1; auto|]. destruct (fl s1 i DELAYED).
  - cbn. split; [|rewrite L1; auto]. destruct I1 as [a I1]. exists a. eapply (sinv_other c s1); [exact I1|reflexivity..].
  - eapply safe_bind; [apply (restart_safe c NOFF); assumption|]. intros [ok s2] (I2 & T2 & C2). cbn [snd] in *. destruct ok; cbn; (split; [try apply inv_glob; exact I2|split; congruence]).
Qed.

Lemma switch_safe s i : inv s -> cur s i -> (switches s i -> col (lg s) i = 0) ->
  safe (maybe_switch_current_tcp c s i) (fun r => inv (snd r) /\ exists k, cur (snd r) k /\ (fst r = None -> k = i /\ fl (snd r) = fl s) /\
    (fst r = None -> tb (snd r) = tb s \/ pids (tb (snd r)) = pids (tb s)) /\ (extra (qu (snd r)) = extra (qu s))).
Proof.
  intros I C CALM. unfold maybe_switch_current_tcp, maybe_switch_tcbs.
  set (old := wmsg (wtab (qu s) (widx (qu s) i))) in *.
  assert (SAME : safe (rlet (r, s) := Ok (@None nat, s) in match r with Some j => Ok (r, with_lg s (set_current (lg s) (Some j))) | None => Ok (r, s) end) (fun r => inv (snd r) /\ exists k, cur (snd r) k /\ (fst r = None -> k = i /\ fl (snd r) = fl s) /\
    (fst r = None -> tb (snd r) = tb s \/ pids (tb (snd r)) = pids (tb s)) /\ (extra (qu (snd r)) = extra (qu s)))).
  { cbn. split; [exact I|]. exists i. auto. }
  destruct (negb (c_os3 c)); [exact SAME|]. destruct ((old <=? 0)%Z || (old =? Z.of_N (P s i))%Z) eqn:B0; [exact SAME|]. destruct (4294967295 <? old)%Z eqn:BL; [exact SAME|]. clear SAME.
  assert (BB : (0 < old)%Z /\ old <> Z.of_N (P s i)) by (apply orb_false_iff in B0; lia). specialize (CALM BB).
  set (arg := (if (2147483648 <=? old)%Z then (old - 4294967296)%Z else old)).
  destruct I as [a I]. pose proof (pid2tcb_inv (tb s) arg (i_tab _ _ _ _ I)) as TI. pose proof (pid2tcb_same (tb s) arg) as [TS TN].
  pose proof (fun j => pid2tcb_spec (tb s) arg j (i_tab _ _ _ _ I)) as FIND. destruct (pid2tcb (tb s) arg) as [t r]. cbn [fst snd] in *.
  assert (PS : forall k, P (with_tb s t) k = P s k) by (intros k; unfold P, pidof; cbn; rewrite TS; reflexivity).
  assert (I1 : sinv (with_tb s t) a).
  { destruct I as [X1 X2 X3 X4 X5 X6 X7 X8 X9 X10]. constructor; cbn; auto.
    - apply (linv_ext (P s)); [intros; apply PS|exact X1].
    - intros k. rewrite PS. auto.
    - intros k. rewrite PS. auto.
    - intros CS k H1 H2 H3. rewrite PS in H1. apply (has_ext (P s)); auto.
    - intros A k. rewrite PS. auto.
    - intros k. rewrite PS. auto.
    - intros k Hk. rewrite PS. auto. }
  destruct r as [j|]; [|cbn; split; [exists a; exact I1|]; exists i; destruct C as [C1 C2]; split; [split; [exact C1|rewrite PS; exact C2]|]; auto].
  destruct (proj1 (FIND j) eq_refl) as [A1 A2]. destruct C as [C Pi].
  assert (ARG : arg = old) by (clear -A1 BL; unfold arg in *; destruct (2147483648 <=? old)%Z eqn:Q; lia). rewrite ARG in *.
  assert (Pj : P s j <> 0) by (unfold P; lia). assert (NE : i <> j) by (intros ->; unfold P in *; lia).
  destruct (switch_files_ok (P (with_tb s t)) (lg s) i j (P s i) a) as (l1 & a1 & E1 & L1 & O1 & G1 & N1 & Cu1 & Pr1 & NIi & NIj & ST1 & H1).
  { exact (i_log _ _ _ _ I1). } { apply (i_live _ _ _ _ I). exact Pi. } { apply (i_live _ _ _ _ I). exact Pj. } { exact NE. } { exact CALM. } { exact (i_gens _ _ _ _ I). }
  unfold pr. cbn [lg with_tb]. rewrite E1. cbn [rbind]. set (s2 := with_lg (with_tb s t) l1).
  assert (I2 : sinvx (fun k => k = j) s2 a1).
  { pose proof I1 as [X1 X2 X3 X4 X5 X6 X7 X8 X9 X10]. assert (LV : forall k, live l1 k <-> live (lg s) k) by (intros k; unfold live; rewrite O1; tauto).
    constructor; cbn; auto.
    - intros k Hk. apply LV, X3. exact Hk.
    - intros k Hk. rewrite O1. apply X4. exact Hk.
    - intros k1 k2 B1 B2. rewrite G1. apply X5; apply LV; assumption.
    - intros k Hk. rewrite G1, N1. apply X6, LV, Hk.
    - intros CS k B1 B2 B3. apply H1; [apply X3; exact B1|]. apply X7; assumption.
    - intros A k B. rewrite Pr1 in B. destruct (ST1 A) as [A'|A']; [|assert (k = j) as -> by congruence; split; [change (P (with_tb s t) j <> 0); rewrite PS; exact Pj|auto]]. destruct (X8 A' k B) as [Y0 [|[|[]]]]; auto. }
  destruct (droptcb_ok _ s2 a1 i I2) as (s3 & a3 & E3 & I3 & (D1 & D2 & D3 & D4 & D5) & BK); [change (P (with_tb s t) i <> 0); rewrite PS; exact Pi|]. rewrite E3. cbn [rbind].
  assert (P3 : forall k, P s3 k = if Nat.eqb k i then 0 else P s k) by (intros k; rewrite D1; destruct (Nat.eqb k i); [reflexivity|]; apply PS).
  assert (P3j : P s3 j <> 0) by (rewrite P3; destruct (Nat.eqb_spec j i); [congruence|exact Pj]).
  destruct (rename_ok (tb s3) j (P s i) (i_tab _ _ _ _ I3) P3j Pi) as [T4 P4].
  { intros k. change (pidof (tb s3) k) with (P s3 k). rewrite P3. destruct (Nat.eqb_spec k i) as [->|NK]; [congruence|]. intros Q. apply NK. apply (t_distinct _ (i_tab _ _ _ _ I)); [unfold P in *; congruence|exact Q]. }
  set (s4 := with_tb s3 (rename (tb s3) j (P s i))).
  assert (P4s : forall k, P s4 k = if Nat.eqb k j then P s i else P s3 k) by exact P4.
  assert (NIj3 : forall m, ~ in_call (P s3) (lg s3) j m a3) by (intros m K; apply (NIj m); eapply in_call_ext; [apply BK; exact K|reflexivity]).
  assert (EXT : forall k n, in_call (P s3) (lg s3) k n a3 -> P s4 k = P s3 k).
  { intros k n K. rewrite P4s. destruct (Nat.eqb_spec k j) as [->|]; [destruct (NIj3 _ K)|reflexivity]. }
  assert (P4' : forall k, P s4 k <> 0 <-> P s3 k <> 0).
  { intros k. rewrite P4s. destruct (Nat.eqb_spec k j) as [->|]; [tauto|reflexivity]. }
  assert (I4 : sinvx (fun k => k = j) s4 a3).
  { pose proof I3 as [X1 X2 X3 X4 X5 X6 X7 X8 X9 X10]. constructor; try (intros CS); cbn [s4 with_tb lg fl sname qu tb]; auto.
    - apply (linv_ext (P s3)); assumption.
    - intros Q. apply X3, P4', Q.
    - intros Q. apply X4. destruct (N.eq_dec (P s3 CS) 0); [assumption|]. exfalso. apply (proj2 (P4' CS)); assumption.
    - intros k B1 B2 B3. apply (has_ext (P s3)); auto. apply X7; auto. apply P4', B1.
    - intros k B. destruct (X8 CS k B). split; [apply P4'|]; assumption.
    - intros Q. apply X9, P4', Q.
    - intros Q. apply P4', X10, Q. }
  assert (CU4 : forall s5, tb s5 = tb s4 -> cur (with_lg s5 (set_current (lg s5) (Some j))) j).
  { intros s5 T5. split; [reflexivity|]. change (P s5 j <> 0). unfold P. rewrite T5. change (P s4 j <> 0). rewrite P4s, Nat.eqb_refl. exact Pi. }
  assert (FIN : forall s5 a5, sinv s5 a5 -> tb s5 = tb s4 -> qu s5 = qu s4 -> safe (Ok (Some j, with_lg s5 (set_current (lg s5) (Some j)))) (fun r => inv (snd r) /\ exists k, cur (snd r) k /\ (fst r = None -> k = i /\ fl (snd r) = fl s) /\
    (fst r = None -> tb (snd r) = tb s \/ pids (tb (snd r)) = pids (tb s)) /\ (extra (qu (snd r)) = extra (qu s)))).
  { intros s5 a5 I5 T5 Q5. cbn. split; [exists a5; apply sinv_current; exact I5|]. exists j. split; [apply CU4; exact T5|]. split; [discriminate|]. split; [discriminate|]. rewrite Q5. exact D4. }
  destruct (c_stats c) eqn:CS.
  - cbn [rbind]. apply (FIN s4 a3); [|reflexivity|reflexivity]. destruct I4 as [X1 X2 X3 X4 X5 X6 X7 X8 X9 X10]. constructor; auto. intros A k B. destruct (X8 A k B). auto.
  - destruct (c_qthread c).
    + cbn [rbind]. rewrite ALL. cbn [rbind]. apply (FIN _ a3); [|reflexivity|reflexivity]. destruct I4 as [X1 X2 X3 X4 X5 X6 X7 X8 X9 X10]. constructor; cbn; auto.
      * intros CS' k B1. rewrite !andb_false_r. apply X7; assumption.
      * intros A k B. rewrite andb_true_r. destruct (X8 A k B) as [PK D]. split; [exact PK|]. destruct (Nat.eqb_spec k j); [auto|]. destruct D as [|[|]]; auto; contradiction.
      * intros k B1. rewrite !andb_false_r. apply X9; assumption.
    + destruct (message_ok c NOFF _ s4 a3 j (bs "+++ superseded by execve in pid " ++ Printf.pr_num 10 (Z.to_N old) ++ bs " +++") [] I4) as (l5 & a5 & E5 & I5 & C5); [rewrite P4s, Nat.eqb_refl; exact Pi|].
      rewrite E5. cbn [rbind]. rewrite ALL. cbn [rbind]. apply (FIN _ a5); [|reflexivity|reflexivity]. apply sinv_reprint; auto.
Qed.

Lemma setf_inv s i f b : plain_flag f = true -> inv s -> inv (setf s i f b).
Proof. intros F [a I]. exists a. apply sinv_setf; assumption. Qed.

(** the tracee that an event is for is the current one, and known *)
Definition ready (s : st) (w : option wdata) : Prop :=
  match w with
  | Some wd => match te wd with TE_BREAK | TE_NEXT => True | _ => exists i, cur s i /\ fl s i STARTUP = false end
  | None => True
  end.
Lemma dispatch_safe s w e : inv s -> ready s w -> calm s w -> safe (dispatch_event c s w e) (fun r => inv (snd r)).
Proof.
  intros I R K. unfold dispatch_event. destruct w as [wd|]; [|exact I]. cbn [ready] in R. cbn [calm] in K.
  assert (RES : forall s i o sig, inv s -> safe (resume s i wd o sig e) (fun r => inv (snd r))) by (intros; eapply safe_mono; [apply resume_safe; assumption|intros r H'; apply H']).
  assert (SYS : forall i op1, cur s i -> fl s i STARTUP = false -> safe (rlet (r, sig, s) := trace_syscall c s i false e in if (r <? 0)%Z then Ok (true, s) else resume s i wd (if fl s i SECCOMP_FILTER then if fl s i INSYSCALL then OP_SYSCALL else OP_CONT else op1) sig e) (fun r => inv (snd r))).
  { intros i op1 C ST. eapply safe_bind; [apply (trace_syscall_safe c NOFF ALL); assumption|]. intros [[r sig] s1] [I1 C1]. cbn [snd] in *. destruct (r <? 0)%Z; [exact I1|]. apply RES. exact I1. }
  destruct (te wd) eqn:TE; try exact I; destruct R as (i & C & ST); pose proof C as [Cu Pi]; rewrite Cu.
  - apply RES; exact I.
  - apply SYS; assumption.
  - eapply safe_bind; [apply print_stopped_safe; assumption|]. intros s1 [I1 _]. apply RES; exact I1.
  - eapply safe_bind; [apply print_signalled_safe; assumption|]. intros s1 [I1 _]. eapply safe_bind; [apply droptcb_safe; exact I1|]. intros s2 [I2 _]. exact I2.
  - eapply safe_bind; [apply print_stopped_safe; assumption|]. intros s1 [I1 _]. destruct (c_seize c); apply RES; exact I1.
  - eapply safe_bind; [apply print_exited_safe; assumption|]. intros s1 [I1 _]. eapply safe_bind; [apply droptcb_safe; exact I1|]. intros s2 [I2 _]. exact I2.
  - set (s0 := setf s i CHECK_EXEC_SYSCALL false). assert (I0 : inv s0) by (apply setf_inv; [reflexivity|exact I]).
    eapply safe_bind; [apply (switch_safe s0 i I0 C)|].
    { intros SW. apply (K eq_refl i Cu). exact SW. }
    intros [sw s1] (I1 & k & C1 & NONE & _ & _). cbn [fst snd] in *. rewrite (proj1 C1).
    eapply (safe_bind _ _ (fun r => inv (snd r))).
    + destruct sw as [j|]; [exact I1|]. destruct (NONE eq_refl) as [-> F1]. destruct (negb (fl s1 i INSYSCALL)); [|exact I1].
      eapply safe_bind; [apply (trace_syscall_safe c NOFF ALL); try assumption|].
      { rewrite F1. unfold s0. rewrite fl_setf_other by reflexivity. exact ST. }
      intros [[r sig] s2] [I2 _]. exact I2.
    + intros [[bad sig] s2] I2. cbn [snd] in I2. destruct bad; [exact I2|]. destruct (c_detexec c); [|apply RES; exact I2]. destruct (fl s2 k SKIP_DETACH_ON_FIRST_EXEC).
      * apply RES. apply setf_inv; [reflexivity|exact I2].
      * eapply safe_bind; [apply detach_safe; exact I2|]. intros s3 [I3 _]. exact I3.
  - eapply safe_bind; [apply exit_event_safe; assumption|]. intros s1 [I1 _]. apply RES; exact I1.
  - destruct (negb (fl s i SECCOMP_FILTER)); [apply RES; apply setf_inv; [reflexivity|exact I]|]. destruct (c_secbefore c); [apply RES; exact I|]. apply SYS; assumption.
Qed.
End Turn.
