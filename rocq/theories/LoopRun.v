(** The invariant of LoopInv over whole runs of the event loop, startup and cleanup. *)
From Verif Require Import Base TimeModel WaitModel TcbModel TcbProofs LogModel LogSpec LogProofs LoopModel LoopSpec LoopInv LoopTurn.
Local Open Scope N_scope.

Lemma fold_setf_fl fs : forall s i k g, fl (fold_left (fun s f => setf s i f true) fs s) k g = (Nat.eqb k i && existsb (flag_eqb g) fs) || fl s k g.
Proof.
  induction fs as [|f fs IH]; intros s i k g; cbn [fold_left existsb]; [rewrite andb_false_r; reflexivity|]. rewrite IH. cbn. destruct (Nat.eqb k i); cbn; [|reflexivity]. destruct (flag_eqb g f), (existsb (flag_eqb g) fs), (fl s k g); reflexivity.
Qed.
Lemma fold_setf_same fs : forall s i, let s' := fold_left (fun s f => setf s i f true) fs s in tb s' = tb s /\ lg s' = lg s /\ sname s' = sname s /\ qu s' = qu s.
Proof. induction fs as [|f fs IH]; intros s i; cbn [fold_left]; [repeat split|]. destruct (IH (setf s i f true) i) as (A & B & C & D). cbv zeta. rewrite A, B, C, D. repeat split. Qed.
Definition startup_flags (fs : list flag) : Prop := forall f, In f fs -> plain_flag f = true.
Lemma startup_flags_no fs g : startup_flags fs -> plain_flag g = false -> existsb (flag_eqb g) fs = false.
Proof.
  intros F G. destruct (existsb (flag_eqb g) fs) eqn:E; [|reflexivity]. apply existsb_exists in E as (f & Hf & E). apply F in Hf. assert (g = f) by (destruct g, f; try discriminate E; reflexivity). congruence.
Qed.

Section Run.
Variable c : cfg.
Hypothesis NOFF : c_ff (lc c) = false.
Hypothesis ALL : c_all (lc c) = true.
Notation sinv := (sinvx c (fun _ => False)).
Notation inv := (inv c).

(** ** New tracees *)
Lemma new_tcb_safe s pid fs : inv s -> pid <> 0 -> (forall i, P s i <> pid) -> startup_flags fs ->
  safe (new_tcb s pid) (fun r => inv (attached c (snd r) (fst r) fs) /\ P s (fst r) = 0 /\ (forall k, P (attached c (snd r) (fst r) fs) k = if Nat.eqb k (fst r) then pid else P s k) /\
    extra (qu (attached c (snd r) (fst r) fs)) = extra (qu s) /\ pending (qu (attached c (snd r) (fst r) fs)) = pending (qu s)).
Proof.
  intros [a I] PN NP FS. unfold new_tcb. pose proof (alloctcb_ok (tb s) pid (i_tab _ _ _ _ I) PN NP) as H. destruct (alloctcb (tb s) pid) as [[t i]| |]; cbn [rbind safe]; auto.
  destruct H as (T & D & PT). cbn [fst snd].
  set (s1 := with_dec _ _ _). unfold attached.
  set (s2 := setf (setf s1 i ATTACHED true) i STARTUP true). destruct (fold_setf_same fs s2 i) as (A1 & A2 & A3 & A4). pose proof (fun k g => fold_setf_fl fs s2 i k g) as FL.
  set (s3 := fold_left (fun s f => setf s i f true) fs s2) in *. clearbody s3.
  assert (P3 : forall k, P s3 k = if Nat.eqb k i then pid else P s k) by (intros k; unfold P; rewrite A1; exact (PT k)).
  assert (L3 : lg s3 = alloc_log (lg s) i) by exact A2.
  assert (DI : outf (lg s) i = None) by (apply (i_dead _ _ _ _ I); exact D).
  assert (NC : forall Q0 m, ~ in_call Q0 (lg s) i m a) by (intros Q0 m [? X ? ? ? ?]; unfold live in X; congruence).
  set (l4 := attach_log (P s3) (lc c) (lg s3) i).
  assert (O4 : forall k, outf l4 k = if Nat.eqb k i then Some (FReal Shared) else outf (lg s) k) by (intros k; cbn; rewrite L3; cbn; rewrite NOFF; destruct (Nat.eqb k i); reflexivity).
  assert (B0 : base (lg s) a) by (destruct (i_log _ _ _ _ I) as [[B ? ?]|(? & ? & [B ? ? ? ? ?])]; exact B).
  assert (ST4 : forall k, staged l4 k = None) by (intros k; cbn; rewrite L3; cbn; rewrite Nat.eqb_refl; destruct (Nat.eqb k i); [reflexivity|apply (b_staged _ _ B0)]).
  assert (C4 : forall k, col l4 k = col (lg s) k).
  { intros k. cbn. rewrite L3. cbn. destruct (Nat.eqb_spec k i) as [->|]; [|reflexivity]. symmetry. destruct (i_log _ _ _ _ I) as [Q|(j & n & K)]; [apply (q_col _ _ Q)|]. apply (k_cols _ _ _ _ _ K). intros ->. exact (NC _ _ K). }
  assert (F4 : files l4 = files (lg s)) by (cbn; rewrite L3; reflexivity).
  assert (PR4 : printing l4 = printing (lg s)) by (cbn; rewrite L3; reflexivity).
  assert (G4 : forall k, gen l4 k = if Nat.eqb k i then ngen (lg s) else gen (lg s) k) by (intros k; cbn; rewrite L3; reflexivity).
  assert (N4 : ngen l4 = S (ngen (lg s))) by (cbn; rewrite L3; reflexivity).
  assert (B4 : base l4 a).
  { destruct B0 as [X1 X2 X3]. constructor; [exact ST4| |rewrite F4; exact X3]. intros k. rewrite O4. destruct (Nat.eqb k i); auto. }
  assert (CK : forall k m, in_call (P s) (lg s) k m a -> in_call (P s3) l4 k m a).
  { intros k m K. assert (NE : k <> i) by (intros ->; exact (NC _ _ K)). destruct K as [X1 X2 X3 X4 X5 X6]. apply Nat.eqb_neq in NE. constructor; [exact B4| | |rewrite PR4; exact X4|rewrite C4; exact X5|intros j Hj; rewrite C4; auto].
    - unfold live in *. rewrite O4, NE. exact X2.
    - rewrite X3. unfold author. rewrite G4, P3, NE. reflexivity. }
  assert (CK' : forall k m, in_call (P s3) l4 k m a -> in_call (P s) (lg s) k m a).
  { intros k m K. destruct (i_log _ _ _ _ I) as [Q|(j & n & K0)].
    - pose proof (k_ln _ _ _ _ _ K) as Z. rewrite (q_ln _ _ Q) in Z. discriminate.
    - destruct (in_call_unique _ _ _ _ _ _ _ K (CK _ _ K0)) as [-> ->]. exact K0. }
  assert (LV : forall k, live l4 k -> k = i \/ (k <> i /\ live (lg s) k)).
  { intros k. unfold live. rewrite O4. destruct (Nat.eqb_spec k i); auto. }
  split; [|split; [exact D|split; [exact P3|split; cbn; rewrite A4; reflexivity]]].
  exists a. constructor; cbn [with_lg lg tb fl sname qu].
  - destruct (i_log _ _ _ _ I) as [[X1 X2 X3]|(j & n & K)]; [left|right; exists j, n; apply CK; exact K]. constructor; [exact B4|exact X2|intros k; rewrite C4; apply X3].
  - rewrite A1. exact T.
  - intros k. change (P (with_lg s3 l4) k) with (P s3 k). rewrite P3. unfold live. rewrite O4. destruct (Nat.eqb k i); [reflexivity|]. apply (i_live _ _ _ _ I).
  - intros k. change (P (with_lg s3 l4) k) with (P s3 k). rewrite P3, O4. destruct (Nat.eqb k i); [congruence|]. apply (i_dead _ _ _ _ I).
  - intros k j Hk Hj. rewrite !G4. destruct (LV k Hk) as [->|[NK Lk]], (LV j Hj) as [->|[NJ Lj]]; rewrite ?Nat.eqb_refl; try reflexivity.
    + apply Nat.eqb_neq in NJ. rewrite NJ. intros E. pose proof (i_gen _ _ _ _ I j Lj). lia.
    + apply Nat.eqb_neq in NK. rewrite NK. intros E. pose proof (i_gen _ _ _ _ I k Lk). lia.
    + apply Nat.eqb_neq in NK, NJ. rewrite NK, NJ. apply (i_gens _ _ _ _ I); assumption.
  - intros k Hk. rewrite G4, N4. destruct (LV k Hk) as [->|[NK Lk]]; [rewrite Nat.eqb_refl; lia|]. apply Nat.eqb_neq in NK. rewrite NK. pose proof (i_gen _ _ _ _ I k Lk). lia.
  - intros CS k. change (P (with_lg s3 l4) k) with (P s3 k). rewrite P3, !FL, !(startup_flags_no fs) by (assumption || reflexivity). rewrite !andb_false_r, A3. cbn. rewrite !andb_false_r. destruct (Nat.eqb_spec k i) as [->|NE]; [discriminate|]. intros H1 H2 H3.
    destruct (i_show _ _ _ _ I CS k H1 H2 H3) as [K|[NK U]]; [left; apply CK; exact K|]. right. split; [intros m K; apply (NK m), CK'; exact K|]. rewrite G4. apply Nat.eqb_neq in NE. rewrite NE. exact U.
  - intros A j. rewrite PR4. intros B. rewrite FL, (startup_flags_no fs) by (assumption || reflexivity). rewrite andb_false_r. cbn. rewrite !andb_false_r.
    change (P (with_lg s3 l4) j) with (P s3 j). rewrite P3. destruct (i_rep _ _ _ _ I A j B) as [PJ DJ]. destruct (Nat.eqb_spec j i) as [->|]; [contradiction|]. split; [exact PJ|exact DJ].
  - intros k. change (P (with_lg s3 l4) k) with (P s3 k). rewrite P3, !FL, !(startup_flags_no fs) by (assumption || reflexivity). rewrite !andb_false_r. cbn. rewrite !andb_false_r. destruct (Nat.eqb k i); [reflexivity|]. apply (i_start _ _ _ _ I).
  - intros k. rewrite A4. cbn. change (P (with_lg s3 l4) k) with (P s3 k). rewrite P3. destruct (Nat.eqb k i); [intros; exact PN|]. apply (i_pend _ _ _ _ I).
Qed.

Lemma safe_and {A} (x : res A) (Q R : A -> Prop) : safe x Q -> (forall a, x = Ok a -> R a) -> safe x (fun a => Q a /\ R a).
Proof. destruct x; cbn; auto. Qed.
(** ** Delays *)
Lemma inv_dl s x : inv s -> inv (with_dl s x).
Proof. intros [a I]. exists a. eapply (sinv_other c s); [exact I|reflexivity..]. Qed.
Lemma inv_current s x : inv s -> inv (with_lg s (set_current (lg s) x)).
Proof. intros [a I]. exists a. apply sinv_current. exact I. Qed.
Lemma restart_delayed_tcb_safe s i e : inv s -> P s i <> 0 -> safe (restart_delayed_tcb c s i e) (fun r => inv (snd r) /\ tb (snd r) = tb s).
Proof.
  intros I Pi. unfold restart_delayed_tcb. cbv zeta. set (s1 := with_lg (setf s i DELAYED false) _).
  assert (I1 : inv s1) by (apply inv_current, setf_inv; [reflexivity|exact I]).
  eapply (safe_bind _ _ (fun r => inv (snd r) /\ tb (snd r) = tb s)).
  - unfold dispatch_event. cbn [te]. change (current (lg s1)) with (Some i). eapply safe_mono; [apply (resume_safe c NOFF); exact I1|]. intros r (A & B & _). split; [exact A|exact B].
  - intros [ok s2] [I2 T2]. cbn [safe snd] in *. split; [apply inv_dl, inv_current; exact I2|exact T2].
Qed.
Lemma restart_delayed_from_safe is es now : forall s next, inv s -> safe (restart_delayed_from c s now is next es) (fun r => inv (snd r) /\ tb (snd r) = tb s).
Proof.
  induction is as [|i is IH]; intros s next I; cbn [restart_delayed_from].
  - cbn. destruct next; [split; [apply inv_dl; exact I|reflexivity]|auto].
  - destruct (N.eqb_spec (P s i) 0) as [Z|Z]; cbn [negb andb]; [apply IH; exact I|]. destruct (fl s i DELAYED); [|apply IH; exact I].
    destruct (0 <? ts_cmp now (expiry (dl s) i))%Z; [|apply IH; exact I]. eapply safe_bind; [apply restart_delayed_tcb_safe; assumption|]. intros [ok s1] [I1 T1]. cbn [snd] in *.
    destruct ok; [|cbn; auto]. eapply safe_mono; [apply IH; exact I1|]. intros r [A B]. split; [exact A|congruence].
Qed.
Lemma timer_safe s now es : inv s -> safe (timer_sighandler c s now es) (fun s' => inv s' /\ tb s' = tb s).
Proof.
  intros I. unfold timer_sighandler. cbv zeta. set (s1 := with_dl s _). assert (I1 : inv s1) by (apply inv_dl; exact I). destruct (rfail s1); [cbn; auto|].
  unfold restart_delayed_tcbs. eapply safe_bind; [apply restart_delayed_from_safe; exact I1|]. intros [ok s2] [I2 T2]. cbn [snd safe] in *. destruct ok; [auto|]. split; [apply inv_glob; exact I2|exact T2].
Qed.

(** the handler of the timer leaves the queue alone *)
Lemma restart_qu o s i sig err b s' : ptrace_restart o s i sig err = Ok (b, s') -> qu s' = qu s.
Proof.
  unfold ptrace_restart, tpr, pr. cbv zeta. destruct (_ || _); [intros E; inversion E; reflexivity|]. destruct (current _) as [j|]; [|cbn; intros E; inversion E; reflexivity].
  destruct (_ =? 0); [cbn; intros E; inversion E; reflexivity|]. destruct (tprints _ _ _); cbn; try discriminate. intros E; inversion E; reflexivity.
Qed.
Lemma resume_qu s i wd o sig e b s' : resume s i wd o sig e = Ok (b, s') -> qu s' = qu s.
Proof.
  unfold resume. cbv zeta. set (s1 := if e_intr e =? 0 then s else _). assert (Q : qu s1 = qu s) by (unfold s1; destruct (e_intr e =? 0); reflexivity). clearbody s1.
  destruct (negb _); [intros E; inversion E; congruence|]. destruct (fl s1 i DELAYED); [intros E; inversion E; exact Q|].
  destruct (ptrace_restart o s1 i sig (e_err e)) as [[ok s2]| |] eqn:R; cbn; try discriminate. apply restart_qu in R. destruct ok; intros E; inversion E; subst; cbn; congruence.
Qed.
Lemma restart_delayed_qu is es now : forall s next b s', restart_delayed_from c s now is next es = Ok (b, s') -> qu s' = qu s.
Proof.
  induction is as [|i is IH]; intros s next b s'; cbn [restart_delayed_from].
  - intros E. inversion E. destruct next; reflexivity.
  - destruct (_ && _); [|apply IH]. destruct (0 <? _)%Z; [|apply IH]. destruct (restart_delayed_tcb c s i (es i)) as [[ok s1]| |] eqn:R; cbn [rbind]; try discriminate.
    assert (Q : qu s1 = qu s).
    { unfold restart_delayed_tcb, dispatch_event in R. cbv zeta in R. cbn [te current lg with_lg set_current] in R.
      match type of R with rbind ?x _ = _ => destruct x as [[ok2 s2]| |] eqn:R2 end; cbn [rbind] in R; try discriminate. apply resume_qu in R2. inversion R; subst. exact R2. }
    destruct ok; [|intros E; inversion E; congruence]. intros E. apply IH in E. congruence.
Qed.
Lemma timer_extra s now es s' : timer_sighandler c s now es = Ok s' -> extra (qu s') = extra (qu s).
Proof.
  unfold timer_sighandler. cbv zeta. destruct (rfail _); [intros E; inversion E; reflexivity|]. destruct (restart_delayed_tcbs _ _ _ _) as [[ok s1]| |] eqn:R; cbn [rbind]; try discriminate.
  unfold restart_delayed_tcbs in R. apply restart_delayed_qu in R. destruct ok; intros E; inversion E; subst; cbn; rewrite R; reflexivity.
Qed.

(** ** Collecting events *)
Lemma sinv_cache s a t : sinv s a -> pids t = pids (tb s) -> tinv t -> sinv (with_tb s t) a.
Proof.
  intros [X1 X2 X3 X4 X5 X6 X7 X8 X9 X10] E T. assert (PS : forall k, P (with_tb s t) k = P s k) by (intros k; unfold P, pidof; cbn; rewrite E; reflexivity).
  constructor; cbn; auto.
  - apply (linv_ext (P s)); [intros; apply PS|exact X1].
  - intros k. rewrite PS. auto.
  - intros k. rewrite PS. auto.
  - intros CS k H1 H2 H3. rewrite PS in H1. apply (has_ext (P s)); auto.
  - intros A k. rewrite PS. auto.
  - intros k. rewrite PS. auto.
  - intros k Hk. rewrite PS. auto.
Qed.
Lemma lookup_ok s p : inv s -> inv (with_tb s (fst (pid2tcb (tb s) p))) /\ (forall k, P (with_tb s (fst (pid2tcb (tb s) p))) k = P s k) /\
  (forall i, snd (pid2tcb (tb s) p) = Some i <-> (0 < p)%Z /\ P s i = Z.to_N p).
Proof.
  intros [a I]. pose proof (pid2tcb_same (tb s) p) as [E1 E2]. split; [|split].
  - exists a. apply sinv_cache; [exact I|exact E1|]. apply pid2tcb_inv. apply (i_tab _ _ _ _ I).
  - intros k. unfold P, pidof. cbn. rewrite E1. reflexivity.
  - intros i. apply pid2tcb_spec. apply (i_tab _ _ _ _ I).
Qed.
Lemma enqueue_inv s i pos wd : inv s -> P s i <> 0 -> inv (enqueue s i pos wd).
Proof.
  intros [a I] Pi. exists a. unfold enqueue. eapply (sinv_same c s); [exact I|reflexivity|reflexivity|exact (i_show _ _ _ _ I)|exact (i_rep _ _ _ _ I)|exact (i_start _ _ _ _ I)|].
  cbn. destruct (existsb _ _); cbn; intros k; [apply (i_pend _ _ _ _ I)|]. rewrite in_app_iff. intros [H|[<-|[]]]; [apply (i_pend _ _ _ _ I k H)|exact Pi].
Qed.
Lemma set_popen_inv s x : inv s -> inv (set_popen s x).
Proof. apply inv_glob. Qed.
Lemma maybe_allocate_safe s pid status : inv s -> pid <> 0 -> (forall i, P s i <> pid) ->
  safe (maybe_allocate_tcb c s pid status) (fun r => inv (snd r) /\ extra (qu (snd r)) = extra (qu s) /\
    match fst r with
    | Some i => WIFSTOPPED status = true /\ c_follow c = true /\ P s i = 0 /\ (forall k, P (snd r) k = if Nat.eqb k i then pid else P s k)
    | None => (WIFSTOPPED status = false \/ c_follow c = false) /\ forall k, P (snd r) k = P s k
    end).
Proof.
  intros I PN NP. unfold maybe_allocate_tcb. destruct (WIFSTOPPED status) eqn:W; cbn [negb].
  - destruct (c_follow c) eqn:F; [|cbn; auto]. set (fs := if c_seize c then [] else [IGNORE_ONE_SIGSTOP]).
    assert (FS : startup_flags fs) by (unfold fs; destruct (c_seize c); intros f; cbn; [tauto|]; intros [<-|[]]; reflexivity).
    pose proof (new_tcb_safe s pid fs I PN NP FS) as H. destruct (new_tcb s pid) as [[i s1]| |]; cbn [rbind safe fst snd] in *; auto. destruct H as (A & B & C & D & _). conj; auto.
  - cbn. destruct (c_detexec c && (pid =? child s)); [split; [apply inv_glob; exact I|]|]; auto.
Qed.
Lemma collect_safe ws : forall s nohang pos, inv s -> held s ->
  safe (collect c s nohang pos ws) (fun r => inv (snd r) /\ held (snd r)).
Proof.
  induction ws as [|w ws IH]; intros s nohang pos I H; cbn [collect]; [cbn; auto|]. destruct w as [errno|pid status siok msg].
  - destruct (errno =? EINTR); [cbn; auto|]. destruct nohang; [cbn; auto|]. destruct (_ && _); cbn; auto.
  - destruct (N.eqb_spec pid 0) as [Z|Z]; [cbn; auto|]. destruct (pid =? popen s); [cbn; destruct (WIFSTOPPED status); [auto|split; [apply set_popen_inv; exact I|exact H]]|].
    destruct (lookup_ok s (Z.of_N pid) I) as (I1 & P1 & FIND). destruct (pid2tcb (tb s) (Z.of_N pid)) as [t found]. cbn [fst snd] in *.
    assert (H1 : held (with_tb s t)) by (unfold held in *; cbn; destruct (extra (qu s)) as [[j x]|]; [rewrite P1; exact H|exact H]).
    eapply (safe_bind _ _ (fun r => inv (snd r) /\ held (snd r) /\ match fst r with Some i => P (snd r) i <> 0 | None => True end)).
    + destruct found as [i|].
      * cbn. split; [exact I1|split; [exact H1|]]. rewrite P1. destruct (proj1 (FIND i) eq_refl). lia.
      * assert (NF : forall i, P (with_tb s t) i <> pid) by (intros i E; rewrite P1 in E; assert (X : None = Some i) by (apply FIND; lia); discriminate).
        eapply safe_mono; [apply maybe_allocate_safe; assumption|]. intros [[i|] s2] (A & B & C); cbn [fst snd] in *.
        -- destruct C as (_ & _ & C1 & C). split; [exact A|]. split; [|rewrite C, Nat.eqb_refl; exact Z]. unfold held in *. rewrite B. destruct (extra (qu (with_tb s t))) as [[j x]|]; [|exact Logic.I]. rewrite C. destruct (Nat.eqb j i); assumption.
        -- destruct C as [_ C]. split; [exact A|]. split; [|exact Logic.I]. unfold held in *. rewrite B. destruct (extra (qu (with_tb s t))) as [[j x]|]; [rewrite C; exact H1|exact Logic.I].
    + intros [[i|] s2] (A & B & C); cbn [fst snd] in *; [|apply IH; assumption].
      destruct (classify c (fl s2 i IGNORE_ONE_SIGSTOP) status siok msg) as [wd clr]. set (s3 := if clr then setf s2 i IGNORE_ONE_SIGSTOP false else s2).
      assert (X3 : inv s3 /\ P s3 i <> 0 /\ held s3) by (unfold s3; destruct clr; [split; [apply setf_inv; [reflexivity|exact A]|auto]|auto]). clearbody s3. destruct X3 as (I3 & P3 & H3).
      pose proof (enqueue_inv s3 i pos wd I3 P3) as I4. assert (H4 : held (enqueue s3 i pos wd)) by (unfold held, enqueue in *; cbn; destruct (existsb _ _); cbn; assumption).
      destruct (extra (qu (enqueue s3 i pos wd))); [cbn; auto|]. apply IH; assumption.
Qed.

(** ** Handing an event out *)
Lemma startup_tcb_safe s i opterr gname : inv s -> P s i <> 0 -> fl s i STARTUP = true -> safe (startup_tcb c s i opterr gname) (fun s' => inv s' /\ tb s' = tb s /\ fl s' i STARTUP = false /\ qu s' = qu s /\ lg s' = lg s).
Proof.
  intros [a I] Pi ST. pose proof (i_start _ _ _ _ I i Pi ST) as NS. unfold startup_tcb. cbv zeta. set (s1 := setf s i STARTUP false).
  assert (I1 : sinv s1 a).
  { eapply (sinv_same c s); [exact I|reflexivity|reflexivity| | | |exact (i_pend _ _ _ _ I)]; cbn.
    - intros C k. rewrite !andb_false_r. apply (i_show _ _ _ _ I C).
    - intros A j. rewrite andb_false_r. apply (i_rep _ _ _ _ I A).
    - intros k H1. rewrite andb_true_r, andb_false_r. destruct (Nat.eqb_spec k i) as [->|]; [discriminate|]. apply (i_start _ _ _ _ I); assumption. }
  assert (F1 : fl s1 i STARTUP = false) by (cbn; rewrite Nat.eqb_refl; reflexivity).
  destruct (_ && _ && _); [exact Logic.I|]. cbn [safe]. destruct (fl s1 i GRABBED); [|conj; auto; exists a; exact I1]. conj; auto.
  exists a. apply sinv_name; [exact I1|]. cbn. rewrite andb_false_r. exact NS.
Qed.
Lemma event_exit_safe s i opterr gname : inv s -> P s i <> 0 -> safe (event_exit c s i opterr gname) (fun r => inv (snd r) /\ ready (snd r) (fst r)).
Proof.
  intros I Pi. unfold event_exit. eapply (safe_bind _ _ (fun s' => inv s' /\ P s' i <> 0 /\ fl s' i STARTUP = false)).
  - destruct (fl s i STARTUP) eqn:ST; [|cbn; auto]. eapply safe_mono; [apply startup_tcb_safe; assumption|]. intros s' (A & B & C & _). split; [exact A|]. split; [unfold P in *; rewrite B; exact Pi|exact C].
  - intros s1 (I1 & P1 & F1). cbn [safe fst snd]. split.
    + destruct (inv_current s1 (Some i) I1) as [a I2]. exists a. eapply (sinv_other c _ _ a I2); reflexivity.
    + unfold ready. destruct (te _); try exact Logic.I; exists i; (split; [split; [reflexivity|exact P1]|exact F1]).
Qed.
Lemma get_tcp_safe s opterr gname : inv s -> safe (get_tcp c s opterr gname) (fun r => inv (snd r) /\ ready (snd r) (fst r)).
Proof.
  intros [a I]. unfold get_tcp. cbv zeta. destruct (pending (qu s)) as [|i r] eqn:E.
  - cbn. split; [|exact Logic.I]. exists a. eapply (sinv_other c s); try reflexivity; [exact I|]. cbn. rewrite E. reflexivity.
  - apply event_exit_safe; [|apply (i_pend _ _ _ _ I); rewrite E; left; reflexivity]. exists a.
    eapply (sinv_same c s); [exact I|reflexivity|reflexivity|exact (i_show _ _ _ _ I)|exact (i_rep _ _ _ _ I)|exact (i_start _ _ _ _ I)|]. cbn. intros k Hk. apply (i_pend _ _ _ _ I). rewrite E. right. exact Hk.
Qed.
Lemma next_event_safe s n : inv s -> held s -> safe (next_event c s n) (fun r => inv (snd r) /\ ready (snd r) (fst r)).
Proof.
  intros I H. unfold next_event. cbv zeta. set (s1 := if n_intr n =? 0 then s else set_intr s (n_intr n)).
  assert (X : inv s1 /\ held s1) by (unfold s1; destruct (n_intr n =? 0); [auto|split; [apply inv_glob; exact I|exact H]]). clearbody s1. clear I H. destruct X as [I H].
  destruct (negb (intr s1 =? 0)); [cbn; auto|]. destruct (limit s1 =? 0)%Z; [cbn; split; [apply inv_glob; exact I|exact Logic.I]|].
  destruct (pending (qu s1)) as [|i r] eqn:E; [|apply get_tcp_safe; exact I]. destruct (extra (qu s1)) as [[i idx]|] eqn:X.
  - apply event_exit_safe; [|unfold held in H; rewrite X in H; exact H]. destruct I as [a I]. exists a. eapply (sinv_other c s1); try reflexivity; [exact I|]. cbn. rewrite E. reflexivity.
  - destruct (_ && _); [cbn; auto|]. eapply (safe_bind _ _ (fun r => inv (snd r) /\ held (snd r))).
    + destruct (armed (dl s1)); [|cbn; auto]. destruct (n_timer n) as [[now es]|]; [|cbn; auto]. eapply safe_bind; [eapply safe_and; [apply (timer_safe s1 now es I)|apply (timer_extra s1 now es)]|].
      intros s2 [[I2 T2] X2]. cbn [safe snd]. split; [exact I2|]. unfold held. rewrite X2, X. exact Logic.I.
    + intros [stop s2] [I2 H2]. cbn [snd] in *. destruct stop; [cbn; auto|]. eapply safe_bind; [apply collect_safe; assumption|]. intros [e s3] [I3 _]. cbn [snd] in *. destruct e; [apply get_tcp_safe; exact I3|cbn; auto].
Qed.

Lemma turn_safe s ne : inv s -> held s -> calm_turn c s ne -> safe (turn c s ne) (fun r => inv (snd r)).
Proof.
  intros I H K. unfold turn, calm_turn in *. pose proof (next_event_safe s (fst ne) I H) as X. destruct (next_event c s (fst ne)) as [[w s1]| |]; cbn [rbind safe fst snd] in *; auto.
  destruct X as [I1 R1]. apply (dispatch_safe c NOFF ALL); assumption.
Qed.
Lemma turns_safe l : forall s, inv s -> orderly c s l -> safe (turns c s l) (fun r => inv (snd r)).
Proof.
  induction l as [|ne l IH]; intros s I O; cbn [turns]; [exact I|]. destruct O as (H & K & O). pose proof (turn_safe s ne I H K) as X.
  destruct (turn c s ne) as [[go s1]| |]; cbn [rbind safe snd] in *; auto. destruct go; [apply IH; assumption|exact X].
Qed.
End Run.
