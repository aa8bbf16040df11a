(** The invariant of LoopInv at the start of strace and through the cleanup at its end. *)
From Verif Require Import Base TimeModel WaitModel TcbModel TcbProofs LogModel LogSpec LogProofs LoopModel LoopSpec LoopInv LoopTurn LoopRun.
Local Open Scope N_scope.

Section Ends.
Variable c : cfg.
Hypothesis NOFF : c_ff (lc c) = false.
Hypothesis ALL : c_all (lc c) = true.
Notation inv := (inv c).

(** nothing was written and no call was seen yet; some tcbs may not be attached to *)
Record pre (s : st) : Prop := {
  p_tab : tinv (tb s);
  p_files : forall d, files (lg s) d = [];
  p_print : printing (lg s) = None;
  p_cur : current (lg s) = None;
  p_col : forall k, col (lg s) k = 0;
  p_staged : forall k, staged (lg s) k = None;
  p_out : forall k, outf (lg s) k = None \/ outf (lg s) k = Some (FReal Shared);
  p_dead : forall k, P s k = 0 -> outf (lg s) k = None;
  p_att : forall k, P s k <> 0 -> (fl s k ATTACHED = true <-> outf (lg s) k <> None);
  p_gens : forall i j, P s i <> 0 -> P s j <> 0 -> gen (lg s) i = gen (lg s) j -> i = j;
  p_gen : forall k, P s k <> 0 -> (gen (lg s) k < ngen (lg s))%nat;
  p_in : forall k, fl s k INSYSCALL = false;
  p_q : pending (qu s) = []; p_extra : extra (qu s) = None }.
Lemma pre_inv s : pre s -> (forall k, P s k <> 0 -> outf (lg s) k <> None) -> inv s /\ held s.
Proof.
  intros [] ATT. split; [|unfold held; rewrite p_extra0; exact I]. exists reader0.
  assert (LV : forall k, live (lg s) k -> P s k <> 0) by (intros k L E; unfold live in L; rewrite (p_dead0 k E) in L; discriminate).
  constructor; auto.
  - left. constructor; auto. constructor; auto. rewrite p_files0. reflexivity.
  - intros i Hi. unfold live. destruct (p_out0 i) as [E|E]; [destruct (ATT i Hi E)|exact E].
  - intros i j Hi Hj. apply p_gens0; apply LV; assumption.
  - intros CS i _ H. rewrite p_in0 in H. discriminate.
  - intros _ j. rewrite p_print0. discriminate.
  - rewrite p_q0. intros i [].
Qed.
Lemma pre0 ch po li : pre (st0 ch po li).
Proof.
  constructor; cbn; auto; try (intros; discriminate).
  - exact tinv0.
  - intros k H. destruct k; destruct (H eq_refl).
  - intros i j H. destruct i; destruct (H eq_refl).
Qed.
Lemma pre_new s pid : pre s -> pid <> 0 -> (forall k, P s k <> pid) ->
  safe (new_tcb s pid) (fun r => pre (snd r) /\ (forall k, P (snd r) k = if Nat.eqb k (fst r) then pid else P s k) /\ (forall k, k <> fst r -> outf (lg (snd r)) k = outf (lg s) k) /\ P s (fst r) = 0).
Proof.
  intros [] PN NP. unfold new_tcb. pose proof (alloctcb_ok (tb s) pid p_tab0 PN NP) as H. destruct (alloctcb (tb s) pid) as [[t i]| |]; cbn [rbind safe]; auto.
  destruct H as (T & D & PT). cbn [fst snd]. match goal with |- pre ?x /\ _ => set (s' := x) end.
  assert (P' : forall k, P s' k = if Nat.eqb k i then pid else P s k) by exact PT.
  split; [|split; [exact P'|split; [|exact D]]].
  - constructor; cbn; auto.
    + intros k. destruct (Nat.eqb k i); auto.
    + intros k. destruct (Nat.eqb k i); auto.
    + intros k. destruct (Nat.eqb k i); auto.
    + intros k. rewrite P'. destruct (Nat.eqb k i); auto.
    + intros k. rewrite P'. destruct (Nat.eqb k i); [split; [discriminate|congruence]|auto].
    + intros k j. rewrite !P'. destruct (Nat.eqb_spec k i) as [->|], (Nat.eqb_spec j i) as [->|]; auto.
      * intros _ X Y. specialize (p_gen0 j X). lia.
      * intros X _ Y. specialize (p_gen0 k X). lia.
    + intros k. rewrite P'. destruct (Nat.eqb k i); [lia|]. intros H. specialize (p_gen0 k H). lia.
    + intros k. destruct (Nat.eqb k i); auto.
  - intros k NE. cbn. apply Nat.eqb_neq in NE. rewrite NE. reflexivity.
Qed.
Lemma pre_attached s i fs : pre s -> P s i <> 0 -> startup_flags fs ->
  pre (attached c s i fs) /\ tb (attached c s i fs) = tb s /\ (forall k, outf (lg (attached c s i fs)) k = if Nat.eqb k i then Some (FReal Shared) else outf (lg s) k).
Proof.
  intros [] Pi FS. unfold attached. cbv zeta. set (s2 := setf (setf s i ATTACHED true) i STARTUP true). destruct (fold_setf_same fs s2 i) as (A1 & A2 & A3 & A4). pose proof (fun k g => fold_setf_fl fs s2 i k g) as FL.
  set (s3 := fold_left (fun s f => setf s i f true) fs s2) in *. clearbody s3. change (tb s2) with (tb s) in A1. change (lg s2) with (lg s) in A2. change (qu s2) with (qu s) in A4.
  assert (P3 : P s3 = P s) by (unfold P; rewrite A1; reflexivity).
  assert (O3 : forall k, outf (attach_log (P s3) (lc c) (lg s3) i) k = if Nat.eqb k i then Some (FReal Shared) else outf (lg s) k).
  { intros k. cbn. rewrite A2, NOFF. destruct (Nat.eqb k i); reflexivity. }
  split; [|split; [exact A1|exact O3]].
  assert (L3 : let l := attach_log (P s3) (lc c) (lg s3) i in files l = files (lg s) /\ printing l = printing (lg s) /\ current l = current (lg s) /\ col l = col (lg s) /\ (forall k, staged l k = None) /\ gen l = gen (lg s) /\ ngen l = ngen (lg s)).
  { cbn. rewrite A2. conj; try reflexivity. intros k. destruct (Nat.eqb_spec k i); auto. }
  set (l := attach_log (P s3) (lc c) (lg s3) i) in *. clearbody l. cbv zeta in L3. destruct L3 as (B1 & B2 & B3 & B4 & B5 & B6 & B7).
  assert (P4 : P (with_lg s3 l) = P s) by exact P3.
  constructor; cbn [with_lg tb lg fl qu]; rewrite ?P4, ?A1, ?A4, ?B1, ?B2, ?B3, ?B4, ?B6, ?B7; try assumption; intros k.
  - rewrite O3. destruct (Nat.eqb k i); auto.
  - rewrite O3. destruct (Nat.eqb_spec k i) as [->|]; [congruence|auto].
  - rewrite O3, FL. destruct (Nat.eqb_spec k i) as [->|NE]; [cbn; rewrite Nat.eqb_refl; cbn; rewrite orb_true_r; split; [discriminate|reflexivity]|]. cbn. apply Nat.eqb_neq in NE. rewrite NE. apply p_att0.
  - rewrite FL, (startup_flags_no fs) by (assumption || reflexivity). rewrite andb_false_r. cbn. rewrite !andb_false_r. apply p_in0.
Qed.
Lemma pre_drop s i : pre s -> outf (lg s) i = None -> P s i <> 0 -> exists s', droptcb c s i = Ok s' /\ pre s' /\ (forall k, P s' k = if Nat.eqb k i then 0 else P s k) /\ (forall k, outf (lg s') k = outf (lg s) k).
Proof.
  intros [] O Pi. unfold droptcb. replace (P s i =? 0) with false by (symmetry; apply N.eqb_neq; exact Pi). unfold pr, drop_log. rewrite O. cbn [rbind]. rewrite p_cur0, p_print0. cbn [rbind lg with_lg].
  eexists. split; [reflexivity|]. match goal with |- pre ?x /\ _ => set (s' := x) end. destruct (drop_slot_ok (tb s) i p_tab0) as [T' P'].
  assert (EP : forall k, P s' k = if Nat.eqb k i then 0 else P s k) by exact P'.
  assert (EO : forall k, outf (lg s') k = outf (lg s) k) by (intros k; cbn; destruct (Nat.eqb_spec k i) as [->|]; congruence).
  split; [|split; [exact EP|exact EO]].
  constructor; auto; try (intros k; try rewrite EO, ?EP; cbn; try destruct (Nat.eqb k i); auto; fail).
  - intros k. rewrite EO, EP. destruct (Nat.eqb_spec k i) as [->|]; auto.
  - intros k. rewrite EO, EP. cbn. destruct (Nat.eqb_spec k i) as [->|]; [congruence|auto].
  - intros k j. rewrite !EP. cbn. destruct (Nat.eqb k i), (Nat.eqb j i); try contradiction. apply p_gens0.
  - intros k. rewrite EP. cbn. destruct (Nat.eqb k i); [contradiction|]. apply p_gen0.
  - cbn. rewrite p_q0. reflexivity.
Qed.

Lemma alloc_pids_pre ps : forall s, pre s -> NoDup ps -> ~ In 0 ps -> (forall k p, In p ps -> P s k <> p) ->
  safe (alloc_pids s ps) (fun s' => pre s' /\ (forall k, P s' k <> 0 -> P s k = P s' k \/ In (P s' k) ps)).
Proof.
  induction ps as [|p ps IH]; intros s I ND NZ NP; cbn [alloc_pids]; [cbn; auto|]. inversion ND; subst.
  eapply safe_bind; [apply (pre_new s p I)|].
  - intros ->. apply NZ. left. reflexivity.
  - intros k. apply NP. left. reflexivity.
  - intros [i s1] (I1 & P1 & O1 & _). cbn [fst snd] in *. eapply safe_mono; [apply IH; auto|].
    + intros X. apply NZ. right. exact X.
    + intros k q Hq. rewrite P1. destruct (Nat.eqb k i); [intros ->; contradiction|]. apply NP. right. exact Hq.
    + intros s' [I' P']. split; [exact I'|]. intros k Hk. specialize (P' k Hk). rewrite P1 in P'. cbn [In]. destruct (Nat.eqb k i); [|destruct P'; auto]. destruct P' as [<-|]; auto.
Qed.

Definition attach_threads (s : st) (fs : list flag) (tids : list N) : res st :=
  fold_left (fun rs tid => rlet s := rs in rlet (j, s) := new_tcb s tid in Ok (attached c s j fs)) tids (Ok s).
Lemma fold_die {A} (f : res st -> A -> res st) (l : list A) x : (forall a, f x a = x) -> fold_left f l x = x.
Proof. intros H. induction l as [|a l IH]; cbn; [reflexivity|]. rewrite H. exact IH. Qed.
Lemma attach_threads_pre tids fs : startup_flags fs -> forall s, pre s -> NoDup tids -> ~ In 0 tids -> (forall k t, In t tids -> P s k <> t) ->
  safe (attach_threads s fs tids) (fun s' => pre s' /\ (forall k, P s' k <> 0 -> P s k = P s' k \/ In (P s' k) tids) /\ (forall k, P s' k <> 0 -> outf (lg s') k = None -> P s k <> 0 /\ outf (lg s) k = None)).
Proof.
  intros FS. induction tids as [|t tids IH]; intros s I ND NZ NP; unfold attach_threads; cbn [fold_left]; [cbn; auto|]. inversion ND; subst. cbn [rbind].
  pose proof (pre_new s t I) as H. destruct (new_tcb s t) as [[i s1]| |]; cbn [rbind].
  - destruct H as (I1 & P1 & O1 & D1); [intros ->; apply NZ; left; reflexivity|intros k; apply NP; left; reflexivity|]. cbn [fst snd] in *.
    assert (Pi : P s1 i <> 0) by (rewrite P1, Nat.eqb_refl; intros ->; apply NZ; left; reflexivity).
    destruct (pre_attached s1 i fs I1 Pi FS) as (I2 & T2 & O2). assert (P2 : forall k, P (attached c s1 i fs) k = P s1 k) by (intros k; unfold P; rewrite T2; reflexivity).
    eapply safe_mono; [apply IH; auto|].
    + intros X. apply NZ. right. exact X.
    + intros k q Hq. rewrite P2, P1. destruct (Nat.eqb k i); [intros ->; contradiction|]. apply NP. right. exact Hq.
    + intros s' (I' & P' & O'). split; [exact I'|]. split.
      * intros k Hk. specialize (P' k Hk). rewrite P2, P1 in P'. cbn [In]. destruct (Nat.eqb k i); [|destruct P'; auto]. destruct P' as [<-|]; auto.
      * intros k Hk Ho. destruct (O' k Hk Ho) as [X Y]. rewrite P2, P1 in X. rewrite O2 in Y. destruct (Nat.eqb_spec k i); [discriminate|]. rewrite O1 in Y by assumption. auto.
  - rewrite fold_die; [exact Logic.I|reflexivity].
  - exfalso. apply H; [intros ->; apply NZ; left; reflexivity|intros k; apply NP; left; reflexivity].
Qed.

Lemma grab_flags : startup_flags (GRABBED :: (if c_seize c then [] else [IGNORE_ONE_SIGSTOP])).
Proof. intros f. destruct (c_seize c); cbn; intros H; repeat destruct H as [<-|H]; try reflexivity; contradiction. Qed.
Lemma attach_from_pre ans : forall is s, pre s -> (forall k, P s k <> 0 -> outf (lg s) k = None -> In k is) -> NoDup is ->
  (forall i, NoDup (snd (ans i)) /\ ~ In 0 (snd (ans i))) -> (forall i j t, In t (snd (ans i)) -> In t (snd (ans j)) -> i = j) ->
  (forall k i t, In i is -> In t (snd (ans i)) -> P s k <> t) ->
  safe (attach_from c s is ans) (fun s' => inv s' /\ held s').
Proof.
  induction is as [|i is IH]; intros s I COV ND AD AO NEW; cbn [attach_from].
  - apply pre_inv; [exact I|]. intros k Hk Ho. destruct (COV k Hk Ho).
  - inversion ND; subst. eapply (safe_bind _ _ (fun s' => pre s' /\ (forall k, P s' k <> 0 -> outf (lg s') k = None -> In k is) /\ (forall k j t, In j is -> In t (snd (ans j)) -> P s' k <> t))).
    + destruct (N.eqb_spec (P s i) 0) as [Z|Z]; cbn [orb].
      * cbn. split; [exact I|]. split; [|intros k j t Hj; apply NEW; right; exact Hj]. intros k Hk Ho. destruct (COV k Hk Ho) as [<-|]; [congruence|assumption].
      * destruct (fl s i ATTACHED) eqn:AT.
        -- cbn. split; [exact I|]. split; [|intros k j t Hj; apply NEW; right; exact Hj]. intros k Hk Ho. destruct (COV k Hk Ho) as [<-|]; [destruct (proj1 (p_att _ I i Z) AT Ho)|assumption].
        -- unfold attach_tcb. destruct (fst (ans i)); cbn [negb].
           ++ pose proof (pre_attached s i _ I Z grab_flags) as (I1 & T1 & O1). set (s1 := attached c s i _) in *. clearbody s1.
              assert (P1 : forall k, P s1 k = P s k) by (intros k; unfold P; rewrite T1; reflexivity). destruct (AD i) as [AD1 AD2].
              eapply safe_mono; [apply (attach_threads_pre (snd (ans i)) _ grab_flags s1 I1 AD1 AD2)|].
              ** intros k t Ht. rewrite P1. apply (NEW k i t); [left; reflexivity|exact Ht].
              ** intros s' (I' & P' & O'). split; [exact I'|]. split.
                 --- intros k Hk Ho. destruct (O' k Hk Ho) as [X Y]. rewrite P1 in X. rewrite O1 in Y. destruct (Nat.eqb_spec k i); [discriminate|]. destruct (COV k X Y); [congruence|assumption].
                 --- intros k j t Hj Ht E. destruct (N.eq_dec (P s' k) 0) as [Z0|Z0]; [subst t; rewrite Z0 in Ht; destruct (AD j) as [_ AZ]; apply AZ; exact Ht|].
                     destruct (P' k Z0) as [X|X]; [rewrite P1, E in X; revert X; apply (NEW k j t); [right; exact Hj|exact Ht]|]. rewrite E in X. rewrite (AO i j t X Ht) in *. contradiction.
           ++ assert (O : outf (lg s) i = None) by (destruct (outf (lg s) i) eqn:O; [|reflexivity]; assert (X : fl s i ATTACHED = true) by (apply (p_att _ I i Z); congruence); congruence).
              destruct (pre_drop s i I O Z) as (s' & E & I' & P' & O'). rewrite E. cbn. split; [exact I'|]. split.
              ** intros k Hk Ho. rewrite P' in Hk. rewrite O' in Ho. destruct (Nat.eqb_spec k i); [contradiction|]. destruct (COV k Hk Ho); [congruence|assumption].
              ** intros k j t Hj Ht. rewrite P'. destruct (Nat.eqb k i); [intros <-; destruct (AD j) as [_ AZ]; contradiction|]. apply (NEW k j t); [right; exact Hj|exact Ht].
    + intros s1 (I1 & C1 & N1). apply IH; assumption.
Qed.
Lemma pre_setf s i f b : pre s -> plain_flag f = true -> f <> ATTACHED -> pre (setf s i f b).
Proof.
  intros [] F N. constructor; auto.
  - intros k. rewrite fl_setf_other by (destruct f; try reflexivity; contradiction). apply p_att0.
  - intros k. rewrite fl_setf_other by (destruct f; try reflexivity; discriminate). apply p_in0.
Qed.
Lemma startup_child_pre s pid sec : pre s -> pid <> 0 -> (forall k, P s k <> pid) ->
  safe (startup_child c s pid sec) (fun s' => pre s' /\ (forall k, P s' k <> 0 -> P s k = P s' k \/ P s' k = pid)).
Proof.
  intros I PN NP. unfold startup_child. cbv zeta. eapply safe_bind; [apply (pre_new (set_child s pid) pid); auto|].
  - destruct I. constructor; assumption.
  - intros [i s1] (I1 & P1 & _ & _). cbn [fst snd] in *. assert (Pi : P s1 i <> 0) by (rewrite P1, Nat.eqb_refl; exact PN).
    match goal with |- context [attached c s1 i ?f] => set (fs := f) end.
    assert (FS : startup_flags fs) by (intros f; unfold fs; destruct (c_seize c); cbn; intros H; repeat destruct H as [<-|H]; try reflexivity; contradiction).
    destruct (pre_attached s1 i fs I1 Pi FS) as (I2 & T2 & _). assert (P2 : forall k, P (attached c s1 i fs) k = P s1 k) by (intros k; unfold P; rewrite T2; reflexivity).
    cbn [safe]. split; [destruct sec; [apply pre_setf; [exact I2|reflexivity|discriminate]|exact I2]|].
    intros k. assert (E : P (if sec then setf (attached c s1 i fs) i SECCOMP_FILTER true else attached c s1 i fs) k = P s1 k) by (destruct sec; apply P2). rewrite E, P1. destruct (Nat.eqb k i); auto.
Qed.
Lemma startup_safe ch po li ps cmd ans : distinct_targets ps cmd ans -> safe (startup c (st0 ch po li) ps cmd ans) (fun s => inv s /\ held s).
Proof.
  intros [D1 D2 D3 D4 D5 D6]. unfold startup. assert (Z0 : forall k, P (st0 ch po li) k = 0) by (intros k; destruct k; reflexivity).
  eapply safe_bind; [apply (alloc_pids_pre ps _ (pre0 ch po li) D1 D2)|].
  { intros k p Hp. rewrite Z0. intros <-. contradiction. }
  intros s1 [I1 P1]. assert (P1' : forall k, P s1 k <> 0 -> In (P s1 k) ps) by (intros k Hk; destruct (P1 k Hk) as [X|X]; [rewrite Z0 in X; congruence|exact X]). clear P1.
  eapply (safe_bind _ _ (fun s => pre s /\ forall k, P s k <> 0 -> In (P s k) ps \/ exists b, cmd = Some (P s k, b))).
  - destruct cmd as [[pid sec]|]; [|cbn; auto]. destruct (D3 pid sec eq_refl) as [E1 E2]. eapply safe_mono; [apply startup_child_pre; auto|].
    + intros k E. apply E2. rewrite <- E. apply P1'. rewrite E. exact E1.
    + intros s2 [I2 P2]. split; [exact I2|]. intros k Hk. destruct (P2 k Hk) as [X|X]; [left; rewrite <- X; apply P1'; rewrite X; exact Hk|right; rewrite X; eauto].
  - intros s2 [I2 P2]. unfold startup_attach. apply attach_from_pre; auto.
    + intros k Hk _. apply in_seq. split; [lia|]. destruct (Nat.lt_ge_cases k (length (pids (tb s2)))) as [L|L]; [lia|]. exfalso. apply Hk. unfold P, pidof. apply nth_overflow. exact L.
    + apply seq_NoDup.
    + intros i. split; [apply D4|]. intros X. destruct (D5 i 0 X) as [Y _]. congruence.
    + intros k i t _ Ht E. destruct (D5 i t Ht) as (N1 & N2 & N3). destruct (P2 k) as [X|[b X]]; [rewrite E; exact N1|rewrite E in X; contradiction|rewrite E in X; destruct (N3 b X)].
Qed.

(** ** The end *)
Lemma cleanup_all_safe is as_ : forall s n, inv s -> safe (cleanup_all c s is as_ n) (fun r => inv (snd r)).
Proof.
  induction is as [|i is IH]; intros s n I; cbn [cleanup_all]; [exact I|]. destruct (P s i =? 0); [apply IH; exact I|].
  destruct (interrupt_inv c s i (as_ i) I) as [I1 _]. destruct (detach_or_interrupt_or_stop c s i (as_ i)) as [w s1]. cbn [snd] in *. destruct w; [apply IH; exact I1|].
  eapply safe_bind; [apply (droptcb_safe c NOFF ALL); exact I1|]. intros s2 [I2 _]. apply IH; exact I2.
Qed.
Lemma cleanup_wait_safe ws : forall s n, inv s -> safe (cleanup_wait c s n ws) (fun s' => inv s').
Proof.
  induction ws as [|w ws IH]; intros s n I; destruct n as [|n]; cbn [cleanup_wait]; try exact I. destruct w as [[]|pid status err]; [apply IH; exact I|exact I|].
  destruct (pid =? popen s); [apply IH; destruct (WIFSTOPPED status); [exact I|apply inv_glob; exact I]|].
  destruct (lookup_ok c s (Z.of_N pid) I) as (I1 & _). destruct (pid2tcb (tb s) (Z.of_N pid)) as [t found]. cbn [fst snd] in *. destruct found as [i|]; [|apply IH; exact I1].
  eapply safe_bind; [apply (stopped_safe c NOFF); exact I1|]. intros [d s2] [I2 _]. cbn [snd] in *. destruct d; [|apply IH; exact I2].
  eapply safe_bind; [apply (droptcb_safe c NOFF ALL); exact I2|]. intros s3 [I3 _]. apply IH; exact I3.
Qed.
Lemma cleanup_safe s ek as_ ws : inv s -> safe (cleanup c s ek as_ ws) (fun s' => inv s').
Proof.
  intros I. unfold cleanup. destruct ek; [exact I|]. eapply safe_bind; [apply cleanup_all_safe; exact I|]. intros [n s1] I1. apply cleanup_wait_safe. exact I1.
Qed.
End Ends.
