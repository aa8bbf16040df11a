(** Letting go of tracees. *)
From Verif Require Import Base TimeModel WaitModel TcbModel TcbProofs LogModel LogProofs LoopModel LoopSpec LoopFrame LoopCore LoopQueue LoopReach LoopReq DetachSpec.
Local Open Scope N_scope.

Lemma to_gen_app g l l' : to_gen g (l ++ l') = to_gen g l ++ to_gen g l'.
Proof. unfold to_gen. rewrite filter_app, map_app. reflexivity. Qed.
Definition like (r0 : req) (x : op * N) : req := {| r_gen := r_gen r0; r_op := fst x; r_pid := r_pid r0; r_sig := snd x |}.
Definition r0of (s : st) (i : nat) : req := {| r_gen := gen (lg s) i; r_op := OP_CONT; r_pid := P s i; r_sig := 0 |}.
(** one stop *)
Lemma one_stop c s i status err b s' : detach_interrupted_or_stopped c s i status err = Ok (b, s') -> (WIFSTOPPED status = true -> event_stop c status = false) ->
  mild s s' /\ popen s' = popen s /\ fl s' = fl s /\
  (if WIFSTOPPED status then reqs s' = reqs s ++ [like (r0of s i) (at_stop c status)] /\ b = (last_stop c status || negb ((err =? 0) || (err =? ESRCH))) else reqs s' = reqs s /\ b = true).
Proof.
  intros E EV. pose proof (detach_stopped_mild _ _ _ _ _ _ _ E) as M. unfold detach_interrupted_or_stopped in E. destruct (WIFSTOPPED status); cbn [negb] in E; [specialize (EV eq_refl)|inversion E; subst; auto].
  assert (R : forall o sig ok s1, ptrace_restart o s i sig err = Ok (ok, s1) -> reqs s1 = reqs s ++ [{| r_gen := gen (lg s) i; r_op := o; r_pid := P s i; r_sig := sig |}] /\ fl s1 = fl s /\ popen s1 = popen s /\ ok = ((err =? 0) || (err =? ESRCH))).
  { intros o sig ok s1 E1. pose proof (restart_popen _ _ _ _ _ _ _ E1) as PO. destruct (restart_reqs _ _ _ _ _ _ _ E1) as (A & F & _ & _ & _). split; [rewrite (as_reqs _ _ A); reflexivity|]. split; [exact F|]. split; [exact PO|].
    unfold ptrace_restart in E1. cbv zeta in E1. destruct ((err =? 0) || (err =? ESRCH)); [inversion E1; reflexivity|]. apply rbind_ok in E1 as (s2 & _ & E1). inversion E1; reflexivity. }
  split; [exact M|]. unfold like, r0of, at_stop, last_stop, real, event_stop in *. cbn [r_gen r_pid fst snd]. set (sig := WSTOPSIG status) in *. set (ev := N.shiftr status 16) in *. destruct (c_seize c); cbn [orb negb andb].
  - apply rbind_ok in E as ([ok s1] & E1 & E). inversion E; subst b s'. apply R in E1 as (A & B & C & _). split; [exact C|]. split; [exact B|]. split; [|reflexivity]. rewrite A. do 3 f_equal.
    rewrite orb_false_r. cbn [andb negb] in EV. destruct (N.eqb_spec ev 0) as [Z|Z].
    + rewrite Z. cbn. destruct (sig =? c_trapsig c); reflexivity.
    + cbn [negb andb orb] in *. apply negb_false_iff in EV. rewrite EV. destruct (0 =? c_trapsig c); reflexivity.
  - cbn [andb negb] in EV. rewrite andb_true_r in EV. apply negb_false_iff in EV. rewrite EV. cbn [negb orb]. destruct (N.eqb_spec sig SIGSTOP) as [Z|Z].
    + apply rbind_ok in E as ([ok s1] & E1 & E). inversion E; subst b s'. apply R in E1 as (A & B & C & _). split; [exact C|]. split; [exact B|]. split; [|reflexivity]. rewrite A. do 3 f_equal. rewrite !orb_true_r. reflexivity.
    + apply rbind_ok in E as ([ok s1] & E1 & E). inversion E; subst b s'. apply R in E1 as (A & B & C & D). split; [exact C|]. split; [exact B|]. split; [|rewrite D; reflexivity]. rewrite A. do 3 f_equal. rewrite orb_false_r. reflexivity.
Qed.
Lemma one_stop_any c s i status err b s' : detach_interrupted_or_stopped c s i status err = Ok (b, s') ->
  mild s s' /\ popen s' = popen s /\ fl s' = fl s /\ exists l, reqs s' = reqs s ++ l /\ Forall (fun r => r_gen r = gen (lg s) i) l.
Proof.
  intros E. pose proof (detach_stopped_mild _ _ _ _ _ _ _ E) as M. split; [exact M|]. unfold detach_interrupted_or_stopped in E. destruct (negb _); [inversion E; subst; split; [reflexivity|]; split; [reflexivity|]; exists []; rewrite app_nil_r; auto|].
  assert (R : forall o sig ok s1, ptrace_restart o s i sig err = Ok (ok, s1) -> popen s1 = popen s /\ fl s1 = fl s /\ exists l, reqs s1 = reqs s ++ l /\ Forall (fun r => r_gen r = gen (lg s) i) l).
  { intros o sig ok s1 E1. split; [eapply restart_popen; exact E1|]. destruct (restart_reqs _ _ _ _ _ _ _ E1) as (A & F & _). split; [exact F|]. rewrite (as_reqs _ _ A). eexists. split; [reflexivity|]. repeat constructor. }
  destruct (c_seize c); [|destruct (_ =? SIGSTOP)]; apply rbind_ok in E as ([ok s1] & E1 & E); inversion E; subst; eapply R; exact E1.
Qed.
Lemma to_gen_like g s i l : gen (lg s) i = g -> to_gen g (map (like (r0of s i)) l) = l.
Proof. intros <-. unfold to_gen. induction l as [|[o x] l IH]; [reflexivity|]. cbn in *. rewrite Nat.eqb_refl. cbn. f_equal. exact IH. Qed.
Lemma to_gen_other g g' l : g <> g' -> Forall (fun r => r_gen r = g') l -> to_gen g l = [].
Proof. intros N F. unfold to_gen. induction F as [|r l R F IH]; [reflexivity|]. cbn. destruct (Nat.eqb_spec (r_gen r) g); [congruence|exact IH]. Qed.

(** detach *)
Lemma first_step c s i a w s1 : detach_or_interrupt_or_stop c s i a = (w, s1) ->
  mild s s1 /\ popen s1 = popen s /\ fl s1 = fl s /\ w = waits s i a /\ reqs s1 = reqs s ++ map (like (r0of s i)) (before c s i a).
Proof.
  unfold detach_or_interrupt_or_stop, waits, before. destruct (fl s i ATTACHED); cbn [negb orb andb]; [|intros E; inversion E; subst; rewrite app_nil_r; split; [apply mild_refl|auto]].
  destruct (fl s i IGNORE_ONE_SIGSTOP); cbn [orb]; [intros E; inversion E; subst; rewrite app_nil_r; split; [apply mild_refl|auto]|].
  assert (M : forall s0 o sig, mild s0 (ask s0 i o sig)) by (intros; repeat split).
  destruct (N.eqb_spec (a_detach a) 0) as [Z|Z]; [rewrite Z; intros E; inversion E; subst; split; [apply M|auto]|]. destruct (a_detach a =? ESRCH); cbn [negb andb]; [|intros E; inversion E; subst; split; [apply M|auto]].
  destruct (a_alive a =? 0); cbn [negb andb]; [|intros E; inversion E; subst; split; [apply M|auto]].
  destruct (c_seize c); intros E; inversion E; subst; (split; [eapply mild_trans; apply M|]; split; [reflexivity|]; split; [reflexivity|]; split; [reflexivity|]; cbn; rewrite <- app_assoc; reflexivity).
Qed.
Lemma r0of_mild s s' i : mild s s' -> r0of s' i = r0of s i.
Proof. intros (A & [B _] & _). unfold r0of, P. rewrite A, B. reflexivity. Qed.
Lemma wait_steps c i ws : forall s s', (forall st, In st (stops c ws) -> event_stop c st = false) -> detach_wait c s i ws = Ok s' ->
  mild s s' /\ reqs s' = reqs s ++ map (like (r0of s i)) (map (at_stop c) (stops c ws)).
Proof.
  induction ws as [|w ws IH]; intros s s' EV E; cbn [detach_wait stops] in *; [inversion E; subst; rewrite app_nil_r; split; [apply mild_refl|reflexivity]|].
  destruct w as [[]|st err]; [apply IH; assumption|inversion E; subst; rewrite app_nil_r; split; [apply mild_refl|reflexivity]|].
  apply rbind_ok in E as ([b s1] & E1 & E). destruct (one_stop _ _ _ _ _ _ _ E1) as (M & _ & _ & R).
  { intros W. rewrite W in EV. apply EV. left. reflexivity. }
  destruct (WIFSTOPPED st); destruct R as [R ->]; [|inversion E; subst; rewrite app_nil_r; auto].
  destruct (_ || _); [inversion E; subst; auto|]. destruct (IH _ _ (fun x X => EV x (or_intror X)) E) as [M2 R2]. split; [eapply mild_trans; eassumption|]. rewrite R2, R, (r0of_mild _ _ _ M), <- app_assoc. reflexivity.
Qed.
Lemma detach_all c s i a ws s' : (forall st, In st (stops c ws) -> event_stop c st = false) -> detach c s i a ws = Ok s' ->
  reqs s' = reqs s ++ map (like (r0of s i)) (before c s i a ++ if waits s i a then map (at_stop c) (stops c ws) else []) /\ (forall k, P s' k = if Nat.eqb k i then 0 else P s k).
Proof.
  intros EV E. unfold detach in E. destruct (detach_or_interrupt_or_stop c s i a) as [w s1] eqn:E1. destruct (first_step _ _ _ _ _ _ E1) as (M & _ & _ & -> & R). apply rbind_ok in E as (s2 & E2 & E).
  pose proof (aside_drop _ _ _ _ E) as A. destruct (drop_P _ _ _ _ E) as [PD _]. rewrite (as_reqs _ _ A), map_app. destruct (waits s i a).
  - destruct (wait_steps _ _ _ _ _ EV E2) as [M2 R2]. rewrite R2, R, (r0of_mild _ _ _ M), <- app_assoc. split; [reflexivity|]. intros k. rewrite PD. destruct M as (T1 & _), M2 as (T2 & _). unfold P. rewrite T2, T1. reflexivity.
  - inversion E2; subst s2. rewrite R, app_nil_r. split; [reflexivity|]. intros k. rewrite PD. destruct M as (T1 & _). unfold P. rewrite T1. reflexivity.
Qed.

(** cleanup: counting those that are waited for *)
Definition cnt (s : st) (is : list nat) : nat := length (filter (fun i => negb (P s i =? 0)) is).
Lemma cnt_ext s s' is : (forall k, In k is -> P s' k = P s k) -> cnt s' is = cnt s is.
Proof. unfold cnt. induction is as [|i is IH]; intros H; [reflexivity|]. cbn. rewrite (H i (or_introl eq_refl)). specialize (IH (fun k K => H k (or_intror K))). destruct (negb _); cbn; congruence. Qed.
Lemma cnt_drop s s' i is : NoDup is -> In i is -> P s i <> 0 -> (forall k, P s' k = if Nat.eqb k i then 0 else P s k) -> cnt s is = S (cnt s' is).
Proof.
  intros ND IN Pi D. induction ND as [|j is NI ND IH]; [destruct IN|]. unfold cnt in *. cbn. rewrite D. destruct (Nat.eqb_spec j i) as [->|N].
  - apply N.eqb_neq in Pi. rewrite Pi. cbn. f_equal. f_equal. apply filter_ext_in. intros k K. rewrite D. destruct (Nat.eqb_spec k i); [subst; contradiction|reflexivity].
  - destruct IN as [->|IN]; [congruence|]. specialize (IH IN). destruct (negb _); cbn; congruence.
Qed.
Lemma cnt_zero s is i : cnt s is = 0%nat -> In i is -> P s i = 0.
Proof. unfold cnt. induction is as [|j is IH]; intros Z IN; [destruct IN|]. cbn in Z. destruct (N.eqb_spec (P s j) 0); cbn in Z; [|discriminate]. destruct IN as [<-|IN]; auto. Qed.
Lemma live_in s i : P s i <> 0 -> In i (seq 0 (length (pids (tb s)))).
Proof. intros Pi. apply in_seq. split; [lia|]. apply pidof_lt. exact Pi. Qed.

(** a tracee that is not live is asked nothing *)
Definition live_gen (s : st) (g : nat) : Prop := exists i, P s i <> 0 /\ gen (lg s) i = g.
Lemma cleanup_wait_other c g ws : forall s n s', tinv (tb s) -> ~ live_gen s g -> cleanup_wait c s n ws = Ok s' -> to_gen g (reqs s') = to_gen g (reqs s).
Proof.
  induction ws as [|w ws IH]; intros s n s' T NL E; cbn [cleanup_wait] in E; [destruct n; inversion E; reflexivity|]. destruct n as [|n]; [inversion E; reflexivity|]. destruct w as [[]|pid st err]; [eapply IH; eassumption|inversion E; reflexivity|].
  destruct (pid =? popen s).
  { destruct (WIFSTOPPED st); [eapply IH; eassumption|]. apply IH in E; [exact E|exact T|exact NL]. }
  pose proof (pid2tcb_spec (tb s) (Z.of_N pid)) as SP. pose proof (pid2tcb_inv (tb s) (Z.of_N pid) T) as T1. pose proof (pid2tcb_same (tb s) (Z.of_N pid)) as [PI _]. destruct (pid2tcb (tb s) (Z.of_N pid)) as [t fo]. cbn [fst snd] in *.
  set (s1 := with_tb s t) in *. assert (P1 : forall k, P s1 k = P s k) by (intros k; unfold P, pidof, s1; cbn; rewrite PI; reflexivity).
  assert (NL1 : ~ live_gen s1 g) by (intros (k & A & B); apply NL; exists k; rewrite <- P1; auto). change (reqs s) with (reqs s1). change (lg s) with (lg s1) in NL1. destruct fo as [i|]; [|eapply IH; eassumption].
  apply rbind_ok in E as ([b s2] & E1 & E). destruct (one_stop_any _ _ _ _ _ _ _ E1) as (M & _ & _ & l & R & FL). destruct M as (TB & [GE _] & _).
  assert (L2 : to_gen g (reqs s2) = to_gen g (reqs s1)).
  { rewrite R, to_gen_app, (to_gen_other g (gen (lg s1) i) l), app_nil_r; auto. intros ->. apply NL1. exists i. split; [|reflexivity]. rewrite P1. specialize (SP i T). destruct SP as [SP _]. destruct (SP eq_refl) as [A B]. unfold P. rewrite B. lia. }
  rewrite <- L2. assert (NL2 : ~ live_gen s2 g) by (intros (k & A & B); apply NL1; exists k; unfold P in *; rewrite <- TB, <- GE; auto). assert (T2 : tinv (tb s2)) by (rewrite TB; exact T1).
  destruct b; [|eapply IH; eassumption]. apply rbind_ok in E as (s3 & E3 & E). pose proof (aside_drop _ _ _ _ E3) as A3. destruct (drop_P _ _ _ _ E3) as [D3 _]. rewrite <- (as_reqs _ _ A3).
  eapply IH; [| |exact E].
  - unfold droptcb in E3. destruct (P s2 i =? 0); [inversion E3; subst; exact T2|]. apply rbind_ok in E3 as (s4 & E4 & E3). inversion E3; subst s3. cbn. assert (L : logonly s2 s4) by (eapply pr_only; [|exact E4]; intros x y; apply drop_gk). destruct L as [_ ->]. cbn. apply drop_slot_ok. exact T2.
  - intros (k & A & B). apply NL2. exists k. destruct (as_gk _ _ A3) as [G _]. rewrite <- G. split; [|exact B]. rewrite D3 in A. destruct (Nat.eqb k i); [congruence|exact A].
Qed.
Lemma drop_popen c s i s' : droptcb c s i = Ok s' -> popen s' = popen s.
Proof.
  intros E. unfold droptcb in E. destruct (P s i =? 0); [inversion E; subst; auto|]. apply rbind_ok in E as (s4 & E4 & E). inversion E; subst s'. assert (L : logonly s s4) by (eapply pr_only; [|exact E4]; intros x y; apply drop_gk). destruct L as [_ ->]. reflexivity.
Qed.
Lemma mild_to s s' : core s -> mild s s' -> core s' /\ (forall k, P s' k = P s k) /\ gen (lg s') = gen (lg s).
Proof. intros K M. destruct (mild_core _ _ K M) as (K' & _ & T). split; [exact K'|]. split; [intros k; unfold P; rewrite T; reflexivity|]. destruct M as (_ & [G _] & _). exact G. Qed.
Lemma cleanup_wait_tracee c i is ws : NoDup is -> forall s n s', core s -> (forall k, P s k <> 0 -> In k is) -> cnt s is = n -> P s i <> 0 -> P s i <> popen s -> (forall st, In st (stops c (about (P s i) ws)) -> event_stop c st = false) -> cleanup_wait c s n ws = Ok s' ->
  to_gen (gen (lg s) i) (reqs s') = to_gen (gen (lg s) i) (reqs s) ++ map (at_stop c) (stops c (about (P s i) ws)).
Proof.
  intros ND. induction ws as [|w ws IH]; intros s n s' K IN CN Pi PO EV E; cbn [cleanup_wait about stops] in *; [destruct n; inversion E; rewrite app_nil_r; reflexivity|].
  destruct n as [|n]; [exfalso; apply Pi; eapply cnt_zero; [exact CN|apply IN; exact Pi]|]. destruct w as [[]|pid st err]; [eapply IH; eassumption|inversion E; rewrite app_nil_r; reflexivity|].
  destruct (N.eqb_spec pid (popen s)) as [X|X].
  { destruct (N.eqb_spec pid (P s i)); [congruence|]. destruct (WIFSTOPPED st); [eapply IH; eassumption|]. apply (IH (set_popen s 0) (S n) s'); auto. apply (mild_core _ _ K). apply mild_glob. }
  pose proof (pid2tcb_spec (tb s) (Z.of_N pid)) as SP. pose proof (pid2tcb_inv (tb s) (Z.of_N pid) (o_tab _ K)) as T1. pose proof (pid2tcb_same (tb s) (Z.of_N pid)) as [PI _]. destruct (pid2tcb (tb s) (Z.of_N pid)) as [t fo]. cbn [fst snd] in *.
  set (s1 := with_tb s t) in *. assert (P1 : forall k, P s1 k = P s k) by (intros k; unfold P, pidof, s1; cbn; rewrite PI; reflexivity).
  pose proof (core_cache s t K PI T1) as K1. fold s1 in K1.
  assert (IN1 : forall k, P s1 k <> 0 -> In k is) by (intros k; rewrite P1; apply IN). assert (CN1 : cnt s1 is = S n) by (rewrite (cnt_ext s s1) by (intros; apply P1); exact CN).
  change (lg s) with (lg s1) in *. change (reqs s) with (reqs s1) in *. change (popen s) with (popen s1) in *. rewrite <- (P1 i) in *.
  assert (FD : forall k, fo = Some k <-> pid <> 0 /\ P s1 k = pid) by (intros k; rewrite SP by apply K; rewrite P1; unfold P; rewrite N2Z.id; lia).
  clearbody s1. clear SP T1 PI K IN CN P1 t s. rename s1 into s, K1 into K, IN1 into IN, CN1 into CN. destruct fo as [j|].
  - destruct (proj1 (FD j) eq_refl) as [PZ Pj].
    apply rbind_ok in E as ([b s1] & E1 & E). destruct (N.eqb_spec pid (P s i)) as [Y|Y].
    + assert (j = i) as -> by (symmetry; apply (t_distinct _ (o_tab _ K)); [exact Pi|unfold P in *; congruence]). cbn [stops] in EV |- *.
      destruct (one_stop _ _ _ _ _ _ _ E1) as (M & PO1 & _ & R).
      { intros W. rewrite W in EV. apply EV. left. reflexivity. }
      destruct (mild_to _ _ K M) as (K1 & P1 & G1). assert (TG : forall x, to_gen (gen (lg s) i) [like (r0of s i) x] = [x]) by (intros x; apply (to_gen_like _ s i [x] eq_refl)).
      destruct (WIFSTOPPED st); destruct R as [R B]; subst b.
      * assert (R1 : to_gen (gen (lg s) i) (reqs s1) = to_gen (gen (lg s) i) (reqs s) ++ [at_stop c st]) by (rewrite R, to_gen_app, TG; reflexivity). destruct (_ || _).
        -- apply rbind_ok in E as (s2 & E2 & E). pose proof (aside_drop _ _ _ _ E2) as A. destruct (droptcb_any _ _ _ _ K1 E2) as (K2 & P2 & _).
           rewrite (cleanup_wait_other c (gen (lg s) i) ws s2 n s' (o_tab _ K2)); [rewrite (as_reqs _ _ A); exact R1| |exact E].
           intros (k & Pk & Gk). destruct (as_gk _ _ A) as [G2 _]. rewrite G2, G1 in Gk. rewrite P2, P1 in Pk. destruct (Nat.eqb_spec k i); [congruence|]. apply n0, (o_gens _ K); auto.
        -- rewrite <- G1, <- (P1 i) in *. rewrite (IH s1 (S n) s' K1); [rewrite R1, <- app_assoc; reflexivity| | | | | |exact E].
           ++ intros k. rewrite P1. apply IN. ++ rewrite (cnt_ext s s1) by (intros; apply P1). exact CN. ++ exact Pi. ++ rewrite PO1. exact PO. ++ intros x Hx. apply EV. right. exact Hx.
      * apply rbind_ok in E as (s2 & E2 & E). pose proof (aside_drop _ _ _ _ E2) as A. destruct (droptcb_any _ _ _ _ K1 E2) as (K2 & P2 & _). cbn [map]. rewrite app_nil_r.
        rewrite (cleanup_wait_other c (gen (lg s) i) ws s2 n s' (o_tab _ K2)); [rewrite (as_reqs _ _ A), R; reflexivity| |exact E].
        intros (k & Pk & Gk). destruct (as_gk _ _ A) as [G2 _]. rewrite G2, G1 in Gk. rewrite P2, P1 in Pk. destruct (Nat.eqb_spec k i); [congruence|]. apply n0, (o_gens _ K); auto.
    + assert (JI : j <> i) by congruence. destruct (one_stop_any _ _ _ _ _ _ _ E1) as (M & PO1 & _ & l & R & FL). destruct (mild_to _ _ K M) as (K1 & P1 & G1).
      assert (R1 : to_gen (gen (lg s) i) (reqs s1) = to_gen (gen (lg s) i) (reqs s)).
      { rewrite R, to_gen_app, (to_gen_other _ _ _ (fun H => JI (eq_sym (o_gens _ K i j Pi ltac:(congruence) H))) FL). apply app_nil_r. }
      assert (CN1 : cnt s1 is = S n) by (rewrite (cnt_ext s s1) by (intros; apply P1); exact CN). destruct b.
      * apply rbind_ok in E as (s2 & E2 & E). pose proof (aside_drop _ _ _ _ E2) as A. destruct (droptcb_any _ _ _ _ K1 E2) as (K2 & P2 & _). destruct (as_gk _ _ A) as [G2 _]. assert (P3 : forall k, P s2 k = if Nat.eqb k j then 0 else P s k) by (intros k; rewrite P2, P1; reflexivity).
        assert (Pi2 : P s2 i = P s i) by (rewrite P3; destruct (Nat.eqb_spec i j); congruence). rewrite <- Pi2 in *. rewrite <- R1, <- (as_reqs _ _ A), <- G1, <- G2 in *.
        apply (IH s2 n s' K2); [| |exact Pi| |exact EV|exact E].
        -- intros k Pk. apply IN. rewrite P3 in Pk. destruct (Nat.eqb k j); congruence.
        -- apply eq_add_S. rewrite <- CN. symmetry. apply cnt_drop with j; auto; [apply IN|]; rewrite Pj; exact PZ.
        -- rewrite (drop_popen _ _ _ _ E2), PO1. exact PO.
      * rewrite <- (P1 i), <- G1, <- R1 in *. apply (IH s1 (S n) s' K1); [intros k; rewrite P1; apply IN|exact CN1|exact Pi|rewrite PO1; exact PO|exact EV|exact E].
  - destruct (N.eqb_spec pid (P s i)) as [Y|Y]; [exfalso; assert (None = Some i) by (apply FD; split; congruence); discriminate|]. eapply IH; eassumption.
Qed.
(** the first pass *)
Lemma first_ext c s s' k a : (forall f, fl s' k f = fl s k f) -> before c s' k a = before c s k a /\ waits s' k a = waits s k a.
Proof. intros F. unfold before, waits. rewrite !F. auto. Qed.
Lemma cleanup_all_tracee c as_ is : forall s n m s', core s -> NoDup is -> cleanup_all c s is as_ n = Ok (m, s') ->
  core s' /\ gen (lg s') = gen (lg s) /\ popen s' = popen s /\ m = (n + cnt s' is)%nat /\
  (forall k, ~ In k is -> P s' k = P s k) /\ (forall g, (forall k, In k is -> P s k <> 0 -> gen (lg s) k <> g) -> to_gen g (reqs s') = to_gen g (reqs s)) /\
  (forall k, In k is -> P s k = 0 -> P s' k = 0) /\
  (forall k, In k is -> P s k <> 0 -> to_gen (gen (lg s) k) (reqs s') = to_gen (gen (lg s) k) (reqs s) ++ before c s k (as_ k) /\ P s' k = if waits s k (as_ k) then P s k else 0).
Proof.
  induction is as [|i is IH]; intros s n m s' K ND E; cbn [cleanup_all] in E.
  { inversion E; subst. split; [exact K|]. do 2 (split; [reflexivity|]). split; [cbn; lia|]. split; [reflexivity|]. split; [reflexivity|]. split; intros k []. }
  inversion ND as [|? ? NI ND']; subst. destruct (N.eqb_spec (P s i) 0) as [Z|Z].
  { destruct (IH _ _ _ _ K ND' E) as (K1 & G1 & PO & M1 & PN & RN & PZ & PL). split; [exact K1|]. split; [exact G1|]. split; [exact PO|].
    assert (Pi : P s' i = 0) by (rewrite PN by exact NI; exact Z). split; [unfold cnt in *; cbn; rewrite Pi; exact M1|]. split; [intros k N; apply PN; intros X; apply N; right; exact X|]. split; [intros g N; apply RN; intros k X; apply N; right; exact X|].
    split; [intros k [<-|X]; auto|]. intros k [<-|X] Pk; [contradiction|]. auto. }
  destruct (detach_or_interrupt_or_stop c s i (as_ i)) as [w s1] eqn:E1. destruct (first_step _ _ _ _ _ _ E1) as (M & PO1 & F1 & W & R). destruct (mild_to _ _ K M) as (K1 & P1 & G1).
  assert (RI : to_gen (gen (lg s) i) (reqs s1) = to_gen (gen (lg s) i) (reqs s) ++ before c s i (as_ i)) by (rewrite R, to_gen_app, (to_gen_like _ s i _ eq_refl); reflexivity).
  assert (RO : forall g, gen (lg s) i <> g -> to_gen g (reqs s1) = to_gen g (reqs s)).
  { intros g N. rewrite R, to_gen_app, (to_gen_other g (gen (lg s) i) (map _ _)), app_nil_r; [reflexivity|congruence|]. apply Forall_forall. intros r IN. apply in_map_iff in IN as (x & <- & _). reflexivity. }
  assert (X : exists s2 n2, cleanup_all c s2 is as_ n2 = Ok (m, s') /\ core s2 /\ gen (lg s2) = gen (lg s) /\ popen s2 = popen s /\ reqs s2 = reqs s1 /\ (forall k, k <> i -> P s2 k = P s k /\ forall f, fl s2 k f = fl s k f) /\ n2 = (n + if w then 1 else 0)%nat /\ P s2 i = if w then P s i else 0).
  { destruct w; [exists s1, (S n); split; [exact E|]; split; [exact K1|]; split; [exact G1|]; split; [exact PO1|]; split; [reflexivity|]; split; [intros k _; rewrite P1, F1; auto|]; split; [lia|apply P1]|].
    apply rbind_ok in E as (s2 & E2 & E). exists s2, n. destruct (droptcb_any _ _ _ _ K1 E2) as (K2 & P2 & _). pose proof (aside_drop _ _ _ _ E2) as A. destruct (as_gk _ _ A) as [G2 _]. destruct (drop_P _ _ _ _ E2) as [_ F2]. split; [exact E|]. split; [exact K2|]. split; [congruence|]. split; [rewrite (drop_popen _ _ _ _ E2); exact PO1|].
    split; [apply A|]. split; [|split; [lia|rewrite P2, Nat.eqb_refl; reflexivity]]. intros k N. split; [rewrite P2, P1; apply Nat.eqb_neq in N; rewrite N; reflexivity|]. intros f. rewrite F2 by exact N. rewrite F1. reflexivity. }
  destruct X as (s2 & n2 & E2 & K2 & G2 & PO2 & R2 & O2 & N2 & I2). destruct (IH _ _ _ _ K2 ND' E2) as (K3 & G3 & PO3 & M3 & PN & RN & PZ & PL). rewrite G2, R2 in *.
  split; [exact K3|]. split; [exact G3|]. split; [congruence|]. assert (Pi : P s' i = if w then P s i else 0) by (rewrite PN by exact NI; exact I2).
  split. { rewrite M3, N2. unfold cnt. cbn. rewrite Pi. destruct w; cbn; [apply N.eqb_neq in Z; rewrite Z; cbn; lia|lia]. }
  split; [intros k N; rewrite PN by (intros X; apply N; right; exact X); apply O2; intros ->; apply N; left; reflexivity|].
  split. { intros g N. rewrite RN; [apply RO; apply N; [left; reflexivity|exact Z]|]. intros k X Pk. apply N; [right; exact X|]. intros P0. apply Pk. rewrite (proj1 (O2 k ltac:(congruence))). exact P0. }
  split. { intros k [<-|X] Pk; [contradiction|]. assert (KI : k <> i) by congruence. apply PZ; [exact X|]. rewrite (proj1 (O2 k KI)). exact Pk. }
  intros k [<-|X] Pk.
  - split; [|rewrite Pi, W; reflexivity]. rewrite <- RI. apply RN. intros k X Pk2 G. assert (KI : k <> i) by congruence. apply KI, (o_gens _ K); [rewrite <- (proj1 (O2 k KI)); exact Pk2|exact Z|exact G].
  - assert (KI : k <> i) by congruence. destruct (O2 k KI) as [Pk2 Fk2]. rewrite <- Pk2 in Pk. destruct (PL k X Pk) as [A B]. rewrite A, B, Pk2. rewrite RO by (intros G; apply KI; symmetry; apply (o_gens _ K); [exact Z|congruence|exact G]). destruct (first_ext c s s2 k (as_ k) Fk2) as [-> ->]. auto.
Qed.
Lemma cleanup_tracee c s as_ ws s' i : core s -> P s i <> 0 -> P s i <> popen s -> (forall st, In st (stops c (about (P s i) ws)) -> event_stop c st = false) -> cleanup c s false as_ ws = Ok s' ->
  to_gen (gen (lg s) i) (reqs s') = to_gen (gen (lg s) i) (reqs s) ++ before c s i (as_ i) ++ if waits s i (as_ i) then map (at_stop c) (stops c (about (P s i) ws)) else [].
Proof.
  intros K Pi PO EV E. unfold cleanup in E. apply rbind_ok in E as ([n s1] & E1 & E). destruct (cleanup_all_tracee _ _ _ _ _ _ _ K (seq_NoDup _ _) E1) as (K1 & G1 & PO1 & M & PN & _ & PZ & PL).
  destruct (PL i (live_in _ _ Pi) Pi) as [R1 Pi1]. rewrite app_assoc, <- R1. destruct (waits s i (as_ i)).
  - rewrite <- Pi1, <- G1 in *. apply cleanup_wait_tracee with (is := seq 0 (length (pids (tb s)))) (n := n); auto using seq_NoDup; [|congruence]. intros k Pk. destruct (in_dec Nat.eq_dec k (seq 0 (length (pids (tb s))))) as [H|H]; [exact H|]. exfalso. apply H, live_in. rewrite <- PN by exact H. exact Pk.
  - rewrite app_nil_r. apply cleanup_wait_other with (c := c) (ws := ws) (n := n); [apply K1| |exact E]. intros (k & Pk & Gk). rewrite G1 in Gk.
    assert (Pk0 : P s k <> 0). { intros Z. destruct (in_dec Nat.eq_dec k (seq 0 (length (pids (tb s))))) as [H|H]; [rewrite (PZ k H Z) in Pk|rewrite (PN k H) in Pk]; contradiction. }
    assert (k = i) as -> by (apply (o_gens _ K); auto). congruence.
Qed.
