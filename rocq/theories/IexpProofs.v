From Verif Require BitsProofs.
From Verif Require Import Base TimeModel NumSetModel NumSetProofs StrtouModel StrtouSpec StrtouProofs QualModel QualSpec QualProofs InjectModel InjectSpec InjectProofs FtsModel FtsSpec FtsText IexpModel IexpSpec.
Local Open Scope N_scope.

Lemma strip_iff p s v : strip p s = Some v <-> s = p ++ v.
Proof.
  unfold strip. destruct (beqs p (firstn (length p) s)) eqn:E.
  - apply beqs_eq in E. split; [intros H; injection H as <-; rewrite E at 1; symmetry; apply firstn_skipn|].
    intros ->. rewrite skipn_app, skipn_all, Nat.sub_diag. reflexivity.
  - split; [discriminate|]. intros ->. rewrite firstn_app, firstn_all, Nat.sub_diag, app_nil_r in E. assert (beqs p p = true) by (apply beqs_eq; reflexivity). congruence.
Qed.
Lemma strip_app p v : strip p (p ++ v) = Some v. Proof. apply strip_iff. reflexivity. Qed.
Lemma colon_spec s : strtok_all 58 s = colon_tokens s.
Proof. unfold strtok_all, colon_tokens. rewrite strtok_loop_spec. destruct (split 58 s); reflexivity. Qed.
Lemma caseeq_iff a b : strcaseeq a b = true <-> upper_eq a b.
Proof. unfold strcaseeq, upper_eq. apply beqs_eq. Qed.

(** ---- syscall= ---- *)
Lemma scno_iff v t i : scno_by_name v t 0 = Some i <-> entry t (named (beqs v)) i = true /\ forall j, j < i -> entry t (named (beqs v)) j = false.
Proof.
  unfold scno_by_name. cbn [skipn N.to_nat]. pose proof (scno_by_name_loop_spec v t 0) as S0. destruct (scno_by_name_loop v t 0) as [k|].
  - destruct S0 as (j & -> & L & (e & E1 & E2) & F). assert (A : entry t (named (beqs v)) (0 + N.of_nat j) = true) by (unfold entry; rewrite N.add_0_l, Nnat.Nat2N.id, E1; exact E2).
    assert (B : forall j', j' < 0 + N.of_nat j -> entry t (named (beqs v)) j' = false).
    { intros j' L'. unfold entry. destruct (nth_error t (N.to_nat j')) as [e'|] eqn:E'; [|reflexivity]. apply (F (N.to_nat j')); [lia|exact E']. }
    split; [intros H; injection H as <-; auto|]. intros [H1 H2]. f_equal. destruct (N.lt_trichotomy i (0 + N.of_nat j)) as [H|[H|H]]; [rewrite (B i H) in H1; discriminate|auto|rewrite (H2 _ H) in A; discriminate].
  - split; [discriminate|]. intros [H _]. exfalso. unfold entry in H. destruct (nth_error t (N.to_nat i)) as [e|] eqn:E; [|discriminate]. rewrite (S0 e) in H; [discriminate|]. eapply nth_error_In; eauto.
Qed.
Lemma entry_lt t P i : entry t P i = true -> i < N.of_nat (length t).
Proof. unfold entry. destruct (nth_error t (N.to_nat i)) eqn:E; [|discriminate]. intros _. assert (N.to_nat i < length t)%nat by (apply nth_error_Some; congruence). lia. Qed.
Lemma pure_bit f : negb (N.land f TRACE_PURE =? 0) = N.testbit f 19.
Proof. change TRACE_PURE with (2 ^ 19). rewrite BitsProofs.land_pow2, negb_involutive. reflexivity. Qed.
Lemma pure_numbers_iff v ts : Forall (fun t => N.of_nat (length t) <= 65536) ts -> forall k, pure_numbers v ts = Some k <-> Forall2 (pure_call v) ts k.
Proof.
  induction 1 as [|t ts L F IH]; intros k; cbn [pure_numbers].
  - split; [intros H; injection H as <-; constructor|]. inversion 1. reflexivity.
  - destruct (scno_by_name v t 0) as [i|] eqn:E; cbn [obind].
    + pose proof (proj1 (scno_iff v t i) E) as [E1 E2]. pose proof (entry_lt _ _ _ E1) as LT. assert (U : u16 i = i) by (unfold u16; apply N.mod_small; lia). rewrite U.
      destruct (nth_error t (N.to_nat i)) as [e|] eqn:N0; cbn [obind]; [|unfold entry in E1; rewrite N0 in E1; discriminate].
      assert (UN : forall i', pure_call v t i' -> i' = i). { intros i' (A & B & _). assert (scno_by_name v t 0 = Some i') by (apply scno_iff; auto). congruence. }
      pose proof (pure_bit (sys_flags e)) as PB. destruct (N.land (sys_flags e) TRACE_PURE =? 0) eqn:P; cbn [negb] in PB; symmetry in PB.
      * split; [discriminate|]. inversion 1 as [|? i' ? ? C]; subst. pose proof (UN _ C) as ->. destruct C as (_ & _ & C). unfold entry in C. rewrite N0, PB in C. discriminate.
      * destruct (pure_numbers v ts) as [k'|] eqn:R; cbn [obind].
        -- split.
           ++ intros H. injection H as <-. constructor; [|apply IH; reflexivity]. split; [exact E1|]. split; [exact E2|]. unfold entry. rewrite N0, PB. reflexivity.
           ++ inversion 1 as [|? i' ? k2 C C2]; subst. rewrite (UN _ C). apply IH in C2. congruence.
        -- split; [discriminate|]. inversion 1 as [|? i' ? k2 C C2]; subst. apply IH in C2. discriminate.
    + split; [discriminate|]. inversion 1 as [|? i' ? k2 (A & B & _) C2]; subst. assert (scno_by_name v t 0 = Some i') by (apply scno_iff; auto). congruence.
Qed.

(** ---- error= ---- *)
Lemma errno_loop_iff v l : forall i n, errno_loop v l i = Some n <->
  exists j, n = i + N.of_nat j /\ (exists e, nth_error l j = Some (Some e) /\ upper_eq v e) /\ forall j', (j' < j)%nat -> ~ exists e, nth_error l j' = Some (Some e) /\ upper_eq v e.
Proof.
  induction l as [|x l IH]; intros i n; cbn [errno_loop].
  - split; [discriminate|]. intros (j & _ & (e & E & _) & _). destruct j; discriminate.
  - assert (STEP : ~ (exists e, x = Some e /\ upper_eq v e) -> (errno_loop v l (i + 1) = Some n <-> exists j, n = i + N.of_nat j /\ (exists e, nth_error (x :: l) j = Some (Some e) /\ upper_eq v e) /\ forall j', (j' < j)%nat -> ~ exists e, nth_error (x :: l) j' = Some (Some e) /\ upper_eq v e)).
    { intros N0. rewrite IH. split.
      - intros (j & -> & A & B). exists (S j). split; [lia|]. split; [exact A|]. intros [|j'] L (e & E1 & E2); [apply N0; injection E1 as ->; eauto|]. apply (B j'); [lia|eauto].
      - intros ([|j] & -> & (e & E1 & E2) & B); [exfalso; apply N0; injection E1 as ->; eauto|]. exists j. split; [lia|]. split; [eauto|]. intros j' L X. apply (B (S j')); [lia|exact X]. }
    destruct x as [e|]; [|apply STEP; intros (? & ? & _); discriminate].
    destruct (strcaseeq v e) eqn:C; [apply caseeq_iff in C|].
    + split.
      * intros H. injection H as <-. exists 0%nat. split; [lia|]. split; [exists e; auto|]. intros j' L. lia.
      * intros ([|j] & -> & A & B); [f_equal; lia|]. exfalso. apply (B 0%nat); [lia|]. exists e. auto.
    + apply STEP. intros (e' & X & Y). injection X as <-. apply caseeq_iff in Y. congruence.
Qed.
Lemma find_errno_iff E v n : find_errno_by_name E v = Some n <-> least (fun m => exists e, nth_error (errnames E) (N.to_nat m) = Some (Some e) /\ upper_eq v e) n.
Proof.
  unfold find_errno_by_name. rewrite errno_loop_iff. unfold least. split.
  - intros (j & -> & (e & A1 & A2) & B). split; [lia|]. split.
    + exists e. rewrite nth_error_skipn in A1. replace (N.to_nat (1 + N.of_nat j)) with (1 + j)%nat by lia. auto.
    + intros m L (e' & E1 & E2). apply (B (N.to_nat m - 1)%nat); [lia|]. exists e'. rewrite nth_error_skipn. replace (1 + (N.to_nat m - 1))%nat with (N.to_nat m) by lia. auto.
  - intros (L & (e & A1 & A2) & B). exists (N.to_nat n - 1)%nat. split; [lia|]. split.
    + exists e. rewrite nth_error_skipn. replace (1 + (N.to_nat n - 1))%nat with (N.to_nat n) by lia. auto.
    + intros j' L' (e' & E1 & E2). apply (B (1 + N.of_nat j')); [lia|]. exists e'. rewrite nth_error_skipn in E1. replace (N.to_nat (1 + N.of_nat j')) with (1 + j')%nat by lia. auto.
Qed.
Lemma error_iff E v n : ((match string_to_uint_upto v MAX_ERRNO_VALUE with Some m => Some m | None => find_errno_by_name E v end) = Some n /\ 1 <= n) <-> error_denotes E v n.
Proof.
  unfold error_denotes. pose proof (string_to_uint_upto_iff v MAX_ERRNO_VALUE) as SU. change MAX_ERRNO_VALUE with 4095 in *. destruct (string_to_uint_upto v 4095) as [m|].
  - destruct (proj1 (SU m ltac:(lia)) eq_refl) as [A B]. split.
    + intros [H L]. injection H as <-. left. auto.
    + intros [[H L]|[H _]]; [|specialize (H _ A); lia]. destruct (numeral_functional _ _ _ _ _ A H) as [-> _]. split; [reflexivity|apply L].
  - assert (NO : forall m, numeral v m [] -> 4095 < m). { intros m H. destruct (N.le_gt_cases m 4095) as [L|L]; [|exact L]. pose proof (proj2 (SU m ltac:(lia)) (conj H L)). discriminate. }
    rewrite find_errno_iff. split; [intros [H L]; right; auto|]. intros [[H L]|[_ H]]; [specialize (NO _ H); lia|]. split; [exact H|apply H].
Qed.

(** ---- signal= ---- *)
Lemma sig_loop_iff sn s fuel : forall i n, 1 <= i -> sig_loop sn s i fuel = Some n <->
  i <= n < i + N.of_nat fuel /\ (exists e, sn n = Some e /\ upper_eq e (bs "SIG" ++ s)) /\ forall m, i <= m < n -> ~ exists e, sn m = Some e /\ upper_eq e (bs "SIG" ++ s).
Proof.
  assert (NM : forall name, strcaseeq (firstn 3 name) (bs "SIG") && strcaseeq (skipn 3 name) s = true <-> upper_eq name (bs "SIG" ++ s)).
  { intros name. rewrite andb_true_iff, !caseeq_iff. unfold upper_eq. rewrite map_app. split.
    - intros [A B]. rewrite <- (firstn_skipn 3 name) at 1. rewrite map_app, A, B. reflexivity.
    - intros H. assert (A : firstn 3 (map tolower name) = firstn 3 (map tolower (bs "SIG") ++ map tolower s)) by congruence. assert (B : skipn 3 (map tolower name) = skipn 3 (map tolower (bs "SIG") ++ map tolower s)) by congruence.
      rewrite firstn_map in A. rewrite skipn_map in B. split; [exact A|exact B]. }
  induction fuel as [|f IH]; intros i n I1; cbn [sig_loop].
  - split; [discriminate|]. lia.
  - assert (STEP : ~ (exists e, sn i = Some e /\ upper_eq e (bs "SIG" ++ s)) -> (sig_loop sn s (i + 1) f = Some n <-> i <= n < i + N.of_nat (S f) /\ (exists e, sn n = Some e /\ upper_eq e (bs "SIG" ++ s)) /\ forall m, i <= m < n -> ~ exists e, sn m = Some e /\ upper_eq e (bs "SIG" ++ s))).
    { intros N0. rewrite IH by lia. split.
      - intros (L & A & B). split; [lia|]. split; [exact A|]. intros m Lm. destruct (N.eq_dec m i) as [->|]; [exact N0|]. apply B. lia.
      - intros (L & A & B). split; [|split; [exact A|intros m Lm; apply B; lia]]. destruct (N.eq_dec n i) as [->|]; [contradiction|lia]. }
    destruct (sn i) as [e|] eqn:S1; [|apply STEP; intros (? & ? & _); discriminate].
    destruct (strcaseeq (firstn 3 e) (bs "SIG") && strcaseeq (skipn 3 e) s) eqn:C.
    + apply NM in C. split.
      * intros H. injection H as <-. split; [lia|]. split; [eauto|]. intros m L. lia.
      * intros (L & A & B). f_equal. destruct (N.eq_dec n i) as [->|]; [reflexivity|]. exfalso. apply (B i); [lia|eauto].
    + apply STEP. intros (e' & X & Y). injection X as <-. apply NM in Y. congruence.
Qed.
Lemma sig_pref v : (strcaseeq (firstn 3 v) (bs "SIG") = true <-> exists r, upper_eq v (bs "SIG" ++ r)) /\ (strcaseeq (firstn 3 v) (bs "SIG") = true -> upper_eq v (bs "SIG" ++ skipn 3 v)).
Proof.
  assert (A : strcaseeq (firstn 3 v) (bs "SIG") = true -> upper_eq v (bs "SIG" ++ skipn 3 v)).
  { rewrite caseeq_iff. unfold upper_eq. intros H. rewrite map_app, <- H, <- map_app, firstn_skipn. reflexivity. }
  split; [|exact A]. split; [eauto|]. intros (r & H). apply caseeq_iff. unfold upper_eq in *. rewrite <- firstn_map, H, map_app. reflexivity.
Qed.
Lemma signal_iff E v n : (sigstr_to_uint (signames E) v = Some n /\ 1 <= n <= 64) <-> signal_denotes E v n.
Proof.
  unfold signal_denotes.
  assert (NAMES : (sig_loop (signames E) (if strcaseeq (firstn 3 v) (bs "SIG") then skipn 3 v else v) 1 255 = Some n /\ 1 <= n <= 64) <-> 1 <= n <= 64 /\ exists base, (upper_eq v (bs "SIG" ++ base) \/ (v = base /\ forall r, ~ upper_eq v (bs "SIG" ++ r))) /\
      least (fun m => exists e, signames E m = Some e /\ upper_eq e (bs "SIG" ++ base)) n).
  { rewrite sig_loop_iff by lia. destruct (sig_pref v) as [P1 P2]. unfold least. split.
    - intros ((_ & A & B) & L). split; [exact L|]. destruct (strcaseeq (firstn 3 v) (bs "SIG")).
      + exists (skipn 3 v). split; [left; apply P2; reflexivity|]. split; [lia|]. split; [exact A|exact B].
      + exists v. split; [right; split; [reflexivity|]; intros r H; assert (false = true) by (apply P1; eauto); discriminate|]. split; [lia|]. split; [exact A|exact B].
    - intros (L & base & P & _ & A & B).
      assert (U : forall e, upper_eq e (bs "SIG" ++ (if strcaseeq (firstn 3 v) (bs "SIG") then skipn 3 v else v)) <-> upper_eq e (bs "SIG" ++ base)).
      { intros e. destruct P as [P|[-> P]].
        - assert (Q : strcaseeq (firstn 3 v) (bs "SIG") = true) by (apply P1; eauto). rewrite Q. pose proof (P2 Q) as R. unfold upper_eq in *. rewrite <- R, <- P. reflexivity.
        - destruct (strcaseeq (firstn 3 base) (bs "SIG")); [|reflexivity]. exfalso. destruct (proj1 P1 eq_refl) as (r & X). eapply P; eauto. }
      split; [|exact L]. split; [lia|]. split; [destruct A as (e & A1 & A2); exists e; split; [exact A1|apply U, A2]|]. intros m Lm (e & E1 & E2). apply (B m Lm). exists e. split; [exact E1|apply U, E2]. }
  unfold sigstr_to_uint. destruct v as [|c r].
  - change (sig_loop (signames E) [] 1 255) with (sig_loop (signames E) (if strcaseeq (firstn 3 []) (bs "SIG") then skipn 3 [] else []) 1 255). rewrite NAMES. split.
    + intros [L H]. split; [exact L|]. right. split; [discriminate|exact H].
    + intros [L [(c & r & X & _)|[_ H]]]; [discriminate|auto].
  - destruct (is_digit c) eqn:D.
    + apply is_digit_digit in D. rewrite string_to_uint_upto_iff by (vm_compute; reflexivity). split.
      * intros [[H _] L]. split; [exact L|]. left. eauto.
      * intros [L [(c' & r' & X & _ & H)|[H _]]]; [split; [split; [exact H|lia]|exact L]|]. exfalso. exact (H _ _ eq_refl D).
    + rewrite NAMES. assert (D' : ~ digit c) by (rewrite <- is_digit_digit; congruence). split.
      * intros [L H]. split; [exact L|]. right. split; [intros c' r' X; injection X as <- <-; exact D'|exact H].
      * intros [L [(c' & r' & X & Y & _)|[_ H]]]; [injection X as <- <-; contradiction|auto].
Qed.
