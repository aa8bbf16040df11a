From Verif Require Import Base TimeModel TimeSpec TimeProofs CountModel CountSpec.
From Coq Require Import String Sorted Permutation.
Import ListNotations.
Local Open Scope N_scope.

Lemma u64_succ n : u64 (u64 n + 1) = u64 (n + 1).
Proof. unfold u64. rewrite N.add_mod_idemp_l; [reflexivity|discriminate]. Qed.

Lemma u64_add a b : u64 (u64 a + u64 b) = u64 (a + b).
Proof. unfold u64. symmetry. apply N.add_mod. discriminate. Qed.

Definition agrees (g : cfg) (h : list ev) (c : cc) : Prop :=
  c_calls c = u64 (N.of_nat (List.length h)) /\
  c_errors c = u64 (N.of_nat (List.length (failed h))) /\
  (normal (c_time c) /\ ns (c_time c) = sum (map (charged g) h)) /\
  (normal (c_min c) /\ ns (c_min c) = fold_left Z.min (map (charged g) h) (ns max_ts)) /\
  (normal (c_max c) /\ ns (c_max c) = fold_left Z.max (map (charged g) h) 0%Z).

Lemma sum_app a b : sum (a ++ b) = (sum a + sum b)%Z.
Proof. unfold sum. induction a; cbn; lia. Qed.

Lemma normal_zero : normal zero_ts.
Proof. unfold normal, zero_ts; cbn; lia. Qed.
Lemma normal_max : normal max_ts.
Proof. unfold normal, max_ts; cbn; lia. Qed.

Lemma agrees0 g : agrees g [] cc0.
Proof.
  unfold agrees, cc0; cbn [c_calls c_errors c_time c_min c_max].
  split; [reflexivity|]. split; [reflexivity|].
  split; [split; [apply normal_zero|reflexivity]|].
  split; [split; [apply normal_max|reflexivity]|].
  split; [apply normal_zero|reflexivity].
Qed.

Lemma min_normal a b : normal a -> normal b -> normal (ts_min a b).
Proof. intros A B. destruct (ts_min_ns a b A B) as (_ & [-> | ->]); auto. Qed.
Lemma max_normal a b : normal a -> normal b -> normal (ts_max a b).
Proof. intros A B. destruct (ts_max_ns a b A B) as (_ & [-> | ->]); auto. Qed.

Lemma agrees_step g h e c : normal (overhead g) -> sane g e ->
  agrees g h c -> agrees g (h ++ [e]) (count_one g e c).
Proof.
  intros HO (N1 & N2 & N3 & N4 & _) (A1 & A2 & (A3 & A3') & (A4 & A4') & (A5 & A5')).
  unfold count_one. set (w0 := if wall g then _ else _).
  assert (W0 : normal w0 /\ ns w0 = (if wall g then ns (v_exit e) - ns (v_etime e)
            else ns (v_stime e) - ns (v_ltime e))%Z).
  { unfold w0. destruct (wall g).
    - destruct (ts_sub_ns (v_exit e) (v_etime e) N1 N2); auto.
    - destruct (ts_sub_ns (v_stime e) (v_ltime e) N3 N4); auto. }
  destruct W0 as (W0 & W0'). clearbody w0.
  destruct (ts_sub_ns w0 (overhead g) W0 HO) as (W1' & W1).
  set (w1 := ts_sub w0 (overhead g)) in *. clearbody w1.
  destruct (ts_max_ns w1 zero_ts W1 normal_zero) as (W2' & _).
  pose proof (max_normal w1 zero_ts W1 normal_zero) as W2.
  set (w2 := ts_max w1 zero_ts) in *. clearbody w2.
  assert (WC : ns w2 = charged g e).
  { unfold charged. rewrite W2', W1', W0'. change (ns zero_ts) with 0%Z. apply Z.max_comm. }
  unfold agrees; cbn [c_calls c_errors c_time c_min c_max].
  rewrite app_length. cbn [List.length].
  assert (HF : failed (h ++ [e]) = failed h ++ (if v_err e then [e] else [])).
  { unfold failed. rewrite filter_app. cbn. destruct (v_err e); reflexivity. }
  split; [rewrite A1, u64_succ; f_equal; lia|].
  split.
  { rewrite HF, app_length. destruct (v_err e); cbn [List.length].
    - rewrite A2, u64_succ. f_equal. lia.
    - rewrite A2. f_equal. lia. }
  rewrite map_app. cbn [map].
  split; [|split].
  - destruct (ts_add_ns (c_time c) w2 A3 W2) as (B1 & B2). split; [exact B2|].
    rewrite B1, sum_app, A3', WC. cbn. lia.
  - destruct (ts_min_ns (c_min c) w2 A4 W2) as (B1 & _). split; [apply min_normal; auto|].
    rewrite B1, fold_left_app, A4', WC. reflexivity.
  - destruct (ts_max_ns (c_max c) w2 A5 W2) as (B1 & _). split; [apply max_normal; auto|].
    rewrite B1, fold_left_app, A5', WC. reflexivity.
Qed.

(** The invariant of the whole run. *)
Definition inv (g : cfg) (h : list ev) (cv : nat -> option (list cc)) : Prop :=
  forall p,
    match cv p with
    | None => of_pers g p h = []
    | Some l => of_pers g p h <> [] /\ List.length l = nsys g p /\
        forall k c, nth_error l k = Some c -> agrees g (of_call p k h) c
    end.

Lemma inv0 g : inv g [] no_counts.
Proof. intros p. reflexivity. Qed.

Lemma inv_step g h e cv : normal (overhead g) -> sane g e -> inv g h cv ->
  exists cv', count_syscall g cv e = Some cv' /\ inv g (h ++ [e]) cv'.
Proof.
  intros HO HS HI. unfold count_syscall.
  destruct (N.leb_spec (N.of_nat (nsys g (v_pers e))) (v_scno e)) as [Hle|Hlt].
  - exists cv. split; [reflexivity|]. intros p. specialize (HI p).
    assert (E1 : of_pers g p (h ++ [e]) = of_pers g p h).
    { unfold of_pers. rewrite filter_app. cbn [filter].
      destruct (Nat.eqb_spec (v_pers e) p) as [<-|]; cbn [andb]; [|apply app_nil_r].
      destruct (N.ltb_spec (v_scno e) (N.of_nat (nsys g (v_pers e)))); [lia|apply app_nil_r]. }
    rewrite E1. destruct (cv p) as [l|]; [|exact HI].
    destruct HI as (H0 & HL & HA). split; [exact H0|]. split; [exact HL|].
    intros k c Hk. specialize (HA k c Hk).
    assert (k < nsys g p)%nat by (rewrite <- HL; apply nth_error_Some; congruence).
    replace (of_call p k (h ++ [e])) with (of_call p k h); [exact HA|].
    unfold of_call. rewrite filter_app. cbn [filter].
    destruct (Nat.eqb_spec (v_pers e) p) as [<-|]; cbn [andb]; [|symmetry; apply app_nil_r].
    destruct (N.eqb_spec (v_scno e) (N.of_nat k)); [lia|symmetry; apply app_nil_r].
  - set (l := match cv (v_pers e) with Some l => l | None => _ end).
    assert (HL : List.length l = nsys g (v_pers e) /\
       forall k c, nth_error l k = Some c -> agrees g (of_call (v_pers e) k h) c).
    { unfold l. specialize (HI (v_pers e)). destruct (cv (v_pers e)) as [l0|].
      - destruct HI as (_ & X). exact X.
      - split; [apply repeat_length|]. intros k c Hk.
        assert (k < nsys g (v_pers e))%nat
          by (rewrite <- (repeat_length cc0 (nsys g (v_pers e))); apply nth_error_Some; congruence).
        apply nth_error_In, repeat_spec in Hk. subst c.
        replace (of_call (v_pers e) k h) with (@nil ev); [apply agrees0|].
        symmetry. unfold of_call. unfold of_pers in HI.
        clear -HI H. induction h as [|a h IH]; [reflexivity|]. cbn [filter] in *.
        destruct (Nat.eqb (v_pers a) (v_pers e)); cbn [andb] in *; auto.
        destruct (N.ltb_spec (v_scno a) (N.of_nat (nsys g (v_pers e)))); [discriminate|].
        destruct (N.eqb_spec (v_scno a) (N.of_nat k)); [lia|auto]. }
    destruct HL as (HL & HA).
    destruct (nth_error l (N.to_nat (v_scno e))) as [c|] eqn:En.
    2:{ apply nth_error_None in En. lia. }
    cbn [obind].
    destruct (upd_some l (N.to_nat (v_scno e)) (count_one g e c)) as (l' & Hu); [lia|].
    rewrite Hu. cbn [obind]. eexists. split; [reflexivity|].
    intros p. destruct (Nat.eqb_spec p (v_pers e)) as [->|Hp].
    + split.
      { unfold of_pers. rewrite filter_app. cbn [filter]. rewrite Nat.eqb_refl. cbn [andb].
        destruct (N.ltb_spec (v_scno e) (N.of_nat (nsys g (v_pers e)))); [|lia].
        intros X. apply app_eq_nil in X as (_ & X). discriminate. }
      split; [rewrite (upd_length _ _ _ _ Hu); exact HL|].
      intros k c' Hk. unfold of_call. rewrite filter_app. cbn [filter].
      rewrite Nat.eqb_refl. cbn [andb].
      destruct (N.eqb_spec (v_scno e) (N.of_nat k)) as [E|E].
      * assert (k = N.to_nat (v_scno e)) by lia. subst k.
        rewrite (upd_nth_eq _ _ _ _ Hu) in Hk. injection Hk as <-.
        apply agrees_step; auto. apply HA. exact En.
      * rewrite app_nil_r. apply HA.
        rewrite <- (upd_nth_ne _ _ _ k _ Hu); [exact Hk|lia].
    + specialize (HI p).
      assert (F : forall P, (forall x, P x = true -> v_pers x = p) -> filter P (h ++ [e]) = filter P h).
      { intros P HP. rewrite filter_app. cbn [filter].
        destruct (P e) eqn:E; [apply HP in E; congruence|apply app_nil_r]. }
      unfold of_pers in *. rewrite F.
      2:{ intros x X. apply andb_true_iff in X as (X & _). apply Nat.eqb_eq. exact X. }
      destruct (cv p) as [l0|]; [|exact HI].
      destruct HI as (B1 & B2 & B3). split; [exact B1|]. split; [exact B2|].
      intros k c' Hk. unfold of_call. rewrite F; [apply B3, Hk|].
      intros x X. apply andb_true_iff in X as (X & _). apply Nat.eqb_eq. exact X.
Qed.

Lemma inv_run g h : normal (overhead g) -> Forall (sane g) h -> forall h0 cv, inv g h0 cv ->
  exists cv', count_all g cv h = Some cv' /\ inv g (h0 ++ h) cv'.
Proof.
  intros HO HS. induction HS as [|e h He HS IH]; intros h0 cv HI; cbn [count_all].
  - exists cv. rewrite app_nil_r. auto.
  - destruct (inv_step g h0 e cv HO He HI) as (cv1 & E1 & I1). rewrite E1. cbn [obind].
    destruct (IH _ _ I1) as (cv2 & E2 & I2). exists cv2. split; [exact E2|].
    rewrite <- app_assoc in I2. exact I2.
Qed.

(** Minimum and maximum. *)
Lemma fold_min_le l : forall a, (fold_left Z.min l a <= a)%Z /\
  Forall (fun x => (fold_left Z.min l a <= x)%Z) l /\ (fold_left Z.min l a = a \/ In (fold_left Z.min l a) l).
Proof.
  induction l as [|x l IH]; intros a; cbn [fold_left].
  - split; [lia|]. split; [constructor|auto].
  - destruct (IH (Z.min a x)) as (A & B & C). split; [lia|]. split.
    + constructor; [lia|exact B].
    + destruct C as [C|C]; [|right; right; exact C].
      rewrite C. destruct (Z.min_spec a x) as [(_ & ->)|(_ & ->)]; [auto|right; left; auto].
Qed.

Lemma fold_max_ge l : forall a, (a <= fold_left Z.max l a)%Z /\
  Forall (fun x => (x <= fold_left Z.max l a)%Z) l /\ (fold_left Z.max l a = a \/ In (fold_left Z.max l a) l).
Proof.
  induction l as [|x l IH]; intros a; cbn [fold_left].
  - split; [lia|]. split; [constructor|auto].
  - destruct (IH (Z.max a x)) as (A & B & C). split; [lia|]. split.
    + constructor; [lia|exact B].
    + destruct C as [C|C]; [|right; right; exact C].
      rewrite C. destruct (Z.max_spec a x) as [(_ & ->)|(_ & ->)]; [right; left; auto|auto].
Qed.

Lemma is_min_fold l a : l <> [] -> Forall (fun x => (x <= a)%Z) l -> is_min (fold_left Z.min l a) l.
Proof.
  intros Hl HF. destruct (fold_min_le l a) as (A & B & C). split; [|exact B].
  destruct C as [C|C]; [|exact C]. destruct l as [|x l]; [congruence|].
  apply Forall_inv in B. apply Forall_inv in HF. left. lia.
Qed.

Lemma is_max_fold l a : l <> [] -> Forall (fun x => (a <= x)%Z) l -> is_max (fold_left Z.max l a) l.
Proof.
  intros Hl HF. destruct (fold_max_ge l a) as (A & B & C). split; [|exact B].
  destruct C as [C|C]; [|exact C]. destruct l as [|x l]; [congruence|].
  apply Forall_inv in B. apply Forall_inv in HF. left. lia.
Qed.

Lemma is_min_unique a b l : is_min a l -> is_min b l -> a = b.
Proof.
  intros (A1 & A2) (B1 & B2). rewrite Forall_forall in A2, B2.
  pose proof (A2 _ B1). pose proof (B2 _ A1). lia.
Qed.
Lemma is_max_unique a b l : is_max a l -> is_max b l -> a = b.
Proof.
  intros (A1 & A2) (B1 & B2). rewrite Forall_forall in A2, B2.
  pose proof (A2 _ B1). pose proof (B2 _ A1). lia.
Qed.

Lemma charged_nonneg g e : (0 <= charged g e)%Z.
Proof. unfold charged. lia. Qed.

Lemma agrees_exact g h c : h <> [] -> Forall (sane g) h ->
  N.of_nat (List.length h) < 2 ^ 64 -> agrees g h c -> exact g h c.
Proof.
  intros Hh HS HL (A1 & A2 & (_ & A3) & (_ & A4) & (_ & A5)).
  assert (HM : map (charged g) h <> []) by (destruct h; [congruence|discriminate]).
  assert (FL : (List.length (failed h) <= List.length h)%nat).
  { unfold failed. clear. induction h as [|a h IH]; cbn; [lia|]. destruct (v_err a); cbn; lia. }
  split; [rewrite A1; apply N.mod_small; exact HL|].
  split; [rewrite A2; apply N.mod_small; lia|].
  split; [exact A3|]. split.
  - rewrite A4. apply is_min_fold; [exact HM|].
    apply Forall_map. eapply Forall_impl; [|exact HS]. intros e (_ & _ & _ & _ & X). exact X.
  - rewrite A5. apply is_max_fold; [exact HM|].
    apply Forall_map. rewrite Forall_forall. intros e _. apply charged_nonneg.
Qed.

(** Partition of the history of a personality by call number. *)
Definition below (p : nat) (n : nat) (h : list ev) : list ev :=
  filter (fun e => Nat.eqb (v_pers e) p && (v_scno e <? N.of_nat n)) h.

Lemma below_0 p h : below p 0 h = [].
Proof.
  unfold below. induction h as [|e h IH]; [reflexivity|]. cbn [filter].
  destruct (N.ltb_spec (v_scno e) (N.of_nat 0)); [lia|]. rewrite andb_false_r. exact IH.
Qed.

Lemma below_S p n h : Permutation (below p (S n) h) (below p n h ++ of_call p n h).
Proof.
  unfold below, of_call. induction h as [|e h IH]; [constructor|]. cbn [filter].
  destruct (Nat.eqb (v_pers e) p); cbn [andb]; [|exact IH].
  destruct (N.ltb_spec (v_scno e) (N.of_nat (S n))), (N.ltb_spec (v_scno e) (N.of_nat n)),
    (N.eqb_spec (v_scno e) (N.of_nat n)); try lia; cbn.
  - constructor. exact IH.
  - apply Permutation_cons_app. exact IH.
  - exact IH.
Qed.

Lemma sum_perm a b : Permutation a b -> sum a = sum b.
Proof. intros H. unfold sum. induction H; cbn; lia. Qed.

Lemma failed_perm a b : Permutation a b -> Permutation (failed a) (failed b).
Proof.
  intros H. unfold failed. induction H; cbn.
  - constructor.
  - destruct (v_err x); [constructor|]; assumption.
  - destruct (v_err x), (v_err y); try reflexivity. constructor.
  - etransitivity; eauto.
Qed.

Lemma filter_len {A} (f : A -> bool) l : (List.length (filter f l) <= List.length l)%nat.
Proof. induction l as [|a l IH]; cbn; [lia|]. destruct (f a); cbn; lia. Qed.

(** Totals relate to the list of charged calls. *)
Definition tagrees (g : cfg) (h : list ev) (t : totals) : Prop :=
  t_calls t = u64 (N.of_nat (List.length h)) /\
  t_errors t = u64 (N.of_nat (List.length (failed h))) /\
  (normal (t_cum t) /\ ns (t_cum t) = sum (map (charged g) h)) /\
  (normal (t_min t) /\ (h = [] -> ns (t_min t) = ns max_ts) /\
                       (h <> [] -> is_min (ns (t_min t)) (map (charged g) h))) /\
  (normal (t_max t) /\ (h = [] -> ns (t_max t) = 0%Z) /\
                       (h <> [] -> is_max (ns (t_max t)) (map (charged g) h))).

Lemma tagrees_perm g a b t : Permutation a b -> tagrees g a t -> tagrees g b t.
Proof.
  intros HP (A1 & A2 & (A3 & A3') & (A4 & A4' & A4'') & (A5 & A5' & A5'')).
  pose proof (Permutation_length HP) as HL.
  pose proof (Permutation_length (failed_perm _ _ HP)) as HL2.
  pose proof (Permutation_map (charged g) HP) as HM.
  assert (E : b = [] -> a = []).
  { intros ->. apply Permutation_sym in HP. apply Permutation_nil in HP. exact HP. }
  assert (E' : b <> [] -> a <> []).
  { intros X ->. apply Permutation_nil in HP. auto. }
  split; [congruence|]. split; [congruence|].
  split; [split; [exact A3|rewrite A3'; apply sum_perm, HM]|].
  split; (split; [assumption|]; split; [auto|]).
  - intros X. destruct (A4'' (E' X)) as (Y & Z). split.
    + eapply Permutation_in; eauto.
    + eapply Permutation_Forall; eauto.
  - intros X. destruct (A5'' (E' X)) as (Y & Z). split.
    + eapply Permutation_in; eauto.
    + eapply Permutation_Forall; eauto.
Qed.

Lemma is_min_app a b la lb : is_min a la -> is_min b lb -> is_min (Z.min a b) (la ++ lb).
Proof.
  intros (A1 & A2) (B1 & B2). split.
  - apply in_app_iff. destruct (Z.min_spec a b) as [(_ & ->)|(_ & ->)]; auto.
  - apply Forall_app. split; [eapply Forall_impl; [|exact A2]|eapply Forall_impl; [|exact B2]];
      cbn; lia.
Qed.
Lemma is_max_app a b la lb : is_max a la -> is_max b lb -> is_max (Z.max a b) (la ++ lb).
Proof.
  intros (A1 & A2) (B1 & B2). split.
  - apply in_app_iff. destruct (Z.max_spec a b) as [(_ & ->)|(_ & ->)]; auto.
  - apply Forall_app. split; [eapply Forall_impl; [|exact A2]|eapply Forall_impl; [|exact B2]];
      cbn; lia.
Qed.

Lemma tally_step g h1 h2 t c n t' c' :
  h2 <> [] -> Forall (sane g) h2 -> tagrees g h1 t -> agrees g h2 c ->
  tally t c (Some n) = Ok (t', c') ->
  tagrees g (h1 ++ h2) t' /\
  c' = mk_cc (c_time c) (c_min c) (c_max c) (ts_div (c_time c) (Z.of_N (c_calls c))) (c_calls c) (c_errors c).
Proof.
  intros H2 HS (A1 & A2 & (A3 & A3') & (A4 & A4' & A4'') & (A5 & A5' & A5'')) HA HT.
  cbn [tally] in HT. injection HT as <- <-. split; [|reflexivity].
  assert (HM : map (charged g) h2 <> []) by (destruct h2; [congruence|discriminate]).
  destruct HA as (B1 & B2 & (B3 & B3') & (B4 & B4') & (B5 & B5')).
  assert (M2 : is_min (ns (c_min c)) (map (charged g) h2)).
  { rewrite B4'. apply is_min_fold; [exact HM|]. apply Forall_map.
    eapply Forall_impl; [|exact HS]. intros e (_ & _ & _ & _ & X). exact X. }
  assert (X2 : is_max (ns (c_max c)) (map (charged g) h2)).
  { rewrite B5'. apply is_max_fold; [exact HM|]. apply Forall_map.
    rewrite Forall_forall. intros e _. apply charged_nonneg. }
  unfold tagrees; cbn [t_calls t_errors t_cum t_min t_max].
  split; [rewrite A1, B1, u64_add, app_length; f_equal; lia|].
  split.
  { rewrite A2, B2, u64_add. unfold failed. rewrite filter_app, app_length. f_equal. lia. }
  rewrite map_app. split; [|split].
  - destruct (ts_add_ns (t_cum t) (c_time c) A3 B3) as (C1 & C2). split; [exact C2|].
    rewrite C1, sum_app. congruence.
  - destruct (ts_min_ns (t_min t) (c_min c) A4 B4) as (C1 & _).
    split; [apply min_normal; auto|]. split.
    + intros X. apply app_eq_nil in X as (_ & X). congruence.
    + intros _. rewrite C1. destruct h1 as [|e1 h1].
      * rewrite (A4' eq_refl). cbn [map app].
        replace (Z.min (ns max_ts) (ns (c_min c))) with (ns (c_min c)); [exact M2|].
        destruct M2 as (I2 & _). apply in_map_iff in I2 as (e & <- & He).
        rewrite Forall_forall in HS. destruct (HS e He) as (_ & _ & _ & _ & X). lia.
      * apply is_min_app; [apply A4''; discriminate|exact M2].
  - destruct (ts_max_ns (t_max t) (c_max c) A5 B5) as (C1 & _).
    split; [apply max_normal; auto|]. split.
    + intros X. apply app_eq_nil in X as (_ & X). congruence.
    + intros _. rewrite C1. destruct h1 as [|e1 h1].
      * rewrite (A5' eq_refl). cbn [map app].
        replace (Z.max 0 (ns (c_max c))) with (ns (c_max c)); [exact X2|].
        destruct X2 as (I2 & _). apply in_map_iff in I2 as (e & <- & He).
        pose proof (charged_nonneg g e). lia.
      * apply is_max_app; [apply A5''; discriminate|exact X2].
Qed.

Definition with_avg (c c' : cc) : Prop :=
  c_calls c' = c_calls c /\ c_errors c' = c_errors c /\ c_time c' = c_time c /\
  c_min c' = c_min c /\ c_max c' = c_max c /\
  (c_calls c <> 0 -> c_avg c' = ts_div (c_time c) (Z.of_N (c_calls c))).

Lemma tally_all_spec g p h : Forall (sane g) h -> N.of_nat (List.length h) < 2 ^ 64 ->
  forall l names n t,
  (forall k c, nth_error l k = Some c -> agrees g (of_call p (n + k) h) c) ->
  (forall k, (k < List.length l)%nat -> of_call p (n + k) h <> [] ->
     exists s, nth_error names k = Some (Some s)) ->
  tagrees g (below p n h) t ->
  exists t' l', tally_all t l names = Ok (t', l') /\
    tagrees g (below p (n + List.length l) h) t' /\ Forall2 with_avg l l'.
Proof.
  intros HS HB. induction l as [|c l IH]; intros names n t HA HN HT; cbn [tally_all].
  - exists t, []. split; [reflexivity|]. cbn [List.length]. rewrite Nat.add_0_r. auto.
  - pose proof (HA O c eq_refl) as H0. rewrite Nat.add_0_r in H0.
    assert (SF : Forall (sane g) (of_call p n h)).
    { rewrite Forall_forall in *. intros e He. apply filter_In in He as (He & _). auto. }
    assert (LL : N.of_nat (List.length (of_call p n h)) < 2 ^ 64).
    { pose proof (filter_len (fun e => Nat.eqb (v_pers e) p && (v_scno e =? N.of_nat n)) h).
      unfold of_call. lia. }
    assert (HA' : forall k c0, nth_error l k = Some c0 -> agrees g (of_call p (S n + k) h) c0).
    { intros k c0 Hk. replace (S n + k)%nat with (n + S k)%nat by lia. apply HA. exact Hk. }
    assert (HN' : forall k, (k < List.length l)%nat -> of_call p (S n + k) h <> [] ->
       exists s, nth_error (tl names) k = Some (Some s)).
    { intros k Hk X. destruct (HN (S k)) as (s & Hs).
      - cbn. lia.
      - replace (n + S k)%nat with (S n + k)%nat by lia. exact X.
      - exists s. destruct names; [discriminate|exact Hs]. }
    replace (n + List.length (c :: l))%nat with (S n + List.length l)%nat by (cbn; lia).
    destruct (N.eqb_spec (c_calls c) 0) as [E|E].
    + assert (Hnil : of_call p n h = []).
      { destruct H0 as (H0 & _). rewrite H0 in E. unfold u64 in E. rewrite N.mod_small in E by exact LL.
        destruct (of_call p n h); [reflexivity|]. cbn in E. lia. }
      destruct (IH (tl names) (S n) t HA' HN') as (t' & l' & E' & T' & F').
      { eapply tagrees_perm; [|exact HT]. etransitivity; [|apply Permutation_sym, below_S].
        rewrite Hnil, app_nil_r. reflexivity. }
      rewrite E'. cbn [rbind]. exists t', (c :: l'). split; [reflexivity|]. split; [exact T'|].
      constructor; [|exact F']. repeat split; auto. intros X. congruence.
    + assert (Hne : of_call p n h <> []).
      { intros X. rewrite X in H0. destruct H0 as (H0 & _). apply E. rewrite H0. reflexivity. }
      destruct (HN O) as (s & Hs); [cbn; lia|rewrite Nat.add_0_r; exact Hne|].
      assert (Hhd : hd None names = Some s) by (destruct names; [discriminate|cbn in *; congruence]).
      rewrite Hhd.
      destruct (tally t c (Some s)) as [[t1 c1]| |] eqn:Et; try discriminate.
      destruct (tally_step _ _ _ _ _ _ _ _ Hne SF HT H0 Et) as (T1 & C1).
      cbn [rbind].
      destruct (IH (tl names) (S n) t1 HA' HN') as (t' & l' & E' & T' & F').
      { eapply tagrees_perm; [|exact T1]. apply Permutation_sym, below_S. }
      rewrite E'. cbn [rbind]. exists t', (c1 :: l'). split; [reflexivity|]. split; [exact T'|].
      constructor; [|exact F']. subst c1. repeat split; auto.
Qed.

Lemma tagrees0 g : tagrees g [] totals0.
Proof.
  unfold tagrees, totals0; cbn [t_calls t_errors t_cum t_min t_max].
  split; [reflexivity|]. split; [reflexivity|].
  split; [split; [apply normal_zero|reflexivity]|].
  split; (split; [first [apply normal_max|apply normal_zero]|]; split; [reflexivity|congruence]).
Qed.

(** Rows. *)
Lemma rows_in l ix i c : In (i, c) (rows l ix) <->
  In i ix /\ nth_error l i = Some c /\ c_calls c <> 0.
Proof.
  induction ix as [|j ix IH]; cbn [rows].
  - split; [intros []|intros ([] & _)].
  - destruct (nth_error l j) as [c0|] eqn:E.
    + destruct (N.eqb_spec (c_calls c0) 0) as [Z|Z].
      * rewrite IH. split; intros (A & B & C); (split; [|auto]); [right; exact A|].
        destruct A as [<-|A]; [|exact A]. rewrite E in B. congruence.
      * cbn [In]. rewrite IH. split.
        -- intros [X|(A & B & C)]; [|auto]. injection X as <- <-. auto.
        -- intros ([<-|A] & B & C); [left; congruence|auto].
    + rewrite IH. split; intros (A & B & C); (split; [|auto]); [right; exact A|].
      destruct A as [<-|A]; [congruence|exact A].
Qed.

Lemma rows_nodup l ix : NoDup ix -> NoDup (map fst (rows l ix)).
Proof.
  induction 1 as [|j ix Hj HN IH]; cbn [rows map]; [constructor|].
  destruct (nth_error l j) as [c0|]; [|exact IH].
  destruct (c_calls c0 =? 0); [exact IH|]. cbn. constructor; [|exact IH].
  intros X. apply in_map_iff in X as ([i c] & E & HI). cbn in E. subst i.
  apply rows_in in HI as (HI & _). contradiction.
Qed.

(** Columns. *)
Lemma split_comma_spec s : let '(w, rest) := split_comma s in
  Forall (fun c => c <> 44) w /\
  s = match rest with None => w | Some s' => w ++ 44 :: s' end.
Proof.
  induction s as [|c s IH]; cbn [split_comma]; [auto|].
  destruct (N.eqb_spec c 44) as [->|Hc]; [auto|].
  destruct (split_comma s) as [w rest]. destruct IH as (A & B).
  split; [constructor; auto|]. destruct rest; cbn; congruence.
Qed.

Lemma split_comma_join w rest : Forall (fun c => c <> 44) w ->
  split_comma (match rest with None => w | Some s' => w ++ 44 :: s' end) = (w, rest).
Proof.
  induction w as [|c w IH]; intros H.
  - destruct rest; reflexivity.
  - pose proof (Forall_inv H) as Hc. apply Forall_inv_tail in H. specialize (IH H).
    destruct rest; cbn [app split_comma]; (destruct (N.eqb_spec c 44); [congruence|]);
      cbn [app] in IH; rewrite IH; reflexivity.
Qed.

Lemma find_column_first w c : find_column column_aliases w = Some c ->
  In (w, c) column_aliases /\ 1 <= c < 9.
Proof.
  generalize column_aliases. induction l as [|[n d] l IH]; cbn [find_column]; [discriminate|].
  destruct (beqs n w) eqn:E; cbn [negb].
  - apply beqs_eq in E. subst n. unfold CSC_NONE, CSC_MAX.
    destruct (N.eqb_spec d 0); cbn [orb]; [intros H; apply IH in H as (A & B); split; [right|]; auto|].
    destruct (N.leb_spec 9 d); [intros H1; apply IH in H1 as (A & B); split; [right|]; auto|].
    intros X. injection X as <-. split; [left; reflexivity|lia].
  - intros H. apply IH in H as (A & B). split; [right|]; auto.
Qed.

(** Every name of a column is found, and only those. *)
Definition all_names : list (list N * N) :=
  flat_map (fun c => map (fun n => (bs n, c)) (column_names c)) [1; 2; 3; 4; 5; 6; 7; 8].

Lemma all_names_found : forallb (fun x => match find_column column_aliases (fst x) with
   | Some c => c =? snd x | None => false end) all_names = true.
Proof. vm_compute. reflexivity. Qed.

Lemma aliases_named : forallb (fun x => (snd x =? 0) ||
   existsb (fun y => beqs (fst x) (fst y) && (snd x =? snd y)) all_names) column_aliases = true.
Proof. vm_compute. reflexivity. Qed.

Lemma column_names_range c n : In n (column_names c) -> In c [1; 2; 3; 4; 5; 6; 7; 8].
Proof.
  intros H. destruct c as [|p]; [destruct H|].
  do 4 (try destruct p as [p|p|]); cbn in H; try tauto; cbn; auto 12.
Qed.

Lemma all_names_in w c : In (w, c) all_names <-> names_column w c.
Proof.
  unfold all_names, names_column. rewrite in_flat_map. split.
  - intros (d & _ & H). apply in_map_iff in H as (n & E & H). injection E as <- <-. eauto.
  - intros (n & H & ->). exists c. split; [eapply column_names_range; eauto|].
    apply in_map_iff. eauto.
Qed.

Lemma find_column_spec w c : find_column column_aliases w = Some c <-> names_column w c.
Proof.
  split.
  - intros H. apply find_column_first in H as (HI & HR).
    pose proof aliases_named as HA. rewrite forallb_forall in HA. specialize (HA _ HI).
    cbn [fst snd] in HA. apply orb_true_iff in HA as [HA|HA]; [apply N.eqb_eq in HA; lia|].
    apply existsb_exists in HA as ([w' c'] & HI' & HE). apply andb_true_iff in HE as (E1 & E2).
    apply beqs_eq in E1. apply N.eqb_eq in E2. cbn in *. subst. apply all_names_in. exact HI'.
  - intros H. apply all_names_in in H. pose proof all_names_found as HA.
    rewrite forallb_forall in HA. specialize (HA _ H). cbn [fst snd] in HA.
    destruct (find_column column_aliases w) as [d|]; [|discriminate].
    apply N.eqb_eq in HA. congruence.
Qed.

Lemma names_no_comma : forallb (fun x => forallb (fun c => negb (c =? 44)) (fst x)) all_names = true.
Proof. vm_compute. reflexivity. Qed.

Lemma column_no_comma w c : names_column w c -> Forall (fun x => x <> 44) w.
Proof.
  intros H. apply all_names_in in H. pose proof names_no_comma as HA.
  rewrite forallb_forall in HA. specialize (HA _ H). cbn [fst] in HA.
  rewrite forallb_forall in HA. rewrite Forall_forall. intros x Hx. specialize (HA x Hx).
  apply negb_true_iff, N.eqb_neq in HA. exact HA.
Qed.

Lemma existsb_eqb c l : existsb (N.eqb c) l = true <-> In c l.
Proof.
  rewrite existsb_exists. split.
  - intros (x & H & E). apply N.eqb_eq in E. congruence.
  - intros H. exists c. split; [exact H|apply N.eqb_refl].
Qed.

(** At most eight distinct columns. *)
Definition valid_cols (l : list N) : Prop := NoDup l /\ Forall (fun c => 1 <= c < 9) l.

Lemma valid_len l : valid_cols l -> (List.length l <= 8)%nat.
Proof.
  intros (HN & HF). change 8%nat with (List.length [1; 2; 3; 4; 5; 6; 7; 8]).
  apply NoDup_incl_length; [exact HN|]. intros c Hc. rewrite Forall_forall in HF.
  specialize (HF c Hc). cbn.
  assert (c = 1 \/ c = 2 \/ c = 3 \/ c = 4 \/ c = 5 \/ c = 6 \/ c = 7 \/ c = 8) by lia.
  intuition.
Qed.

Lemma valid_snoc l c : valid_cols l -> ~ In c l -> 1 <= c < 9 -> valid_cols (l ++ [c]).
Proof.
  intros (HN & HF) Hc Hr. split.
  - apply NoDup_Add with (a := c) (l := l); [|auto].
    replace l with (l ++ []) at 1 by apply app_nil_r. apply Add_app.
  - apply Forall_app. split; [exact HF|]. constructor; [exact Hr|constructor].
Qed.

Lemma put_ok l c : valid_cols l -> put_column l c = Ok (l ++ [c]).
Proof.
  intros H. apply valid_len in H. unfold put_column, CSC_MAX.
  destruct (N.ltb_spec (N.of_nat (List.length l)) 9); [reflexivity|lia].
Qed.

Lemma columns_loop_spec : forall fuel s cols, (List.length s < fuel)%nat -> valid_cols cols ->
  columns_loop fuel s cols <> Undef /\
  forall r, columns_loop fuel s cols = Ok r <->
    exists ws cs, ws <> [] /\ s = join_comma ws /\ Forall2 names_column ws cs /\
      valid_cols (cols ++ cs) /\ r = cols ++ cs.
Proof.
  induction fuel as [|fuel IH]; intros s cols Hf HV; [lia|].
  cbn [columns_loop]. pose proof (split_comma_spec s) as HC.
  destruct (split_comma s) as [w rest] eqn:Es. destruct HC as (HC & HS).
  (* what a way of writing [s] as words must be *)
  assert (INV : forall ws cs, ws <> [] -> s = join_comma ws -> Forall2 names_column ws cs ->
     exists c cs', cs = c :: cs' /\ names_column w c /\
       match rest with
       | None => ws = [w] /\ cs' = []
       | Some s' => exists ws', ws = w :: ws' /\ ws' <> [] /\ s' = join_comma ws' /\
                     Forall2 names_column ws' cs'
       end).
  { intros ws cs H0 H1 H2. destruct H2 as [|w0 c0 ws cs N0 NN]; [congruence|].
    pose proof (column_no_comma _ _ N0) as NC.
    destruct ws as [|w1 ws].
    - cbn in H1.
      pose proof (split_comma_join w0 None NC) as X. cbn beta iota in X. rewrite <- H1, Es in X.
      injection X as -> ->. exists c0, cs. inversion NN; subst. auto.
    - cbn [join_comma] in H1. change (match ws with [] => w1 | _ => w1 ++ 44 :: join_comma ws end)
        with (join_comma (w1 :: ws)) in H1.
      pose proof (split_comma_join w0 (Some (join_comma (w1 :: ws))) NC) as X.
      cbn beta iota in X. rewrite <- H1, Es in X. injection X as -> ->.
      exists c0, cs. split; [reflexivity|]. split; [exact N0|].
      exists (w1 :: ws). split; [reflexivity|]. split; [discriminate|]. auto. }
  destruct (find_column column_aliases w) as [c|] eqn:Ec.
  2:{ split; [discriminate|]. intros r. split; [discriminate|].
      intros (ws & cs & H0 & H1 & H2 & _). destruct (INV ws cs H0 H1 H2) as (c & cs' & _ & HN & _).
      apply find_column_spec in HN. congruence. }
  assert (Hw : names_column w c) by (apply find_column_spec; exact Ec).
  assert (Uq : forall d, names_column w d -> d = c).
  { intros d Hd. apply find_column_spec in Hd. congruence. }
  pose proof (find_column_first w c Ec) as (_ & Hrange).
  destruct (existsb (N.eqb c) cols) eqn:Ex.
  { split; [discriminate|]. intros r. split; [discriminate|].
    intros (ws & cs & H0 & H1 & H2 & (HN & _) & _).
    destruct (INV ws cs H0 H1 H2) as (d & cs' & -> & Hd & _). apply Uq in Hd. subst d.
    apply existsb_eqb in Ex. apply NoDup_remove_2 in HN. exfalso. apply HN, in_app_iff. auto. }
  assert (Hnot : ~ In c cols) by (intros X; apply existsb_eqb in X; congruence).
  rewrite (put_ok _ _ HV). cbn [rbind].
  pose proof (valid_snoc cols c HV Hnot Hrange) as HV'.
  destruct rest as [s'|].
  - destruct (IH s' (cols ++ [c])) as (IU & IR).
    { rewrite HS in Hf. rewrite app_length in Hf. cbn in Hf. lia. }
    { exact HV'. }
    split; [exact IU|]. intros r. rewrite IR. split.
    + intros (ws & cs & H0 & H1 & H2 & H3 & ->). exists (w :: ws), (c :: cs).
      rewrite <- app_assoc in *. cbn [app] in *.
      split; [discriminate|]. split.
      { destruct ws as [|w1 ws]; [congruence|]. rewrite HS, H1. reflexivity. }
      split; [constructor; auto|]. auto.
    + intros (ws & cs & H0 & H1 & H2 & H3 & ->).
      destruct (INV ws cs H0 H1 H2) as (d & cs' & -> & Hd & ws' & -> & A & B & C).
      apply Uq in Hd. subst d. exists ws', cs'. rewrite <- app_assoc. cbn [app]. auto.
  - split; [discriminate|]. intros r. split.
    + intros X. injection X as <-. exists [w], [c].
      split; [discriminate|]. split; [exact HS|]. split; [repeat constructor; auto|]. auto.
    + intros (ws & cs & H0 & H1 & H2 & H3 & ->).
      destruct (INV ws cs H0 H1 H2) as (d & cs' & -> & Hd & -> & ->).
      apply Uq in Hd. subst d. reflexivity.
Qed.
