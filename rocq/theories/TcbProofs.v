From Verif Require Import Base AllocModel AllocThms TcbModel.
Local Open Scope N_scope.

(** ** What the table is for, said without its layout *)
(** number of live entries *)
Definition live_count (t : tab) : N := N.of_nat (length (filter (fun p => negb (p =? 0)) (pids t))).
Record tinv (t : tab) : Prop := {
  t_distinct : forall i j, pidof t i <> 0 -> pidof t i = pidof t j -> i = j;
  t_count : nprocs t = live_count t;
  t_size : N.of_nat (length (pids t)) < 2 ^ 61 }.

Lemma nth_set l i p k : (i < length l)%nat -> nth k (set_pid l i p) 0 = if Nat.eqb k i then p else nth k l 0.
Proof.
  intros L. unfold set_pid. destruct (Nat.eqb_spec k i) as [->|NE].
  - rewrite app_nth2; rewrite firstn_length_le by lia; [|lia]. rewrite Nat.sub_diag. reflexivity.
  - destruct (Nat.lt_ge_cases k i) as [H|H].
    + rewrite app_nth1 by (rewrite firstn_length_le; lia). rewrite <- (firstn_skipn i l) at 2. rewrite app_nth1 by (rewrite firstn_length_le; lia). reflexivity.
    + rewrite app_nth2 by (rewrite firstn_length_le; lia). rewrite firstn_length_le by lia. destruct (k - i)%nat as [|d] eqn:E; [lia|]. cbn [nth].
      rewrite <- (firstn_skipn (S i) l) at 2. rewrite app_nth2 by (rewrite firstn_length_le; lia). rewrite firstn_length_le by lia. f_equal. lia.
Qed.
Lemma set_pid_length l i p : (i < length l)%nat -> length (set_pid l i p) = length l.
Proof. intros L. unfold set_pid. rewrite app_length, firstn_length_le by lia. cbn [length]. rewrite skipn_length. lia. Qed.
Lemma pidof_lt t i : pidof t i <> 0 -> (i < length (pids t))%nat.
Proof. intros H. destruct (Nat.lt_ge_cases i (length (pids t))) as [L|L]; [exact L|]. exfalso. apply H. unfold pidof. apply nth_overflow. exact L. Qed.
Lemma filter_set (f : N -> bool) l i p : (i < length l)%nat ->
  (length (filter f (set_pid l i p)) + (if f (nth i l 0%N) then 1 else 0) = length (filter f l) + (if f p then 1 else 0))%nat.
Proof.
  intros L. unfold set_pid. rewrite <- (firstn_skipn i l) at 4. rewrite !filter_app, !app_length.
  assert (E : skipn i l = nth i l 0 :: skipn (S i) l).
  { clear -L. revert i L. induction l as [|x l IH]; intros i L; [cbn in L; lia|]. destruct i; [reflexivity|]. cbn [skipn nth]. rewrite IH by (cbn in L; lia). reflexivity. }
  rewrite E. cbn [filter]. destruct (f p), (f (nth i l 0)); cbn [length]; lia.
Qed.
Lemma find_pid_some l p i : find_pid l p = Some i -> (i < length l)%nat /\ nth i l 0 = p.
Proof.
  revert i. induction l as [|x l IH]; intros i; [discriminate|]. cbn [find_pid]. destruct (x =? p) eqn:E.
  - intros H. inversion H; subst. split; [cbn; lia|]. cbn. lia.
  - destruct (find_pid l p) as [k|]; [|discriminate]. cbn. intros H. inversion H; subst. destruct (IH k eq_refl). cbn. split; [lia|assumption].
Qed.
Lemma find_pid_none l p : find_pid l p = None -> forall i, (i < length l)%nat -> nth i l 0 <> p.
Proof.
  induction l as [|x l IH]; intros H i L; [cbn in L; lia|]. cbn [find_pid] in H. destruct (x =? p) eqn:E; [discriminate|]. destruct (find_pid l p); [discriminate|].
  destruct i; cbn; [lia|]. apply IH; [reflexivity|cbn in L; lia].
Qed.

(** ** C22: the lookup *)
Lemma pid2tcb_same t pid : pids (fst (pid2tcb t pid)) = pids t /\ nprocs (fst (pid2tcb t pid)) = nprocs t.
Proof.
  unfold pid2tcb. destruct (pid <=? 0)%Z; [split; reflexivity|]. destruct (cache t _) as [i|]; [destruct (pidof t i =? _); [split; reflexivity|]|]; destruct (find_pid _ _); split; reflexivity.
Qed.
Lemma pid2tcb_spec t pid i : tinv t -> (snd (pid2tcb t pid) = Some i <-> (0 < pid)%Z /\ pidof t i = Z.to_N pid).
Proof.
  intros [D _ _]. unfold pid2tcb. destruct (pid <=? 0)%Z eqn:P0; [cbn; split; [discriminate|lia]|]. set (p := Z.to_N pid). assert (PN : p <> 0) by (unfold p; lia).
  assert (SCAN : forall r, r = (match find_pid (pids t) p with
                     | Some j => ({| pids := pids t; nprocs := nprocs t; cache := fun k => if k =? N.land p 1023 then Some j else cache t k |}, Some j)
                     | None => (t, None) end) -> (snd r = Some i <-> (0 < pid)%Z /\ pidof t i = p)).
  { intros r ->. destruct (find_pid (pids t) p) as [j|] eqn:F; cbn.
    - destruct (find_pid_some _ _ _ F) as [L E]. split.
      + intros H. inversion H; subst. split; [lia|exact E].
      + intros [_ E']. f_equal. apply D; unfold pidof in *; congruence.
    - split; [discriminate|]. intros [_ E]. exfalso. apply (find_pid_none _ _ F i); [apply pidof_lt; congruence|exact E]. }
  destruct (cache t (N.land p 1023)) as [j|]; [|apply SCAN; reflexivity]. destruct (pidof t j =? p) eqn:E; [|apply SCAN; reflexivity]. cbn. split.
  - intros H. inversion H; subst. split; lia.
  - intros [_ E']. f_equal. apply D; lia.
Qed.
Lemma pid2tcb_inv t pid : tinv t -> tinv (fst (pid2tcb t pid)).
Proof.
  intros [D C Z]. destruct (pid2tcb_same t pid) as [E1 E2]. constructor.
  - unfold pidof in *. rewrite E1. exact D.
  - unfold live_count. rewrite E1, E2. exact C.
  - rewrite E1. exact Z.
Qed.

(** ** C21: the entries *)
Lemma tinv_set t i p : tinv t -> (i < length (pids t))%nat -> (p <> 0 -> forall j, j <> i -> pidof t j <> p) ->
  forall np, np + (if pidof t i =? 0 then 0 else 1) = nprocs t + (if p =? 0 then 0 else 1) ->
  forall ca, tinv {| pids := set_pid (pids t) i p; nprocs := np; cache := ca |}.
Proof.
  intros [D C Z] L F np E ca. constructor.
  - unfold pidof in *. cbn. intros a b. rewrite !nth_set by exact L. destruct (Nat.eqb_spec a i), (Nat.eqb_spec b i); subst; auto; intros H1 H2.
    + exfalso. apply (F H1 b); auto.
    + exfalso. apply (F ltac:(congruence) a); auto.
  - unfold live_count in *. cbn. pose proof (filter_set (fun p => negb (p =? 0)) (pids t) i p L) as X. unfold pidof in E. clear -E X C. cbv beta in X. destruct (nth i (pids t) 0 =? 0), (p =? 0); cbn [negb] in X; lia.
  - cbn [pids]. rewrite set_pid_length by exact L. exact Z.
Qed.
Lemma xgrow_defined k mal null n : xgrowarray k mal null n 8 <> Undef.
Proof.
  unfold xgrowarray. replace (8 =? 0) with false by reflexivity. intros H.
  assert (X : exists g, (if null then if n =? 0 then Ok (szmod k (64 * (k / 4) / 4 + 8 - 1) / 8) else Ok 0 else Ok (n / 2 + 1)) = Ok g) by (destruct null; [destruct (n =? 0)|]; eauto).
  destruct X as [g X]. rewrite X in H. cbn [rbind] in H. destruct (_ <? n); [discriminate|]. unfold xallocarray in H. destruct (_ && _ && _); [discriminate|]. destruct (mal _); discriminate.
Qed.
Lemma expand_ok t : tinv t -> match expand_tcbtab t with
  | Ok t' => tinv t' /\ nprocs t' = nprocs t /\ (length (pids t) < length (pids t'))%nat /\ (forall i, pidof t' i = pidof t i)
  | Die => True | Undef => False end.
Proof.
  intros [D C Z]. unfold expand_tcbtab. pose proof (C53_grow_partial 32 (fun _ => true) (N.of_nat (length (pids t)) =? 0) (N.of_nat (length (pids t))) 8) as H.
  pose proof (xgrow_defined 32 (fun _ => true) (N.of_nat (length (pids t)) =? 0) (N.of_nat (length (pids t)))) as U.
  destruct (xgrowarray _ _ _ _ _) as [[a b]| |] eqn:E; cbn [rbind]; auto. clear U.
  specialize (H a b (or_intror eq_refl)). change (2 ^ (2 * 32)) with 18446744073709551616 in H. change (2 ^ 61) with 2305843009213693952 in Z.
  destruct (H ltac:(lia) ltac:(lia) eq_refl) as (_ & H2 & H3 & H4 & H5). cbn [fst]. clear H E.
  assert (GT : N.of_nat (length (pids t)) < a) by (destruct (N.of_nat (length (pids t)) =? 0) eqn:Q; [lia|]; destruct (H5 eq_refl); lia).
  set (n := N.to_nat (a - N.of_nat (length (pids t)))). assert (PO : forall i, nth i (pids t ++ repeat 0 n) 0 = nth i (pids t) 0).
  { intros i. destruct (Nat.lt_ge_cases i (length (pids t))); [apply app_nth1; assumption|]. rewrite app_nth2 by assumption. rewrite (nth_overflow (pids t)) by assumption. apply nth_repeat. }
  split; [|split; [reflexivity|split; [cbn [pids]; rewrite app_length, repeat_length; lia|exact PO]]]. constructor; cbn [pids nprocs].
  - unfold pidof in *. cbn. intros i j. rewrite !PO. apply D.
  - rewrite C. unfold live_count. cbn. rewrite filter_app, app_length. replace (filter _ (repeat 0 n)) with (@nil N); [f_equal; cbn; lia|]. clear. induction n; [reflexivity|]. exact IHn.
  - rewrite app_length, repeat_length. change (2 ^ 61) with 2305843009213693952. lia.
Qed.
(** A free entry exists: "bug in alloctcb" cannot happen. *)
Lemma free_entry (l : list N) : (length (filter (fun p => negb (p =? 0)%N) l) < length l)%nat -> exists i, find_pid l 0 = Some i.
Proof.
  induction l as [|x l IH]; cbn; [lia|]. destruct (x =? 0) eqn:E; [eauto|]. cbn [negb length]. intros H. destruct (IH ltac:(lia)) as [i ->]. cbn. eauto.
Qed.
Lemma filter_le {A} (f : A -> bool) l : (length (filter f l) <= length l)%nat.
Proof. induction l as [|x l IH]; cbn; [lia|]. destruct (f x); cbn; lia. Qed.
Lemma alloctcb_ok t pid : tinv t -> pid <> 0 -> (forall i, pidof t i <> pid) ->
  match alloctcb t pid with
  | Ok (t', i) => tinv t' /\ pidof t i = 0 /\ (forall k, pidof t' k = if Nat.eqb k i then pid else pidof t k)
  | Die => True | Undef => False end.
Proof.
  intros T PN F. unfold alloctcb.
  assert (X : match (if nprocs t =? N.of_nat (length (pids t)) then expand_tcbtab t else Ok t) with
              | Ok t' => tinv t' /\ (forall k, pidof t' k = pidof t k) /\ nprocs t' < N.of_nat (length (pids t')) | Die => True | Undef => False end).
  { pose proof (t_count t T) as C. unfold live_count in C. pose proof (filter_le (fun p => negb (p =? 0)) (pids t)) as LE.
    destruct (N.eqb_spec (nprocs t) (N.of_nat (length (pids t)))) as [E|E].
    - pose proof (expand_ok t T) as H. destruct (expand_tcbtab t); auto. destruct H as (H1 & H2 & H3 & H4). split; [exact H1|]. split; [exact H4|]. lia.
    - split; [exact T|]. split; [reflexivity|]. lia. }
  destruct (if nprocs t =? _ then _ else _) as [t1| |]; cbn [rbind]; auto. destruct X as (T1 & PO & LT).
  destruct (free_entry (pids t1)) as [i Fi]; [pose proof (t_count t1 T1) as C; unfold live_count in C; lia|]. rewrite Fi. destruct (find_pid_some _ _ _ Fi) as [L E].
  split; [|split].
  - apply tinv_set; auto.
    + intros _ j _. rewrite PO. apply F.
    + change (nth i (pids t1) 0) with (pidof t1 i) in E. rewrite E. apply N.eqb_neq in PN as ->. cbn. lia.
  - rewrite <- PO. exact E.
  - intros k. unfold pidof at 1. cbn [pids]. rewrite nth_set by exact L. destruct (Nat.eqb k i); [reflexivity|]. apply PO.
Qed.
Lemma drop_slot_ok t i : tinv t -> tinv (drop_slot t i) /\ (forall k, pidof (drop_slot t i) k = if Nat.eqb k i then 0 else pidof t k).
Proof.
  intros T. unfold drop_slot. destruct (N.eqb_spec (pidof t i) 0) as [E|E].
  - split; [exact T|]. intros k. destruct (Nat.eqb_spec k i); congruence.
  - pose proof (pidof_lt t i E) as L. split.
    + apply tinv_set; auto. pose proof E as E'. apply N.eqb_neq in E as ->. cbn.
      pose proof (t_count t T) as C. unfold live_count in C.
      assert (X : In (pidof t i) (filter (fun p => negb (p =? 0)) (pids t))).
      { apply filter_In. split; [apply nth_In; exact L|]. apply N.eqb_neq in E'. rewrite E'. reflexivity. }
      destruct (filter _ (pids t)); [destruct X|]. cbn in C. lia.
    + intros k. unfold pidof at 1. cbn [pids]. rewrite nth_set by exact L. destruct (Nat.eqb k i); reflexivity.
Qed.
Lemma rename_ok t i p : tinv t -> pidof t i <> 0 -> p <> 0 -> (forall k, pidof t k <> p) ->
  tinv (rename t i p) /\ (forall k, pidof (rename t i p) k = if Nat.eqb k i then p else pidof t k).
Proof.
  intros T E PN F. pose proof (pidof_lt t i E) as L. split.
  - apply tinv_set; auto. apply N.eqb_neq in E as ->. apply N.eqb_neq in PN as ->. reflexivity.
  - intros k. unfold pidof at 1. cbn [pids rename]. rewrite nth_set by exact L. destruct (Nat.eqb k i); reflexivity.
Qed.
Lemma tinv0 : tinv tab0.
Proof. constructor; [|reflexivity|reflexivity]. unfold pidof. cbn. intros [|i] j H; destruct H; reflexivity. Qed.
