From Verif Require Import Base SubModel SubSpec.
Local Open Scope N_scope.

(** * Memory *)
Lemma umoven_app m a j k : umoven m a (j + k) = olet x := umoven m a j in olet y := umoven m (a + N.of_nat j) k in Some (x ++ y).
Proof.
  revert a. induction j as [|j IH]; intros a; cbn [umoven plus obind].
  - rewrite N.add_0_r. destruct (umoven m a k); reflexivity.
  - destruct (m a) as [b|]; [|reflexivity]. cbn [obind]. rewrite IH. destruct (umoven m (a + 1) j) as [x|]; [|reflexivity]. cbn [obind].
    replace (a + 1 + N.of_nat j) with (a + N.of_nat (S j)) by lia. destruct (umoven m (a + N.of_nat (S j)) k); reflexivity.
Qed.
Lemma umoven_length m a k b : umoven m a k = Some b -> length b = k.
Proof.
  revert a b. induction k as [|k IH]; intros a b; cbn [umoven].
  - intros [= <-]. reflexivity.
  - destruct (m a) as [x|]; [|discriminate]. cbn [obind]. destruct (umoven m (a + 1) k) as [r|] eqn:E; [|discriminate]. intros [= <-]. cbn. f_equal. eapply IH; eauto.
Qed.
(** the i-th word of a buffer *)
Lemma umoven_words c m a n buf : umoven m a (n * ws c) = Some buf -> forall i, (i < n)%nat ->
  word c m (a + N.of_nat (i * ws c)) = Some (num (be c) (firstn (ws c) (skipn (i * ws c) buf))).
Proof.
  intros H i Hi. unfold word. replace (n * ws c)%nat with (i * ws c + (ws c + (n - i - 1) * ws c))%nat in H by nia.
  rewrite umoven_app in H. destruct (umoven m a (i * ws c)) as [x|] eqn:E1; [|discriminate]. cbn [obind] in H.
  rewrite umoven_app in H. destruct (umoven m (a + N.of_nat (i * ws c)) (ws c)) as [y|] eqn:E2; [|discriminate]. cbn [obind] in H.
  destruct (umoven m (a + N.of_nat (i * ws c) + N.of_nat (ws c)) ((n - i - 1) * ws c)) as [z|] eqn:E3; [|discriminate]. cbn [obind] in H.
  injection H as <-. apply umoven_length in E1, E2. rewrite skipn_app, E1, Nat.sub_diag. rewrite skipn_all2 by lia. cbn [app skipn].
  rewrite firstn_app, E2, Nat.sub_diag. rewrite firstn_all2 by lia. cbn [firstn]. rewrite app_nil_r. reflexivity.
Qed.
Lemma umoven_none c m a n : umoven m a (n * ws c) = None -> exists i, (i < n)%nat /\ word c m (a + N.of_nat (i * ws c)) = None.
Proof.
  revert a. induction n as [|n IH]; intros a H; [discriminate H|]. cbn [mult] in H. rewrite umoven_app in H.
  destruct (umoven m a (ws c)) as [x|] eqn:E.
  - cbn [obind] in H. destruct (umoven m (a + N.of_nat (ws c)) (n * ws c)) as [y|] eqn:E2; [discriminate|]. destruct (IH _ E2) as (i & Hi & Hw).
    exists (S i). split; [lia|]. cbn [mult]. replace (a + N.of_nat (ws c + i * ws c)) with (a + N.of_nat (ws c) + N.of_nat (i * ws c)) by lia. exact Hw.
  - exists O. split; [lia|]. cbn [mult]. rewrite N.add_0_r. unfold word. rewrite E. reflexivity.
Qed.

(** * Filling in *)
Lemma fill_spec c buf n : forall i f j, fill c buf i n f j =
  if (i <=? j)%nat && (j <? i + n)%nat then num (be c) (firstn (ws c) (skipn (j * ws c) buf)) else f j.
Proof.
  induction n as [|n IH]; intros i f j; cbn [fill].
  - replace ((i <=? j)%nat && (j <? i + 0)%nat) with false by lia. reflexivity.
  - rewrite IH. unfold set. destruct (Nat.eqb_spec j i) as [->|Hj].
    + replace ((S i <=? i)%nat && _) with false by lia. replace ((i <=? i)%nat && (i <? i + S n)%nat) with true by lia. reflexivity.
    + replace ((i <=? j)%nat && (j <? i + S n)%nat) with ((S i <=? j)%nat && (j <? S i + n)%nat) by lia. reflexivity.
Qed.
Lemma shift_spec n : forall i f j, shift i n f j = if (i <=? j)%nat && (j <? i + n)%nat then f (S j) else f j.
Proof.
  induction n as [|n IH]; intros i f j; cbn [shift].
  - replace ((i <=? j)%nat && (j <? i + 0)%nat) with false by lia. reflexivity.
  - rewrite IH. unfold set. destruct (Nat.eqb_spec j i) as [->|Hj].
    + replace ((S i <=? i)%nat && _) with false by lia. replace ((i <=? i)%nat && (i <? i + S n)%nat) with true by lia. reflexivity.
    + replace ((i <=? j)%nat && (j <? i + S n)%nat) with ((S i <=? j)%nat && (j <? S i + n)%nat) by lia.
      destruct ((S i <=? j)%nat && (j <? S i + n)%nat) eqn:E; [|reflexivity]. replace (S j =? i)%nat with false by lia. reflexivity.
Qed.
Lemma sock_args_nth call : (1 <= call <= 20) -> exists n, sock_args call = Some n /\ nth_error socket_nargs (N.to_nat call) = Some n.
Proof.
  intros H. assert (E : exists k, call = N.of_nat k /\ (1 <= k <= 20)%nat) by (exists (N.to_nat call); lia). destruct E as (k & -> & Hk).
  do 21 (destruct k as [|k]; [try lia; eexists; split; vm_compute; reflexivity|]). lia.
Qed.
Lemma sock_args_range call n : sock_args call = Some n -> 1 <= call <= 20.
Proof. intros H. destruct call as [|q]; [discriminate H|]. do 5 (try (destruct q as [q|q|]); try discriminate H; try lia). Qed.

(** * ipc *)
Lemma ipc_nargs_in k : (exists n, ipc_nargs k = Some n) <-> In k [1; 2; 3; 4; 11; 12; 13; 14; 21; 22; 23; 24].
Proof.
  split.
  - intros (n & H). destruct k as [|q]; [discriminate H|]. do 5 (try (destruct q as [q|q|]); try discriminate H; cbn; auto 15).
  - intros I. cbn in I. repeat (destruct I as [<-|I]; [eexists; reflexivity|]). destruct I.
Qed.
Lemma le_num_bound l : Forall (fun b => b < 256) l -> le_num l < 256 ^ N.of_nat (length l).
Proof.
  induction 1 as [|b l Hb Hl IH]; [cbn; lia|]. cbn [le_num length]. rewrite Nat2N.inj_succ, N.pow_succ_r'. nia.
Qed.
Lemma umoven_bytes m a k b : mem_ok m -> umoven m a k = Some b -> Forall (fun x => x < 256) b.
Proof.
  intros M. revert a b. induction k as [|k IH]; intros a b; cbn [umoven].
  - intros [= <-]. constructor.
  - destruct (m a) as [x|] eqn:E; [|discriminate]. cbn [obind]. destruct (umoven m (a + 1) k) as [r|] eqn:E2; [|discriminate]. intros [= <-]. constructor; [eapply M; eauto|eapply IH; eauto].
Qed.
Lemma num_bound be l : Forall (fun b => b < 256) l -> num be l < 256 ^ N.of_nat (length l).
Proof. intros H. unfold num. destruct be; [rewrite <- rev_length; apply le_num_bound, Forall_rev, H|apply le_num_bound, H]. Qed.
