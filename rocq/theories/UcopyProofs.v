(** Proofs about UcopyModel. *)
From Verif Require Import Base UcopyModel UcopySpec.
Local Open Scope N_scope.

Lemma rbind_ok {A B} (x : res A) (f : A -> res B) b : rbind x f = Ok b -> exists a, x = Ok a /\ f a = Ok b.
Proof. destruct x; cbn; intros H; [eauto|discriminate..]. Qed.
Lemma prefix_len m a n : (length (prefix m a n) <= n)%nat.
Proof. revert a. induction n as [|n IH]; intros a; cbn; [lia|]. destruct (m a); cbn; [specialize (IH (a + 1)); lia|lia]. Qed.
Lemma prefix_nth m a n i : (i < length (prefix m a n))%nat -> m (a + N.of_nat i) = Some (nth i (prefix m a n) 0).
Proof.
  revert a i. induction n as [|n IH]; intros a i L; cbn in *; [lia|]. destruct (m a) as [b|] eqn:E; cbn in *; [|lia]. destruct i as [|i]; [rewrite N.add_0_r; exact E|]. replace (a + N.of_nat (S i)) with (a + 1 + N.of_nat i) by lia. apply IH. lia.
Qed.
Lemma prefix_stop m a n : (length (prefix m a n) < n)%nat -> m (a + N.of_nat (length (prefix m a n))) = None.
Proof.
  revert a. induction n as [|n IH]; intros a L; cbn in *; [lia|]. destruct (m a) as [b|] eqn:E; cbn in *; [|rewrite N.add_0_r; exact E]. replace (a + N.of_nat (S (length (prefix m (a + 1) n)))) with (a + 1 + N.of_nat (length (prefix m (a + 1) n))) by lia. apply IH. lia.
Qed.
Lemma prefix_holds m a n : holds m a (prefix m a n).
Proof. intros i L. rewrite <- (N2Nat.id i) at 1. apply prefix_nth. lia. Qed.
Lemma prefix_full m a n : (forall i, i < N.of_nat n -> m (a + i) <> None) -> length (prefix m a n) = n.
Proof. intros H. pose proof (prefix_len m a n). destruct (Nat.eq_dec (length (prefix m a n)) n) as [E|E]; [exact E|]. exfalso. apply (H (N.of_nat (length (prefix m a n)))); [lia|]. apply prefix_stop. lia. Qed.
Lemma prefix_readable m a n : length (prefix m a n) = n -> readable m a (N.of_nat n).
Proof. intros E i L. rewrite <- (N2Nat.id i). rewrite (prefix_nth m a n) by lia. discriminate. Qed.
Lemma prefix_first m k : forall a n, firstn k (prefix m a n) = prefix m a (Nat.min k n).
Proof. induction k as [|k IH]; intros a n; [reflexivity|]. destruct n as [|n]; [reflexivity|]. cbn. destruct (m a); cbn; [f_equal; apply IH|reflexivity]. Qed.
Lemma prefix_skip m k : forall a n, (k <= length (prefix m a n))%nat -> skipn k (prefix m a n) = prefix m (a + N.of_nat k) (n - k).
Proof.
  induction k as [|k IH]; intros a n L; [rewrite N.add_0_r, Nat.sub_0_r; reflexivity|]. destruct n as [|n]; [reflexivity|]. cbn in *. destruct (m a) eqn:E; cbn in *; [|lia]. rewrite IH by lia. f_equal; lia.
Qed.
Lemma prefix_app m a n k : prefix m a (n + k) = if Nat.eqb (length (prefix m a n)) n then prefix m a n ++ prefix m (a + N.of_nat n) k else prefix m a n.
Proof.
  revert a. induction n as [|n IH]; intros a; cbn; [rewrite N.add_0_r; reflexivity|]. destruct (m a) as [b|]; cbn; [|reflexivity]. rewrite IH. destruct (Nat.eqb _ _); cbn; [|reflexivity]. do 3 f_equal. lia.
Qed.
Lemma prefix_nil m a n : m a = None -> prefix m a n = []. Proof. destruct n; cbn; [reflexivity|]. intros ->. reflexivity. Qed.

Lemma page_div M a : page_of M a = a / page_size M * page_size M.
Proof. unfold page_of, page_size. replace (2 ^ pg M - 1) with (N.ones (pg M)) by (rewrite N.ones_equiv; lia). rewrite N.ldiff_ones_r, N.shiftl_mul_pow2, N.shiftr_div_pow2. reflexivity. Qed.
Lemma size_pos M : 0 < page_size M. Proof. unfold page_size. apply N.neq_0_lt_0, N.pow_nonzero. discriminate. Qed.
Lemma page_range M a : page_of M a <= a < page_of M a + page_size M.
Proof. rewrite page_div. pose proof (size_pos M). pose proof (N.div_mod a (page_size M)). pose proof (N.mod_lt a (page_size M)). lia. Qed.
Lemma page_same M a i : i < page_size M -> a = page_of M a -> (a + i) / page_size M = a / page_size M.
Proof. intros L E. rewrite page_div in E. pose proof (size_pos M). set (q := a / page_size M) in *. rewrite E, N.div_add_l by lia. rewrite N.div_small by lia. lia. Qed.
Lemma page_next M a : page_of M (page_of M a + page_size M) = page_of M a + page_size M.
Proof. rewrite !page_div. pose proof (size_pos M). replace (a / page_size M * page_size M + page_size M) with ((a / page_size M + 1) * page_size M) by lia. rewrite N.div_mul by lia. lia. Qed.
Lemma page_idem M a : page_of M (page_of M a) = page_of M a.
Proof. rewrite !page_div. pose proof (size_pos M). rewrite N.div_mul by lia. reflexivity. Qed.
Lemma page_mod M a : page_of M a mod page_size M = 0.
Proof. rewrite page_div. pose proof (size_pos M). apply N.mod_mul. lia. Qed.
(** a page is read as a whole or not at all *)
Lemma page_all M m p : sane M m -> p = page_of M p -> m p <> None -> length (prefix m p (N.to_nat (page_size M))) = N.to_nat (page_size M).
Proof. intros S E N. apply prefix_full. intros i L H. apply N. eapply (sn_uniform _ _ S); [|exact H]. rewrite N2Nat.id in L. apply page_same; assumption. Qed.
Lemma page_none M m a : sane M m -> m (page_of M a) = None -> m a = None.
Proof. intros S. apply (sn_uniform _ _ S). rewrite page_div. pose proof (size_pos M). rewrite N.div_mul by lia. reflexivity. Qed.

(** ** The cache *)
Definition cache_ok (M : mach) (m : mem) (s : uc) : Prop :=
  match cidx s with
  | None => True
  | Some c => (c < 4)%nat /\ forall i, (i < 4)%nat -> craddr s i <> 0 -> cbuf s i = prefix m (craddr s i) (N.to_nat (page_size M)) /\ length (cbuf s i) = N.to_nat (page_size M)
  end.
Lemma read_cache M m s ve a len : forall s' r, process_read_mem s m ve a len = (s', r) -> cache_ok M m s -> cache_ok M m s' /\ cidx s' = cidx s /\ craddr s' = craddr s /\ cbuf s' = cbuf s /\ r = vm_readv m ve a len /\ (nosup s' = nosup s \/ exists e, r = RE e).
Proof. intros s' r E K. unfold process_read_mem in E. inversion E; subst; clear E. destruct (vm_readv m ve a len); cbn; auto 10. destruct (_ =? _); cbn; auto 10. split; [exact K|]. eauto 10. Qed.
Lemma lookup_ok M m s p i : cache_ok M m s -> p <> 0 -> lookup_cached_raddr_idx s p = Some i -> cbuf s i = prefix m p (N.to_nat (page_size M)) /\ length (cbuf s i) = N.to_nat (page_size M).
Proof.
  unfold lookup_cached_raddr_idx, cache_ok. intros K NZ. destruct (cidx s) as [c|]; [|discriminate]. destruct K as [C H]. intros F. apply find_some in F as [IN E]. apply N.eqb_eq in E. subst p. apply H; [|exact NZ].
  apply in_app_iff in IN as [IN|IN]; apply in_rev in IN; apply in_seq in IN; lia.
Qed.
Lemma store_ok M m s p k : cache_ok M m s -> length (prefix m p (N.to_nat (page_size M))) = N.to_nat (page_size M) -> k = get_next_unused_idx s ->
  cache_ok M m (set_cached_raddr_idx (set_buf s k (prefix m p (N.to_nat (page_size M)))) p k).
Proof.
  intros K L ->. unfold cache_ok, set_cached_raddr_idx, set_buf, get_next_unused_idx in *. cbn [cidx craddr cbuf]. destruct (cidx s) as [c|].
  - destruct K as [C H]. split; [apply Nat.mod_upper_bound; lia|]. intros i I N. destruct (Nat.eqb i ((c + 1) mod 4)); auto.
  - split; [lia|]. intros i I N. destruct (Nat.eqb i 0); [auto|contradiction].
Qed.
Lemma slice_prefix m p n off len : length (prefix m p n) = n -> off + len <= N.of_nat n -> slice (prefix m p n) off len = Ok (prefix m (p + off) (N.to_nat len)).
Proof.
  intros L LE. unfold slice. rewrite L. destruct (N.ltb_spec (N.of_nat n) (off + len)); [lia|]. rewrite prefix_skip by lia. rewrite prefix_first. do 2 f_equal; lia.
Qed.
(** what a read must give, of the bytes from [a] on *)
Definition good_read (m : mem) (ve : N -> option N) (a len : N) (r : rd) : Prop :=
  match r with
  | RD l => l = firstn (length l) (prefix m a (N.to_nat len)) /\ l <> [] /\ (no_error ve -> l = prefix m a (N.to_nat len))
  | RE e => no_error ve -> e = EFAULT /\ prefix m a (N.to_nat len) = []
  end.
Lemma vm_loop_ok M m ve fuel : sane M m -> forall s p a len acc, cache_ok M m s -> p = page_of M a -> p <> 0 -> 0 < len -> (N.to_nat len <= fuel)%nat -> a + len + (page_size M - 1) < 2 ^ 64 ->
  exists s' r, vm_loop M fuel s m ve p a len acc = Ok (s', r) /\ cache_ok M m s' /\ (no_error ve -> nosup s' = nosup s) /\
    match r with RD l => exists q, l = acc ++ q /\ q = firstn (length q) (prefix m a (N.to_nat len)) /\ (no_error ve -> q = prefix m a (N.to_nat len)) | RE e => acc = [] /\ (no_error ve -> e = EFAULT /\ prefix m a (N.to_nat len) = []) end /\
    match r with RD l => acc = [] -> l <> [] | RE _ => True end.
Proof.
  intros SN. induction fuel as [|fuel IH]; intros s p a len acc K EP NZ L0 LF LT; [lia|]. cbn [vm_loop].
  set (first := match lookup_cached_raddr_idx s p with Some idx => _ | None => _ end).
  assert (F : (exists s1 idx, first = Ok (s1, inl idx) /\ cache_ok M m s1 /\ nosup s1 = nosup s /\ cbuf s1 idx = prefix m p (N.to_nat (page_size M)) /\ length (cbuf s1 idx) = N.to_nat (page_size M)) \/
              (exists s1 e, first = Ok (s1, inr (match acc with [] => RE e | _ => RD acc end)) /\ cache_ok M m s1 /\ (no_error ve -> nosup s1 = nosup s /\ e = EFAULT /\ m p = None))).
  { unfold first. destruct (lookup_cached_raddr_idx s p) as [idx|] eqn:LK; [left; exists s, idx; destruct (lookup_ok _ _ _ _ _ K NZ LK); auto 10|]. cbv zeta.
    destruct (process_read_mem s m ve p (page_size M)) as [s1 r] eqn:ER. destruct (read_cache _ _ _ _ _ _ _ _ ER K) as (K1 & I1 & A1 & B1 & R1 & N1).
    destruct r as [l|e].
    - left. unfold vm_readv in R1. destruct (ve p); [discriminate|]. assert (PA : p = page_of M p) by (rewrite EP, page_idem; reflexivity).
      destruct (m p) as [b|] eqn:MP.
      + pose proof (page_all _ _ _ SN PA ltac:(rewrite MP; discriminate)) as LL. assert (l = prefix m p (N.to_nat (page_size M))) as -> by (destruct (prefix m p (N.to_nat (page_size M))); congruence).
        rewrite firstn_app, LL, Nat.sub_diag, app_nil_r, firstn_all2 by lia.
        eexists _, (get_next_unused_idx s). split; [reflexivity|]. split; [apply store_ok; [exact K1|exact LL|unfold get_next_unused_idx; rewrite I1; reflexivity]|]. cbn [nosup set_cached_raddr_idx set_buf cbuf].
        rewrite Nat.eqb_refl. destruct N1 as [N1|[e N1]]; [auto|discriminate].
      + rewrite (prefix_nil _ _ _ MP) in R1. discriminate.
    - right. exists s1, e. split; [reflexivity|]. split; [exact K1|]. intros NE. unfold process_read_mem in ER. unfold vm_readv in R1, ER. rewrite NE in R1, ER. destruct (prefix m p (N.to_nat (page_size M))) as [|b0 l0] eqn:PP; [|discriminate]. inversion R1; subst e. cbn in ER. inversion ER; subst s1. split; [reflexivity|]. split; [reflexivity|].
      destruct (m p) eqn:MP; [|reflexivity]. pose proof (size_pos M). destruct (N.to_nat (page_size M)) eqn:Z; [lia|]. cbn in PP. rewrite MP in PP. discriminate. }
  destruct F as [(s1 & idx & -> & K1 & N1 & B1 & B2)|(s1 & e & -> & K1 & NE)]; cbn [rbind].
  - pose proof (page_range M a) as PR. rewrite <- EP in PR. set (off := a - p). set (cl := if len <=? page_size M - off then len else page_size M - off).
    assert (CL : 0 < cl <= len /\ off + cl <= page_size M /\ (cl <> len -> off + cl = page_size M)) by (unfold cl, off; destruct (N.leb_spec len (page_size M - (a - p))); lia).
    rewrite B1 in *. rewrite slice_prefix by (rewrite ?N2Nat.id; lia). cbn [rbind]. replace (p + off) with a by (unfold off; lia). 
    assert (FL : length (prefix m a (N.to_nat cl)) = N.to_nat cl).
    { apply prefix_full. rewrite N2Nat.id. intros i LI. replace (a + i) with (p + (off + i)) by (unfold off; lia). apply (prefix_readable _ _ _ B2). lia. }
    destruct (N.eqb_spec (len - cl) 0) as [Z|Z].
    + assert (cl = len) as CE by lia. rewrite CE in *. eexists s1, _. split; [reflexivity|]. split; [exact K1|]. split; [auto|]. split; [exists (prefix m a (N.to_nat len)); rewrite FL, prefix_first, Nat.min_id; auto|].
      intros -> H. apply (f_equal (@length N)) in H. cbn [app] in H. rewrite FL in H. cbn in H. lia.
    + assert (off + cl = page_size M) as OC by (apply CL; lia). assert (U : u64 (p + page_size M) = p + page_size M) by (unfold u64; apply N.mod_small; unfold off in OC; lia). rewrite U.
      assert (AP : a + cl = p + page_size M) by (unfold off in OC; lia).
      destruct (IH s1 (p + page_size M) (p + page_size M) (len - cl) (acc ++ prefix m a (N.to_nat cl)) K1) as (s2 & r & E2 & K2 & N2 & R & R'); [rewrite EP; symmetry; apply page_next|lia..|].
      exists s2, r. split; [exact E2|]. split; [exact K2|]. split; [intros NE; rewrite N2 by exact NE; exact N1|].
      assert (PA : prefix m a (N.to_nat len) = prefix m a (N.to_nat cl) ++ prefix m (p + page_size M) (N.to_nat (len - cl))).
      { replace (N.to_nat len) with (N.to_nat cl + N.to_nat (len - cl))%nat by lia. rewrite prefix_app, FL, Nat.eqb_refl, N2Nat.id, AP. reflexivity. }
      destruct r as [l|e].
      * split.
        -- destruct R as (q & -> & Q1 & Q2). exists (prefix m a (N.to_nat cl) ++ q). rewrite <- app_assoc. split; [reflexivity|]. rewrite PA. split; [|intros NE; rewrite <- (Q2 NE); reflexivity].
           rewrite firstn_app, app_length, FL. rewrite firstn_all2 by (rewrite FL; lia). f_equal. replace (N.to_nat cl + length q - N.to_nat cl)%nat with (length q) by lia. exact Q1.
        -- intros -> H. destruct R as (q & -> & _). apply (f_equal (@length N)) in H. rewrite !app_length, FL in H. cbn in H. lia.
      * destruct R as [R _]. apply (f_equal (@length N)) in R. rewrite app_length, FL in R. cbn in R. lia.
  - eexists s1, _. split; [reflexivity|]. split; [exact K1|]. split; [intros H; apply NE; exact H|]. assert (NN : no_error ve -> e = EFAULT /\ prefix m a (N.to_nat len) = []) by (intros H; destruct (NE H) as (_ & E1 & E2); split; [exact E1|]; apply prefix_nil; rewrite EP in E2; apply (page_none _ _ _ SN E2)).
    destruct acc as [|b0 acc]; [split; [split; [reflexivity|exact NN]|exact I]|]. split; [exists []; rewrite app_nil_r; split; [reflexivity|]; split; [reflexivity|]; intros H; symmetry; apply NN; exact H|discriminate].
Qed.
Lemma vm_read_ok M m ve s a len : sane M m -> cache_ok M m s -> a < 2 ^ 64 -> 0 < len < 2 ^ 32 ->
  exists s' r, vm_read_mem M s m ve a len = Ok (s', r) /\ cache_ok M m s' /\ (no_error ve -> nosup s' = nosup s) /\ good_read m ve a len r.
Proof.
  intros SN K LA LL. unfold vm_read_mem. destruct (N.eqb_spec len 0); [lia|]. cbv zeta. pose proof (sn_page _ _ SN) as LP.
  assert (PS : page_size M < 2 ^ 32) by (unfold page_size; apply N.pow_lt_mono_r; lia). pose proof (size_pos M) as PZ.
  set (pal := page_of M (u64 (a + len + (page_size M - 1)))). destruct ((page_of M a =? 0) || (pal <? page_of M a) || _) eqn:D.
  - destruct (process_read_mem s m ve a len) as [s1 r] eqn:ER. destruct (read_cache _ _ _ _ _ _ _ _ ER K) as (K1 & _ & _ & _ & R1 & N1). exists s1, r. split; [reflexivity|]. split; [exact K1|]. unfold process_read_mem in ER. unfold vm_readv in R1, ER. split.
    + intros NE. rewrite NE in ER. inversion ER; subst. destruct (prefix m a (N.to_nat len)); reflexivity.
    + subst r. destruct (ve a) eqn:V; [intros NE; rewrite NE in V; discriminate|]. destruct (prefix m a (N.to_nat len)) as [|b0 l0] eqn:PP; [intros _; rewrite PP; auto|]. unfold good_read. rewrite PP, firstn_all. repeat split; auto. discriminate.
  - apply orb_false_iff in D as [D D3]. apply orb_false_iff in D as [D1 D2].
    assert (NW : a + len + (page_size M - 1) < 2 ^ 64).
    { destruct (N.lt_ge_cases (a + len + (page_size M - 1)) (2 ^ 64)) as [H|H]; [exact H|]. exfalso. apply N.ltb_ge in D2. assert (X : u64 (a + len + (page_size M - 1)) = a + len + (page_size M - 1) - 2 ^ 64) by (unfold u64; symmetry; apply N.mod_unique with 1; lia).
      pose proof (page_range M (u64 (a + len + (page_size M - 1)))) as P1. fold pal in P1. pose proof (page_range M a) as P2. lia. }
    destruct (vm_loop_ok M m ve (N.to_nat len) SN s (page_of M a) a len [] K eq_refl ltac:(apply N.eqb_neq; exact D1) ltac:(lia) ltac:(lia) NW) as (s' & r & E & K' & NS & R & R'). exists s', r. split; [exact E|]. split; [exact K'|]. split; [exact NS|].
    destruct r as [l|e]; [|exact (proj2 R)]. destruct R as (q & -> & Q1 & Q2). cbn [app] in *. split; [exact Q1|]. split; [apply R'; reflexivity|exact Q2].
Qed.

(** ** Words *)
Lemma lsize_pos M : 0 < long_size M. Proof. unfold long_size. apply N.neq_0_lt_0, N.pow_nonzero. discriminate. Qed.
Lemma align_div M a : align M a = a / long_size M * long_size M.
Proof. unfold align, long_size. replace (2 ^ wb M - 1) with (N.ones (wb M)) by (rewrite N.ones_equiv; lia). rewrite N.ldiff_ones_r, N.shiftl_mul_pow2, N.shiftr_div_pow2. reflexivity. Qed.
Lemma residue_mod M a : residue_of M a = a mod long_size M.
Proof. unfold residue_of, long_size. replace (2 ^ wb M - 1) with (N.ones (wb M)) by (rewrite N.ones_equiv; lia). apply N.land_ones. Qed.
Lemma align_residue M a : align M a + residue_of M a = a /\ residue_of M a < long_size M.
Proof. rewrite align_div, residue_mod. pose proof (lsize_pos M). pose proof (N.div_mod a (long_size M)). pose proof (N.mod_lt a (long_size M)). lia. Qed.
Lemma align_next M a : residue_of M (align M a + long_size M) = 0 /\ residue_of M (align M a) = 0.
Proof. rewrite !residue_mod, align_div. pose proof (lsize_pos M). replace (a / long_size M * long_size M + long_size M) with ((a / long_size M + 1) * long_size M) by lia. rewrite !N.mod_mul by lia. auto. Qed.
(** a word is read as a whole or not at all *)
Lemma word_uniform M m b i j : sane M m -> residue_of M b = 0 -> i < long_size M -> j < long_size M -> m (b + i) = None -> m (b + j) = None.
Proof.
  intros SN R LI LJ. apply (sn_uniform _ _ SN). assert (PS : page_size M = long_size M * 2 ^ (pg M - wb M)) by (unfold page_size, long_size; rewrite <- N.pow_add_r; f_equal; pose proof (sn_word _ _ SN); lia).
  pose proof (lsize_pos M). assert (2 ^ (pg M - wb M) <> 0) by (apply N.pow_nonzero; discriminate). rewrite PS, <- !N.div_div by lia. f_equal. pose proof (align_residue M b) as [AR _]. rewrite R, N.add_0_r, align_div in AR. set (q := b / long_size M) in AR. clearbody q. rewrite <- AR, !N.div_add_l, !N.div_small by lia. reflexivity.
Qed.
Lemma peek_spec M m pe b : sane M m -> residue_of M b = 0 ->
  match peek M m pe b with
  | Some u => u = prefix m b (N.to_nat (long_size M)) /\ length u = N.to_nat (long_size M)
  | None => no_error pe -> forall i, i < long_size M -> m (b + i) = None
  end.
Proof.
  intros SN R. unfold peek. destruct (pe b) eqn:PE; [intros NE; rewrite NE in PE; discriminate|]. destruct (N.eqb_spec (N.of_nat (length (prefix m b (N.to_nat (long_size M))))) (long_size M)) as [E|E]; [split; [reflexivity|lia]|].
  intros _ i LI. pose proof (prefix_len m b (N.to_nat (long_size M))) as PL. pose proof (prefix_stop m b (N.to_nat (long_size M)) ltac:(lia)) as PS. eapply word_uniform; [exact SN|exact R| |exact LI|exact PS]. lia.
Qed.
Lemma prefix_cat m a n k : length (prefix m a n) = n -> prefix m a (n + k) = prefix m a n ++ prefix m (a + N.of_nat n) k.
Proof. intros E. rewrite prefix_app, E, Nat.eqb_refl. reflexivity. Qed.
Lemma peekdata_ok M m pe fuel : sane M m -> forall a len acc, a + len <= 2 ^ 64 -> (N.to_nat len <= fuel)%nat ->
  exists r, umoven_peekdata_from M fuel m pe a (residue_of M a) len acc = Ok r /\
  match r with Some l => l = acc ++ prefix m a (N.to_nat len) /\ readable m a len | None => no_error pe -> ~ readable m a len end.
Proof.
  intros SN. induction fuel as [|fuel IH]; intros a len acc LT LF.
  { assert (len = 0) as -> by lia. cbn. eexists. split; [reflexivity|]. cbn. rewrite app_nil_r. split; [reflexivity|]. intros i L. lia. }
  cbn [umoven_peekdata_from]. destruct (N.eqb_spec len 0) as [->|NZ]; [eexists; split; [reflexivity|]; cbn; rewrite app_nil_r; split; [reflexivity|]; intros i L; lia|]. cbv zeta.
  destruct (align_residue M a) as [AR RL]. destruct (align_next M a) as [AN AZ]. set (b := align M a) in *. set (r := residue_of M a) in *. pose proof (peek_spec M m pe b SN AZ) as PK. destruct (peek M m pe b) as [u|].
  - destruct PK as [-> UL]. set (k := N.min (long_size M - r) len). assert (KL : 0 < k <= len /\ r + k <= long_size M) by (unfold k; lia).
    rewrite slice_prefix by (rewrite ?N2Nat.id; lia). cbn [rbind]. rewrite AR.
    assert (FL : length (prefix m a (N.to_nat k)) = N.to_nat k) by (apply prefix_full; intros i LI; replace (a + i) with (b + (r + i)) by lia; apply (prefix_readable _ _ _ UL); lia).
    assert (PA : prefix m a (N.to_nat len) = prefix m a (N.to_nat k) ++ prefix m (a + k) (N.to_nat (len - k))) by (replace (N.to_nat len) with (N.to_nat k + N.to_nat (len - k))%nat by lia; rewrite prefix_cat by exact FL; rewrite N2Nat.id; reflexivity).
    assert (RK : readable m a k) by (intros i LI; apply (prefix_readable _ _ _ FL); lia).
    destruct (N.eq_dec (len - k) 0) as [Z|Z].
    + rewrite Z. assert (k = len) as KE by lia. exists (Some (acc ++ prefix m a (N.to_nat k))). rewrite KE in *. split; [destruct fuel; reflexivity|]. auto.
    + assert (b + long_size M = a + k) as BK by (unfold k in *; lia). assert (u64 (b + long_size M) = b + long_size M) as -> by (unfold u64; apply N.mod_small; lia).
      rewrite <- AN. rewrite BK. destruct (IH (a + k) (len - k) (acc ++ prefix m a (N.to_nat k))) as (x & E & X); [lia..|]. exists x. split; [exact E|]. destruct x as [l|].
      * destruct X as [-> X]. rewrite PA, app_assoc. split; [reflexivity|]. intros i LI. destruct (N.lt_ge_cases i k) as [H|H]; [apply RK; exact H|]. replace (a + i) with (a + k + (i - k)) by lia. apply X. lia.
      * intros NE H. apply (X NE). intros i LI. replace (a + k + i) with (a + (k + i)) by lia. apply H. lia.
  - eexists. split; [reflexivity|]. intros NE H. specialize (PK NE r RL). apply (H 0); [lia|]. rewrite N.add_0_r, <- AR. exact PK.
Qed.
Lemma find_nul_some l : forall k j, find_nul l k = Some j -> k <= j < k + N.of_nat (length l) /\ nth (N.to_nat (j - k)) l 1 = 0 /\ forall i, i < j - k -> nth (N.to_nat i) l 0 <> 0.
Proof.
  induction l as [|b l IH]; intros k j E; [discriminate|]. cbn [find_nul] in E. destruct (N.eqb_spec b 0) as [->|NZ].
  - inversion E; subst j. rewrite N.sub_diag. cbn. split; [lia|]. split; [reflexivity|]. intros i L. lia.
  - apply IH in E as (L & Z & B). cbn [length]. split; [lia|]. replace (N.to_nat (j - k)) with (S (N.to_nat (j - (k + 1)))) by lia. split; [exact Z|]. intros i LI. destruct (N.to_nat i) as [|i'] eqn:EI; [exact NZ|]. cbn [nth]. specialize (B (N.of_nat i')). rewrite Nat2N.id in B. apply B. lia.
Qed.
Lemma find_nul_none l : forall k, find_nul l k = None -> forall i, (i < length l)%nat -> nth i l 0 <> 0.
Proof. induction l as [|b l IH]; intros k E i L; cbn in *; [lia|]. destruct (N.eqb_spec b 0); [discriminate|]. destruct i; [assumption|]. eapply IH; [exact E|lia]. Qed.
(** what is known of the memory from bytes read and a search in them *)
Lemma scan_some m a l k j : holds m a l -> find_nul l k = Some j -> nul_at m a (j - k) /\ k <= j < k + N.of_nat (length l).
Proof.
  intros H F. destruct (find_nul_some _ _ _ F) as (L & Z & B). split; [|exact L]. split.
  - rewrite H by lia. rewrite (nth_indep _ 0 1) by lia. rewrite Z. reflexivity.
  - intros i LI. rewrite H by lia. specialize (B i LI). split; [discriminate|congruence].
Qed.
Lemma scan_none m a l k : holds m a l -> find_nul l k = None -> no_nul m a (N.of_nat (length l)).
Proof. intros H F i LI. rewrite H by exact LI. pose proof (find_nul_none _ _ F (N.to_nat i) ltac:(lia)). congruence. Qed.
Lemma no_nul_cat m a n k : no_nul m a n -> no_nul m (a + n) k -> no_nul m a (n + k).
Proof. intros A B i L. destruct (N.lt_ge_cases i n) as [H|H]; [apply A; exact H|]. replace (a + i) with (a + n + (i - n)) by lia. apply B. lia. Qed.
Lemma readable_cat m a n k : readable m a n -> readable m (a + n) k -> readable m a (n + k).
Proof. intros A B i L. destruct (N.lt_ge_cases i n) as [H|H]; [apply A; exact H|]. replace (a + i) with (a + n + (i - n)) by lia. apply B. lia. Qed.
Lemma nul_cat m a n k : readable m a n -> no_nul m a n -> nul_at m (a + n) k -> nul_at m a (n + k).
Proof. intros R A [B C]. split; [rewrite <- B; f_equal; lia|]. intros i L. destruct (N.lt_ge_cases i n) as [H|H]; [split; [apply R|apply A]; exact H|]. replace (a + i) with (a + n + (i - n)) by lia. apply C. lia. Qed.
(** the string read word by word *)
Definition fault_at (m : mem) (a len : N) : Prop := exists i, i < len /\ m (a + i) = None /\ no_nul m a i /\ readable m a i.
Lemma peekstr_ok M m pe fuel : sane M m -> forall a len acc, a + len <= 2 ^ 64 -> (N.to_nat len <= fuel)%nat ->
  exists r l, umovestr_peekdata_from M fuel m pe a (residue_of M a) len acc = Ok (r, l) /\
  (exists n, n <= len /\ l = acc ++ prefix m a (N.to_nat n) /\ readable m a n /\
    ((r = (-1)%Z /\ (no_error pe -> fault_at m a len)) \/
     (r = 0%Z /\ n = len /\ no_nul m a len) \/
     (exists k, nul_at m a k /\ align M (a + k) < a + len /\ N.min (k + 1) len <= n /\ r = (Z.of_nat (length acc) + Z.of_N (k + 1 + skew M a k))%Z))).
Proof.
  intros SN. induction fuel as [|fuel IH]; intros a len acc LT LF.
  { assert (len = 0) as -> by lia. cbn. exists 0%Z, acc. split; [reflexivity|]. exists 0. cbn. rewrite app_nil_r. split; [lia|]. split; [reflexivity|]. split; [intros i L; lia|]. right. left. split; [reflexivity|]. split; [reflexivity|]. intros i L. lia. }
  cbn [umovestr_peekdata_from]. destruct (N.eqb_spec len 0) as [->|NZ].
  { exists 0%Z, acc. split; [reflexivity|]. exists 0. cbn. rewrite app_nil_r. split; [lia|]. split; [reflexivity|]. split; [intros i L; lia|]. right. left. split; [reflexivity|]. split; [reflexivity|]. intros i L. lia. }
  cbv zeta. destruct (align_residue M a) as [AR RL]. destruct (align_next M a) as [AN AZ]. set (b := align M a) in *. set (r := residue_of M a) in *. pose proof (peek_spec M m pe b SN AZ) as PK. destruct (peek M m pe b) as [u|].
  - destruct PK as [-> UL]. set (k := N.min (long_size M - r) len). assert (KL : 0 < k <= len /\ r + k <= long_size M) by (unfold k; lia).
    rewrite slice_prefix by (rewrite ?N2Nat.id; lia). cbn [rbind]. rewrite AR. rewrite prefix_skip by lia. replace (b + N.of_nat (N.to_nat r)) with a by lia. set (w := (N.to_nat (long_size M) - N.to_nat r)%nat). 
    assert (RW : readable m a (long_size M - r)) by (intros i LI; replace (a + i) with (b + (r + i)) by lia; apply (prefix_readable _ _ _ UL); lia).
    assert (WL : length (prefix m a w) = w) by (apply prefix_full; intros i LI; apply RW; unfold w in LI; lia).
    assert (RK : readable m a k) by (intros i LI; apply RW; lia).
    destruct (find_nul (prefix m a w) r) as [j|] eqn:FN.
    + destruct (scan_some _ _ _ _ _ (prefix_holds m a w) FN) as [NU JL]. rewrite WL in JL. eexists _, _. split; [reflexivity|]. exists k. split; [lia|]. split; [reflexivity|]. split; [exact RK|]. right. right. exists (j - r). split; [exact NU|].
      assert (AB : align M (a + (j - r)) = b).
      { rewrite align_div. replace (a + (j - r)) with (b + j) by lia. pose proof (lsize_pos M). assert (LJ : j < long_size M) by (unfold w in JL; lia). unfold b. rewrite align_div. rewrite N.div_add_l by lia. rewrite (N.div_small j) by exact LJ. lia. }
      rewrite AB. split; [lia|]. split; [unfold k, w in *; lia|]. unfold skew. fold r. destruct (N.ltb_spec (r + (j - r)) (long_size M)); [lia|unfold w in JL; lia].
    + pose proof (scan_none _ _ _ _ (prefix_holds m a w) FN) as NN. rewrite WL in NN. assert (NK : no_nul m a k) by (intros i LI; apply NN; unfold w; lia).
      assert (FL : length (prefix m a (N.to_nat k)) = N.to_nat k) by (apply prefix_full; intros i LI; apply RK; lia).
      destruct (N.eq_dec (len - k) 0) as [Z|Z].
      * rewrite Z. assert (k = len) as KE by lia. exists 0%Z, (acc ++ prefix m a (N.to_nat k)). split; [destruct fuel; reflexivity|]. exists k. split; [lia|]. split; [reflexivity|]. split; [exact RK|]. right. left. rewrite <- KE. auto.
      * assert (b + long_size M = a + k) as BK by (unfold k in *; lia). assert (u64 (b + long_size M) = b + long_size M) as -> by (unfold u64; apply N.mod_small; lia).
        rewrite <- AN. rewrite BK. destruct (IH (a + k) (len - k) (acc ++ prefix m a (N.to_nat k))) as (x & l & E & n & N1 & N2 & N3 & X); [lia..|]. exists x, l. split; [exact E|].
        exists (k + n). split; [lia|]. split; [rewrite N2, <- app_assoc; f_equal; replace (N.to_nat (k + n)) with (N.to_nat k + N.to_nat n)%nat by lia; rewrite prefix_cat by exact FL; rewrite N2Nat.id; reflexivity|]. split; [apply readable_cat; assumption|].
        rewrite BK in AN. destruct X as [[-> X]|[(-> & X1 & X2)|(k' & X1 & X2 & X3 & X4)]].
        -- left. split; [reflexivity|]. intros NE. destruct (X NE) as (i & I1 & I2 & I3 & I4). exists (k + i). split; [lia|]. split; [rewrite <- I2; f_equal; lia|]. split; [apply no_nul_cat; assumption|apply readable_cat; assumption].
        -- right. left. split; [reflexivity|]. split; [lia|]. replace len with (k + (len - k)) by lia. apply no_nul_cat; assumption.
        -- right. right. exists (k + k'). split; [apply nul_cat; assumption|]. replace (a + (k + k')) with (a + k + k') by lia. split; [lia|]. split; [lia|]. unfold skew in *. fold r. rewrite AN in X4. rewrite app_length, FL in X4.
           destruct (N.ltb_spec (r + (k + k')) (long_size M)); [unfold k in *; lia|]. destruct (N.ltb_spec (0 + k') (long_size M)); lia.
  - exists (-1)%Z, acc. split; [reflexivity|]. exists 0. cbn. rewrite app_nil_r. split; [lia|]. split; [reflexivity|]. split; [intros i L; lia|]. left. split; [reflexivity|]. intros NE. exists 0. split; [lia|]. rewrite N.add_0_r, <- AR. split; [apply PK; auto|]. split; intros i L; lia.
Qed.

(** ** Strings *)
Lemma good_prefix m ve a len l : good_read m ve a len (RD l) -> (0 < length l <= N.to_nat len)%nat /\ l = prefix m a (length l) /\ readable m a (N.of_nat (length l)).
Proof.
  intros (E & NE & _). assert (L : (length l <= length (prefix m a (N.to_nat len)))%nat) by (rewrite E, firstn_length; lia). pose proof (prefix_len m a (N.to_nat len)). rewrite prefix_first in E. rewrite Nat.min_l in E by lia.
  split; [destruct l; [congruence|cbn [length] in *; lia]|]. split; [exact E|]. apply prefix_readable. rewrite <- E. reflexivity.
Qed.
Lemma no_error_fallback ve : no_error ve -> no_fallback ve. Proof. intros H a. rewrite H. split; discriminate. Qed.
Lemma vm_loop_err M m ve fuel : forall s p a len acc s' e, vm_loop M fuel s m ve p a len acc = Ok (s', RE e) -> e = EFAULT \/ exists x, ve x = Some e.
Proof.
  induction fuel as [|fuel IH]; intros s p a len acc s' e E; [discriminate|]. cbn [vm_loop] in E. apply rbind_ok in E as ([s1 f] & E1 & E). destruct f as [idx|r].
  - apply rbind_ok in E as (l & _ & E). destruct (_ =? 0); [discriminate|]. eapply IH; exact E.
  - destruct (lookup_cached_raddr_idx s p); [discriminate|]. unfold process_read_mem, vm_readv in E1. destruct (ve p) as [e1|] eqn:V.
    + inversion E1; subst r. destruct acc; inversion E; subst. right. eauto.
    + destruct (prefix m p (N.to_nat (page_size M))); inversion E1; subst r. destruct acc; inversion E; subst. left. reflexivity.
Qed.
Lemma vm_read_err M m ve s a len s' e : vm_read_mem M s m ve a len = Ok (s', RE e) -> e = EFAULT \/ exists x, ve x = Some e.
Proof.
  unfold vm_read_mem. destruct (len =? 0); [discriminate|]. cbv zeta. destruct (_ || _ || _); [|apply vm_loop_err]. unfold process_read_mem, vm_readv. destruct (ve a) as [e1|] eqn:V; [intros E; inversion E; subst; right; eauto|]. destruct (prefix m a (N.to_nat len)); intros E; inversion E. left. reflexivity.
Qed.
Lemma umovestr_ok M m ve pe fuel : sane M m -> forall s a len acc, cache_ok M m s -> a + len <= 2 ^ 64 -> a < 2 ^ 64 -> len < 2 ^ 31 -> (N.to_nat len <= fuel)%nat ->
  exists s' r l, umovestr_from M fuel s m ve pe a len acc = Ok (s', (r, l)) /\ cache_ok M m s' /\
  exists n, n <= len /\ l = acc ++ prefix m a (N.to_nat n) /\ readable m a n /\
    (no_fallback ve ->
     (r = (-1)%Z /\ (no_error ve -> fault_at m a len)) \/
     (r = 0%Z /\ n = len /\ no_nul m a len) \/
     (exists k, nul_at m a k /\ k < n /\ r = (Z.of_nat (length acc) + Z.of_N k + 1)%Z)).
Proof.
  intros SN. induction fuel as [|fuel IH]; intros s a len acc K LT LA L31 LF.
  { assert (len = 0) as -> by lia. cbn. exists s, 0%Z, acc. split; [reflexivity|]. split; [exact K|]. exists 0. cbn. rewrite app_nil_r. split; [lia|]. split; [reflexivity|]. split; [intros i L; lia|]. right. left. split; [reflexivity|]. split; [reflexivity|]. intros i L. lia. }
  cbn [umovestr_from]. destruct (N.eqb_spec len 0) as [->|NZ].
  { exists s, 0%Z, acc. split; [reflexivity|]. split; [exact K|]. exists 0. cbn. rewrite app_nil_r. split; [lia|]. split; [reflexivity|]. split; [intros i L; lia|]. right. left. split; [reflexivity|]. split; [reflexivity|]. intros i L. lia. }
  cbv zeta. pose proof (size_pos M) as PZ. set (c0 := if page_size M <? len then page_size M else len). set (ep := N.land _ _). set (c := if ep <? c0 then c0 - ep else c0).
  assert (C0 : 0 < c0 <= len) by (unfold c0; destruct (N.ltb_spec (page_size M) len); lia). clearbody ep. clearbody c0. assert (CL : 0 < c <= len) by (unfold c; destruct (N.ltb_spec ep c0); lia). clearbody c. clear ep c0 C0.
  destruct (vm_read_ok M m ve s a c SN K LA ltac:(lia)) as (s1 & rr & E1 & K1 & _ & G). rewrite E1. cbn [rbind]. destruct rr as [l|e].
  - destruct (good_prefix _ _ _ _ _ G) as (LL & EL & RL). destruct l as [|b0 l0]; [cbn in LL; lia|]. set (l := b0 :: l0) in *. clearbody l. clear b0 l0. set (n := N.of_nat (length l)) in *.
    assert (HL : holds m a l) by (rewrite EL; apply prefix_holds). destruct (find_nul l 0) as [k|] eqn:FN.
    + destruct (scan_some _ _ _ _ _ HL FN) as [NU KB]. rewrite N.sub_0_r in NU. exists s1. eexists _, _. split; [reflexivity|]. split; [exact K1|]. exists n. split; [lia|]. split; [unfold n; rewrite Nat2N.id, <- EL; reflexivity|]. split; [exact RL|]. intros _. right. right. exists k. split; [exact NU|]. split; [lia|reflexivity].
    + pose proof (scan_none _ _ _ _ HL FN) as NN. fold n in NN. destruct (N.eq_dec (len - n) 0) as [Z|Z].
      * rewrite Z. assert (n = len) as NE by lia. exists s1, 0%Z, (acc ++ l). split; [destruct fuel; reflexivity|]. split; [exact K1|]. exists n. split; [lia|]. split; [unfold n; rewrite Nat2N.id, <- EL; reflexivity|]. split; [exact RL|]. intros _. right. left. split; [reflexivity|]. split; [exact NE|]. rewrite <- NE. exact NN.
      * assert (u64 (a + n) = a + n) as -> by (unfold u64; apply N.mod_small; lia). destruct (IH s1 (a + n) (len - n) (acc ++ l) K1) as (s' & r & l' & E & K' & n' & N1 & N2 & N3 & X); [unfold n in *; lia..|]. exists s', r, l'. split; [exact E|]. split; [exact K'|].
        exists (n + n'). split; [lia|]. split; [rewrite N2, <- app_assoc; f_equal; replace (N.to_nat (n + n')) with (length l + N.to_nat n')%nat by (unfold n; lia); rewrite prefix_cat by (rewrite <- EL; reflexivity); rewrite <- EL; reflexivity|]. split; [apply readable_cat; assumption|].
        intros NF. destruct (X NF) as [[-> X']|[(-> & X1 & X2)|(k & X1 & X2 & X3)]].
        -- left. split; [reflexivity|]. intros NE. destruct (X' NE) as (i & I1 & I2 & I3 & I4). exists (n + i). split; [lia|]. split; [rewrite <- I2; f_equal; lia|]. split; [apply no_nul_cat; assumption|apply readable_cat; assumption].
        -- right. left. split; [reflexivity|]. split; [lia|]. replace len with (n + (len - n)) by lia. apply no_nul_cat; assumption.
        -- right. right. exists (n + k). split; [apply nul_cat; assumption|]. split; [lia|]. rewrite app_length in X3. unfold n in *. lia.
  - assert (NOF : no_fallback ve -> (e =? ENOSYS) || (e =? EPERM) = false).
    { intros NF. destruct (vm_read_err _ _ _ _ _ _ _ _ E1) as [->|[x V]]; [reflexivity|]. destruct (NF x). apply orb_false_iff. rewrite !N.eqb_neq. split; congruence. }
    destruct (((e =? ENOSYS) || (e =? EPERM)) && match acc with [] => true | _ => false end) eqn:FB.
    + destruct acc; [|rewrite andb_false_r in FB; discriminate]. unfold umovestr_peekdata. destruct (peekstr_ok M m pe (N.to_nat len) SN a len [] LT ltac:(lia)) as (r & l & E & n & N1 & N2 & N3 & _). rewrite E. cbn [rbind]. exists s1, r, l. split; [reflexivity|]. split; [exact K1|]. exists n. split; [exact N1|]. split; [exact N2|]. split; [exact N3|]. intros NF. rewrite (NOF NF) in FB. discriminate.
    + exists s1, (-1)%Z, acc. split; [reflexivity|]. split; [exact K1|]. exists 0. cbn. rewrite app_nil_r. split; [lia|]. split; [reflexivity|]. split; [intros i L; lia|]. intros _. left. split; [reflexivity|]. intros NE. destruct (G NE) as [_ PN]. exists 0. split; [lia|]. rewrite N.add_0_r. split; [|split; intros i L; lia].
      destruct (m a) eqn:MA; [|reflexivity]. destruct (N.to_nat c) eqn:Z; [lia|]. cbn in PN. rewrite MA in PN. discriminate.
Qed.

(** ** Histories *)
Lemma umoven_ok M m ve pe s a len : sane M m -> cache_ok M m s -> a + len <= 2 ^ 64 -> a < 2 ^ 64 -> len < 2 ^ 31 ->
  exists s' r, umoven M false s m ve pe a len = Ok (s', r) /\ cache_ok M m s' /\
  match r with Some l => l = prefix m a (N.to_nat len) /\ readable m a len | None => no_error ve -> no_error pe -> ~ readable m a len end.
Proof.
  intros SN K LT LA L31. unfold umoven. cbn [tracee_addr_is_invalid andb]. destruct (peekdata_ok M m pe (N.to_nat len) SN a len [] LT ltac:(lia)) as (r & E & R). fold (umoven_peekdata M m pe a len) in E.
  assert (R' : match r with Some l => l = prefix m a (N.to_nat len) /\ readable m a len | None => no_error ve -> no_error pe -> ~ readable m a len end) by (destruct r; auto).
  destruct (nosup s); [rewrite E; exists s, r; auto|]. destruct (N.eq_dec len 0) as [->|NZ].
  { unfold vm_read_mem. cbn. exists s, (Some []). split; [reflexivity|]. split; [exact K|]. split; [reflexivity|]. intros i L. lia. }
  destruct (vm_read_ok M m ve s a len SN K LA ltac:(lia)) as (s1 & rr & E1 & K1 & _ & G). rewrite E1. cbn [rbind]. destruct rr as [l|e].
  - destruct (good_prefix _ _ _ _ _ G) as (LL & EL & RL). destruct (N.eqb_spec (N.of_nat (length l)) len) as [Q|Q].
    + exists s1, (Some l). split; [reflexivity|]. split; [exact K1|]. rewrite Q in RL. split; [|exact RL]. rewrite <- Q, Nat2N.id. exact EL.
    + destruct (N.ltb_spec (N.of_nat (length l)) 2147483648) as [H|H]; [|lia]. exists s1, None. split; [reflexivity|]. split; [exact K1|]. intros NE _ RA. destruct G as (_ & _ & G). specialize (G NE). apply Q. rewrite G. rewrite prefix_full; [lia|]. intros i L. apply RA. lia.
  - destruct (N.eqb_spec len 4294967295); [lia|]. destruct (_ || _).
    + rewrite E. cbn [rbind]. exists s1, r. auto.
    + exists s1, None. split; [reflexivity|]. split; [exact K1|]. intros NE _ RA. destruct (G NE) as [_ PN]. apply (f_equal (@length N)) in PN. rewrite prefix_full in PN; [cbn in PN; lia|]. intros i L. apply RA. lia.
Qed.
Lemma umovestr_cache M m ve pe s a len : sane M m -> cache_ok M m s -> a + len <= 2 ^ 64 -> a < 2 ^ 64 -> len < 2 ^ 31 -> exists s' r, umovestr M false s m ve pe a len = Ok (s', r) /\ cache_ok M m s'.
Proof.
  intros SN K LT LA L31. unfold umovestr. cbn [tracee_addr_is_invalid andb]. destruct (nosup s).
  - destruct (peekstr_ok M m pe (N.to_nat len) SN a len [] LT ltac:(lia)) as (r & l & E & _). unfold umovestr_peekdata. rewrite E. cbn [rbind]. eauto.
  - destruct (umovestr_ok M m ve pe (N.to_nat len) SN s a len [] K LT LA L31 ltac:(lia)) as (s' & r & l & E & K' & _). eauto.
Qed.
(** the cache is as it must be unless data was poked since the last event *)
Lemma urun_cache M os : forall d s m s' m', Forall (uop_ok M) os -> (d = false -> sane M m /\ cache_ok M m s) -> urun M (s, m) os = Ok (s', m') -> poked d os = false -> sane M m' /\ cache_ok M m' s'.
Proof.
  induction os as [|o os IH]; intros d s m s' m' F K E PK; cbn [urun] in E; [inversion E; subst; apply K; exact PK|]. inversion F as [|x y OK F']; subst x y. apply rbind_ok in E as ([s1 m1] & E1 & E). destruct o as [ve pe a len|ve pe a len|a l|m2]; cbn [ustep poked uop_ok] in *.
  - apply rbind_ok in E1 as ([s2 r] & E1 & E2). inversion E2; subst s2 m1. eapply (IH d); [exact F'| |exact E|exact PK]. intros ->. destruct (K eq_refl) as [SN C]. destruct (umoven_ok M m ve pe s a len SN C) as (s3 & r3 & E3 & C3 & _); [apply OK..|]. rewrite E3 in E1. inversion E1; subst. auto.
  - apply rbind_ok in E1 as ([s2 r] & E1 & E2). inversion E2; subst s2 m1. eapply (IH d); [exact F'| |exact E|exact PK]. intros ->. destruct (K eq_refl) as [SN C]. destruct (umovestr_cache M m ve pe s a len SN C) as (s3 & r3 & E3 & C3); [apply OK..|]. rewrite E3 in E1. inversion E1; subst. auto.
  - inversion E1; subst s1 m1. eapply (IH true); eauto. discriminate.
  - inversion E1; subst s1 m1. eapply (IH false); eauto. intros _. split; [exact OK|]. unfold cache_ok. exact I.
Qed.

(** ** Writing *)
Lemma nth_skipn_ {A} k (l : list A) i d : nth i (skipn k l) d = nth (k + i) l d.
Proof. revert l. induction k as [|k IH]; intros l; [reflexivity|]. destruct l; [destruct i; reflexivity|]. cbn. apply IH. Qed.
Lemma nth_firstn_ {A} k (l : list A) i d : (i < k)%nat -> nth i (firstn k l) d = nth i l d.
Proof. revert l i. induction k as [|k IH]; intros l i L; [lia|]. destruct l; [reflexivity|]. destruct i; [reflexivity|]. cbn. apply IH. lia. Qed.
Definition meq (m m' : mem) : Prop := forall x, m x = m' x.
Lemma write_cat m a l l' : meq (write (write m a l) (a + N.of_nat (length l)) l') (write m a (l ++ l')).
Proof.
  intros x. unfold write. rewrite app_length. destruct (N.leb_spec (a + N.of_nat (length l)) x), (N.ltb_spec x (a + N.of_nat (length l) + N.of_nat (length l'))), (N.leb_spec a x), (N.ltb_spec x (a + N.of_nat (length l))), (N.ltb_spec x (a + N.of_nat (length l + length l'))); cbn [andb]; try lia; auto.
  - rewrite app_nth2 by lia. do 2 f_equal. lia.
  - rewrite app_nth1 by lia. reflexivity.
Qed.
Lemma write_meq m m' a l : meq m m' -> meq (write m a l) (write m' a l). Proof. intros H x. unfold write. rewrite H. reflexivity. Qed.
Lemma peek_some M m pe b u : peek M m pe b = Some u -> u = prefix m b (N.to_nat (long_size M)) /\ length u = N.to_nat (long_size M).
Proof. unfold peek. destruct (pe b); [discriminate|]. destruct (N.eqb_spec (N.of_nat (length (prefix m b (N.to_nat (long_size M))))) (long_size M)) as [E|E]; [|discriminate]. intros H. inversion H; subst. split; [reflexivity|lia]. Qed.
Lemma peekpoke_ok M m pe wr b l off m' : upoken_peekpoke M m pe wr b l off = Some m' -> off + N.of_nat (length l) <= long_size M -> meq m' (write m (b + off) l).
Proof.
  unfold upoken_peekpoke. destruct (peek M m pe b) as [u|] eqn:PK; [|discriminate]. apply peek_some in PK as [EU LU]. unfold poke. destruct (wr b); [|discriminate]. intros E LE. inversion E; subst m'; clear E. intros x. unfold write.
  set (w := firstn (N.to_nat off) u ++ l ++ skipn (N.to_nat off + length l) u). assert (LW : length w = N.to_nat (long_size M)) by (unfold w; rewrite !app_length, firstn_length, skipn_length, LU; lia). rewrite LW, N2Nat.id.
  assert (MX : b <= x < b + long_size M -> m x = Some (nth (N.to_nat (x - b)) u 0)) by (intros H; rewrite EU; rewrite <- prefix_nth by (rewrite <- EU; lia); f_equal; lia).
  destruct (N.leb_spec b x), (N.ltb_spec x (b + long_size M)), (N.leb_spec (b + off) x), (N.ltb_spec x (b + off + N.of_nat (length l))); cbn [andb]; try lia; try reflexivity.
  - unfold w. rewrite app_nth2; rewrite firstn_length; [|lia]. rewrite app_nth1 by lia. do 2 f_equal. lia.
  - rewrite MX by lia. unfold w. rewrite app_nth2; rewrite firstn_length; [|lia]. rewrite app_nth2 by lia. rewrite (nth_skipn_ (N.to_nat off + length l)). do 2 f_equal. lia.
  - rewrite MX by lia. unfold w. rewrite app_nth1 by (rewrite firstn_length; lia). rewrite nth_firstn_ by lia. reflexivity.
Qed.
Lemma write_nil m a : meq (write m a []) m.
Proof. intros x. unfold write. cbn [length]. destruct (N.leb_spec a x), (N.ltb_spec x (a + N.of_nat 0)); cbn; try reflexivity; lia. Qed.
Lemma write_some m a l x : m x <> None -> write m a l x <> None.
Proof. unfold write. destruct (_ && _); [discriminate|auto]. Qed.
Lemma meq_trans a b c : meq a b -> meq b c -> meq a c. Proof. intros H K x. rewrite H. apply K. Qed.
Lemma peek_full M m pe b : no_error pe -> (forall i, i < long_size M -> m (b + i) <> None) -> exists u, peek M m pe b = Some u.
Proof. intros NE H. unfold peek. rewrite NE. rewrite prefix_full by (intros i L; apply H; lia). rewrite N2Nat.id, N.eqb_refl. eauto. Qed.
Lemma words_ok M wr fuel : forall m a l nw m' nw' rest, (length l <= fuel)%nat -> a + N.of_nat (length l) <= 2 ^ 64 -> pokedata_words M fuel m wr a l nw = (m', nw', rest) ->
  exists l1 l2, l = l1 ++ l2 /\ nw' = nw + N.of_nat (length l1) /\ meq m' (write m a l1) /\
  match rest with Some (a', l') => l' = l2 /\ (l2 <> [] -> a' = a + N.of_nat (length l1)) /\ N.of_nat (length l2) < long_size M /\ N.of_nat (length l1) mod long_size M = 0 | None => exists x, wr x = false end.
Proof.
  pose proof (lsize_pos M) as LP. induction fuel as [|fuel IH]; intros m a l nw m' nw' rest LF LT E; cbn [pokedata_words] in E.
  - destruct (N.ltb_spec (N.of_nat (length l)) (long_size M)); [|lia]. inversion E; subst. exists [], l. cbn. split; [reflexivity|]. split; [lia|]. split; [intros x; symmetry; apply write_nil|]. split; [reflexivity|]. split; [intros _; lia|]. split; [assumption|]. apply N.mod_0_l. lia.
  - destruct (N.ltb_spec (N.of_nat (length l)) (long_size M)) as [H|H].
    + inversion E; subst. exists [], l. cbn. split; [reflexivity|]. split; [lia|]. split; [intros x; symmetry; apply write_nil|]. split; [reflexivity|]. split; [intros _; lia|]. split; [assumption|]. apply N.mod_0_l. lia.
    + unfold poke in E. destruct (wr a) eqn:W.
      * set (h := firstn (N.to_nat (long_size M)) l) in *. set (t := skipn (N.to_nat (long_size M)) l) in *. assert (HL : length h = N.to_nat (long_size M)) by (unfold h; rewrite firstn_length; lia). assert (TL : length t = (length l - N.to_nat (long_size M))%nat) by (unfold t; apply skipn_length).
        assert (LE : l = h ++ t) by (unfold h, t; symmetry; apply firstn_skipn). destruct t as [|b0 t0] eqn:ET.
        -- assert (X : pokedata_words M fuel (write m a h) wr (u64 (a + long_size M)) [] (nw + long_size M) = (write m a h, nw + long_size M, Some (u64 (a + long_size M), []))) by (destruct fuel; cbn [pokedata_words length]; destruct (N.ltb_spec (N.of_nat 0) (long_size M)); try lia; reflexivity).
           rewrite X in E. inversion E; subst m' nw' rest. exists h, []. split; [exact LE|]. split; [lia|]. split; [intros x; reflexivity|]. split; [reflexivity|]. split; [congruence|]. split; [cbn; lia|]. rewrite HL, N2Nat.id. apply N.mod_same. lia.
        -- rewrite <- ET in *. assert (0 < length t)%nat by (rewrite ET; cbn; lia). assert (u64 (a + long_size M) = a + long_size M) as U by (unfold u64; apply N.mod_small; lia). rewrite U in E. apply IH in E as (l1 & l2 & E1 & E2 & E3 & E4); [|lia|lia].
           exists (h ++ l1), l2. rewrite <- app_assoc, <- E1. split; [exact LE|]. rewrite app_length. split; [lia|]. split; [eapply meq_trans; [exact E3|]; replace (a + long_size M) with (a + N.of_nat (length h)) by lia; apply write_cat|]. destruct rest as [[a' l']|]; [|exact E4]. destruct E4 as (-> & E5 & E6 & E7). split; [reflexivity|]. split; [intros X; rewrite E5 by exact X; lia|]. split; [exact E6|].
           rewrite HL. replace (N.of_nat (N.to_nat (long_size M) + length l1)) with (N.of_nat (length l1) + 1 * long_size M) by lia. rewrite N.mod_add by lia. exact E7.
      * inversion E; subst. exists [], l. cbn. split; [reflexivity|]. split; [lia|]. split; [intros x; symmetry; apply write_nil|]. eauto.
Qed.
(** the words that [a, a+len) touches can be read *)
Definition words_readable (M : mach) (m : mem) (a len : N) : Prop := forall x, align M a <= x -> align M x < a + len -> m x <> None.
Lemma align_base M b i : residue_of M b = 0 -> i < long_size M -> align M (b + i) = b.
Proof.
  intros R L. pose proof (lsize_pos M). pose proof (align_residue M b) as [AR _]. rewrite R, N.add_0_r, align_div in AR. rewrite align_div. set (q := b / long_size M) in AR. clearbody q. rewrite <- AR. rewrite N.div_add_l by lia. rewrite (N.div_small i) by lia. lia.
Qed.
Lemma pokedata_ok M m pe wr a l m' n : a + N.of_nat (length l) <= 2 ^ 64 -> upoken_pokedata M m pe wr a l = (m', n) ->
  n <= N.of_nat (length l) /\ meq m' (write m a (firstn (N.to_nat n) l)) /\
  ((forall x, wr x = true) -> no_error pe -> words_readable M m a (N.of_nat (length l)) -> n = N.of_nat (length l)).
Proof.
  intros LT E. pose proof (lsize_pos M) as LP. unfold upoken_pokedata in E. destruct (align_residue M a) as [AR RL]. destruct (align_next M a) as [AN AZ].
  set (head := match l with [] => _ | _ => _ end) in E.
  assert (H : exists h t m1, l = h ++ t /\ meq m1 (write m a h) /\
    match head with
    | (m2, nw, Some (a', l')) => m2 = m1 /\ nw = N.of_nat (length h) /\ l' = t /\ (t <> [] -> a' = a + N.of_nat (length h) /\ residue_of M a' = 0)
    | (m2, nw, None) => m2 = m /\ nw = 0 /\ ~ ((forall x, wr x = true) /\ no_error pe /\ words_readable M m a (N.of_nat (length l)))
    end).
  { unfold head. destruct l as [|b0 l0]; [exists [], [], m; cbn; split; [reflexivity|]; split; [intros x; symmetry; apply write_nil|]; split; [reflexivity|]; split; [reflexivity|]; split; [reflexivity|]; congruence|].
    set (l := b0 :: l0) in *. assert (L0 : (0 < length l)%nat) by (cbn; lia). clearbody l. destruct (N.eqb_spec (residue_of M a) 0) as [Z|Z].
    - exists [], l, m. cbn. split; [reflexivity|]. split; [intros x; symmetry; apply write_nil|]. split; [reflexivity|]. split; [reflexivity|]. split; [reflexivity|]. intros _. split; [lia|exact Z].
    - set (k := N.min (long_size M - residue_of M a) (N.of_nat (length l))). assert (KL : 0 < k /\ k <= N.of_nat (length l) /\ residue_of M a + k <= long_size M) by (unfold k; lia). set (h := firstn (N.to_nat k) l). set (t := skipn (N.to_nat k) l).
      assert (HL : length h = N.to_nat k) by (unfold h; rewrite firstn_length; lia). assert (TL : length t = (length l - N.to_nat k)%nat) by (unfold t; apply skipn_length). assert (LE : l = h ++ t) by (unfold h, t; symmetry; apply firstn_skipn).
      destruct (upoken_peekpoke M m pe wr (align M a) h (residue_of M a)) as [m1|] eqn:PP.
      + exists h, t, m1. split; [exact LE|]. apply peekpoke_ok in PP; [|lia]. rewrite AR in PP. split; [exact PP|]. split; [reflexivity|]. split; [lia|]. split; [reflexivity|]. intros TN. assert (0 < length t)%nat by (destruct t; [congruence|cbn; lia]). assert (align M a + long_size M = a + k) as AK by (unfold k in *; lia).
        assert (u64 (align M a + long_size M) = align M a + long_size M) as -> by (unfold u64; apply N.mod_small; lia). split; [lia|exact AN].
      + exists h, t, (write m a h). split; [exact LE|]. split; [intros x; reflexivity|]. split; [reflexivity|]. split; [reflexivity|]. intros (W & NE & WR). unfold upoken_peekpoke in PP. destruct (peek_full M m pe (align M a) NE) as (u & PU); [|rewrite PU in PP; unfold poke in PP; rewrite W in PP; discriminate].
        intros i LI. apply WR; [lia|]. rewrite align_base by assumption. lia. }
  destruct H as (h & t & m1 & LE & M1 & H). clearbody head. destruct head as [[m2 nw] [[a' l']|]].
  2:{ destruct H as (-> & -> & H). inversion E; subst. cbn. split; [lia|]. split; [intros x; symmetry; apply write_nil|]. intros W NE WR. exfalso. apply H. auto. }
  destruct H as (-> & -> & -> & AD). destruct (pokedata_words M (length t) m1 wr a' t (N.of_nat (length h))) as [[m3 nw'] rest] eqn:PW.
  assert (LL : length l = (length h + length t)%nat) by (rewrite LE, app_length; reflexivity).
  destruct t as [|b0 t0] eqn:ET.
  { rewrite app_nil_r in LE. cbn [length pokedata_words] in PW. destruct (N.ltb_spec (N.of_nat 0) (long_size M)); [|cbn in *; lia]. inversion PW; subst m3 nw' rest. inversion E; subst m' n. rewrite Nat2N.id, LE, firstn_all. split; [lia|]. split; [exact M1|reflexivity]. }
  rewrite <- ET in *. destruct (AD ltac:(rewrite ET; discriminate)) as [-> RZ]. apply words_ok in PW; [|lia|rewrite LL in LT; lia]. destruct PW as (l1 & l2 & E1 & -> & M3 & R).
  assert (L12 : length t = (length l1 + length l2)%nat) by (rewrite E1, app_length; reflexivity).
  assert (M3' : meq m3 (write m a (h ++ l1))) by (eapply meq_trans; [exact M3|]; eapply meq_trans; [apply write_meq; exact M1|apply write_cat]).
  assert (F12 : forall n, N.to_nat n = length (h ++ l1) -> firstn (N.to_nat n) l = h ++ l1) by (intros q ->; rewrite LE, E1, app_assoc, firstn_app, Nat.sub_diag, firstn_all; cbn; apply app_nil_r).
  destruct rest as [[a2 l2']|].
  2:{ inversion E; subst m' n. split; [lia|]. split; [rewrite F12 by (rewrite app_length; lia); exact M3'|]. intros W. destruct R as [x R]. rewrite W in R. discriminate. }
  destruct R as (-> & AD2 & SH & MZ). destruct l2 as [|c0 l3] eqn:EL2.
  { inversion E; subst m' n. cbn [length] in L12. split; [lia|]. split; [rewrite F12 by (rewrite app_length; lia); exact M3'|]. intros _ _ _. lia. }
  rewrite <- EL2 in *. rewrite (AD2 ltac:(rewrite EL2; discriminate)) in E. assert (L20 : (0 < length l2)%nat) by (rewrite EL2; cbn; lia). clear EL2 c0 l3 ET.
  destruct (upoken_peekpoke M m3 pe wr (a + N.of_nat (length h) + N.of_nat (length l1)) l2 0) as [m4|] eqn:PP; inversion E; subst m' n; clear E.
  - apply peekpoke_ok in PP; [|lia]. rewrite N.add_0_r in PP. split; [lia|]. split; [|intros _ _ _; lia]. rewrite firstn_all2 by lia. rewrite LE, E1, app_assoc. eapply meq_trans; [exact PP|]. eapply meq_trans; [apply write_meq; exact M3'|]. replace (a + N.of_nat (length h) + N.of_nat (length l1)) with (a + N.of_nat (length (h ++ l1))) by (rewrite app_length; lia). apply write_cat.
  - split; [lia|]. split; [rewrite F12 by (rewrite app_length; lia); exact M3'|]. intros W NE WR. exfalso. unfold upoken_peekpoke in PP. set (b := a + N.of_nat (length h) + N.of_nat (length l1)) in *.
    assert (RB : residue_of M b = 0) by (unfold b; rewrite residue_mod in *; rewrite <- N.add_mod_idemp_l by lia; rewrite RZ, N.add_0_l; exact MZ).
    destruct (peek_full M m3 pe b NE) as (u & PU); [|rewrite PU in PP; unfold poke in PP; rewrite W in PP; discriminate]. intros i LI. rewrite M3'. apply write_some. apply WR; [unfold b; lia|]. rewrite align_base by assumption. unfold b. lia.
Qed.
Lemma wprefix_pre wr l : forall a, wprefix wr a l = firstn (length (wprefix wr a l)) l.
Proof. induction l as [|b l IH]; intros a; [reflexivity|]. cbn [wprefix]. destruct (wr a); [|reflexivity]. cbn [length firstn]. f_equal. apply IH. Qed.
Lemma wprefix_all wr l : forall a, (forall i, i < N.of_nat (length l) -> wr (a + i) = true) -> wprefix wr a l = l.
Proof. induction l as [|b l IH]; intros a H; [reflexivity|]. cbn [wprefix]. rewrite <- (N.add_0_r a) at 1. rewrite H by (cbn; lia). f_equal. apply IH. intros i L. rewrite <- N.add_assoc. apply H. cbn [length]. lia. Qed.
Lemma upoken_ok M short nw m pe wr vwr we a l m' nw' n : a + N.of_nat (length l) <= 2 ^ 64 -> upoken M short nw m pe wr vwr we a l = (m', nw', n) ->
  n <= N.of_nat (length l) /\ meq m' (write m a (firstn (N.to_nat n) l)).
Proof.
  intros LT E. unfold upoken in E. assert (Z : meq m (write m a (firstn (N.to_nat 0) l))) by (cbn; intros x; symmetry; apply write_nil).
  assert (K : forall m1 n1, upoken_pokedata M m pe wr a l = (m1, n1) -> n1 <= N.of_nat (length l) /\ meq m1 (write m a (firstn (N.to_nat n1) l))) by (intros m1 n1 E1; destruct (pokedata_ok _ _ _ _ _ _ _ _ LT E1) as (? & ? & _); auto).
  destruct (tracee_addr_is_invalid short a); [inversion E; subst; split; [lia|exact Z]|].
  destruct (upoken_pokedata M m pe wr a l) as [m1 n1]. specialize (K _ _ eq_refl). destruct nw; [inversion E; subst; exact K|]. destruct we as [e|].
  - destruct (_ || _ || _ || _); inversion E; subst; [exact K|split; [lia|exact Z]].
  - destruct l as [|b l]; [inversion E; subst; split; [lia|exact Z]|]. pose proof (wprefix_pre vwr (b :: l) a) as W. destruct (wprefix vwr a (b :: l)) as [|c r] eqn:EW; [inversion E; subst; exact K|]. assert (W2 : (length (c :: r) <= length (b :: l))%nat) by (rewrite W, firstn_length; lia). set (w := c :: r) in *. clearbody w. inversion E; subst. rewrite Nat2N.id. rewrite <- W. split; [lia|intros x; reflexivity].
Qed.
