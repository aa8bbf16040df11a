(** Proofs about the iteration over the sparse map. *)
From Coq Require Import Sorted.
From Verif Require Import Base TrieModel TrieProofs.
Local Open Scope N_scope.

(** ** Ranges *)
Lemma nseq_length n : forall a, length (nseq a n) = n. Proof. induction n; intros a; cbn; auto. Qed.
Lemma nseq_in n : forall a x, In x (nseq a n) <-> a <= x < a + N.of_nat n.
Proof. induction n as [|n IH]; intros a x; cbn [nseq In]; [lia|]. rewrite IH. lia. Qed.
Lemma nseq_app n m : forall a, nseq a (n + m) = nseq a n ++ nseq (a + N.of_nat n) m.
Proof.
  induction n as [|n IH]; intros a; cbn [nseq Nat.add app]; [f_equal; lia|]. rewrite IH. do 3 f_equal. lia.
Qed.
Lemma nseq_shift n : forall a b, nseq (b + a) n = map (fun i => b + i) (nseq a n).
Proof. induction n as [|n IH]; intros a b; cbn [nseq map]; [reflexivity|]. f_equal. rewrite <- IH. f_equal. lia. Qed.
Lemma nseq_sorted n : forall a, StronglySorted N.lt (nseq a n).
Proof.
  induction n as [|n IH]; intros a; cbn [nseq]; constructor; auto. apply Forall_forall. intros x Hx. apply nseq_in in Hx. lia.
Qed.
Lemma range_in a b x : In x (range a b) <-> a <= x <= b.
Proof. unfold range. rewrite nseq_in. lia. Qed.
Lemma range_split a c b : a <= c + 1 -> c <= b -> range a b = range a c ++ range (c + 1) b.
Proof.
  intros H1 H2. unfold range. replace (N.to_nat (b + 1 - a)) with (N.to_nat (c + 1 - a) + N.to_nat (b + 1 - (c + 1)))%nat by lia.
  rewrite nseq_app. do 2 f_equal. lia.
Qed.
Lemma rmap_ok {A B} (f : A -> res B) (g : A -> B) l : (forall x, In x l -> f x = Ok (g x)) -> rmap f l = Ok (map g l).
Proof.
  induction l as [|x l IH]; intros H; cbn [rmap map]; [reflexivity|]. rewrite H by (left; reflexivity). cbn [rbind]. rewrite IH by (intros; apply H; right; assumption). reflexivity.
Qed.
Lemma div_bounds x c q : c <> 0 -> x / c = q <-> q * c <= x < (q + 1) * c.
Proof.
  intros Hc. split.
  - intros <-. pose proof (N.div_mod x c Hc). pose proof (N.mod_lt x c Hc). nia.
  - intros H. symmetry. apply (N.div_unique x c q (x - q * c)); lia.
Qed.
(** a range cut along multiples of [c] *)
Lemma range_cut c e : c <> 0 -> forall m j s, s / c = j -> e / c = j + N.of_nat m -> s <= e ->
  range s e = concat (map (fun i => range (N.max s (i * c)) (N.min e ((i + 1) * c - 1))) (nseq j (S m))).
Proof.
  intros Hc. induction m as [|m IH]; intros j s Hs He Hle.
  - cbn [nseq map concat]. rewrite app_nil_r. apply div_bounds in Hs, He; auto. f_equal; lia.
  - apply (div_bounds s) in Hs; auto. pose proof He as He'. apply div_bounds in He'; auto.
    assert (A : (j + 1) * c <= e) by nia.
    change (nseq j (S (S m))) with (j :: nseq (j + 1) (S m)). cbn [map concat]. rewrite (range_split s ((j + 1) * c - 1) e) by nia.
    replace (N.max s (j * c)) with s by lia. replace (N.min e ((j + 1) * c - 1)) with ((j + 1) * c - 1) by lia. f_equal.
    replace ((j + 1) * c - 1 + 1) with ((j + 1) * c) by nia.
    rewrite (IH (j + 1) ((j + 1) * c)); [|apply N.div_mul; exact Hc|rewrite He; lia|exact A].
    f_equal. apply map_ext_in. intros i Hi. apply nseq_in in Hi.
    assert ((j + 1) * c <= i * c) by (apply N.mul_le_mono_r; lia). f_equal. lia.
Qed.
Lemma filter_id {A} (f : A -> bool) l : (forall x, f x = true) -> filter f l = l.
Proof. intros H. induction l as [|x l IH]; cbn; [reflexivity|]. rewrite H, IH. reflexivity. Qed.
Lemma filter_concat {A} (f : A -> bool) l : filter f (concat l) = concat (map (filter f) l).
Proof. induction l as [|x l IH]; cbn; [reflexivity|]. rewrite filter_app, IH. reflexivity. Qed.
Lemma ldiff_mask a n : n <= 64 -> a < 2 ^ 64 -> N.ldiff a (mask64_safe n) = a / 2 ^ n * 2 ^ n.
Proof.
  intros Hn Ha. assert (E : mask64_safe n = N.ones n).
  { unfold mask64_safe. destruct (N.ltb_spec n 64); [rewrite N.ones_equiv, N.sub_1_r; reflexivity|]. replace n with 64 by lia. reflexivity. }
  rewrite E, N.ldiff_ones_r, N.shiftr_div_pow2, N.shiftl_mul_pow2. reflexivity.
Qed.

Lemma child_start_eq b i c e : (b + i) * c <= e -> e < 2 ^ 64 -> u64 (b * c + u64 (i * c)) = (b + i) * c.
Proof. intros H1 H2. unfold u64. rewrite N.add_mod_idemp_r by discriminate. rewrite <- N.mul_add_distr_r. apply N.mod_small. lia. Qed.
Lemma child_end_eq b i c : c <> 0 -> (b + i + 1) * c <= 2 ^ 64 -> u64 (b * c + u64 ((i + 1) * c) + 2 ^ 64 - 1) = (b + i + 1) * c - 1.
Proof.
  intros Hc. replace ((b + i + 1) * c) with (b * c + (i + 1) * c) by lia. assert (P : 1 <= (i + 1) * c) by nia.
  generalize dependent ((i + 1) * c). intros x P. generalize (b * c). intros a L. unfold u64.
  destruct (N.eq_dec x (2 ^ 64)) as [->|Ne].
  - assert (a = 0) by lia. subst. reflexivity.
  - rewrite (N.mod_small x) by lia. symmetry. apply (N.mod_unique _ _ 1); lia.
Qed.
Lemma child_range b si ei i c s e : c <> 0 -> si <= i <= ei -> s <= e -> (b + si) * c <= s < (b + si + 1) * c -> (b + ei) * c <= e < (b + ei + 1) * c ->
  let cs := N.max s ((b + i) * c) in let ce := N.min e ((b + i + 1) * c - 1) in
  cs <= ce /\ cs / c = b + i /\ ce / c = b + i /\ (b + i) * c <= e.
Proof.
  intros Hc Hi Hse Hs He. cbv zeta. rewrite !(div_bounds _ c (b + i) Hc).
  assert ((b + si) * c <= (b + i) * c) by (apply N.mul_le_mono_r; lia). assert ((b + i) * c <= (b + ei) * c) by (apply N.mul_le_mono_r; lia).
  assert ((b + si + 1) * c <= (b + i + 1) * c) by (apply N.mul_le_mono_r; lia).
  assert (EXP : (b + i + 1) * c = (b + i) * c + c) by lia. rewrite EXP in *.
  generalize dependent ((b + i) * c). generalize dependent ((b + si) * c). generalize dependent ((b + ei) * c). intros. clear Hi. lia.
Qed.
Lemma top_le q c o e : c = 2 ^ o -> o <= 64 -> e < 2 ^ 64 -> e / c = q -> (q + 1) * c <= 2 ^ 64.
Proof.
  intros -> Ho He Hq. assert (P64 : 2 ^ 64 = 2 ^ (64 - o) * 2 ^ o) by (rewrite <- N.pow_add_r; f_equal; lia). rewrite P64. apply N.mul_le_mono_r.
  assert (q < 2 ^ (64 - o)); [|lia]. rewrite <- Hq. apply N.div_lt_upper_bound; [apply N.pow_nonzero; lia|]. rewrite N.mul_comm, <- P64. exact He.
Qed.

Section Iter.
Variable p : N.
Variable t : trie.
Hypothesis G : geom p t.

Definition pres (fuel : nat) (d : N) (n : node) (key : N) : bool :=
  match find_block fuel p t key d n with Ok (Some _) => true | _ => false end.
Definition valn (fuel : nat) (d : N) (n : node) (key : N) : N :=
  match V p t fuel d n key with Ok v => v | _ => 0 end.
Definition visits (fuel : nat) (d : N) (n : node) (l : list N) : list (N * N) :=
  map (fun k => (k, valn fuel d n k)) (filter (pres fuel d n) l).

Lemma visits_ext fuel d n fuel' d' n' l : (forall k, In k l -> pres fuel d n k = pres fuel' d' n' k /\ valn fuel d n k = valn fuel' d' n' k) ->
  visits fuel d n l = visits fuel' d' n' l.
Proof.
  intros H. unfold visits. induction l as [|k l IH]; [reflexivity|]. cbn [filter]. destruct (H k ltac:(left; reflexivity)) as [H1 H2]. rewrite H1.
  specialize (IH ltac:(intros; apply H; right; assumption)). destruct (pres fuel' d' n' k); [|exact IH]. cbn [map]. rewrite H2, IH. reflexivity.
Qed.
Lemma visits_length fuel d n l : (length (visits fuel d n l) <= length l)%nat.
Proof. unfold visits. rewrite map_length. induction l as [|x l IH]; cbn; [lia|]. destruct (pres _ _ _ x); cbn; lia. Qed.
Lemma visits_app fuel d n l l' : visits fuel d n (l ++ l') = visits fuel d n l ++ visits fuel d n l'.
Proof. unfold visits. rewrite filter_app, map_app. reflexivity. Qed.
Lemma visits_concat fuel d n ls : visits fuel d n (concat ls) = concat (map (visits fuel d n) ls).
Proof. induction ls as [|l ls IH]; [reflexivity|]. cbn [concat map]. rewrite visits_app, IH. reflexivity. Qed.

Lemma iter_ok fuel : forall d n s e, d <= max_depth t -> (N.to_nat (max_depth t - d) < fuel)%nat -> wf t d n ->
  s <= e -> e < 2 ^ 64 - 1 \/ key_size t < 64 /\ e < 2 ^ 64 -> (key_size t < 64 -> e < 2 ^ key_size t) -> s / 2 ^ hi t d = e / 2 ^ hi t d ->
  iterate_node fuel p t n s e d = Ok (visits fuel d n (range s e), N.of_nat (length (visits fuel d n (range s e)))).
Proof.
  induction fuel as [|f IH]; intros d n s e Hd Hf WF Hse He Hk Hsame; [lia|].
  assert (Hk2 : e < 2 ^ 64 - 1).
  { destruct He as [|[He _]]; [assumption|]. specialize (Hk He). assert (2 ^ key_size t <= 2 ^ 63) by (apply N.pow_le_mono_r; lia). lia. }
  assert (E1 : (e <? s) = false) by (apply N.ltb_ge; exact Hse).
  assert (E2 : (if key_size t <? 64 then N.min e (2 ^ key_size t - 1) else e) = e).
  { destruct (N.ltb_spec (key_size t) 64) as [C|C]; [|reflexivity]. specialize (Hk C). lia. }
  cbn [iterate_node]. rewrite E1, E2. clear E1 E2. inversion WF; subst.
  - assert (X : forall l, visits (S f) d Null l = []) by (induction l as [|k l IHl]; [reflexivity|exact IHl]). rewrite X. reflexivity.
  - rewrite eqb_false by lia.
    assert (PO : (if d =? 0 then key_size t else node_bit_offs p t (d - 1)) = hi t d).
    { destruct (N.eqb_spec d 0) as [->|Z]; [symmetry; eapply hi0; eauto|]. rewrite (offs_eq p t G) by lia. f_equal. lia. }
    rewrite PO. rewrite (offs_eq p t G d) by assumption. pose proof (hi_step t d H) as HS. pose proof (width_ok p t G d H) as (W1 & W2 & W3).
    pose proof (hi_lt p t G d H) as HL. pose proof (hi_le p t G d Hd) as HH. pose proof (g_ks _ _ G) as HK.
    set (h := hi t d) in *. set (o := hi t (d + 1)) in *. set (w := width t d) in *.
    assert (UW : u8 (h + 256 - o) = w) by (unfold u8; replace (h + 256 - o) with (w + 1 * 2 ^ 8) by (change (2^8) with 256; lia); rewrite N.mod_add by discriminate; apply N.mod_small; change (2^8) with 256; lia).
    rewrite UW. assert (MW : mask64_safe w = 2 ^ w - 1) by (unfold mask64_safe; replace (w <? 64) with true by (symmetry; apply N.ltb_lt; lia); reflexivity).
    rewrite MW. unfold shr64, bit64. replace (o <? 64) with true by (symmetry; apply N.ltb_lt; exact HL). cbn [rbind].
    rewrite !land_mask, !N.shiftr_div_pow2. rewrite ldiff_mask by lia.
    change ((s / 2 ^ o) mod 2 ^ w) with (cpos t d s). change ((e / 2 ^ o) mod 2 ^ w) with (cpos t d e).
    pose proof (key_split t d s H) as KS. pose proof (key_split t d e H) as KE. fold o h w in KS, KE. rewrite <- Hsame in KE.
    set (base := s / 2 ^ h * 2 ^ w) in *. set (si := cpos t d s) in *. set (ei := cpos t d e) in *.
    assert (CP : 2 ^ o <> 0) by (apply N.pow_nonzero; lia). set (c2 := 2 ^ o) in *.
    assert (FB : s / 2 ^ h * 2 ^ h = base * c2) by (unfold base, c2; rewrite HS, N.pow_add_r; lia).
    rewrite FB.
    assert (SI : si <= ei).
    { assert (s / c2 <= e / c2) by (apply N.div_le_mono; assumption). lia. }
    assert (EW : ei < 2 ^ w) by (apply cpos_lt).
    pose proof (proj1 (div_bounds e c2 (base + ei) CP) KE) as BE. pose proof (proj1 (div_bounds s c2 (base + si) CP) KS) as BS.
    assert (TOP : (base + ei + 1) * c2 <= 2 ^ 64) by (apply (top_le _ c2 o e); [reflexivity|lia|lia|exact KE]).
    set (g := fun i => (visits f (d + 1) (c i) (range (N.max s ((base + i) * c2)) (N.min e ((base + i + 1) * c2 - 1))),
                        N.of_nat (length (visits f (d + 1) (c i) (range (N.max s ((base + i) * c2)) (N.min e ((base + i + 1) * c2 - 1))))))).
    assert (CH : forall i, si <= i <= ei ->
      let cs := N.max s ((base + i) * c2) in let ce := N.min e ((base + i + 1) * c2 - 1) in cs <= ce /\ cs / c2 = base + i /\ ce / c2 = base + i /\ (base + i) * c2 <= e).
    { intros i Hi. apply (child_range base si ei); assumption. }
    rewrite (rmap_ok _ g).
    2:{ intros i Hi. apply range_in in Hi. destruct (CH i Hi) as (C1 & C2 & C3 & I1). clear CH.
      assert (I2 : (base + i + 1) * c2 <= 2 ^ 64) by (eapply N.le_trans; [|exact TOP]; apply N.mul_le_mono_r; clear -Hi; lia).
      assert (U1 : u64 (base * c2 + u64 (i * c2)) = (base + i) * c2) by (apply (child_start_eq _ _ _ e); [exact I1|clear -Hk2; lia]).
      assert (U2 : u64 (base * c2 + u64 ((i + 1) * c2) + 2 ^ 64 - 1) = (base + i + 1) * c2 - 1) by (apply child_end_eq; assumption).
      rewrite U1, U2. assert (SL : i < s0) by (clear -Hi EW H0; lia). replace (i <? s0) with true by (symmetry; apply N.ltb_lt; exact SL).
      replace (if (base + i) * c2 <? s then s else (base + i) * c2) with (N.max s ((base + i) * c2)) by (clear; destruct (N.ltb_spec ((base + i) * c2) s); lia).
      replace (if e <? (base + i + 1) * c2 - 1 then e else (base + i + 1) * c2 - 1) with (N.min e ((base + i + 1) * c2 - 1)) by (clear; destruct (N.ltb_spec e ((base + i + 1) * c2 - 1)); lia).
      rewrite IH; [reflexivity|clear -H; lia|clear -H Hf; lia|apply H1|exact C1|left; clear -Hk2; lia|intros X; specialize (Hk X); clear -Hk; lia|]. fold o. fold c2. rewrite C2, C3. reflexivity. }
    cbn [rbind].
    assert (VI : visits (S f) d (Inner s0 c) (range s e) = concat (map fst (map g (range si ei)))).
    { assert (EM : e / c2 = s / c2 + N.of_nat (N.to_nat (ei - si))) by (rewrite KS, KE; clear -SI; lia).
      rewrite (range_cut c2 e CP (N.to_nat (ei - si)) (s / c2) s eq_refl EM Hse). rewrite visits_concat. rewrite KS, nseq_shift, !map_map.
      unfold range at 2. replace (N.to_nat (ei + 1 - si)) with (S (N.to_nat (ei - si))) by (clear -SI; lia). f_equal. apply map_ext_in. intros i Hi. apply nseq_in in Hi.
      unfold g. cbn [fst]. apply visits_ext. intros k Hin. apply range_in in Hin.
      destruct (CH i ltac:(clear -Hi SI; lia)) as (C1 & C2 & C3 & _).
      assert (CK : cpos t d k = i).
      { assert (KD : k / c2 = base + i).
        { apply div_bounds; [exact CP|]. apply div_bounds in C2, C3; auto. clear -C2 C3 Hin. lia. }
        unfold cpos. fold o. fold c2. fold w. rewrite KD. unfold base. rewrite N.add_comm, N.mod_add by (apply N.pow_nonzero; lia). apply N.mod_small. clear -EW Hi SI. lia. }
      unfold pres, valn. rewrite (V_inner p t G) by assumption. rewrite CK. split; [|reflexivity].
      cbn [find_block]. rewrite eqb_false by lia. rewrite (child_pos_eq p t G) by assumption. cbn [rbind]. rewrite CK.
      replace (i <? s0) with true by (symmetry; apply N.ltb_lt; fold w in H0; clear -EW Hi SI H0; lia). reflexivity. }
    assert (LV : N.of_nat (length (visits (S f) d (Inner s0 c) (range s e))) < 2 ^ 64).
    { pose proof (visits_length (S f) d (Inner s0 c) (range s e)) as L. unfold range in L at 2. rewrite nseq_length in L. clear -L Hk2. lia. }
    rewrite VI in *. f_equal. f_equal.
    assert (SUM : forall l, (forall r : list (N * N) * N, In r l -> snd r = N.of_nat (length (fst r))) -> fold_right (fun r a => snd r + a) 0 l = N.of_nat (length (concat (map fst l)))).
    { induction l as [|r l IHl]; intros Hl; [reflexivity|]. cbn [fold_right map concat]. rewrite app_length, IHl by (intros; apply Hl; right; assumption).
      rewrite (Hl r) by (left; reflexivity). lia. }
    rewrite SUM; [|intros r Hr; apply in_map_iff in Hr as (i & <- & _); reflexivity]. unfold u64. apply N.mod_small. exact LV.
  - rewrite N.eqb_refl. replace (e =? 2 ^ 64 - 1) with false by (symmetry; apply N.eqb_neq; lia).
    rewrite (rmap_ok _ (fun i => (i, wget t w i))) by (intros i _; rewrite (block_get_eq p t G) by assumption; reflexivity). cbn [rbind].
    assert (X : visits (S f) (max_depth t) (Block w) (range s e) = map (fun i => (i, wget t w i)) (range s e)).
    { unfold visits. rewrite filter_id by (intros; unfold pres; cbn [find_block]; rewrite N.eqb_refl; reflexivity).
      apply map_ext. intros k. unfold valn. rewrite (V_block p t G) by assumption. reflexivity. }
    rewrite X, map_length. replace (length (range s e)) with (N.to_nat (e + 1 - s)) by (unfold range; rewrite nseq_length; reflexivity). f_equal. f_equal. unfold u64. symmetry. apply (N.mod_unique _ _ 1); lia.
Qed.
End Iter.
