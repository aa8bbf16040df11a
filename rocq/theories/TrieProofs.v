(** Proofs about the sparse map. *)
From Verif Require Import Base TrieModel.
Local Open Scope N_scope.

(** ** Geometry *)
(** what trie_create guarantees, and nodes that can be allocated at all *)
Record geom (p : N) (t : trie) : Prop := {
  g_p : p = 5 \/ p = 6;
  g_isl : item_size_lg t <= 6;
  g_ks : key_size t <= 64;
  g_nkb : 1 <= node_key_bits t;
  g_db : 1 <= data_block_key_bits t <= key_size t;
  g_max : max_depth t = (key_size t - data_block_key_bits t + node_key_bits t - 1) / node_key_bits t;
  g_node : N.min (node_key_bits t) (key_size t - data_block_key_bits t) + p < 64;
  g_block : data_block_key_bits t + item_size_lg t < 38;
  g_empty : empty_value t < 2 ^ 2 ^ item_size_lg t;
  g_fill : forall q, N.testbit (fill_value t) q = (q <? 64) && N.testbit (empty_value t) (q mod 2 ^ item_size_lg t)
}.
Definition rem_bits (t : trie) : N := (key_size t - data_block_key_bits t - 1) mod node_key_bits t + 1.
Definition width (t : trie) (d : N) : N := if d + 1 =? max_depth t then rem_bits t else node_key_bits t.
(** the number of key bits handled at depth [d] and below *)
Definition hi (t : trie) (d : N) : N :=
  if d =? max_depth t then data_block_key_bits t
  else data_block_key_bits t + rem_bits t + (max_depth t - d - 1) * node_key_bits t.

Lemma eqb_false a b : a <> b -> (a =? b) = false. Proof. apply N.eqb_neq. Qed.

Lemma testbit_lt a n i : a < 2 ^ n -> n <= i -> N.testbit a i = false.
Proof.
  intros H L. destruct (N.eq_dec a 0) as [->|Z]; [apply N.bits_0|]. apply N.bits_above_log2. apply N.log2_lt_pow2 in H; lia.
Qed.
Lemma bits_lt a n : (forall i, n <= i -> N.testbit a i = false) -> a < 2 ^ n.
Proof.
  intros H. destruct (N.eq_dec a 0) as [->|Z]; [apply N.neq_0_lt_0, N.pow_nonzero; lia|]. apply N.log2_lt_pow2; [lia|].
  destruct (N.lt_ge_cases (N.log2 a) n) as [|C]; [assumption|]. specialize (H _ C). rewrite N.bit_log2 in H by exact Z. discriminate.
Qed.
Lemma u64_bit a q : N.testbit (u64 a) q = (q <? 64) && N.testbit a q.
Proof.
  unfold u64. destruct (N.ltb_spec q 64); [rewrite N.mod_pow2_bits_low by assumption; reflexivity|rewrite N.mod_pow2_bits_high by assumption; reflexivity].
Qed.
Lemma ones_bit n i : N.testbit (N.ones n) i = (i <? n).
Proof. destruct (N.ltb_spec i n); [apply N.ones_spec_low; assumption|apply N.ones_spec_high; assumption]. Qed.
Lemma u8_id n : n < 256 -> u8 n = n. Proof. intros H. unfold u8. apply N.mod_small. exact H. Qed.
Lemma land_mask a n : N.land a (2 ^ n - 1) = a mod 2 ^ n.
Proof. rewrite <- N.land_ones, N.ones_equiv, N.sub_1_r. reflexivity. Qed.
Lemma upd_nth_or (w w' : list N) i j v : upd w i v = Some w' -> nth j w' 0 = if (j =? i)%nat then v else nth j w 0.
Proof.
  intros U. pose proof (upd_length _ _ _ _ U) as L. destruct (Nat.eqb_spec j i) as [->|Ne].
  - pose proof (upd_nth_eq _ _ _ _ U) as X. apply (nth_error_nth _ _ 0) in X. exact X.
  - pose proof (upd_nth_ne _ _ _ j _ U) as X. specialize (X ltac:(congruence)). destruct (nth_error w j) as [x|] eqn:E.
    + rewrite (nth_error_nth _ _ 0 E). apply nth_error_nth. congruence.
    + rewrite !nth_overflow; [reflexivity|apply nth_error_None; exact E|apply nth_error_None; congruence].
Qed.

Section Geom.
Variable p : N.
Variable t : trie.
Hypothesis G : geom p t.
Let ks := key_size t. Let db := data_block_key_bits t. Let nkb := node_key_bits t. Let isl := item_size_lg t. Let mx := max_depth t.

Lemma max_cases : (mx = 0 /\ ks = db) \/ (1 <= mx /\ db < ks /\ ks = db + rem_bits t + (mx - 1) * nkb /\ 1 <= rem_bits t <= nkb /\ (2 <= mx -> nkb < ks - db)).
Proof.
  destruct G as [_ _ _ H1 H2 H3 _ _ _ _]. fold ks db nkb mx in H1, H2, H3. destruct (N.eq_dec ks db) as [E|E].
  - left. split; [|exact E]. rewrite H3, E, N.sub_diag. apply N.div_small. lia.
  - right. assert (L : db < ks) by lia. pose proof (N.div_mod (ks - db - 1) nkb ltac:(lia)) as D. pose proof (N.mod_lt (ks - db - 1) nkb ltac:(lia)) as M.
    assert (X : mx = (ks - db - 1) / nkb + 1).
    { rewrite H3. replace (ks - db + nkb - 1) with (ks - db - 1 + 1 * nkb) by lia. rewrite N.div_add by lia. reflexivity. }
    unfold rem_bits. fold ks db nkb. set (q := (ks - db - 1) / nkb) in *. set (r := (ks - db - 1) mod nkb) in *.
    split; [lia|]. split; [exact L|]. split; [rewrite X; replace (q + 1 - 1) with q by lia; lia|]. split; [lia|].
    intros X2. assert (1 <= q) by lia. nia.
Qed.
Lemma hi0 : hi t 0 = ks.
Proof.
  unfold hi. destruct max_cases as [[H1 H2]|(H1 & H2 & H3 & H4 & H5)].
  - fold mx. rewrite H1. change (0 =? 0) with true. cbv iota. fold db. congruence.
  - fold mx. rewrite eqb_false by lia. fold db nkb. rewrite N.sub_0_r. lia.
Qed.
Lemma hi_max : hi t mx = db.
Proof. unfold hi. fold mx. rewrite N.eqb_refl. reflexivity. Qed.
Lemma width_ok d : d < mx -> 1 <= width t d /\ width t d + p < 64 /\ width t d <= nkb.
Proof.
  intros L. destruct max_cases as [[H1 H2]|(H1 & H2 & H3 & H4 & H5)]; [lia|]. pose proof (g_node _ _ G) as Hn. fold ks db nkb in Hn. unfold width. fold mx.
  destruct (N.eqb_spec (d + 1) mx); fold nkb.
  - assert (rem_bits t <= ks - db) by lia. lia.
  - assert (nkb < ks - db) by (apply H5; lia). pose proof (g_nkb _ _ G) as X. fold nkb in X. lia.
Qed.
Lemma hi_step d : d < mx -> hi t d = hi t (d + 1) + width t d.
Proof.
  intros L. unfold hi, width. fold mx db nkb. rewrite (eqb_false d) by lia. destruct (N.eqb_spec (d + 1) mx).
  - replace (mx - d - 1) with 0 by lia. lia.
  - replace (mx - d - 1) with ((mx - (d + 1) - 1) + 1) by lia. lia.
Qed.
Lemma hi_le d : d <= mx -> db <= hi t d <= ks.
Proof.
  intros L. unfold hi. fold mx db nkb. destruct max_cases as [[H1 H2]|(H1 & H2 & H3 & H4 & H5)].
  - assert (d = mx) by lia. subst d. rewrite N.eqb_refl. lia.
  - destruct (N.eqb_spec d mx); [lia|]. assert (Q : (mx - d - 1) * nkb <= (mx - 1) * nkb) by (apply N.mul_le_mono_r; lia).
    clearbody mx nkb db ks. revert Q H3. generalize ((mx - d - 1) * nkb) ((mx - 1) * nkb). intros. lia.
Qed.
Lemma node_size_eq d : d < mx -> node_size p t d = width t d + p.
Proof.
  intros L. pose proof (width_ok d L) as (W1 & W2 & W3). unfold node_size, width in W1, W2, W3 |- *. fold mx in W1, W2, W3 |- *. rewrite (eqb_false d) by lia.
  revert W1 W2 W3. destruct (d + 1 =? mx); intros W1 W2 W3; [|apply u8_id; pose proof (g_p _ _ G); lia]. unfold rem_bits in *. apply u8_id. pose proof (g_p _ _ G). lia.
Qed.
Lemma offs_eq d : d < mx -> node_bit_offs p t d = hi t (d + 1).
Proof.
  intros L. pose proof (hi_le (d + 1) ltac:(lia)) as HL. pose proof (g_ks _ _ G) as HK. fold ks in HK.
  unfold node_bit_offs, hi in HL |- *. fold mx db nkb in HL |- *. rewrite (eqb_false d) by lia. revert HL. destruct (N.eqb_spec (d + 1) mx); intros HL; [reflexivity|].
  rewrite node_size_eq by lia. assert (E : width t (mx - 1) = rem_bits t) by (unfold width; fold mx; replace (mx - 1 + 1) with mx by lia; rewrite N.eqb_refl; reflexivity).
  rewrite E. replace (rem_bits t + p - p) with (rem_bits t) by lia. replace (mx - d - 2) with (mx - (d + 1) - 1) by lia.
  revert HL. generalize ((mx - (d + 1) - 1) * nkb). intros z HL. clearbody mx nkb db ks. rewrite (u8_id (db + rem_bits t)) by lia. apply u8_id. lia.
Qed.
Lemma hi_lt d : d < mx -> hi t (d + 1) < 64.
Proof. intros L. pose proof (hi_step d L). pose proof (width_ok d L). pose proof (hi_le d ltac:(lia)). pose proof (g_ks _ _ G) as HK. fold ks in HK. lia. Qed.
Definition cpos (d key : N) : N := (key / 2 ^ hi t (d + 1)) mod 2 ^ width t d.
Lemma child_pos_eq d key : d < mx -> child_pos p t key d = Ok (cpos d key).
Proof.
  intros L. unfold child_pos, mask64, bit64, shr64. rewrite node_size_eq, offs_eq by exact L. pose proof (width_ok d L). pose proof (hi_lt d L).
  replace (width t d + p - p) with (width t d) by lia. replace (width t d <? 64) with true by (symmetry; apply N.ltb_lt; lia). cbn [rbind].
  replace (hi t (d + 1) <? 64) with true by (symmetry; apply N.ltb_lt; lia). cbn [rbind]. rewrite land_mask, N.shiftr_div_pow2. reflexivity.
Qed.
Lemma cpos_lt d key : cpos d key < 2 ^ width t d.
Proof. unfold cpos. apply N.mod_lt. apply N.pow_nonzero. lia. Qed.
(** the path of a key *)
Lemma key_split d key : d < mx -> key / 2 ^ hi t (d + 1) = key / 2 ^ hi t d * 2 ^ width t d + cpos d key.
Proof.
  intros L. rewrite (hi_step d L), N.pow_add_r. rewrite <- N.div_div by (apply N.pow_nonzero; lia). unfold cpos.
  pose proof (N.div_mod (key / 2 ^ hi t (d + 1)) (2 ^ width t d) ltac:(apply N.pow_nonzero; lia)) as D. lia.
Qed.

(** ** Words *)
Let W := 2 ^ isl.
Definition opos (key : N) : N := (key mod 2 ^ db) / 2 ^ (6 - isl).
Definition ooffs (key : N) : N := (key mod 2 ^ (6 - isl)) * W.
Definition wmask (o : N) : N := N.shiftl (N.ones W) o.
Lemma isl6 : isl <= 6. Proof. exact (g_isl _ _ G). Qed.
Lemma W_slots : 2 ^ (6 - isl) * W = 64.
Proof. unfold W. rewrite <- N.pow_add_r. replace (6 - isl + isl) with 6 by (pose proof isl6; lia). reflexivity. Qed.
Lemma W_pos : 1 <= W <= 64.
Proof. unfold W. split; [assert (2 ^ isl <> 0) by (apply N.pow_nonzero; lia); lia|]. change 64 with (2^6). apply N.pow_le_mono_r; [lia|apply isl6]. Qed.
Lemma ooffs_le key : ooffs key + W <= 64.
Proof.
  unfold ooffs. pose proof (N.mod_lt key (2 ^ (6 - isl)) ltac:(apply N.pow_nonzero; lia)). pose proof W_slots. pose proof W_pos. nia.
Qed.
Lemma wmask_bit o q : N.testbit (wmask o) q = (o <=? q) && (q - o <? W).
Proof.
  unfold wmask. destruct (N.leb_spec o q) as [C|C]; [rewrite N.shiftl_spec_high' by exact C; apply ones_bit|apply N.shiftl_spec_low; exact C].
Qed.
Lemma calc_pos_eq key : calc_pos t key = Ok (opos key, wmask (ooffs key), ooffs key).
Proof.
  unfold calc_pos, mask64, bit64. pose proof (g_block _ _ G) as HB. fold db in HB |- *. replace (db <? 64) with true by (symmetry; apply N.ltb_lt; lia). cbn [rbind].
  rewrite land_mask, N.shiftr_div_pow2. fold isl. destruct (N.eqb_spec isl 6) as [E|E].
  - unfold opos, ooffs, wmask, W. rewrite E. change (2 ^ (6 - 6)) with 1. rewrite N.mod_1_r. reflexivity.
  - pose proof isl6. replace (6 - isl <? 64) with true by (symmetry; apply N.ltb_lt; lia). cbn [rbind]. rewrite land_mask, N.shiftl_mul_pow2.
    fold W. fold (ooffs key). pose proof (ooffs_le key) as OL. pose proof W_pos as WP. replace (ooffs key <? 64) with true by (symmetry; apply N.ltb_lt; lia).
    unfold opos. do 3 f_equal. assert (W < 64).
    { unfold W. change 64 with (2^6). apply N.pow_lt_mono_r; lia. }
    unfold mask64_safe. replace (W <? 64) with true by (symmetry; apply N.ltb_lt; lia).
    replace (2 ^ W - 1) with (N.ones W) by (rewrite N.ones_equiv, N.sub_1_r; reflexivity). fold (wmask (ooffs key)).
    apply N.mod_small. apply bits_lt. intros i Hi. rewrite wmask_bit. replace (i - ooffs key <? W) with false by (symmetry; apply N.ltb_ge; lia). apply andb_false_r.
Qed.
Definition getw (x o : N) : N := N.shiftr (N.land x (wmask o)) o.
Definition putw (x o v : N) : N := N.lor (N.ldiff x (wmask o)) (N.land (u64 (N.shiftl v o)) (wmask o)).
Lemma getw_bit x o i : N.testbit (getw x o) i = (i <? W) && N.testbit x (i + o).
Proof.
  unfold getw. rewrite N.shiftr_spec', N.land_spec, wmask_bit. replace (o <=? i + o) with true by (symmetry; apply N.leb_le; lia).
  replace (i + o - o) with i by lia. cbn [andb]. apply andb_comm.
Qed.
Lemma putw_bit x o v q : o + W <= 64 -> N.testbit (putw x o v) q = if (o <=? q) && (q - o <? W) then N.testbit v (q - o) else N.testbit x q.
Proof.
  intros L. unfold putw. rewrite N.lor_spec, N.ldiff_spec, N.land_spec, wmask_bit, u64_bit. destruct ((o <=? q) && (q - o <? W)) eqn:E.
  - apply andb_true_iff in E as [E1 E2]. apply N.leb_le in E1. apply N.ltb_lt in E2. replace (q <? 64) with true by (symmetry; apply N.ltb_lt; lia).
    rewrite N.shiftl_spec_high' by exact E1. rewrite andb_false_r. cbn. apply andb_true_r.
  - rewrite andb_true_r, andb_false_r, orb_false_r. reflexivity.
Qed.
Lemma putw_lt x o v : x < 2 ^ 64 -> o + W <= 64 -> putw x o v < 2 ^ 64.
Proof.
  intros Hx L. apply bits_lt. intros i Hi. rewrite putw_bit by exact L. replace (i - o <? W) with false by (symmetry; apply N.ltb_ge; pose proof W_pos; lia).
  rewrite andb_false_r. eapply testbit_lt; eauto.
Qed.
Lemma get_put_same x o v : o + W <= 64 -> getw (putw x o v) o = v mod 2 ^ W.
Proof.
  intros L. apply N.bits_inj. intros i. rewrite getw_bit, putw_bit by exact L. destruct (N.ltb_spec i W) as [C|C].
  - rewrite N.mod_pow2_bits_low by exact C. replace (o <=? i + o) with true by (symmetry; apply N.leb_le; lia).
    replace (i + o - o) with i by lia. replace (i <? W) with true by (symmetry; apply N.ltb_lt; exact C). reflexivity.
  - rewrite N.mod_pow2_bits_high by exact C. reflexivity.
Qed.
Lemma get_put_other x a b v : a * W + W <= 64 -> a <> b -> getw (putw x (a * W) v) (b * W) = getw x (b * W).
Proof.
  intros L Ne. apply N.bits_inj. intros i. rewrite !getw_bit, putw_bit by exact L. destruct (N.ltb_spec i W) as [C|C]; [|reflexivity]. cbn [andb].
  destruct ((a * W <=? i + b * W) && (i + b * W - a * W <? W)) eqn:E; [|reflexivity]. exfalso.
  apply andb_true_iff in E as [E1 E2]. apply N.leb_le in E1. apply N.ltb_lt in E2. apply Ne.
  destruct (N.lt_trichotomy a b) as [X|[X|X]]; [|exact X|].
  - assert ((a + 1) * W <= b * W) by (apply N.mul_le_mono_r; lia). lia.
  - assert ((b + 1) * W <= a * W) by (apply N.mul_le_mono_r; lia). lia.
Qed.

(** ** Blocks *)
Definition blocklen : nat := N.to_nat (2 ^ (N.max 6 (db + isl) - 6)).
Definition block_ok (w : list N) : Prop := length w = blocklen /\ Forall (fun x => x < 2 ^ 64) w.
Lemma opos_lt key : (N.to_nat (opos key) < blocklen)%nat.
Proof.
  unfold blocklen. assert (X : opos key < 2 ^ (N.max 6 (db + isl) - 6)); [|lia]. unfold opos. pose proof isl6.
  pose proof (N.mod_lt key (2 ^ db) ltac:(apply N.pow_nonzero; lia)) as M. apply N.div_lt_upper_bound; [apply N.pow_nonzero; lia|].
  rewrite <- N.pow_add_r. eapply N.lt_le_trans; [exact M|]. apply N.pow_le_mono_r; lia.
Qed.
Lemma fill_lt : fill_value t < 2 ^ 64.
Proof. apply bits_lt. intros i Hi. rewrite (g_fill _ _ G). replace (i <? 64) with false by (symmetry; apply N.ltb_ge; exact Hi). reflexivity. Qed.
Lemma create_block : create_data_block t = Ok (repeat (fill_value t) blocklen).
Proof.
  unfold create_data_block, blocklen. pose proof (g_block _ _ G) as HB. fold db isl in HB |- *. rewrite u8_id by lia.
  replace (if db + isl <? 6 then 6 else db + isl) with (N.max 6 (db + isl)) by (destruct (N.ltb_spec (db + isl) 6); lia).
  unfold bit32. replace (N.max 6 (db + isl) - 6 <? 32) with true by (symmetry; apply N.ltb_lt; lia). reflexivity.
Qed.
Lemma fresh_block_ok : block_ok (repeat (fill_value t) blocklen).
Proof. split; [apply repeat_length|]. apply Forall_forall. intros x Hx. apply repeat_spec in Hx. subst. apply fill_lt. Qed.
Definition wget (w : list N) (key : N) : N := getw (nth (N.to_nat (opos key)) w 0) (ooffs key).
Lemma block_get_eq w key : block_ok w -> block_get t (Some w) key = Ok (wget w key).
Proof.
  intros [L _]. unfold block_get. rewrite calc_pos_eq. cbn [rbind]. pose proof (opos_lt key) as H. rewrite <- L in H.
  rewrite (nth_error_nth' w 0 H). reflexivity.
Qed.
Lemma fresh_get key : wget (repeat (fill_value t) blocklen) key = empty_value t.
Proof.
  unfold wget. rewrite (nth_indep _ 0 (fill_value t)) by (rewrite repeat_length; apply opos_lt). rewrite nth_repeat.
  apply N.bits_inj. intros i. rewrite getw_bit, (g_fill _ _ G). fold isl. fold W. destruct (N.ltb_spec i W) as [C|C].
  - pose proof (ooffs_le key). replace (i + ooffs key <? 64) with true by (symmetry; apply N.ltb_lt; lia). cbn [andb]. unfold ooffs.
    rewrite N.mod_add by (pose proof W_pos; lia). rewrite N.mod_small by exact C. reflexivity.
  - symmetry. cbn [andb]. eapply testbit_lt; [exact (g_empty _ _ G)|]. exact C.
Qed.
Lemma leaf_same key key' : key / 2 ^ db = key' / 2 ^ db -> opos key = opos key' -> ooffs key = ooffs key' -> key = key'.
Proof.
  intros H1 H2 H3. unfold opos, ooffs in *. assert (H4 : key mod 2 ^ (6 - isl) = key' mod 2 ^ (6 - isl)) by (apply (proj1 (N.mul_cancel_r _ _ W ltac:(pose proof W_pos; lia))); exact H3). clear H3.
  assert (P : forall n, 2 ^ n <> 0) by (intros; apply N.pow_nonzero; lia).
  assert (H5 : key mod 2 ^ db = key' mod 2 ^ db).
  { destruct (N.le_gt_cases db (6 - isl)) as [C|C].
    - assert (X : forall k, k mod 2 ^ db = (k mod 2 ^ (6 - isl)) mod 2 ^ db).
      { clear -C. intros k. apply N.bits_inj. intros i. destruct (N.lt_ge_cases i db) as [D|D].
        - rewrite !N.mod_pow2_bits_low by lia. reflexivity.
        - rewrite !N.mod_pow2_bits_high by lia. reflexivity. }
      rewrite (X key), (X key'), H4. reflexivity.
    - assert (X : forall k, k mod 2 ^ (6 - isl) = (k mod 2 ^ db) mod 2 ^ (6 - isl)).
      { clear -C. intros k. apply N.bits_inj. intros i. destruct (N.lt_ge_cases i (6 - isl)) as [D|D].
        - rewrite !N.mod_pow2_bits_low by lia. reflexivity.
        - rewrite !N.mod_pow2_bits_high by lia. reflexivity. }
      rewrite (X key), (X key') in H4. rewrite (N.div_mod (key mod 2 ^ db) (2 ^ (6 - isl)) (P _)), (N.div_mod (key' mod 2 ^ db) (2 ^ (6 - isl)) (P _)), H2, H4. reflexivity. }
  rewrite (N.div_mod key (2 ^ db) (P _)), (N.div_mod key' (2 ^ db) (P _)), H1, H5. reflexivity.
Qed.
Lemma block_put_spec w key val : block_ok w -> exists w', block_put t key val w = Ok w' /\ block_ok w' /\
  forall key', key / 2 ^ db = key' / 2 ^ db -> wget w' key' = if key' =? key then val mod 2 ^ W else wget w key'.
Proof.
  intros [L F]. unfold block_put. rewrite calc_pos_eq. cbn [rbind]. pose proof (opos_lt key) as H. rewrite <- L in H.
  rewrite (nth_error_nth' w 0 H). destruct (upd_some w (N.to_nat (opos key)) (putw (nth (N.to_nat (opos key)) w 0) (ooffs key) val) H) as [w' U].
  unfold putw in U at 1. rewrite U. fold (putw (nth (N.to_nat (opos key)) w 0) (ooffs key) val) in U. exists w'. split; [reflexivity|].
  split; [split; [rewrite (upd_length _ _ _ _ U); exact L|]|].
  - apply Forall_forall. intros x Hx. apply In_nth_error in Hx as [j Hj]. rewrite Forall_forall in F.
    destruct (Nat.eq_dec j (N.to_nat (opos key))) as [->|Ne].
    + rewrite (upd_nth_eq _ _ _ _ U) in Hj. inversion Hj. apply putw_lt; [|apply ooffs_le]. apply F. apply nth_In. exact H.
    + rewrite (upd_nth_ne _ _ _ j _ U) in Hj by congruence. apply F. eapply nth_error_In; eauto.
  - intros key' HK. unfold wget. rewrite (upd_nth_or _ _ _ _ _ U). destruct (N.eqb_spec key' key) as [->|Ne].
    + rewrite Nat.eqb_refl. apply get_put_same. apply ooffs_le.
    + destruct (Nat.eqb_spec (N.to_nat (opos key')) (N.to_nat (opos key))) as [E|E]; [|reflexivity].
      assert (EO : opos key' = opos key) by lia. rewrite EO. unfold ooffs. apply get_put_other; [apply (ooffs_le key)|].
      intros X. apply Ne. apply leaf_same; [congruence|exact EO|]. unfold ooffs. rewrite X. reflexivity.
Qed.

(** ** Trees *)
Inductive wf : N -> node -> Prop :=
| wf_null d : wf d Null
| wf_inner d s c : d < mx -> 2 ^ width t d <= s -> (forall i, wf (d + 1) (c i)) -> wf d (Inner s c)
| wf_block w : block_ok w -> wf mx (Block w).
Lemma find_ok fuel : forall d n key, d <= mx -> (N.to_nat (mx - d) < fuel)%nat -> wf d n ->
  exists r, find_block fuel p t key d n = Ok r /\ (forall w, r = Some w -> block_ok w).
Proof.
  induction fuel as [|f IH]; intros d n key Hd Hf WF; [lia|]. cbn [find_block]. fold mx. inversion WF; subst.
  - exists None. split; [reflexivity|discriminate].
  - rewrite eqb_false by lia. rewrite child_pos_eq by assumption. cbn [rbind]. pose proof (cpos_lt d key).
    replace (cpos d key <? s) with true by (symmetry; apply N.ltb_lt; lia). apply IH; [lia|lia|apply H1].
  - rewrite N.eqb_refl. exists (Some w). split; [reflexivity|]. intros w' E. inversion E; subst. assumption.
Qed.
Definition V (fuel : nat) (d : N) (n : node) (key : N) : res N :=
  rlet b := find_block fuel p t key d n in block_get t b key.
Lemma V_null fuel d key : V (S fuel) d Null key = Ok (empty_value t). Proof. reflexivity. Qed.
Lemma V_block fuel w key : block_ok w -> V (S fuel) mx (Block w) key = Ok (wget w key).
Proof. intros H. unfold V. cbn [find_block]. fold mx. rewrite N.eqb_refl. cbn [rbind]. apply block_get_eq. exact H. Qed.
Lemma V_inner fuel d s c key : d < mx -> 2 ^ width t d <= s -> V (S fuel) d (Inner s c) key = V fuel (d + 1) (c (cpos d key)) key.
Proof.
  intros Hd Hs. unfold V. cbn [find_block]. fold mx. rewrite eqb_false by lia. rewrite child_pos_eq by assumption. cbn [rbind]. pose proof (cpos_lt d key).
  replace (cpos d key <? s) with true by (symmetry; apply N.ltb_lt; lia). reflexivity.
Qed.
Lemma V_ok fuel d n key : d <= mx -> (N.to_nat (mx - d) < fuel)%nat -> wf d n -> exists v, V fuel d n key = Ok v.
Proof.
  intros H1 H2 H3. unfold V. destruct (find_ok fuel d n key H1 H2 H3) as (r & E & B). rewrite E. cbn [rbind]. destruct r as [w|].
  - rewrite block_get_eq by (apply B; reflexivity). eauto.
  - cbn. eauto.
Qed.
Lemma set_ok fuel : forall d n key val, d <= mx -> (N.to_nat (mx - d) < fuel)%nat -> wf d n ->
  exists n', set_block fuel p t key (block_put t key val) d n = Ok n' /\ wf d n' /\
  forall key', key / 2 ^ hi t d = key' / 2 ^ hi t d -> V fuel d n' key' = if key' =? key then Ok (val mod 2 ^ W) else V fuel d n key'.
Proof.
  induction fuel as [|f IH]; intros d n key val Hd Hf WF; [lia|]. cbn [set_block]. fold mx.
  destruct (N.eq_dec d mx) as [->|Ne].
  - rewrite N.eqb_refl.
    assert (X : exists w, block_ok w /\ (match n with Null => rlet w := create_data_block t in Ok (Block w) | _ => Ok n end) = Ok (Block w) /\
                forall key', V (S f) mx n key' = Ok (wget w key')).
    { inversion WF; subst.
      - exists (repeat (fill_value t) blocklen). split; [apply fresh_block_ok|]. rewrite create_block. split; [reflexivity|]. intros key'. rewrite V_null, fresh_get. reflexivity.
      - lia.
      - exists w. split; [assumption|]. split; [reflexivity|]. intros key'. apply V_block. assumption. }
    destruct X as (w & WO & E & HV). rewrite E. cbn [rbind]. destruct (block_put_spec w key val WO) as (w' & E' & WO' & HP). rewrite E'. cbn [rbind].
    exists (Block w'). split; [reflexivity|]. split; [constructor; exact WO'|]. rewrite hi_max. intros key' HK. rewrite V_block by exact WO'. rewrite HP by exact HK.
    rewrite HV. destruct (key' =? key); reflexivity.
  - rewrite eqb_false by exact Ne. assert (L : d < mx) by lia. pose proof (width_ok d L) as (W1 & W2 & W3).
    assert (X : exists s c, (match n with Null => rlet b := bit64 (node_size p t d) in Ok (Inner (b / 2 ^ (p - 3)) (fun _ => Null)) | _ => Ok n end) = Ok (Inner s c) /\
                2 ^ width t d <= s /\ (forall i, wf (d + 1) (c i)) /\ forall key', V (S f) d n key' = V f (d + 1) (c (cpos d key')) key').
    { inversion WF; subst.
      - exists (2 ^ (width t d + p) / 2 ^ (p - 3)), (fun _ => Null). rewrite node_size_eq by exact L. unfold bit64.
        replace (width t d + p <? 64) with true by (symmetry; apply N.ltb_lt; lia). split; [reflexivity|]. split; [|split].
        + pose proof (g_p _ _ G). apply N.div_le_lower_bound; [apply N.pow_nonzero; lia|]. rewrite <- N.pow_add_r. apply N.pow_le_mono_r; lia.
        + intros i. constructor.
        + intros key'. rewrite V_null. destruct f; [lia|]. rewrite V_null. reflexivity.
      - exists s, c. split; [reflexivity|]. split; [assumption|]. split; [assumption|]. intros key'. apply V_inner; assumption.
      - lia. }
    destruct X as (s & c & E & HS & HC & HV). rewrite E. cbn [rbind]. rewrite child_pos_eq by exact L. cbn [rbind]. pose proof (cpos_lt d key) as CL.
    replace (cpos d key <? s) with true by (symmetry; apply N.ltb_lt; lia).
    destruct (IH (d + 1) (c (cpos d key)) key val ltac:(lia) ltac:(lia) (HC _)) as (n' & E' & WF' & HP). rewrite E'. cbn [rbind].
    eexists. split; [reflexivity|]. split.
    + constructor; auto. intros i. destruct (i =? cpos d key); [exact WF'|apply HC].
    + intros key' HK. rewrite V_inner by assumption. rewrite HV. destruct (N.eqb_spec (cpos d key') (cpos d key)) as [EQ|NE].
      * rewrite EQ. apply HP. rewrite !key_split by exact L. rewrite HK, EQ. reflexivity.
      * rewrite eqb_false; [reflexivity|]. intros ->. contradiction.
Qed.
End Geom.

(** ** Creation *)
Lemma fill_bits isl e : isl <= 6 -> e < 2 ^ 2 ^ isl -> forall n i v, N.of_nat n + i = 6 - isl ->
  (forall q, N.testbit v q = (q <? 2 ^ (isl + i)) && N.testbit e (q mod 2 ^ isl)) ->
  forall q, N.testbit (fill n isl i v) q = (q <? 64) && N.testbit e (q mod 2 ^ isl).
Proof.
  intros HI HE. induction n as [|k IH]; intros i v Hn Hv q; cbn [fill].
  - rewrite Hv. replace (isl + i) with 6 by lia. reflexivity.
  - apply IH; [lia|]. clear q. intros q. rewrite N.lor_spec, u64_bit, Hv. set (M := 2 ^ (isl + i)).
    assert (M64 : 2 * M <= 64) by (unfold M; rewrite <- N.pow_succ_r', <- N.add_1_r; change 64 with (2^6); apply N.pow_le_mono_r; lia).
    replace (2 ^ (isl + (i + 1))) with (2 * M) by (unfold M; rewrite <- N.pow_succ_r'; f_equal; lia).
    destruct (N.lt_ge_cases q M) as [C|C].
    + rewrite N.shiftl_spec_low by exact C. rewrite andb_false_r, orb_false_r.
      replace (q <? M) with true by (symmetry; apply N.ltb_lt; exact C). replace (q <? 2 * M) with true by (symmetry; apply N.ltb_lt; lia). reflexivity.
    + rewrite N.shiftl_spec_high' by exact C. rewrite Hv. fold M. replace (q <? M) with false by (symmetry; apply N.ltb_ge; exact C). cbn [orb andb].
      assert (MM : q mod 2 ^ isl = (q - M) mod 2 ^ isl).
      { replace q with ((q - M) + M) at 1 by lia. unfold M at 2. rewrite N.pow_add_r, N.mul_comm. apply N.mod_add. apply N.pow_nonzero. lia. }
      rewrite MM. clear MM Hv IH HE. clearbody M. destruct (N.ltb_spec (q - M) M); destruct (N.ltb_spec q (2 * M)); lia.
Qed.
Definition sane (p ks isl nkb db : N) : Prop := (p = 5 \/ p = 6) /\ N.min nkb (ks - db) + p < 64 /\ db + isl < 38.
Lemma create_geom p ks isl nkb db empty t : empty < 2 ^ 64 -> sane p ks isl nkb db -> trie_create ks isl nkb db empty = Some t ->
  geom p t /\ root t = Null /\ key_size t = ks /\ item_size_lg t = isl /\ empty_value t = empty mod 2 ^ 2 ^ isl.
Proof.
  intros HE (S1 & S2 & S3). unfold trie_create. destruct (N.ltb_spec 6 isl); [discriminate|]. destruct (N.ltb_spec 64 ks); [discriminate|].
  destruct (N.ltb_spec nkb 1); [discriminate|]. destruct ((db <? 1) || (ks <? db)) eqn:D; [discriminate|]. apply orb_false_iff in D as [D1 D2].
  apply N.ltb_ge in D1, D2. intros E; inversion E; subst; clear E. cbn [root key_size item_size_lg empty_value].
  assert (W64 : 2 ^ isl <= 64) by (change 64 with (2^6); apply N.pow_le_mono_r; lia).
  assert (EE : N.land empty (mask64_safe (2 ^ isl)) = empty mod 2 ^ 2 ^ isl).
  { unfold mask64_safe. destruct (N.ltb_spec (2 ^ isl) 64); rewrite land_mask; [reflexivity|]. replace (2 ^ isl) with 64 by lia. reflexivity. }
  assert (EL : empty mod 2 ^ 2 ^ isl < 2 ^ 2 ^ isl) by (apply N.mod_lt, N.pow_nonzero; lia).
  split; [|rewrite EE; auto]. constructor; cbn; rewrite ?EE; auto; try lia.
  - apply u8_id. apply N.div_lt_upper_bound; [lia|]. assert (nkb < 256 \/ 256 <= nkb) as [|] by lia; nia.
  - apply fill_bits; auto; [lia|]. intros q. rewrite N.add_0_r. destruct (N.ltb_spec q (2 ^ isl)) as [C|C].
    + rewrite (N.mod_small q) by exact C. reflexivity.
    + cbn [andb]. eapply testbit_lt; [exact EL|exact C].
Qed.
