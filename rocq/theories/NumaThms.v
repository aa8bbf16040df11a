(** C101: how memory policies and node sets are shown. *)
From Verif Require Import Base Printf InfoModel XlatModel NumaModel NumaSpec.
From Verif Require Import XlatSpec XlatProofs XlatText.
From Verif Require ArrayModel ArraySpec ArrayThms BitsModel ExtModel TvalModel TvalSpec TvalThms DateThms InfoThms InfoSpec CapSpec CapThms RetModel.
Local Open Scope N_scope.

(** ---- arrays ---- *)
Definition piece (b : list N) (esz i : nat) : list N := firstn esz (skipn (i * esz) b).
Lemma bytes_sub m a b off n : TvalSpec.bytes_at m a b -> (off + n <= length b)%nat -> TvalSpec.bytes_at m (a + N.of_nat off) (firstn n (skipn off b)).
Proof.
  intros H L i I. rewrite firstn_length, skipn_length in I. specialize (H (off + i)%nat ltac:(lia)).
  replace (a + N.of_nat off + N.of_nat i) with (a + N.of_nat (off + i)) by lia. rewrite H. f_equal.
  assert (X : forall (l : list N) k j, (j < k)%nat -> nth j (firstn k l) 0 = nth j l 0).
  { induction l as [|x l IH]; intros k j J; [rewrite firstn_nil; reflexivity|]. destruct k; [lia|]. destruct j; [reflexivity|]. cbn [firstn nth]. apply IH. lia. }
  rewrite X by lia. assert (Y : forall (l : list N) k j, nth j (skipn k l) 0 = nth (k + j) l 0).
  { induction l as [|x l IH]; intros k j; [rewrite skipn_nil; destruct (k + j)%nat; destruct j; reflexivity|]. destruct k; [reflexivity|]. cbn [skipn Nat.add nth]. apply IH. }
  rewrite Y. reflexivity.
Qed.
Lemma args_commas l : args l = commas l.
Proof. induction l as [|x l IH]; [reflexivity|]. cbn [args commas]. rewrite IH. reflexivity. Qed.
Lemma joined_text pf l : concat (map (tok_text pf) (ArraySpec.joined l)) = commas (map (fun x => concat (map (tok_text pf) x)) l).
Proof.
  induction l as [|x l IH]; [reflexivity|]. destruct l as [|y l]; [reflexivity|].
  change (ArraySpec.joined (x :: y :: l)) with (x ++ ArrayModel.Next :: ArraySpec.joined (y :: l)). rewrite map_app, concat_app. cbn [map concat]. rewrite IH. reflexivity.
Qed.
Lemma brackets_text pf l : concat (map (tok_text pf) (ArraySpec.brackets l)) = bs "[" ++ commas (map (fun x => concat (map (tok_text pf) x)) l) ++ bs "]".
Proof. unfold ArraySpec.brackets. cbn [map concat]. rewrite map_app, concat_app, joined_text. cbn [map concat]. rewrite app_nil_r. reflexivity. Qed.

Section A.
Variables (e : env) (pf : list N -> list N) (addr n : N) (esz : nat) (b : list N) (j : nat).
Hypotheses (A0 : addr <> 0) (E0 : (0 < esz)%nat) (N0 : n <> 0) (F : addr + n * N.of_nat esz < 2^64) (V : ExtModel.verbose (o e) = true) (NF : ExtModel.failed (o e) = false)
  (AB : abbrev e = true -> n < 2^32) (LB : length b = (j * esz)%nat) (MB : TvalSpec.bytes_at (m e) addr b) (J : N.of_nat j <= n).
Let a := array_args e addr n (N.of_nat esz).
Lemma a_fits : ArraySpec.fits a. Proof. unfold ArraySpec.fits, a. cbn. repeat split; try lia; exact F. Qed.
Lemma a_fetch i : (i < j)%nat -> ArrayModel.fetch a (ArraySpec.addr a i) = Some (piece b esz i).
Proof.
  intros I. unfold a, array_args, ArraySpec.addr. cbn [ArrayModel.fetch ArrayModel.start ArrayModel.esize]. rewrite Nat2N.id.
  assert (L : (i * esz + esz <= length b)%nat) by (rewrite LB; nia). assert (LP : length (piece b esz i) = esz) by (unfold piece; rewrite firstn_length, skipn_length; lia).
  rewrite <- LP at 2. apply TvalThms.fetched; try assumption; [lia|]. unfold piece. replace (addr + N.of_nat i * N.of_nat esz) with (addr + N.of_nat (i * esz)) by lia. apply bytes_sub; [exact MB|exact L].
Qed.
Lemma a_items k : (k <= j)%nat -> map (fun x => concat (map (tok_text pf) x)) (ArraySpec.items a k) = map (fun i => pf (piece b esz i)) (seq 0 k).
Proof.
  intros K. unfold ArraySpec.items. rewrite map_map. apply map_ext_in. intros i I. apply in_seq in I. unfold ArraySpec.item. rewrite a_fetch by lia. cbn. apply app_nil_r.
Qed.
Lemma a_limit : ArraySpec.limit a = count (abbrev e) (ExtModel.max_strlen (o e)) n. Proof. reflexivity. Qed.
Definition shown_pieces (k : nat) : list (list N) := map (fun i => pf (piece b esz i)) (seq 0 k).
Lemma array_whole : N.of_nat j = n -> let k := count (abbrev e) (ExtModel.max_strlen (o e)) n in
  print_array e pf addr n (N.of_nat esz) = bs "[" ++ commas (shown_pieces k ++ cut k j) ++ bs "]".
Proof.
  intros JN k. assert (K : (k <= j)%nat) by (unfold k, count; destruct (abbrev e); lia).
  destruct (ArrayThms.C49_whole_partial a a_fits AB) as (fe & X).
  - intros i I. rewrite a_limit in I. fold k in I. exists (piece b esz i). split; [apply a_fetch; lia|reflexivity].
  - intros L. rewrite a_limit in *. fold k in L |- *. cbn [ArrayModel.nmemb a array_args] in L. rewrite a_fetch by lia. discriminate.
  - unfold print_array. fold a. rewrite X. cbn [snd]. rewrite brackets_text, map_app, a_items by (rewrite a_limit; exact K). rewrite a_limit. fold k.
    unfold shown_pieces, cut. f_equal. f_equal. f_equal. f_equal. change (ArrayModel.paf_truncated a) with false. rewrite orb_false_r. replace (N.to_nat (ArrayModel.nmemb a)) with j by (cbn [ArrayModel.nmemb a array_args]; lia). destruct (k <? j)%nat; reflexivity.
Qed.
Lemma array_part : N.of_nat j < n -> (j <= count (abbrev e) (ExtModel.max_strlen (o e)) n)%nat -> TvalSpec.unreadable (m e) (addr + N.of_nat (j * esz)) esz ->
  print_array e pf addr n (N.of_nat esz) = if (j =? 0)%nat then TvalModel.printaddr addr else
    bs "[" ++ commas (shown_pieces j ++ [bs "... /* " ++ TvalModel.printaddr (addr + N.of_nat (j * esz)) ++ bs " */"]) ++ bs "]".
Proof.
  intros JN JL U. destruct (ArrayThms.C49_unreadable_partial a j a_fits AB eq_refl) as (fe & X).
  - rewrite a_limit. exact JL.
  - cbn [ArrayModel.nmemb a array_args]. lia.
  - intros i I. exists (piece b esz i). split; [apply a_fetch; lia|reflexivity].
  - unfold a, array_args, ArraySpec.addr. cbn [ArrayModel.fetch ArrayModel.start ArrayModel.esize]. rewrite Nat2N.id. apply TvalThms.not_fetched. right. right. right.
    replace (addr + N.of_nat j * N.of_nat esz) with (addr + N.of_nat (j * esz)) by lia. exact U.
  - unfold print_array. fold a. rewrite X. cbn [snd]. destruct (j =? 0)%nat.
    + cbn [map concat tok_text]. rewrite app_nil_r. reflexivity.
    + rewrite brackets_text, map_app, a_items by lia. unfold shown_pieces. f_equal. f_equal. f_equal. f_equal. cbn [map concat tok_text]. rewrite app_nil_r.
      unfold ArraySpec.addr, a. cbn [ArrayModel.start ArrayModel.esize array_args]. replace (addr + N.of_nat j * N.of_nat esz) with (addr + N.of_nat (j * esz)) by lia. rewrite ?app_assoc. reflexivity.
Qed.
End A.
Lemma array_nothing e pf addr n esz : addr < 2^64 -> n < 2^64 -> (0 < esz)%nat -> N.of_nat esz < 2^64 -> addr = 0 \/ n = 0 \/ 2^64 <= addr + n * N.of_nat esz ->
  print_array e pf addr n (N.of_nat esz) = if addr =? 0 then bs "NULL" else if n =? 0 then bs "[]" else TvalModel.printaddr addr.
Proof.
  intros A B E E2 C. unfold print_array. rewrite (ArrayThms.C49_degenerate (array_args e addr n (N.of_nat esz))); try assumption.
  - cbn. destruct (addr =? 0); [reflexivity|]. destruct (n =? 0); [reflexivity|]. cbn. apply app_nil_r.
  - unfold ArraySpec.fits. cbn. intros (X & Y & Z & W). change (2^64) with 18446744073709551616 in *. lia.
Qed.

(** ---- numbers ---- *)
Lemma nth_piece b esz i k : (k < esz)%nat -> nth k (piece b esz i) 0 = nth (i * esz + k) b 0.
Proof.
  intros K. unfold piece.
  assert (X : forall (l : list N) k j, (j < k)%nat -> nth j (firstn k l) 0 = nth j l 0).
  { induction l as [|x l IH]; intros q j J; [rewrite firstn_nil; reflexivity|]. destruct q; [lia|]. destruct j; [reflexivity|]. cbn [firstn nth]. apply IH. lia. }
  assert (Y : forall (l : list N) k j, nth j (skipn k l) 0 = nth (k + j) l 0).
  { induction l as [|x l IH]; intros q j; [rewrite skipn_nil; destruct (q + j)%nat; destruct j; reflexivity|]. destruct q; [reflexivity|]. cbn [skipn Nat.add nth]. apply IH. }
  rewrite X by exact K. apply Y.
Qed.
Lemma number_ext s off s' off' : forall n, (forall i, (i < n)%nat -> nth (off + i) s 0 = nth (off' + i) s' 0) -> InfoSpec.number_at s off n = InfoSpec.number_at s' off' n.
Proof.
  intros n H. unfold InfoSpec.number_at. assert (X : forall l, (forall i, In i l -> (i < n)%nat) -> fold_right (fun i a => nth (off + i) s 0 * 256 ^ N.of_nat i + a) 0 l = fold_right (fun i a => nth (off' + i) s' 0 * 256 ^ N.of_nat i + a) 0 l).
  { induction l as [|x l IH]; intros Q; [reflexivity|]. cbn [fold_right]. rewrite IH by (intros i I; apply Q; right; exact I). rewrite H by (apply Q; left; reflexivity). reflexivity. }
  apply X. intros i I. apply in_seq in I. lia.
Qed.
Lemma piece_number b esz i : ld (piece b esz i) 0 esz = InfoSpec.number_at b (i * esz) esz.
Proof. rewrite InfoThms.ld_number. apply number_ext. intros k K. cbn [Nat.add]. apply nth_piece. exact K. Qed.
Lemma piece_length b esz i j : length b = (j * esz)%nat -> (i < j)%nat -> length (piece b esz i) = esz.
Proof. intros L I. unfold piece. rewrite firstn_length, skipn_length, L. nia. Qed.
Lemma val_0x_ok size v : (2 <= size)%nat -> word_text v (print_val_0x size v).
Proof.
  intros S2. unfold print_val_0x, word_text. destruct (N.eqb_spec v 0) as [Z|Z].
  - left. split; [exact Z|]. split; [destruct size; [lia|discriminate]|]. rewrite <- (app_nil_r (repeat 48 _)). rewrite rd_zeros by lia. reflexivity.
  - right. split; [exact Z|]. exists (pr_pad 16 (size * 2 - 2) v). split; [reflexivity|]. split; [|apply pr_pad_rd; lia].
    unfold pr_pad. intros E. apply app_eq_nil in E as [_ E]. pose proof (pr_num_rd 16 v ltac:(lia)) as R. rewrite E in R. inversion R. lia.
Qed.
Lemma array_text_of (elt : nat -> list N -> Prop) pf b esz k j rest t : length b = (j * esz)%nat -> (k <= j)%nat -> (forall i, (i < k)%nat -> elt i (pf (piece b esz i))) ->
  t = bs "[" ++ commas (shown_pieces pf esz b k ++ rest) ++ bs "]" -> array_text elt k rest t.
Proof.
  intros L K H T. exists (shown_pieces pf esz b k). unfold shown_pieces in *. split; [rewrite map_length, seq_length; reflexivity|]. split; [|exact T].
  intros i I. rewrite nth_indep with (d' := pf (piece b esz 0)) by (rewrite map_length, seq_length; exact I). rewrite (map_nth (fun i => pf (piece b esz i))), seq_nth by exact I. cbn [Nat.add]. apply H. exact I.
Qed.
Lemma word_piece b w i j : w = 4%nat \/ w = 8%nat -> length b = (j * w)%nat -> (i < j)%nat -> word_text (InfoSpec.number_at b (i * w) w) (print_node (piece b w i)).
Proof.
  intros W L I. unfold print_node. rewrite (piece_length b w i j L I). destruct W as [-> | ->].
  - change (4 <? 8)%nat with true. cbv iota. rewrite piece_number. apply val_0x_ok. lia.
  - change (8 <? 8)%nat with false. cbv iota. rewrite piece_number. apply val_0x_ok. lia.
Qed.

(** ---- sets of nodes ---- *)
Lemma mask_words e addr maxnode k : ws e = 4 \/ ws e = 8 -> 2 <= maxnode -> maxnode + 62 < 2^64 -> words (8 * ws e) maxnode k ->
  k <> 0 /\ print_nodemask e addr maxnode = print_array e print_node addr k (N.of_nat (N.to_nat (ws e))).
Proof.
  intros W M2 MM K. unfold words in K. assert (K0 : k <> 0) by (destruct W as [W|W]; rewrite W in K; lia). split; [exact K0|]. unfold print_nodemask. rewrite N2Nat.id.
  assert (E : u64 (maxnode + 8 * ws e - 2) / (8 * ws e) = k).
  { unfold u64. rewrite N.mod_small by (destruct W as [W|W]; rewrite W; lia). symmetry. destruct W as [W|W]; rewrite W in *.
    - apply (N.div_unique _ _ _ (maxnode + 8 * 4 - 2 - 32 * k)); lia.
    - apply (N.div_unique _ _ _ (maxnode + 8 * 8 - 2 - 64 * k)); lia. }
  rewrite E. assert (G : (k <? maxnode / (8 * ws e)) = false).
  { apply N.ltb_ge. assert (maxnode / (8 * ws e) < k + 1); [|lia]. apply N.div_lt_upper_bound; destruct W as [W|W]; rewrite W in *; lia. }
  rewrite G. replace (maxnode =? 0) with false by lia. replace (k =? 0) with false by lia. reflexivity.
Qed.
(** The words of the mask, and no others, are shown, each as the number in memory. *)
Theorem C101_nodemask : forall e addr maxnode b k, ws e = 4 \/ ws e = 8 -> 2 <= maxnode -> maxnode + 62 < 2^64 -> words (8 * ws e) maxnode k ->
  addr <> 0 -> addr + k * ws e < 2^64 -> ExtModel.verbose (o e) = true -> ExtModel.failed (o e) = false -> (abbrev e = true -> k < 2^32) ->
  TvalSpec.bytes_at (m e) addr b -> let w := N.to_nat (ws e) in length b = (N.to_nat k * w)%nat ->
  let c := count (abbrev e) (ExtModel.max_strlen (o e)) k in
  array_text (fun i t => word_text (InfoSpec.number_at b (i * w) w) t) c (cut c (N.to_nat k)) (print_nodemask e addr maxnode).
Proof.
  intros e addr maxnode b k W M2 MM K A0 F V NF AB MB w LB c. destruct (mask_words e addr maxnode k W M2 MM K) as (K0 & ->).
  assert (C : (c <= N.to_nat k)%nat) by (unfold c, count; destruct (abbrev e); lia). assert (W' : w = 4%nat \/ w = 8%nat) by (unfold w; destruct W as [-> | ->]; [left|right]; reflexivity).
  apply (array_text_of _ print_node b w c (N.to_nat k)); [exact LB|exact C| |].
  - intros i I. apply (word_piece b w i (N.to_nat k) W' LB). lia.
  - fold w. apply (array_whole e print_node addr k w b (N.to_nat k)); try assumption; try lia; destruct W' as [-> | ->] || idtac; try lia.
Qed.
Print Assumptions C101_nodemask.

(** A mask of which only the first [j] words can be read. *)
Theorem C101_nodemask_part : forall e addr maxnode b k j, ws e = 4 \/ ws e = 8 -> 2 <= maxnode -> maxnode + 62 < 2^64 -> words (8 * ws e) maxnode k ->
  addr <> 0 -> addr + k * ws e < 2^64 -> ExtModel.verbose (o e) = true -> ExtModel.failed (o e) = false -> (abbrev e = true -> k < 2^32) ->
  TvalSpec.bytes_at (m e) addr b -> let w := N.to_nat (ws e) in length b = (j * w)%nat -> TvalSpec.unreadable (m e) (addr + N.of_nat (j * w)) w ->
  N.of_nat j < k -> (j <= count (abbrev e) (ExtModel.max_strlen (o e)) k)%nat ->
  j = 0%nat /\ TvalSpec.address (print_nodemask e addr maxnode) addr \/
  (0 < j)%nat /\ exists x, TvalSpec.address x (addr + N.of_nat (j * w)) /\
  array_text (fun i t => word_text (InfoSpec.number_at b (i * w) w) t) j [bs "... /* " ++ x ++ bs " */"] (print_nodemask e addr maxnode).
Proof.
  intros e addr maxnode b k j W M2 MM K A0 F V NF AB MB w LB U JK JC. destruct (mask_words e addr maxnode k W M2 MM K) as (K0 & ->). fold w.
  assert (W' : w = 4%nat \/ w = 8%nat) by (unfold w; destruct W as [-> | ->]; [left|right]; reflexivity).
  assert (X : print_array e print_node addr k (N.of_nat w) = if (j =? 0)%nat then TvalModel.printaddr addr else
    bs "[" ++ commas (shown_pieces print_node w b j ++ [bs "... /* " ++ TvalModel.printaddr (addr + N.of_nat (j * w)) ++ bs " */"]) ++ bs "]").
  { apply (array_part e print_node addr k w b j); try assumption; try lia. }
  rewrite X. destruct (Nat.eqb_spec j 0) as [Z|Z].
  - left. split; [exact Z|]. apply TvalThms.printaddr_ok.
  - right. split; [lia|]. exists (TvalModel.printaddr (addr + N.of_nat (j * w))). split; [apply TvalThms.printaddr_ok|].
    eapply (array_text_of _ print_node b w j j); [exact LB|lia| |reflexivity]. intros i I. apply (word_piece b w i j W' LB I).
Qed.
Print Assumptions C101_nodemask_part.
(** Where there is no mask, the address is shown, or [] for no nodes. *)
Theorem C101_no_mask : forall e addr maxnode, ws e = 4 \/ ws e = 8 -> addr < 2^64 -> maxnode < 2^64 ->
  (addr = 0 \/ maxnode = 1 -> TvalSpec.address (print_nodemask e addr maxnode) addr) /\
  (addr <> 0 -> maxnode = 0 -> print_nodemask e addr maxnode = bs "[]") /\
  (forall k, 2 <= maxnode -> words (8 * ws e) maxnode k -> 2^64 <= addr + k * ws e -> TvalSpec.address (print_nodemask e addr maxnode) addr) /\
  (maxnode <> 0 -> ExtModel.verbose (o e) = false \/ ExtModel.failed (o e) = true -> (abbrev e = true -> maxnode < 2^32) -> TvalSpec.address (print_nodemask e addr maxnode) addr).
Proof.
  intros e addr maxnode W A M. assert (NA : forall n, n < 2^64 -> n <> 0 -> addr = 0 \/ 2^64 <= addr + n * ws e -> TvalSpec.address (print_array e print_node addr n (ws e)) addr).
  { intros n N1 N2 D. replace (ws e) with (N.of_nat (N.to_nat (ws e))) by apply N2Nat.id. rewrite array_nothing; try assumption.
    - destruct (N.eqb_spec addr 0) as [Z|Z]; [left; split; [exact Z|reflexivity]|]. replace (n =? 0) with false by lia. apply TvalThms.printaddr_ok.
    - destruct W as [-> | ->]; cbn; lia.
    - rewrite N2Nat.id. destruct W as [-> | ->]; reflexivity.
    - rewrite N2Nat.id. tauto. }
  assert (BZ : 8 * ws e <> 0) by (destruct W as [-> | ->]; discriminate).
  assert (NM : u64 (maxnode + 8 * ws e - 2) / (8 * ws e) < 2^64).
  { apply N.div_lt_upper_bound; [exact BZ|]. unfold u64. pose proof (N.mod_lt (maxnode + 8 * ws e - 2) (2^64) ltac:(discriminate)) as Q. set (r := (maxnode + 8 * ws e - 2) mod 2^64) in *. clearbody r. destruct W as [-> | ->]; lia. }
  repeat split.
  - intros D. unfold print_nodemask. set (n := u64 (maxnode + 8 * ws e - 2) / (8 * ws e)) in *. destruct ((n <? maxnode / (8 * ws e)) || (negb (maxnode =? 0) && (n =? 0))) eqn:G; [apply TvalThms.printaddr_ok|].
    destruct D as [D|D].
    + destruct (N.eq_dec n 0) as [Z|Z].
      * replace (ws e) with (N.of_nat (N.to_nat (ws e))) by apply N2Nat.id. rewrite array_nothing; try assumption; [rewrite D; left; split; reflexivity| | |left; exact D].
        -- destruct W as [-> | ->]; cbn; lia.
        -- rewrite N2Nat.id. destruct W as [-> | ->]; reflexivity.
      * apply NA; [exact NM|exact Z|left; exact D].
    + exfalso. assert (Z : n = 0). { unfold n. rewrite D. destruct W as [-> | ->]; reflexivity. } rewrite Z, D in G. cbn in G. rewrite orb_true_r in G. discriminate G.
  - intros A0 Z. unfold print_nodemask. rewrite Z. replace (u64 (0 + 8 * ws e - 2) / (8 * ws e)) with 0 by (destruct W as [-> | ->]; reflexivity). rewrite N.div_0_l by exact BZ. cbn [N.ltb N.eqb N.compare negb andb orb].
    replace (ws e) with (N.of_nat (N.to_nat (ws e))) by apply N2Nat.id. rewrite array_nothing; try assumption; [replace (addr =? 0) with false by lia; reflexivity|reflexivity| | |right; left; reflexivity].
    + destruct W as [-> | ->]; cbn; lia.
    + rewrite N2Nat.id. destruct W as [-> | ->]; reflexivity.
  - intros k M2 K B. destruct (N.le_gt_cases (2^64) (maxnode + 62)) as [O|O].
    + unfold print_nodemask. assert (G : (u64 (maxnode + 8 * ws e - 2) / (8 * ws e) <? maxnode / (8 * ws e)) = true \/ u64 (maxnode + 8 * ws e - 2) = maxnode + 8 * ws e - 2).
      { destruct (N.le_gt_cases (2^64) (maxnode + 8 * ws e - 2)) as [O2|O2]; [left|right; unfold u64; apply N.mod_small; exact O2]. apply N.ltb_lt. unfold u64.
        replace ((maxnode + 8 * ws e - 2) mod 2^64) with (maxnode + 8 * ws e - 2 - 2^64).
        2:{ apply (N.mod_unique _ _ 1); change (2^64) with 18446744073709551616 in *; destruct W as [W|W]; rewrite W in *; lia. }
        change (2^64) with 18446744073709551616 in *. rewrite N.div_small by (destruct W as [W|W]; rewrite W in *; lia). apply N.div_str_pos. destruct W as [W|W]; rewrite W in *; lia. }
      destruct G as [G|G]; [rewrite G; apply TvalThms.printaddr_ok|]. rewrite G. unfold words in K.
      assert (E : (maxnode + 8 * ws e - 2) / (8 * ws e) = k).
      { symmetry. destruct W as [W|W]; rewrite W in *; [apply (N.div_unique _ _ _ (maxnode + 8 * 4 - 2 - 32 * k))|apply (N.div_unique _ _ _ (maxnode + 8 * 8 - 2 - 64 * k))]; lia. }
      rewrite E. destruct ((k <? maxnode / (8 * ws e)) || (negb (maxnode =? 0) && (k =? 0))); [apply TvalThms.printaddr_ok|].
      apply NA; [rewrite <- E; rewrite G in NM; exact NM|destruct W as [W|W]; rewrite W in *; lia|right; exact B].
    + destruct (mask_words e addr maxnode k W M2 O K) as (K0 & ->). rewrite N2Nat.id. apply NA; [|exact K0|right; exact B]. unfold words in K. destruct W as [W|W]; rewrite W in *; lia.
  - intros M0 D AB. unfold print_nodemask. set (n := u64 (maxnode + 8 * ws e - 2) / (8 * ws e)) in *. destruct ((n <? maxnode / (8 * ws e)) || (negb (maxnode =? 0) && (n =? 0))) eqn:G; [apply TvalThms.printaddr_ok|].
    assert (N0 : n <> 0). { intros Z. rewrite Z in G. replace (maxnode =? 0) with false in G by lia. cbn in G. rewrite orb_true_r in G. discriminate G. }
    destruct (N.eq_dec addr 0) as [A0|A0]; [apply NA; [exact NM|exact N0|left; exact A0]|].
    destruct (N.le_gt_cases (2^64) (addr + n * ws e)) as [B|B]; [apply NA; [exact NM|exact N0|right; exact B]|].
    unfold print_array. destruct (ArrayThms.C49_unreadable_partial (array_args e addr n (ws e)) 0) as (fe & X).
    + unfold ArraySpec.fits. cbn. repeat split; try lia; exact B.
    + cbn. intros Y. specialize (AB Y). unfold n. apply N.div_lt_upper_bound; [exact BZ|]. unfold u64. rewrite N.mod_small; change (2^64) with 18446744073709551616; change (2^32) with 4294967296 in *; destruct W as [-> | ->]; lia.
    + reflexivity.
    + lia.
    + cbn. lia.
    + intros i I. lia.
    + cbn. unfold ExtModel.umoven_or_printaddr. destruct D as [-> | ->]; cbn [negb]; rewrite ?orb_true_r; reflexivity.
    + rewrite X. cbn. rewrite app_nil_r. apply TvalThms.printaddr_ok.
Qed.
Print Assumptions C101_no_mask.

(** Node [n] is in the mask if the bit n mod 8 of the byte n / 8 is set: it is the bit n mod bits of the word n / bits that is shown. *)
Lemma number_bit s : Forall (fun x => x < 256) s -> forall n off i, i < 8 * N.of_nat n -> N.testbit (InfoSpec.number_at s off n) i = N.testbit (nth (off + N.to_nat (i / 8)) s 0) (i mod 8).
Proof.
  intros H. induction n as [|n IH]; intros off i I; [lia|]. rewrite InfoThms.number_S.
  assert (B : nth off s 0 < 256). { destruct (nth_in_or_default off s 0) as [X| ->]; [|lia]. rewrite Forall_forall in H. apply H, X. }
  pose proof (N.div_mod i 8 ltac:(lia)) as DM. pose proof (N.mod_lt i 8 ltac:(lia)) as ML. set (x := nth off s 0) in *. set (y := InfoSpec.number_at s (S off) n) in *.
  assert (X1 : (x + 256 * y) mod 2^8 = x) by (change (2^8) with 256; lia). assert (X2 : (x + 256 * y) / 2^8 = y) by (change (2^8) with 256; lia).
  destruct (N.lt_ge_cases i 8) as [L|L].
  - rewrite <- (N.mod_pow2_bits_low _ 8) by exact L. rewrite X1. rewrite (N.div_small i 8), (N.mod_small i 8) by exact L. unfold x. rewrite Nat.add_0_r. reflexivity.
  - replace i with (i - 8 + 8) at 1 by lia. rewrite <- N.div_pow2_bits, X2. unfold y. rewrite IH by lia.
    assert (Q : (i - 8) / 8 = i / 8 - 1 /\ (i - 8) mod 8 = i mod 8) by lia. destruct Q as (Q1 & Q2). rewrite Q1, Q2. replace (S off + N.to_nat (i / 8 - 1))%nat with (off + N.to_nat (i / 8))%nat by lia. reflexivity.
Qed.
Theorem C101_node : forall b w n, w = 4 \/ w = 8 -> Forall (fun x => x < 256) b ->
  N.testbit (nth (N.to_nat (n / 8)) b 0) (n mod 8) = N.testbit (InfoSpec.number_at b (N.to_nat (n / (8 * w)) * N.to_nat w) (N.to_nat w)) (n mod (8 * w)).
Proof.
  intros b w n W B. assert (BZ : 8 * w <> 0) by lia. pose proof (N.mod_lt n (8 * w) BZ) as ML. rewrite number_bit by (try exact B; rewrite N2Nat.id; exact ML).
  pose proof (N.div_mod n (8 * w) BZ) as D. set (q := n / (8 * w)) in *. set (r := n mod (8 * w)) in *. clearbody q r. replace (r mod 8) with (n mod 8) by (destruct W as [-> | ->]; lia).
  replace (N.to_nat q * N.to_nat w + N.to_nat (r / 8))%nat with (N.to_nat (n / 8)); [reflexivity|]. destruct W as [-> | ->]; lia.
Qed.
Print Assumptions C101_node.

(** ---- policies ---- *)
Import BitsModel.
Lemma modes_policy b : xlookup mpol_modes b = policy b.
Proof.
  destruct (N.lt_ge_cases b 7) as [L|L].
  - assert (C : b = 0 \/ b = 1 \/ b = 2 \/ b = 3 \/ b = 4 \/ b = 5 \/ b = 6) by lia. repeat destruct C as [-> |C]; [..|subst b]; vm_compute; reflexivity.
  - unfold xlookup, mpol_modes, policy. cbn [ty data length]. replace (b <? N.of_nat 7) with false by lia. symmetry. apply nth_error_None. cbn [length]. lia.
Qed.
Lemma mask_eq : N.lor (N.lor (2^15) (2^14)) (2^13) = 0xe000. Proof. reflexivity. Qed.
Lemma flags_value v : N.land v 0xe000 = (if N.testbit v 15 then 2^15 else 0) + (if N.testbit v 14 then 2^14 else 0) + (if N.testbit v 13 then 2^13 else 0).
Proof.
  assert (X : forall k, N.land v (2^k) = if N.testbit v k then 2^k else 0).
  { intros k. apply N.bits_inj. intros j. rewrite N.land_spec, N.pow2_bits_eqb. destruct (N.eqb_spec k j) as [<- |E].
    - rewrite andb_true_r. destruct (N.testbit v k); [rewrite N.pow2_bits_true; reflexivity|rewrite N.bits_0; reflexivity].
    - rewrite andb_false_r. destruct (N.testbit v k); [rewrite N.pow2_bits_false by exact E; reflexivity|rewrite N.bits_0; reflexivity]. }
  rewrite <- mask_eq, !N.land_lor_distr_r, !X. destruct (N.testbit v 15), (N.testbit v 14), (N.testbit v 13); reflexivity.
Qed.
Lemma named_flags v : printflags_ex (N.land v 0xe000) None XABBREV FMT_X [mpol_mode_flags] = CapSpec.bar (flag_names v).
Proof. rewrite flags_value. unfold flag_names. destruct (N.testbit v 15), (N.testbit v 14), (N.testbit v 13); vm_compute; reflexivity. Qed.
Lemma flags_0 v : N.land v 0xe000 = 0 <-> flag_names v = [].
Proof. rewrite flags_value. unfold flag_names. destruct (N.testbit v 15), (N.testbit v 14), (N.testbit v 13); split; intros H; try reflexivity; discriminate H. Qed.
Lemma hex_ok n : hex_or_0 (pr_hex n) n.
Proof. destruct (N.eq_dec n 0) as [-> |Z]; [left; split; reflexivity|right; split; [exact Z|apply CapThms.hex_ok; exact Z]]. Qed.
Lemma one_step s k name r f n out : N.ldiff f (2^k) <> 0 -> pf_table s ((2^k, Some name) :: r) f n out =
  pf_table s r (N.ldiff f (2^k)) (if N.testbit f k then n + 1 else n) (if N.testbit f k then out ++ (if n =? 0 then CapThms.lead s else bs "|") ++ name else out).
Proof.
  intros Z. assert (FN : f <> 0). { intros ->. apply Z. apply N.ldiff_0_l. } apply N.eqb_neq in FN. cbn [pf_table]. rewrite FN. cbn [negb orb].
  change ((f =? 2 ^ k) || (negb (2 ^ k =? 0) && (N.land f (2 ^ k) =? 2 ^ k))) with ((f =? 2 ^ k) || (negb (2 ^ k =? 0) && (N.land f (2 ^ k) =? 2 ^ k))). rewrite CapThms.bit_in. destruct (N.testbit f k) eqn:T.
  - apply N.eqb_neq in Z. rewrite Z. f_equal. replace (match s with XVERBOSE => [] | _ => @nil N end) with (@nil N) by (destruct s; reflexivity). rewrite app_nil_r, <- app_assoc. f_equal. f_equal. destruct (n =? 0); [|reflexivity]. destruct s; reflexivity.
  - rewrite FN. f_equal. apply N.bits_inj. intros j. rewrite N.ldiff_spec, N.pow2_bits_eqb. destruct (N.eqb_spec k j) as [<- |E]; [rewrite T; reflexivity|rewrite andb_true_r; reflexivity].
Qed.
Lemma ldiff_twice a b c : N.ldiff (N.ldiff a b) c = N.ldiff a (N.lor b c).
Proof. apply N.bits_inj. intros j. rewrite !N.ldiff_spec, N.lor_spec. destruct (N.testbit a j), (N.testbit b j), (N.testbit c j); reflexivity. Qed.
Lemma unnamed_flags s v : s <> XRAW -> base_mode v <> 0 -> flag_names v <> [] ->
  printflags_ex v dflt s FMT_X [mpol_mode_flags] = match s with XVERBOSE => pr_hex v ++ bs " /* " ++ CapSpec.bar (flag_names v ++ [pr_hex (base_mode v)]) ++ bs " */" | _ => CapSpec.bar (flag_names v ++ [pr_hex (base_mode v)]) end.
Proof.
  intros R B0 FL. assert (V0 : (v =? 0) = false). { apply N.eqb_neq. intros ->. apply B0. reflexivity. }
  assert (L1 : N.ldiff v (2^15) <> 0). { intros E. apply B0. unfold base_mode. rewrite <- mask_eq, <- !ldiff_twice, E, !N.ldiff_0_l. reflexivity. }
  assert (L2 : N.ldiff (N.ldiff v (2^15)) (2^14) <> 0). { intros E. apply B0. unfold base_mode. rewrite <- mask_eq, <- !ldiff_twice, E, !N.ldiff_0_l. reflexivity. }
  assert (L3 : N.ldiff (N.ldiff (N.ldiff v (2^15)) (2^14)) (2^13) = base_mode v) by (unfold base_mode; rewrite <- mask_eq, !ldiff_twice; reflexivity).
  assert (T1 : N.testbit (N.ldiff v (2^15)) 14 = N.testbit v 14) by (rewrite N.ldiff_spec, N.pow2_bits_false by discriminate; apply andb_true_r).
  assert (T2 : N.testbit (N.ldiff (N.ldiff v (2^15)) (2^14)) 13 = N.testbit v 13) by (rewrite !N.ldiff_spec, !N.pow2_bits_false by discriminate; rewrite !andb_true_r; reflexivity).
  set (out := match s with XVERBOSE => if v =? 0 then [] else sprint_xlat_val FMT_X v | _ => [] end).
  assert (P : pf_tables s [mpol_mode_flags] v 0 out = (base_mode v, N.of_nat (length (flag_names v)), out ++ CapThms.lead s ++ CapSpec.bar (flag_names v))).
  { cbn [pf_tables data mpol_mode_flags]. rewrite one_step by exact L1. rewrite one_step by exact L2. rewrite one_step by (rewrite L3; exact B0). cbn [pf_table]. rewrite L3, T1, T2. unfold flag_names in *.
    destruct (N.testbit v 15), (N.testbit v 14), (N.testbit v 13); cbn [app length N.eqb N.add N.of_nat Pos.of_succ_nat Pos.succ Pos.add CapSpec.bar] in *; try congruence; cbn [N.eqb]; rewrite <- ?app_assoc; reflexivity. }
  assert (N0 : (N.of_nat (length (flag_names v)) =? 0) = false) by (destruct (flag_names v); [contradiction|reflexivity]).
  assert (J : CapSpec.bar (flag_names v ++ [pr_hex (base_mode v)]) = CapSpec.bar (flag_names v) ++ bs "|" ++ pr_hex (base_mode v)).
  { generalize (pr_hex (base_mode v)). intros x. destruct (flag_names v) as [|a l]; [contradiction|]. clear. revert a. induction l as [|c l IH]; intros a; [reflexivity|]. cbn [app]. change (CapSpec.bar (a :: c :: l ++ [x])) with (a ++ bs "|" ++ CapSpec.bar ((c :: l) ++ [x])). rewrite IH. change (CapSpec.bar (a :: c :: l)) with (a ++ bs "|" ++ CapSpec.bar (c :: l)). rewrite <- !app_assoc. reflexivity. }
  rewrite J. apply N.eqb_neq in B0. clear J L1 L2 L3 T1 T2. destruct s; [|contradiction|]; unfold printflags_ex; fold out; rewrite P; clear P; rewrite N0; cbn [negb]; rewrite B0.
  - cbn [sprint_xlat_val]. unfold out, CapThms.lead. cbn [app]. reflexivity.
  - cbn [sprint_xlat_val]. unfold out, CapThms.lead. rewrite V0. cbn [sprint_xlat_val]. rewrite <- !app_assoc. reflexivity.
Qed.
(** A policy is shown by its name and those of its flags. *)
Theorem C101_mode : forall s v, mode_text s v (print_mode s v).
Proof.
  intros s v. unfold mode_text. exists (pr_hex v). split; [apply hex_ok|]. unfold print_mode. rewrite mask_eq. fold (base_mode v). rewrite modes_policy.
  destruct (N.eqb_spec (N.land v 0xe000) 0) as [Z|Z].
  - assert (BE : base_mode v = v). { unfold base_mode. apply N.bits_inj. intros j. rewrite N.ldiff_spec. assert (Q : N.testbit (N.land v 0xe000) j = false) by (rewrite Z; apply N.bits_0). rewrite N.land_spec in Q. destruct (N.testbit v j); [cbn [andb] in *; rewrite Q; reflexivity|reflexivity]. }
    rewrite BE. apply flags_0 in Z. rewrite Z. unfold printxvals_ex. cbn [xlookups]. rewrite modes_policy. destruct (policy v) as [p|] eqn:P.
    + assert (PN : p <> []). { intros ->. unfold policy in P. apply nth_error_In in P. cbn [In] in P. repeat (destruct P as [P|P]; [discriminate P|]). exact P. }
      destruct s; cbn [CapSpec.bar sprint_xlat_val]; try reflexivity. unfold comment. destruct p; [contradiction|reflexivity].
    + destruct s; reflexivity.
  - assert (FL : flag_names v <> []) by (intros X; apply Z; apply flags_0; exact X). destruct (policy (base_mode v)) as [p|] eqn:P.
    + rewrite named_flags. assert (J : p ++ bs "|" ++ CapSpec.bar (flag_names v) = CapSpec.bar (p :: flag_names v)) by (destruct (flag_names v); [contradiction|reflexivity]). rewrite J. destruct s; reflexivity.
    + assert (B0 : base_mode v <> 0) by (intros E; rewrite E in P; discriminate P). destruct s.
      * rewrite unnamed_flags by (try assumption; discriminate). destruct (flag_names v) as [|x l]; [contradiction|]. exists (pr_hex (base_mode v)). split; [apply CapThms.hex_ok; exact B0|reflexivity].
      * unfold printflags_ex. cbn [dflt]. rewrite orb_true_r. destruct (flag_names v); reflexivity.
      * rewrite unnamed_flags by (try assumption; discriminate). destruct (flag_names v) as [|x l]; [contradiction|]. exists (pr_hex (base_mode v)). split; [apply CapThms.hex_ok; exact B0|reflexivity].
Qed.
Print Assumptions C101_mode.

Definition toks (v : N) : list (list N) :=
  match policy (base_mode v), flag_names v with
  | Some p, fl => p :: fl
  | None, [] => [pr_hex v ++ bs " /* MPOL_??? */"]
  | None, fl => fl ++ [pr_hex (base_mode v)]
  end.
Lemma mode_toks v : print_mode XABBREV v = CapSpec.bar (toks v).
Proof.
  unfold print_mode, toks. rewrite mask_eq. fold (base_mode v). rewrite modes_policy. destruct (N.eqb_spec (N.land v 0xe000) 0) as [Z|Z].
  - assert (BE : base_mode v = v). { unfold base_mode. apply N.bits_inj. intros j. rewrite N.ldiff_spec. assert (Q : N.testbit (N.land v 0xe000) j = false) by (rewrite Z; apply N.bits_0). rewrite N.land_spec in Q. destruct (N.testbit v j); [cbn [andb] in *; rewrite Q; reflexivity|reflexivity]. }
    rewrite BE. apply flags_0 in Z. rewrite Z. unfold printxvals_ex. cbn [xlookups]. rewrite modes_policy. destruct (policy v); reflexivity.
  - assert (FL : flag_names v <> []) by (intros X; apply Z; apply flags_0; exact X). destruct (policy (base_mode v)) as [p|] eqn:P.
    + rewrite named_flags. destruct (flag_names v); [contradiction|reflexivity].
    + assert (B0 : base_mode v <> 0) by (intros E; rewrite E in P; discriminate P). rewrite unnamed_flags by (try assumption; discriminate). destruct (flag_names v); [contradiction|reflexivity].
Qed.
Lemma mode_hex s v : s <> XABBREV -> exists r, head_is 32 r /\ print_mode s v = pr_hex v ++ r.
Proof.
  intros NA. unfold print_mode. rewrite mask_eq. fold (base_mode v). rewrite modes_policy. destruct (N.eqb_spec (N.land v 0xe000) 0) as [Z|Z].
  - assert (BE : base_mode v = v). { unfold base_mode. apply N.bits_inj. intros j. rewrite N.ldiff_spec. assert (Q : N.testbit (N.land v 0xe000) j = false) by (rewrite Z; apply N.bits_0). rewrite N.land_spec in Q. destruct (N.testbit v j); [cbn [andb] in *; rewrite Q; reflexivity|reflexivity]. }
    rewrite BE. unfold printxvals_ex. destruct s; [contradiction| |].
    + exists []. split; [left; reflexivity|symmetry; apply app_nil_r].
    + destruct (xlookups [mpol_modes] v) as [p|]; [exists (comment (Some p))|exists (comment dflt)]; split; try reflexivity; apply comment_head.
  - assert (FL : flag_names v <> []) by (intros X; apply Z; apply flags_0; exact X). destruct (policy (base_mode v)) as [p|] eqn:P.
    + destruct s; [contradiction| |]; [exists []; split; [left; reflexivity|symmetry; apply app_nil_r]|]. eexists. split; [|reflexivity]. right. eexists. reflexivity.
    + assert (B0 : base_mode v <> 0) by (intros E; rewrite E in P; discriminate P). destruct s; [contradiction| |].
      * exists []. split; [left; reflexivity|]. rewrite app_nil_r. unfold printflags_ex. cbn [dflt]. rewrite orb_true_r. reflexivity.
      * rewrite unnamed_flags by (try assumption; discriminate). eexists. split; [|reflexivity]. right. eexists. reflexivity.
Qed.
Lemma hex_same a b : pr_hex a = pr_hex b -> a = b.
Proof.
  unfold pr_hex. destruct (N.eqb_spec a 0) as [A|A], (N.eqb_spec b 0) as [B|B]; intros E; try congruence; try discriminate E. apply app_inv_head in E. apply (pr_num_inj 16); [lia|exact E].
Qed.
(** reading the tokens *)
Fixpoint upto (t : list N) : list N := match t with [] => [] | c :: r => if c =? 32 then [] else c :: upto r end.
Definition name_values : list (list N * N) :=
  [(bs "MPOL_DEFAULT", 0); (bs "MPOL_PREFERRED", 1); (bs "MPOL_BIND", 2); (bs "MPOL_INTERLEAVE", 3); (bs "MPOL_LOCAL", 4); (bs "MPOL_PREFERRED_MANY", 5); (bs "MPOL_WEIGHTED_INTERLEAVE", 6);
   (bs "MPOL_F_STATIC_NODES", 2^15); (bs "MPOL_F_RELATIVE_NODES", 2^14); (bs "MPOL_F_NUMA_BALANCING", 2^13)].
Definition tok_value (t : list N) : N :=
  match find (fun e => beqs (fst e) t) name_values with
  | Some e => snd e
  | None => match rd_num 16 0 (upto (skipn 2 t)) with Some n => n | None => 0 end
  end.
Definition toks_value (l : list (list N)) : N := fold_right (fun t a => tok_value t + a) 0 l.
Lemma tok_hex n r : n <> 0 -> head_is 32 r -> tok_value (pr_hex n ++ r) = n.
Proof.
  intros Z H. unfold pr_hex. replace (n =? 0) with false by lia. unfold tok_value. change ((bs "0x" ++ pr_num 16 n) ++ r) with (48 :: 120 :: pr_num 16 n ++ r). cbn [skipn].
  assert (F : find (fun e => beqs (fst e) (48 :: 120 :: pr_num 16 n ++ r)) name_values = None) by reflexivity. rewrite F.
  assert (U : upto (pr_num 16 n ++ r) = pr_num 16 n).
  { assert (Q : ~ In 32 (pr_num 16 n)) by (apply pr_num_not_in; lia). clear -Q H. induction (pr_num 16 n) as [|c l IH].
    - cbn [app]. destruct H as [-> |(x & ->)]; reflexivity.
    - cbn [app upto]. destruct (N.eqb_spec c 32) as [E|E]; [exfalso; apply Q; left; exact E|]. f_equal. apply IH. intros I. apply Q. right. exact I. }
  rewrite U, pr_num_rd by lia. reflexivity.
Qed.
Lemma policy_value k p : policy k = Some p -> tok_value p = k /\ ~ In 124 p /\ p <> [].
Proof.
  intros P. assert (L : k < 7). { assert (Q : nth_error [bs "MPOL_DEFAULT"; bs "MPOL_PREFERRED"; bs "MPOL_BIND"; bs "MPOL_INTERLEAVE"; bs "MPOL_LOCAL"; bs "MPOL_PREFERRED_MANY"; bs "MPOL_WEIGHTED_INTERLEAVE"] (N.to_nat k) <> None) by (unfold policy in P; rewrite P; discriminate). apply nth_error_Some in Q. cbn [length] in Q. lia. }
  assert (C : k = 0 \/ k = 1 \/ k = 2 \/ k = 3 \/ k = 4 \/ k = 5 \/ k = 6) by lia.
  repeat destruct C as [-> |C]; [..|subst k]; vm_compute in P; injection P as <-; (split; [vm_compute; reflexivity|split; [|discriminate]]); cbn [In]; intros X; repeat (destruct X as [X|X]; [discriminate X|]); exact X.
Qed.
Lemma split_mode v : base_mode v + N.land v 0xe000 = v.
Proof.
  unfold base_mode. rewrite N.add_nocarry_lxor.
  - apply N.bits_inj. intros j. rewrite N.lxor_spec, N.ldiff_spec, N.land_spec. destruct (N.testbit v j), (N.testbit 0xe000 j); reflexivity.
  - apply N.bits_inj. intros j. rewrite N.land_spec, N.ldiff_spec, N.land_spec, N.bits_0. destruct (N.testbit v j), (N.testbit 0xe000 j); reflexivity.
Qed.
Lemma flags_val v : toks_value (flag_names v) = N.land v 0xe000.
Proof. rewrite flags_value. unfold flag_names. destruct (N.testbit v 15), (N.testbit v 14), (N.testbit v 13); vm_compute; reflexivity. Qed.
Lemma vals_app a b : toks_value (a ++ b) = toks_value a + toks_value b.
Proof. induction a as [|x a IH]; [reflexivity|]. cbn [app toks_value fold_right]. fold (toks_value (a ++ b)). fold (toks_value a). rewrite IH. lia. Qed.
Lemma toks_v v : toks_value (toks v) = v.
Proof.
  unfold toks. destruct (policy (base_mode v)) as [p|] eqn:P.
  - cbn [toks_value fold_right]. fold (toks_value (flag_names v)). rewrite flags_val. destruct (policy_value _ _ P) as (-> & _). apply split_mode.
  - assert (B0 : base_mode v <> 0) by (intros E; rewrite E in P; discriminate P). destruct (flag_names v) as [|x l] eqn:FL.
    + apply flags_0 in FL. pose proof (split_mode v) as Q. cbn [toks_value fold_right]. rewrite tok_hex; [lia|lia|right; eexists; reflexivity].
    + rewrite <- FL, vals_app, flags_val. cbn [toks_value fold_right]. rewrite <- (app_nil_r (pr_hex _)), tok_hex by (try exact B0; left; reflexivity). pose proof (split_mode v). lia.
Qed.
Lemma toks_ok v : Forall (fun s => ~ In 124 s /\ s <> []) (toks v).
Proof.
  assert (FO : Forall (fun s => ~ In 124 s /\ s <> []) (flag_names v)).
  { unfold flag_names. destruct (N.testbit v 15), (N.testbit v 14), (N.testbit v 13); cbn [app]; repeat constructor; try discriminate; cbn [In]; intros X; vm_compute in X; repeat (destruct X as [X|X]; [discriminate X|]); exact X. }
  assert (HN : forall n, pr_hex n <> []) by (intros n; destruct (CapThms.hex_48 n) as (r & ->); discriminate).
  unfold toks. destruct (policy (base_mode v)) as [p|] eqn:P.
  - constructor; [apply (policy_value _ _ P)|exact FO].
  - destruct (flag_names v) as [|x l].
    + constructor; [|constructor]. split.
      * intros I. apply in_app_or in I. destruct I as [I|I]; [revert I; apply CapThms.hex_not, plain124|]. vm_compute in I. repeat (destruct I as [I|I]; [discriminate I|]). exact I.
      * intros E. apply app_eq_nil in E as [_ E]. discriminate E.
    + apply Forall_app. split; [exact FO|]. constructor; [|constructor]. split; [apply CapThms.hex_not, plain124|apply HN].
Qed.
(** Two policies that are shown alike are the same, in every style. *)
Theorem C101_mode_lossless : forall s v v', print_mode s v = print_mode s v' -> v = v'.
Proof.
  intros s v v' E. destruct s.
  - rewrite !mode_toks, !CapThms.bar_join in E. apply join_inj in E; [|apply toks_ok|apply toks_ok]. rewrite <- (toks_v v), <- (toks_v v'), E. reflexivity.
  - destruct (mode_hex XRAW v) as (r & H & E1); [discriminate|]. destruct (mode_hex XRAW v') as (r' & H' & E'); [discriminate|]. rewrite E', E1 in E.
    apply (split_at 32) in E; [|apply CapThms.hex_not, plain32|apply CapThms.hex_not, plain32|exact H|exact H']. apply hex_same, E.
  - destruct (mode_hex XVERBOSE v) as (r & H & E1); [discriminate|]. destruct (mode_hex XVERBOSE v') as (r' & H' & E'); [discriminate|]. rewrite E', E1 in E.
    apply (split_at 32) in E; [|apply CapThms.hex_not, plain32|apply CapThms.hex_not, plain32|exact H|exact H']. apply hex_same, E.
Qed.
Print Assumptions C101_mode_lossless.

(** ---- the calls ---- *)
Definition decimal (t : list N) (n : N) : Prop := TvalSpec.number t n.
(** set_mempolicy takes an int, mbind an unsigned long; the mask belongs to the number of nodes of the same call *)
Theorem C101_calls : forall e pidtext a0 a1 a2 a3 a4 a5,
  (exists t c, set_mempolicy e a0 a1 a2 = commas [t; print_nodemask e a1 a2; c] /\ mode_text (st e) (a0 mod 2^32) t /\ decimal c a2) /\
  (exists x l t c f, mbind e a0 a1 a2 a3 a4 a5 = commas [x; l; t; print_nodemask e a3 a4; c; f] /\ TvalSpec.address x a0 /\ decimal l a1 /\ mode_text (st e) a2 t /\ decimal c a4) /\
  (exists c, migrate_pages e pidtext a0 a1 a2 a3 = commas [pidtext a0; c; print_nodemask e a2 a1; print_nodemask e a3 a1] /\ decimal c a1).
Proof.
  intros. split; [|split].
  - do 2 eexists. split; [unfold set_mempolicy; rewrite args_commas; reflexivity|]. split; [apply C101_mode|apply TvalThms.udec_number].
  - do 5 eexists. split; [unfold mbind; rewrite args_commas; reflexivity|]. split; [apply TvalThms.printaddr_ok|]. split; [apply TvalThms.udec_number|]. split; [apply C101_mode|apply TvalThms.udec_number].
  - eexists. split; [unfold migrate_pages; rewrite args_commas; reflexivity|]. apply TvalThms.udec_number.
Qed.
Print Assumptions C101_calls.

Lemma sx_signed s off : Forall (fun b => b < 256) s -> TvalModel.sx 4 (InfoSpec.number_at s off 4) = InfoSpec.signed_at s off 4.
Proof. intros H. reflexivity. Qed.
Lemma err_bound n s : RetModel.err_name n = Some s -> n < 4096.
Proof.
  unfold RetModel.err_name. destruct (find (fun e => fst e =? n) RetModel.errnoent) as [x|] eqn:F; [|discriminate]. intros _. apply find_some in F as (I & E). apply N.eqb_eq in E. subst n.
  assert (A : forallb (fun e => fst e <? 4096) RetModel.errnoent = true) by (vm_compute; reflexivity). rewrite forallb_forall in A. specialize (A _ I). apply N.ltb_lt in A. exact A.
Qed.
Lemma status_ok s z : (- 2^31 <= z < 2^31)%Z -> status_text RetModel.err_name s z (print_err s z).
Proof.
  intros R. unfold status_text, print_err. exists (TvalModel.sdec z). split; [apply DateThms.sdec_integer|]. destruct (Z.ltb_spec z 0) as [L|L].
  - rewrite Z.mod_small by lia. destruct (RetModel.err_name (Z.to_N (- z))); destruct s; reflexivity.
  - replace (RetModel.err_name (Z.to_N (- z mod 2^64))) with (@None (list N)); [destruct s; reflexivity|]. symmetry. destruct (Z.eq_dec z 0) as [-> |Z0]; [vm_compute; reflexivity|].
    destruct (RetModel.err_name (Z.to_N (- z mod 2^64))) as [x|] eqn:E; [|reflexivity]. exfalso. apply err_bound in E. assert (Q : (- z mod 2^64 = 2^64 - z)%Z). { symmetry. apply (Z.mod_unique _ _ (-1)); lia. } rewrite Q in E. lia.
Qed.
Lemma signed_range b off : Forall (fun x => x < 256) b -> (- 2^31 <= InfoSpec.signed_at b off 4 < 2^31)%Z.
Proof.
  intros B. pose proof (InfoThms.number4 b off B) as Q. unfold InfoSpec.signed_at. cbv zeta. set (v := InfoSpec.number_at b off 4) in *. clearbody v. change (2 ^ (8 * Z.of_nat 4))%Z with 4294967296%Z. change (2^32) with 4294967296 in Q. change (4294967296 / 2)%Z with 2147483648%Z.
  destruct (Z.ltb_spec (Z.of_N v) 2147483648); lia.
Qed.
(** The arrays of move_pages: element i of each is the one in memory. *)
Theorem C101_pages : forall e addr n b, (ws e = 4 \/ ws e = 8) -> n <> 0 -> addr <> 0 -> ExtModel.verbose (o e) = true -> ExtModel.failed (o e) = false -> (abbrev e = true -> n < 2^32) ->
  TvalSpec.bytes_at (m e) addr b -> Forall (fun x => x < 256) b ->
  let c := count (abbrev e) (ExtModel.max_strlen (o e)) n in let w := N.to_nat (ws e) in
  (addr + n * ws e < 2^64 -> length b = (N.to_nat n * w)%nat ->
   array_text (fun i t => TvalSpec.address t (InfoSpec.number_at b (i * w) w)) c (cut c (N.to_nat n)) (print_array e print_addr addr n (ws e))) /\
  (addr + n * 4 < 2^64 -> length b = (N.to_nat n * 4)%nat ->
   array_text (fun i t => TvalSpec.integer t (InfoSpec.signed_at b (i * 4) 4)) c (cut c (N.to_nat n)) (print_array e print_int addr n 4) /\
   array_text (fun i t => status_text RetModel.err_name (st e) (InfoSpec.signed_at b (i * 4) 4) t) c (cut c (N.to_nat n)) (print_array e (print_status (st e)) addr n 4)).
Proof.
  intros e addr n b W N0 A0 V NF AB MB B c w. assert (C : (c <= N.to_nat n)%nat) by (unfold c, count; destruct (abbrev e); lia). split.
  - intros F LB. assert (W' : w = 4%nat \/ w = 8%nat) by (unfold w; destruct W as [-> | ->]; [left|right]; reflexivity).
    replace (ws e) with (N.of_nat w) by (unfold w; apply N2Nat.id). apply (array_text_of _ print_addr b w c (N.to_nat n) _ _ LB C).
    + intros i I. unfold print_addr. rewrite (piece_length b w i (N.to_nat n) LB) by lia. destruct W' as [-> | ->].
      * change (4 <? 8)%nat with true. cbv iota. rewrite piece_number. apply TvalThms.printaddr_ok.
      * change (8 <? 8)%nat with false. cbv iota. rewrite piece_number. apply TvalThms.printaddr_ok.
    + apply (array_whole e print_addr addr n w b (N.to_nat n)); try assumption; try lia.
  - intros F LB. split.
    + apply (array_text_of _ print_int b 4 c (N.to_nat n) _ _ LB C).
      * intros i I. unfold print_int. rewrite piece_number. apply DateThms.sdec_integer.
      * apply (array_whole e print_int addr n 4 b (N.to_nat n)); try assumption; try lia.
    + apply (array_text_of _ (print_status (st e)) b 4 c (N.to_nat n) _ _ LB C).
      * intros i I. unfold print_status. rewrite piece_number. apply status_ok, signed_range, B.
      * apply (array_whole e (print_status (st e)) addr n 4 b (N.to_nat n)); try assumption; try lia.
Qed.
Print Assumptions C101_pages.
(** All three have as many elements as the call says; pages and nodes are shown at entry, the status at exit. *)
Theorem C101_move_pages : forall e e' pidtext a0 a1 a2 a3 a4 a5, exists c f,
  move_pages_entering e pidtext a0 a1 a2 a3 ++ move_pages_exiting e' a1 a4 a5 =
  commas [pidtext a0; c; print_array e print_addr a2 a1 (ws e); print_array e print_int a3 a1 4; print_array e' (print_status (st e')) a4 a1 4; f] /\ decimal c a1.
Proof.
  intros. exists (TvalModel.udec a1), (printflags_ex (u32 a5) dflt (st e') FMT_X [move_pages_flags]). split; [|apply TvalThms.udec_number].
  unfold move_pages_entering, move_pages_exiting. rewrite !args_commas. generalize (printflags_ex (u32 a5) dflt (st e') FMT_X [move_pages_flags]). intros f.
  generalize (print_array e print_addr a2 a1 (ws e)) (print_array e print_int a3 a1 4) (print_array e' (print_status (st e')) a4 a1 4) (TvalModel.udec a1) (pidtext a0). intros p q r c x.
  cbn [commas]. rewrite <- !app_assoc. reflexivity.
Qed.
Print Assumptions C101_move_pages.

(** get_mempolicy: what the kernel stores is shown as a policy.  With MPOL_F_NODE (1) in the flags it is the number of a node; and with flags of the
    policy (set_mempolicy(2)) it has them, but here they have no names. *)
Definition ex_mem (b : list N) (a : N) : option N := if (4096 <=? a) && (a <? 4096 + N.of_nat (length b)) then Some (nth (N.to_nat (a - 4096)) b 0) else None.
Definition ex_env (b : list N) : env :=
  {| o := {| ExtModel.verbose := true; ExtModel.failed := false; ExtModel.max_strlen := 2; ExtModel.pagesize := 4096 |}; m := ex_mem b; abbrev := true; ws := 8; st := XABBREV |}.
Theorem C101_get_mempolicy_refuted :
  ~ (forall e a0 a1 a2 a3 a4 b, a0 <> 0 -> ExtModel.verbose (o e) = true -> ExtModel.failed (o e) = false -> TvalSpec.bytes_at (m e) a0 b -> length b = 4%nat ->
     N.testbit a4 0 = true -> exists t r, get_mempolicy e a0 a1 a2 a3 a4 = bs "[" ++ t ++ bs "]" ++ r /\ decimal t (InfoSpec.number_at b 0 4)) /\
  ~ (forall e a0 a1 a2 a3 a4 b, a0 <> 0 -> ExtModel.verbose (o e) = true -> ExtModel.failed (o e) = false -> TvalSpec.bytes_at (m e) a0 b -> length b = 4%nat ->
     a4 = 0 -> exists t r, get_mempolicy e a0 a1 a2 a3 a4 = bs "[" ++ t ++ bs "]" ++ r /\ mode_text (st e) (InfoSpec.number_at b 0 4) t).
Proof.
  assert (MB : forall x y, TvalSpec.bytes_at (ex_mem [x; y; 0; 0]) 4096 [x; y; 0; 0]).
  { intros x y i I. cbn [length] in I. assert (C : (i = 0 \/ i = 1 \/ i = 2 \/ i = 3)%nat) by lia. repeat destruct C as [-> |C]; [..|subst i]; reflexivity. }
  split; intros H.
  - destruct (H (ex_env [2; 0; 0; 0]) 4096 0 0 0 1 [2; 0; 0; 0] ltac:(discriminate) eq_refl eq_refl (MB 2 0) eq_refl eq_refl) as (t & r & E & D).
    assert (X : get_mempolicy (ex_env [2; 0; 0; 0]) 4096 0 0 0 1 = bs "[MPOL_BIND], NULL, 0, NULL, MPOL_F_NODE") by (vm_compute; reflexivity). rewrite X in E. clear X.
    destruct D as (D1 & D2). destruct t as [|c t]; [contradiction|]. apply (f_equal (fun l => nth 1 l 0)) in E. change (77 = c) in E. subst c. discriminate D2.
  - destruct (H (ex_env [2; 128; 0; 0]) 4096 0 0 0 0 [2; 128; 0; 0] ltac:(discriminate) eq_refl eq_refl (MB 2 128) eq_refl eq_refl) as (t & r & E & x & D).
    assert (X : get_mempolicy (ex_env [2; 128; 0; 0]) 4096 0 0 0 0 = bs "[0x8002 /* MPOL_??? */], NULL, 0, NULL, 0") by (vm_compute; reflexivity). rewrite X in E. clear X.
    destruct D as (D1 & D2). change (t = bs "MPOL_BIND|MPOL_F_STATIC_NODES") in D2. subst t. discriminate E.
Qed.
Print Assumptions C101_get_mempolicy_refuted.

(** a mask of 129 nodes, of which two words are shown; a status *)
Definition mask_ex : list N := [1; 0; 0; 0; 0; 0; 0; 128] ++ [0; 0; 0; 0; 0; 0; 0; 0] ++ [5; 0; 0; 0; 0; 0; 0; 0].
Example C101_example : words 64 130 3 /\ TvalSpec.bytes_at (ex_mem mask_ex) 4096 mask_ex /\
  print_nodemask (ex_env mask_ex) 4096 130 = bs "[0x8000000000000001, 0000000000000000, ...]" /\
  print_nodemask (ex_env mask_ex) 4096 65 = bs "[0x8000000000000001]" /\
  print_mode XABBREV 0xc003 = bs "MPOL_INTERLEAVE|MPOL_F_STATIC_NODES|MPOL_F_RELATIVE_NODES" /\
  print_mode XVERBOSE 0x8007 = bs "0x8007 /* MPOL_F_STATIC_NODES|0x7 */" /\
  print_array (ex_env [254; 255; 255; 255; 1; 0; 0; 0]) (print_status XABBREV) 4096 2 4 = bs "[-ENOENT, 1]".
Proof.
  split; [unfold words; lia|]. split.
  { intros i I. cbn [length mask_ex app] in I. do 24 (destruct i as [|i]; [reflexivity|]). lia. }
  repeat split; vm_compute; reflexivity.
Qed.
