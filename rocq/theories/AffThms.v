(** C104: how sets of cpus are shown. *)
From Coq Require Import Sorted.
From Verif Require Import Base Printf AffModel AffSpec.
From Verif Require Import XlatText.
From Verif Require BitsModel BitsSpec BitsProofs ExtModel TvalModel TvalSpec TvalThms DateThms NumaThms.
Local Open Scope N_scope.

(** ---- the size of a set ---- *)
Lemma probe_spec einval : forall fuel j, j + N.of_nat fuel = 26 ->
  (forall k, k < j -> einval (128 * 2 ^ k) = true) ->
  (exists i, i < 25 /\ probe fuel einval (u32 (128 * 2 ^ j)) = 128 * 2 ^ i /\ einval (128 * 2 ^ i) = false /\ forall k, k < i -> einval (128 * 2 ^ k) = true) \/
  (probe fuel einval (u32 (128 * 2 ^ j)) = 0 /\ forall k, k < 25 -> einval (128 * 2 ^ k) = true).
Proof.
  induction fuel as [|f IH]; intros j J H.
  - right. split; [reflexivity|]. intros k K. apply H. lia.
  - cbn [probe]. destruct (N.eq_dec j 25) as [-> |NJ].
    + right. replace (u32 (128 * 2 ^ 25)) with 0 by reflexivity. rewrite N.eqb_refl. split; [reflexivity|]. intros k K. apply H. lia.
    + assert (U : u32 (128 * 2 ^ j) = 128 * 2 ^ j).
      { unfold u32. apply N.mod_small. change 128 with (2 ^ 7). rewrite <- N.pow_add_r. apply N.pow_lt_mono_r; lia. }
      rewrite U. pose proof (N.pow_nonzero 2 j ltac:(lia)). destruct (N.eqb_spec (128 * 2 ^ j) 0); [lia|].
      destruct (einval (128 * 2 ^ j)) eqn:E.
      * replace (128 * 2 ^ j * 2) with (128 * 2 ^ (j + 1)) by (rewrite N.pow_add_r; change (2 ^ 1) with 2; lia).
        apply IH; [lia|]. intros k K. destruct (N.eq_dec k j) as [-> |]; [exact E|]. apply H. lia.
      * left. exists j. repeat split; auto. lia.
Qed.
Lemma size_ok einval : set_size einval (get_cpuset_size einval 0).
Proof.
  unfold get_cpuset_size, set_size. cbn [N.eqb].
  destruct (probe_spec einval 26 0 eq_refl ltac:(lia)) as [(i & I & E & A & B)|(E & A)]; change (u32 (128 * 2 ^ 0)) with 128 in E; rewrite E.
  - pose proof (N.pow_nonzero 2 i ltac:(lia)). destruct (N.eqb_spec (128 * 2 ^ i) 0); [lia|]. left. exists i. auto.
  - rewrite N.eqb_refl. right. auto.
Qed.
(** C104: the greatest number of bytes of a set that are shown is the least 128 * 2^j that the kernel does not refuse; it is determined
    once and is the same for all calls. *)
Theorem C104_size : forall einval later,
  set_size einval (get_cpuset_size einval 0) /\ get_cpuset_size later (get_cpuset_size einval 0) = get_cpuset_size einval 0.
Proof.
  intros einval later. pose proof (size_ok einval) as S0. split; [exact S0|]. unfold get_cpuset_size at 1.
  destruct (N.eqb_spec (get_cpuset_size einval 0) 0) as [E|]; [|reflexivity].
  destruct S0 as [(j & _ & E2 & _)|(E2 & _)]; rewrite E in E2; [|discriminate]. pose proof (N.pow_nonzero 2 j ltac:(lia)). lia.
Qed.
Print Assumptions C104_size.

(** ---- bytes and words ---- *)
Lemma lxor_place k p : N.lxor p (2 ^ k - 1) = place true (2 ^ k) p.
Proof.
  unfold place. pose proof (N.pow_nonzero 2 k ltac:(lia)) as Z. pose proof (N.div_mod p (2 ^ k) Z) as D. pose proof (N.mod_lt p (2 ^ k) Z) as L.
  replace (2 ^ k - 1) with (N.ones k) by (rewrite N.ones_equiv; lia).
  assert (S : forall r, r < 2 ^ k -> 2 ^ k * (p / 2 ^ k) + r = N.lxor (N.shiftl (p / 2 ^ k) k) r).
  { intros r R. rewrite N.shiftl_mul_pow2, (N.mul_comm (p / 2 ^ k)). apply N.add_nocarry_lxor. apply N.bits_inj. intros i.
    rewrite N.land_spec, N.bits_0. destruct (N.lt_ge_cases i k).
    - rewrite N.mul_comm, N.mul_pow2_bits_low by lia. reflexivity.
    - replace (N.testbit r i) with false; [apply andb_false_r|]. symmetry. destruct (N.eq_dec r 0) as [-> |NZ]; [apply N.bits_0|].
      apply N.bits_above_log2. apply N.log2_lt_pow2; [lia|]. eapply N.lt_le_trans; [exact R|]. apply N.pow_le_mono_r; lia. }
  replace (N.ones k - p mod 2 ^ k) with (N.lnot (p mod 2 ^ k) k).
  2: { destruct (N.eq_dec (p mod 2 ^ k) 0) as [E|NZ]; [rewrite E, N.lnot_0_l; lia|]. rewrite N.lnot_sub_low by (apply N.log2_lt_pow2; lia). reflexivity. }
  assert (LN : N.lnot (p mod 2 ^ k) k < 2 ^ k).
  { destruct (N.eq_dec (p mod 2 ^ k) 0) as [E|NZ]; [rewrite E, N.lnot_0_l, N.ones_equiv; lia|]. rewrite N.lnot_sub_low by (apply N.log2_lt_pow2; lia). rewrite N.ones_equiv. lia. }
  rewrite (S _ LN). unfold N.lnot. rewrite <- N.lxor_assoc, <- (S _ L), <- D. reflexivity.
Qed.
Lemma mask_place e p : ws e = 4 \/ ws e = 8 -> N.lxor p (pos_xor_mask e) = place (big e) (ws e) p.
Proof.
  intros W. unfold pos_xor_mask. destruct (big e); [|apply N.lxor_0_r].
  destruct W as [-> | ->]; [apply (lxor_place 2)|apply (lxor_place 3)].
Qed.
Lemma place_lt big w p k : w <> 0 -> p < k * w -> place big w p < k * w.
Proof.
  intros W P. unfold place. destruct big; [|exact P]. pose proof (N.div_mod p w W). pose proof (N.mod_lt p w W).
  assert (p / w < k) by (apply N.div_lt_upper_bound; lia). assert (p / w + 1 <= k) by lia. nia.
Qed.
Lemma place_invol big w p : w <> 0 -> place big w (place big w p) = p.
Proof.
  intros W. unfold place. destruct big; [|reflexivity]. pose proof (N.div_mod p w W) as D. pose proof (N.mod_lt p w W) as L.
  set (q := p / w) in *. set (r := p mod w) in *.
  replace ((w * q + (w - 1 - r)) / w) with q by (apply N.div_unique with (w - 1 - r); lia).
  replace ((w * q + (w - 1 - r)) mod w) with (w - 1 - r) by (apply N.mod_unique with q; lia). lia.
Qed.

(** ---- the loop ---- *)
Lemma bit_set_iff arr xm i : BitsSpec.bit_set arr xm i <-> N.testbit (nth (N.to_nat (N.lxor (i / 8) xm)) arr 0) (i mod 8) = true.
Proof.
  unfold BitsSpec.bit_set. split.
  - intros (y & E & T). apply nth_error_nth with (d := 0) in E. rewrite E. exact T.
  - intros T. destruct (nth_error arr _) as [y|] eqn:E.
    + exists y. split; [reflexivity|]. apply nth_error_nth with (d := 0) in E. rewrite <- E. exact T.
    + apply nth_error_None in E. rewrite nth_overflow in T by exact E. rewrite N.bits_0 in T. discriminate.
Qed.
Lemma cpu_loop_ok xm cpu ncpu : ncpu <= 2 ^ 31 -> BitsSpec.covers cpu xm ncpu -> forall fuel i printed,
  i <= ncpu -> (N.to_nat (ncpu - i) < fuel)%nat ->
  exists l, StronglySorted N.lt l /\ (forall x, In x l <-> i <= x < ncpu /\ BitsSpec.bit_set cpu xm x) /\
    cpu_loop fuel xm cpu ncpu i printed =
      Ok ((if printed && negb (match l with [] => true | _ => false end) then bs " " else []) ++ spaces (map TvalModel.udec l), printed || negb (match l with [] => true | _ => false end)).
Proof.
  intros HS HC. induction fuel as [|f IH]; intros i printed Hi HF; [lia|]. cbn [cpu_loop].
  destruct (BitsProofs.next_set_bit_spec cpu xm i ncpu ltac:(lia) ltac:(lia) HC) as (r & E & A). rewrite E. cbn [rbind].
  destruct r as [b|]; cbn [BitsProofs.answer] in A.
  - destruct A as (A1 & A2 & A3). destruct (IH (b + 1) true ltac:(lia) ltac:(lia)) as (l & S1 & M1 & E1). rewrite E1. cbn [rbind fst snd].
    exists (b :: l). split; [constructor; [exact S1|]; apply Forall_forall; intros x X; apply M1 in X; lia|]. split.
    + intros x. cbn [In]. rewrite M1. split.
      * intros [<- |[X B]]; [split; [lia|exact A2]|split; [lia|exact B]].
      * intros [X B]. destruct (N.lt_ge_cases x b); [destruct (A3 x ltac:(lia) B)|]. destruct (N.eq_dec b x); [left; assumption|right; split; [lia|exact B]].
    + cbn [negb andb orb]. rewrite andb_true_r, orb_true_r. f_equal. f_equal. f_equal. unfold TvalModel.sdec. replace (Z.of_N b <? 0)%Z with false by lia. rewrite N2Z.id.
      fold (TvalModel.udec b). destruct l as [|y l]; cbn [map spaces app negb]; [rewrite !app_nil_r; reflexivity|reflexivity].
  - exists []. split; [constructor|]. split; [intros x; split; [intros []|intros [X B]; exact (A x X B)]|].
    rewrite andb_false_r, orb_false_r. reflexivity.
Qed.

Lemma nth_zeros (b : list N) n k : nth k (b ++ repeat 0 n) 0 = nth k b 0.
Proof.
  destruct (Nat.lt_ge_cases k (length b)); [apply app_nth1; assumption|]. rewrite app_nth2, (nth_overflow b) by lia.
  destruct (nth_in_or_default (k - length b) (repeat 0 n) 0) as [I|E]; [apply repeat_spec in I; exact I|exact E].
Qed.
Lemma size_pow einval : exists j, j < 25 /\ get_cpuset_size einval 0 = 128 * 2 ^ j.
Proof. destruct (size_ok einval) as [(j & J & E & _)|(E & _)]; [exists j; auto|exists 0; rewrite E; split; [lia|reflexivity]]. Qed.

Lemma spaces_more x l y : spaces (x :: l ++ [y]) = spaces (x :: l) ++ bs " " ++ y.
Proof.
  revert x. induction l as [|z l IH]; intros x; [reflexivity|]. change (spaces (x :: (z :: l) ++ [y])) with (x ++ bs " " ++ spaces (z :: l ++ [y])). rewrite IH.
  change (spaces (x :: z :: l)) with (x ++ bs " " ++ spaces (z :: l)). rewrite <- !app_assoc. reflexivity.
Qed.
Lemma text_ok e max addr len b : (exists j, max = 128 * 2 ^ j) -> max <= 2 ^ 27 -> ws e = 4 \/ ws e = 8 ->
  ExtModel.verbose (o e) = true -> ExtModel.failed (o e) = false -> addr <> 0 ->
  TvalSpec.bytes_at (m e) addr b -> N.of_nat (length b) = N.min len max ->
  exists l, cpus (big e) (ws e) b l /\ print_affinitylist e max addr len = Ok (bs "[" ++ spaces (map TvalModel.udec l ++ if max <? len then [bs "..."] else []) ++ bs "]").
Proof.
  intros (j & MJ) MX W V F A MB LB. assert (W0 : ws e <> 0) by lia. unfold print_affinitylist. rewrite V, F. cbn [negb orb]. apply N.eqb_neq in A as A'. rewrite A'.
  destruct (N.eqb_spec len 0) as [-> |L0].
  - exists []. rewrite N.min_0_l in LB. destruct b; [|cbn [length] in LB; lia]. split; [split; [constructor|]|].
    + intros i. unfold member. rewrite nth_overflow, N.bits_0 by (cbn; lia). split; [intros []|discriminate].
    + destruct (max <? 0) eqn:E; [lia|]. reflexivity.
  - replace (N.to_nat (N.min len max)) with (length b) by lia. rewrite (TvalThms.fetched _ _ _ _ A V F MB).
    set (um := N.min len max) in *. set (k := (um + ws e - 1) / ws e). set (size := k * ws e).
    pose proof (N.div_mod (um + ws e - 1) (ws e) W0) as D. pose proof (N.mod_lt (um + ws e - 1) (ws e) W0) as R. fold k in D.
    assert (SZ : um <= size < um + ws e) by (unfold size; lia).
    assert (MM : exists q, max = q * ws e) by (destruct W as [-> | ->]; [exists (32 * 2 ^ j)|exists (16 * 2 ^ j)]; lia).
    assert (SM : size <= max) by (destruct MM as (q & ->); unfold size in *; assert (k <= q) by nia; nia).
    assert (U : u32 (size * 8) = size * 8) by (unfold u32; apply N.mod_small; lia). rewrite U.
    set (cpu := b ++ repeat 0 (N.to_nat (size - um))).
    assert (LC : N.of_nat (length cpu) = size) by (unfold cpu; rewrite app_length, repeat_length; lia).
    assert (C : BitsSpec.covers cpu (pos_xor_mask e) (size * 8)).
    { intros p P. rewrite (mask_place e p W). pose proof (place_lt (big e) (ws e) p k W0 ltac:(fold size; lia)) as Q. fold size in Q. lia. }
    destruct (cpu_loop_ok (pos_xor_mask e) cpu (size * 8) ltac:(lia) C (S (N.to_nat (size * 8))) 0 false ltac:(lia) ltac:(lia)) as (l & S1 & M1 & E1).
    rewrite E1. cbn [rbind fst snd andb orb app].
    exists l. split; [split; [exact S1|]|].
    + intros i. rewrite M1, bit_set_iff, (mask_place e _ W). unfold cpu. rewrite nth_zeros. fold (member (big e) (ws e) b i). split; [tauto|]. intros T. split; [|exact T]. split; [lia|].
      destruct (N.lt_ge_cases i (size * 8)) as [|G]; [assumption|exfalso]. unfold member in T.
      assert (P : size <= place (big e) (ws e) (i / 8)).
      { destruct (N.lt_ge_cases (place (big e) (ws e) (i / 8)) size) as [Q|]; [exfalso|assumption]. apply (place_lt (big e) (ws e) _ k W0) in Q. rewrite place_invol in Q by exact W0. fold size in Q.
        assert (size <= i / 8) by (apply N.div_le_lower_bound; lia). lia. }
      rewrite nth_overflow, N.bits_0 in T by lia. discriminate.
    + assert (Q : (size <? len) = (max <? len)).
      { destruct (N.ltb_spec max len) as [G|G]; [apply N.ltb_lt; lia|]. apply N.ltb_ge. unfold um in *. lia. }
      rewrite Q. destruct (max <? len); [|rewrite app_nil_r; reflexivity]. destruct l as [|x l]; [reflexivity|]. cbn [map app negb]. rewrite spaces_more, <- !app_assoc. reflexivity.
Qed.

(** C104: what is shown of a set of cpus that can be read is the numbers of all the cpus in its first bytes, at most as many bytes as the
    sets of the kernel have, in increasing order, each once, and "..." if and only if there are more bytes; sched_setaffinity
    shows the set before and sched_getaffinity after the call, the latter as many bytes as the kernel has filled. *)
Theorem C104_shown : forall e einval pidtext a0 a1 a2 rval b,
  let max := get_cpuset_size einval 0 in
  max <= 2 ^ 27 -> ws e = 4 \/ ws e = 8 -> ExtModel.verbose (o e) = true -> ExtModel.failed (o e) = false -> a2 <> 0 -> TvalSpec.bytes_at (m e) a2 b ->
  (N.of_nat (length b) = N.min (a1 mod 2 ^ 32) max -> exists d t,
     sched_setaffinity e max pidtext a0 a1 a2 = Ok (pidtext (a0 mod 2 ^ 32) ++ bs ", " ++ d ++ bs ", " ++ t) /\
     TvalSpec.number d (a1 mod 2 ^ 32) /\ set_text (big e) (ws e) b (max <? a1 mod 2 ^ 32) t) /\
  (N.of_nat (length b) = N.min (rval mod 2 ^ 32) max -> exists d t,
     sched_getaffinity e max pidtext a0 a1 a2 rval = Ok (pidtext (a0 mod 2 ^ 32) ++ bs ", " ++ d ++ bs ", " ++ t) /\
     TvalSpec.number d (a1 mod 2 ^ 32) /\ set_text (big e) (ws e) b (max <? rval mod 2 ^ 32) t).
Proof.
  intros e einval pidtext a0 a1 a2 rval b max MX W V F A MB.
  assert (MJ : exists j, max = 128 * 2 ^ j) by (destruct (size_pow einval) as (j & _ & E); exists j; exact E).
  assert (X : forall len, N.of_nat (length b) = N.min len max -> exists t, print_affinitylist e max a2 len = Ok t /\ set_text (big e) (ws e) b (max <? len) t).
  { intros len L. destruct (text_ok e max a2 len b MJ MX W V F A MB L) as (l & C & E). eexists. split; [exact E|]. exists l, (map TvalModel.udec l). split; [exact C|]. split; [|reflexivity].
    clear. induction l; cbn [map]; constructor; [apply TvalThms.udec_number|assumption]. }
  split; intros L; destruct (X _ L) as (t & E & T); exists (TvalModel.udec (a1 mod 2 ^ 32)), t; (split; [|split; [apply TvalThms.udec_number|exact T]]).
  - unfold sched_setaffinity, u32. rewrite E. reflexivity.
  - unfold sched_getaffinity, u32. rewrite E. cbn [rbind]. rewrite <- !app_assoc. reflexivity.
Qed.
Print Assumptions C104_shown.

(** C104: the address is shown instead of the set with -e verbose=none, after a failed call and when some of the bytes cannot be read; a set of no bytes is empty. *)
Theorem C104_address : forall e einval addr len, let max := get_cpuset_size einval 0 in
  (addr = 0 \/ ExtModel.verbose (o e) = false \/ ExtModel.failed (o e) = true \/ len <> 0 /\ TvalSpec.unreadable (m e) addr (N.to_nat (N.min len max)) ->
   exists t, print_affinitylist e max addr len = Ok t /\ TvalSpec.address t addr) /\
  (addr <> 0 -> ExtModel.verbose (o e) = true -> ExtModel.failed (o e) = false -> print_affinitylist e max addr 0 = Ok (bs "[]")).
Proof.
  intros e einval addr len max. split.
  - intros H. exists (TvalModel.printaddr addr). split; [|apply TvalThms.printaddr_ok]. unfold print_affinitylist.
    destruct (negb (ExtModel.verbose (o e)) || ExtModel.failed (o e) || (addr =? 0)) eqn:C; [reflexivity|].
    apply orb_false_iff in C as [C A]. apply orb_false_iff in C as [V F]. apply negb_false_iff in V. apply N.eqb_neq in A.
    destruct H as [H|[H|[H|[L U]]]]; [contradiction|congruence|congruence|]. apply N.eqb_neq in L. rewrite L.
    rewrite TvalThms.not_fetched by auto. reflexivity.
  - intros A V F. unfold print_affinitylist. rewrite V, F. apply N.eqb_neq in A. rewrite A. reflexivity.
Qed.
Print Assumptions C104_address.

(** ---- nothing is lost ---- *)
Lemma spaces_inj l k : Forall (fun s => ~ In 32 s /\ s <> []) l -> Forall (fun s => ~ In 32 s /\ s <> []) k -> spaces l = spaces k -> l = k.
Proof.
  assert (ST : forall x (r : list (list N)), spaces (x :: r) = x ++ match r with [] => [] | _ => bs " " ++ spaces r end) by (intros x [|y r]; [cbn; rewrite app_nil_r; reflexivity|reflexivity]).
  assert (HD : forall r : list (list N), head_is 32 (match r with [] => [] | _ => bs " " ++ spaces r end)) by (intros [|y r]; [left; reflexivity|right; eexists; reflexivity]).
  revert k. induction l as [|x l IH]; intros [|y k] Hl Hk E; try reflexivity.
  - inversion Hk as [|? ? [_ B] _]; subst. rewrite ST in E. destruct y; [contradiction|discriminate].
  - inversion Hl as [|? ? [_ B] _]; subst. rewrite ST in E. destruct x; [contradiction|discriminate].
  - inversion Hl as [|? ? [A B] Hl']; subst. inversion Hk as [|? ? [C D] Hk']; subst. rewrite !ST in E.
    apply (split_at 32) in E; [|assumption..|apply HD|apply HD]. destruct E as [-> E]. f_equal.
    destruct l, k; [reflexivity|discriminate|discriminate|]. apply IH; [assumption..|]. apply app_inv_head in E. exact E.
Qed.
Lemma texts_ok l : Forall (fun s => ~ In 32 s /\ s <> []) (map TvalModel.udec l).
Proof.
  apply Forall_forall. intros s H. apply in_map_iff in H as (n & <- & _). split; [apply pr_num_not_in; lia|].
  destruct (TvalThms.udec_number n) as [H _]. exact H.
Qed.
Lemma byte_ext x y : x < 256 -> y < 256 -> (forall j, j < 8 -> N.testbit x j = N.testbit y j) -> x = y.
Proof.
  intros X Y H. apply N.bits_inj. intros j. destruct (N.lt_ge_cases j 8); [auto|].
  assert (Z : forall z, z < 256 -> N.testbit z j = false).
  { intros z Hz. destruct (N.eq_dec z 0) as [-> |]; [apply N.bits_0|]. apply N.bits_above_log2. apply N.log2_lt_pow2; [lia|]. eapply N.lt_le_trans; [exact Hz|]. change 256 with (2 ^ 8). apply N.pow_le_mono_r; lia. }
  rewrite !Z by assumption. reflexivity.
Qed.
Lemma members_inj big w a b : w <> 0 -> Forall (fun x => x < 256) a -> Forall (fun x => x < 256) b -> length a = length b ->
  (forall i, member big w a i = true <-> member big w b i = true) -> a = b.
Proof.
  intros W A B L H. apply nth_ext with (d := 0) (d' := 0); [exact L|]. intros n Hn. rewrite Forall_nth in A, B.
  apply byte_ext; [apply A; exact Hn|apply B; lia|]. intros j J. specialize (H (8 * place big w (N.of_nat n) + j)). unfold member in H.
  replace ((8 * place big w (N.of_nat n) + j) / 8) with (place big w (N.of_nat n)) in H by (apply N.div_unique with j; lia).
  replace ((8 * place big w (N.of_nat n) + j) mod 8) with j in H by (apply N.mod_unique with (place big w (N.of_nat n)); lia).
  rewrite place_invol, Nat2N.id in H by exact W. apply Bool.eq_iff_eq_true. exact H.
Qed.
(** C104: two sets of the same size of which the same is shown are the same in their first bytes. *)
Theorem C104_lossless : forall e1 e2 einval addr1 addr2 len b1 b2 t, let max := get_cpuset_size einval 0 in
  max <= 2 ^ 27 -> ws e1 = 4 \/ ws e1 = 8 -> ws e2 = ws e1 -> big e2 = big e1 ->
  ExtModel.verbose (o e1) = true -> ExtModel.failed (o e1) = false -> ExtModel.verbose (o e2) = true -> ExtModel.failed (o e2) = false ->
  addr1 <> 0 -> addr2 <> 0 -> TvalSpec.bytes_at (m e1) addr1 b1 -> TvalSpec.bytes_at (m e2) addr2 b2 ->
  N.of_nat (length b1) = N.min len max -> N.of_nat (length b2) = N.min len max -> Forall (fun x => x < 256) b1 -> Forall (fun x => x < 256) b2 ->
  print_affinitylist e1 max addr1 len = Ok t -> print_affinitylist e2 max addr2 len = Ok t -> b1 = b2.
Proof.
  intros e1 e2 einval addr1 addr2 len b1 b2 t max MX W W2 G2 V1 F1 V2 F2 A1 A2 M1 M2 L1 L2 B1 B2 E1 E2.
  assert (MJ : exists j, max = 128 * 2 ^ j) by (destruct (size_pow einval) as (j & _ & E); exists j; exact E).
  destruct (text_ok e1 max addr1 len b1 MJ MX W V1 F1 A1 M1 L1) as (l1 & C1 & T1).
  destruct (text_ok e2 max addr2 len b2 MJ MX ltac:(rewrite W2; exact W) V2 F2 A2 M2 L2) as (l2 & C2 & T2).
  rewrite T1 in E1. rewrite T2 in E2. rewrite <- E1 in E2. injection E2 as E. clear E1 t T1 T2.
  apply app_inv_tail in E. apply spaces_inj in E.
  2,3: apply Forall_app; split; [apply texts_ok|]; destruct (max <? len); constructor; [|constructor]; split; [cbn; lia|discriminate].
  apply app_inv_tail in E. assert (EL : l2 = l1).
  { clear -E. revert l1 E. induction l2 as [|x l IH]; intros [|y k] E; try discriminate; [reflexivity|]. cbn [map] in E. inversion E as [[P Q]]. apply pr_num_inj in P; [|lia]. subst. f_equal. auto. }
  subst l2. rewrite W2, G2 in C2. apply (members_inj (big e1) (ws e1)); [lia|assumption..|lia|].
  intros i. destruct C1 as [_ C1], C2 as [_ C2]. rewrite <- C1, <- C2. reflexivity.
Qed.
Print Assumptions C104_lossless.

(** A set of 130 bytes of which the kernel takes 128, on a little-endian and on a big-endian machine; the hypotheses are met. *)
Definition ex_set : list N := 5 :: 0 :: 128 :: repeat 0 124 ++ [64].
Definition ex_e (big : bool) : env :=
  {| o := {| ExtModel.verbose := true; ExtModel.failed := false; ExtModel.max_strlen := 32; ExtModel.pagesize := 4096 |}; m := NumaThms.ex_mem ex_set; ws := 8; big := big |}.
Example C104_example :
  let max := get_cpuset_size (fun s => s <? 100) 0 in
  max <= 2 ^ 27 /\ N.of_nat (length ex_set) = N.min 130 max /\ TvalSpec.bytes_at (NumaThms.ex_mem ex_set) 4096 ex_set /\
  sched_setaffinity (ex_e false) max (fun _ => bs "7") 7 130 4096 = Ok (bs "7, 130, [0 2 23 1022 ...]") /\
  sched_getaffinity (ex_e true) max (fun _ => bs "7") 7 130 4096 128 = Ok (bs "7, 130, [47 56 58 966]") /\
  get_cpuset_size (fun s => s <? 1000) 0 = 1024 /\ get_cpuset_size (fun _ => true) 0 = 128.
Proof.
  split; [vm_compute; discriminate|]. split; [reflexivity|]. split; [|repeat split; vm_compute; reflexivity].
  intros i I. unfold NumaThms.ex_mem. assert (L : length ex_set = 128%nat) by reflexivity. rewrite L in *.
  replace (u64 (4096 + N.of_nat i)) with (4096 + N.of_nat i) by (unfold u64; symmetry; apply N.mod_small; lia).
  destruct (N.leb_spec 4096 (4096 + N.of_nat i)); [|lia]. destruct (N.ltb_spec (4096 + N.of_nat i) (4096 + N.of_nat 128)); [|lia]. cbn [andb].
  replace (4096 + N.of_nat i - 4096) with (N.of_nat i) by lia. rewrite Nat2N.id. reflexivity.
Qed.
