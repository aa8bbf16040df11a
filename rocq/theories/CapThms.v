(** C98: how capabilities are shown. *)
From Verif Require Import Base Printf InfoModel XlatModel XlatSpec XlatProofs XlatText CapModel CapSpec.
From Verif Require BitsModel ExtModel TvalModel TvalSpec TvalThms InfoThms InfoSpec.
Import BitsModel.
Local Open Scope N_scope.

Lemma bar_join l : bar l = join_bar l. Proof. induction l as [|a l IH]; [reflexivity|]. cbn [bar join_bar]. rewrite IH. reflexivity. Qed.
(** the names of the bits from [k] on that are set *)
Fixpoint sel (k : N) (l : list (list N)) (f : N) : list (list N) :=
  match l with [] => [] | n :: r => (if N.testbit f k then [bs "1<<" ++ n] else []) ++ sel (k + 1) r f end.
Fixpoint clr (k : N) (l : list (list N)) (f : N) : N :=
  match l with [] => f | n :: r => clr (k + 1) r (N.ldiff f (2 ^ k)) end.
Lemma sel_ext l : forall k f g, (forall j, k <= j -> N.testbit f j = N.testbit g j) -> sel k l f = sel k l g.
Proof. induction l as [|n r IH]; intros k f g H; [reflexivity|]. cbn [sel]. rewrite (H k) by lia. rewrite (IH (k + 1) f g); [reflexivity|]. intros j J. apply H. lia. Qed.
Lemma sel_0 l : forall k, sel k l 0 = [].
Proof. induction l as [|n r IH]; intros k; [reflexivity|]. cbn [sel]. rewrite N.bits_0, IH. reflexivity. Qed.
Lemma clr_bits l : forall k f j, N.testbit (clr k l f) j = N.testbit f j && negb ((k <=? j) && (j <? k + N.of_nat (length l))).
Proof.
  induction l as [|n r IH]; intros k f j; cbn [clr length]; [replace ((k <=? j) && (j <? k + N.of_nat 0)) with false by lia; rewrite andb_true_r; reflexivity|].
  rewrite IH, N.ldiff_spec, N.pow2_bits_eqb. destruct (N.testbit f j); [|reflexivity]. cbn [andb]. destruct (N.eqb_spec k j) as [->|E]; cbn [negb andb]; lia.
Qed.
Lemma bit_in f k : (f =? 2 ^ k) || (negb (2 ^ k =? 0) && (N.land f (2 ^ k) =? 2 ^ k)) = N.testbit f k.
Proof.
  assert (Z : 2 ^ k <> 0) by (apply N.pow_nonzero; lia). apply N.eqb_neq in Z. rewrite Z. cbn [negb andb]. destruct (N.testbit f k) eqn:T.
  - apply orb_true_iff. right. apply N.eqb_eq. apply N.bits_inj. intros j. rewrite N.land_spec, N.pow2_bits_eqb. destruct (N.eqb_spec k j) as [<-|]; [rewrite T; reflexivity|apply andb_false_r].
  - apply orb_false_iff. split; apply N.eqb_neq.
    + intros ->. rewrite N.pow2_bits_true in T. discriminate T.
    + intros E. assert (X : N.testbit (N.land f (2 ^ k)) k = false) by (rewrite N.land_spec, T; reflexivity). rewrite E, N.pow2_bits_true in X. discriminate X.
Qed.
Definition lead (st : xstyle_t) : list N := match st with XVERBOSE => bs " /* " | _ => [] end.
Definition bars_of (st : xstyle_t) (n : N) (l : list (list N)) : list N :=
  match l with [] => [] | _ => if n =? 0 then lead st ++ join_bar l else bars l end.
Lemma pf_caps st l : forall k f n out, exists n', pf_table st (cap_entries k l) f n out = (clr k l f, n', out ++ bars_of st n (sel k l f)) /\ n' = n + N.of_nat (length (sel k l f)).
Proof.
  induction l as [|x r IH]; intros k f n out.
  - exists n. cbn. split; [|lia]. rewrite app_nil_r; reflexivity.
  - cbn [cap_entries pf_table]. assert (Q0 : f = 0 -> clr k (x :: r) f = 0 /\ sel k (x :: r) f = []).
    { intros ->. rewrite sel_0. split; [|reflexivity]. apply N.bits_inj. intros j. rewrite clr_bits, N.bits_0. reflexivity. }
    destruct (negb (f =? 0) || (n =? 0)) eqn:G.
    2:{ apply orb_false_iff in G as [G _]. apply negb_false_iff, N.eqb_eq in G. destruct (Q0 G) as (B & C). exists n. rewrite B, C, G. split; [rewrite app_nil_r; reflexivity|cbn; lia]. }
    rewrite bit_in. destruct (N.testbit f k) eqn:T.
    + assert (FN : (f =? 0) = false). { apply N.eqb_neq. intros ->. rewrite N.bits_0 in T. discriminate T. }
      set (f' := N.ldiff f (2 ^ k)). assert (SE : sel (k + 1) r f' = sel (k + 1) r f). { apply sel_ext. intros j J. unfold f'. rewrite N.ldiff_spec, N.pow2_bits_eqb. destruct (N.eqb_spec k j); [lia|]. apply andb_true_r. }
      set (o1 := (out ++ match st with XVERBOSE => if f =? 0 then bs "0" else [] | _ => [] end) ++ (if negb (n =? 0) then bs "|" else match st with XVERBOSE => bs " /* " | _ => [] end)).
      assert (O1 : o1 = out ++ (if n =? 0 then lead st else bs "|")). { unfold o1. rewrite FN. replace (match st with XVERBOSE => [] | _ => @nil N end) with (@nil N) by (destruct st; reflexivity). rewrite app_nil_r. destruct (n =? 0); [|reflexivity]. destruct st; reflexivity. }
      assert (JO : (o1 ++ bs "1<<" ++ x) ++ bars_of st (n + 1) (sel (k + 1) r f) = out ++ bars_of st n (sel k (x :: r) f)).
      { rewrite O1. cbn [sel]. rewrite T. generalize (sel (k + 1) r f). intros s. cbn [app]. unfold bars_of. replace (n + 1 =? 0) with false by lia.
        destruct (n =? 0).
        - destruct s as [|s0 s']; [cbn [join_bar]; rewrite app_nil_r, <- !app_assoc; reflexivity|]. rewrite <- !app_assoc. rewrite (join_bars (_ ++ _)), <- !app_assoc. reflexivity.
        - unfold bars. destruct s as [|s0 s']; cbn [map concat]; rewrite <- ?app_assoc, ?app_nil_r; reflexivity. }
      destruct (f' =? 0) eqn:Z.
      * exists (n + 1). apply N.eqb_eq in Z. assert (SN : sel (k + 1) r f = []) by (rewrite <- SE, Z; apply sel_0). split; [|cbn [sel]; rewrite T, SN; cbn; lia].
        rewrite SN in JO. unfold bars_of at 1 in JO. rewrite app_nil_r in JO. rewrite <- JO. cbn [clr]. fold f'. rewrite Z. f_equal; f_equal.
        apply N.bits_inj. intros j. rewrite clr_bits, N.bits_0. reflexivity.
      * destruct (IH (k + 1) f' (n + 1) (o1 ++ bs "1<<" ++ x)) as (n' & E & EN). exists n'. rewrite SE in EN, E. rewrite <- JO. split; [|cbn [sel]; rewrite T, app_length; cbn [length]; lia]. cbn [clr]. fold f'. exact E.
    + assert (SE : sel k (x :: r) f = sel (k + 1) r f) by (cbn [sel]; rewrite T; reflexivity). assert (CE : clr k (x :: r) f = clr (k + 1) r f).
      { cbn [clr]. f_equal. apply N.bits_inj. intros j. rewrite N.ldiff_spec, N.pow2_bits_eqb. destruct (N.eqb_spec k j) as [<-|]; [rewrite T; reflexivity|apply andb_true_r]. }
      destruct (f =? 0) eqn:Z.
      * apply N.eqb_eq in Z. destruct (Q0 Z) as (B & C). exists n. rewrite B, C, Z. split; [rewrite app_nil_r; reflexivity|cbn; lia].
      * rewrite SE, CE. apply IH.
Qed.

(** ---- the spec's names ---- *)
Lemma sel_names_from l : forall k f i (L : list (list N)), skipn i L = l -> sel k l f = map (fun j => bs "1<<" ++ nth j L []) (filter (fun j => N.testbit f (N.of_nat (j - i) + k)) (seq i (length l))).
Proof.
  induction l as [|x r IH]; intros k f i L E; [reflexivity|]. cbn [sel length seq filter].
  assert (X : nth i L [] = x /\ skipn (S i) L = r).
  { clear -E. revert L E. induction i as [|i IHi]; intros L E; destruct L; cbn in *; try discriminate E; [inversion E; split; reflexivity|]. destruct (IHi L E) as [A B]. split; [exact A|]. destruct L; [discriminate B||exact B|exact B]. }
  destruct X as [X1 X2]. replace (N.of_nat (i - i) + k) with k by lia. rewrite (IH (k + 1) f (S i) L X2).
  replace (filter (fun j => N.testbit f (N.of_nat (j - S i) + (k + 1))) (seq (S i) (length r))) with (filter (fun j => N.testbit f (N.of_nat (j - i) + k)) (seq (S i) (length r))).
  - destruct (N.testbit f k); cbn [map app]; rewrite ?X1; reflexivity.
  - apply filter_ext_in. intros j J. apply in_seq in J. f_equal. lia.
Qed.
Lemma sel_names l f : sel 0 l f = names_in l f.
Proof. rewrite (sel_names_from l 0 f 0 l eq_refl). unfold names_in. f_equal. apply filter_ext. intros j. f_equal. lia. Qed.
Lemma sel_app a : forall k b f, sel k (a ++ b) f = sel k a f ++ sel (k + N.of_nat (length a)) b f.
Proof.
  induction a as [|x a IH]; intros k b f; cbn [app sel length]; [f_equal; lia|]. rewrite IH, app_assoc. f_equal. f_equal. lia.
Qed.
Lemma sel_shift l : forall k f, sel (k + 32) l f = sel k l (N.shiftr f 32).
Proof. induction l as [|x r IH]; intros k f; [reflexivity|]. cbn [sel]. rewrite N.shiftr_spec by lia. replace (k + 32 + 1) with (k + 1 + 32) by lia. rewrite IH. reflexivity. Qed.
Lemma caps_split : firstn 32 capability = caps0 /\ skipn 32 capability = caps1. Proof. split; vm_compute; reflexivity. Qed.
Lemma clr_shift l f : clr 0 l f = N.shiftl (N.shiftr f (N.of_nat (length l))) (N.of_nat (length l)).
Proof.
  apply N.bits_inj. intros j. rewrite clr_bits. destruct (N.ltb_spec j (N.of_nat (length l))) as [L|L].
  - rewrite N.shiftl_spec_low by exact L. replace ((0 <=? j) && (j <? 0 + N.of_nat (length l))) with true by lia. apply andb_false_r.
  - rewrite N.shiftl_spec_high', N.shiftr_spec' by exact L. replace (j - N.of_nat (length l) + N.of_nat (length l)) with j by lia. replace ((0 <=? j) && (j <? 0 + N.of_nat (length l))) with false by lia. apply andb_true_r.
Qed.
(** ---- a word ---- *)
Definition D : option (list N) := Some (bs "CAP_???").
Definition word (st : xstyle_t) (l : list (list N)) (w : N) : list N := printflags_ex w D st FMT_X [{| ty := XT_NORMAL; data := cap_entries 0 l |}].
Lemma word_eq st l w : w <> 0 -> word st l w =
  match st with
  | XRAW => pr_hex w
  | _ => match names_in l w with
         | [] => pr_hex w ++ bs " /* CAP_??? */"
         | ns => let b := join_bar (ns ++ (if clr 0 l w =? 0 then [] else [pr_hex (clr 0 l w)])) in
                 match st with XVERBOSE => pr_hex w ++ bs " /* " ++ b ++ bs " */" | _ => b end
         end
  end.
Proof.
  intros W. apply N.eqb_neq in W.
  assert (NONE : names_in l w = [] -> clr 0 l w = w).
  { intros NS. apply N.bits_inj. intros j. rewrite clr_bits. destruct (N.testbit w j) eqn:T; [|reflexivity]. cbn [andb].
    destruct (N.ltb_spec j (N.of_nat (length l))) as [L|L]; [|replace ((0 <=? j) && (j <? 0 + N.of_nat (length l))) with false by lia; reflexivity].
    exfalso. assert (H : In (bs "1<<" ++ nth (N.to_nat j) l []) (names_in l w)) by (unfold names_in; apply in_map_iff; exists (N.to_nat j); split; [reflexivity|]; apply filter_In; split; [apply in_seq; lia|]; rewrite N2Nat.id; exact T). rewrite NS in H. destruct H. }
  unfold word, printflags_ex. change (sprint_xlat_val FMT_X) with pr_hex. destruct st; [|rewrite W; reflexivity|]; rewrite ?W; cbn [pf_tables data].
  - destruct (pf_caps XABBREV l 0 w 0 []) as (n' & E & EN). rewrite E. rewrite sel_names in *. destruct (names_in l w) as [|a ns] eqn:NS.
    + rewrite EN. replace (negb (0 + N.of_nat (@length (list N) []) =? 0)) with false by reflexivity. rewrite NONE, W by reflexivity. reflexivity.
    + rewrite EN. replace (negb (0 + N.of_nat (length (a :: ns)) =? 0)) with true by (symmetry; apply negb_true_iff, N.eqb_neq; cbn [length]; lia). cbn [bars_of lead app]. replace (0 =? 0) with true by reflexivity. cbv zeta.
      destruct (clr 0 l w =? 0); [rewrite app_nil_r; reflexivity|]. rewrite (join_bars a (ns ++ _)), join_bars. unfold bars. rewrite map_app, concat_app. cbn [map concat]. rewrite app_nil_r, <- app_assoc. reflexivity.
  - destruct (pf_caps XVERBOSE l 0 w 0 (pr_hex w)) as (n' & E & EN). rewrite E. rewrite sel_names in *. destruct (names_in l w) as [|a ns] eqn:NS.
    + rewrite EN. replace (negb (0 + N.of_nat (@length (list N) []) =? 0)) with false by reflexivity. rewrite NONE, W by reflexivity. cbn [bars_of]. rewrite app_nil_r. reflexivity.
    + rewrite EN. replace (negb (0 + N.of_nat (length (a :: ns)) =? 0)) with true by (symmetry; apply negb_true_iff, N.eqb_neq; cbn [length]; lia). cbn [bars_of lead]. replace (0 =? 0) with true by reflexivity. cbv zeta.
      destruct (clr 0 l w =? 0); [rewrite app_nil_r, <- !app_assoc; reflexivity|]. change ((a :: ns) ++ [pr_hex (clr 0 l w)]) with (a :: (ns ++ [pr_hex (clr 0 l w)])). rewrite !join_bars. unfold bars. rewrite map_app, concat_app. cbn [map concat]. rewrite app_nil_r, <- !app_assoc. reflexivity.
Qed.
Lemma hex_ok n : n <> 0 -> hexnum (pr_hex n) n.
Proof.
  intros H. apply N.eqb_neq in H. unfold pr_hex. rewrite H. exists (pr_num 16 n). split; [reflexivity|]. split; [|apply pr_num_rd; lia].
  intros E. pose proof (pr_num_rd 16 n ltac:(lia)) as R. rewrite E in R. cbn in R. apply N.eqb_neq in H. congruence.
Qed.
Lemma word_spec st l w : w <> 0 -> word_shown st l w (word st l w).
Proof.
  intros W. exists (pr_hex w), (if clr 0 l w =? 0 then [] else [pr_hex (clr 0 l w)]). split; [apply hex_ok, W|]. split.
  { cbv zeta. rewrite <- clr_shift. destruct (N.eqb_spec (clr 0 l w) 0) as [Z|Z]; [left; split; [exact Z|reflexivity]|right; split; [exact Z|]]. exists (pr_hex (clr 0 l w)). split; [apply hex_ok, Z|reflexivity]. }
  rewrite word_eq by exact W. rewrite bar_join. destruct st; [|reflexivity|]; (destruct (names_in l w) as [|a ns]; [left; split; reflexivity|right; split; [discriminate|reflexivity]]).
Qed.
Lemma bits_eq st lo hi : print_cap_bits st lo hi =
  if hi =? 0 then (if lo =? 0 then bs "0" else word st caps0 lo)
  else if lo =? 0 then word st caps1 hi else word st caps0 lo ++ bs "|" ++ word st caps1 hi.
Proof.
  unfold print_cap_bits. destruct (N.eqb_spec hi 0) as [->|H]; destruct (N.eqb_spec lo 0) as [->|L]; cbn [negb orb app]; rewrite ?app_nil_r; [destruct st; reflexivity|reflexivity..].
Qed.
Lemma glue lo hi : lo < 2^32 -> (lo + 2^32 * hi) mod 2^32 = lo /\ (lo + 2^32 * hi) / 2^32 = hi.
Proof. intros H. split; [rewrite N.mul_comm, N.mod_add by lia; apply N.mod_small, H|rewrite N.mul_comm, N.div_add, N.div_small by lia; lia]. Qed.

(** Each set is shown as the specification says, in every style: its names and the bits without one. *)
Theorem C98_shown : forall st lo hi, lo < 2^32 -> set_shown st (lo + 2^32 * hi) (print_cap_bits st lo hi).
Proof.
  intros st lo hi L. unfold set_shown. destruct (glue lo hi L) as [-> ->]. destruct caps_split as [-> ->]. rewrite bits_eq.
  destruct (N.eqb_spec hi 0) as [H|H]; destruct (N.eqb_spec lo 0) as [Z|Z].
  - left. auto.
  - right. left. split; [exact Z|]. split; [exact H|]. apply word_spec, Z.
  - right. right. left. split; [exact Z|]. split; [exact H|]. apply word_spec, H.
  - right. right. right. split; [exact Z|]. split; [exact H|]. exists (word st caps0 lo), (word st caps1 hi). split; [reflexivity|]. split; apply word_spec; assumption.
Qed.
Print Assumptions C98_shown.

Lemma members_words lo hi : lo < 2^32 -> members (lo + 2^32 * hi) = names_in caps0 lo ++ names_in caps1 hi.
Proof.
  intros L. destruct (glue lo hi L) as [G1 G2]. unfold members. assert (C : capability = caps0 ++ caps1) by (vm_compute; reflexivity). rewrite C, <- !sel_names, sel_app. f_equal.
  - assert (X : forall l k, k + N.of_nat (length l) <= 32 -> sel k l (lo + 2^32 * hi) = sel k l lo).
    { induction l as [|x r IH]; intros k K; [reflexivity|]. cbn [sel length] in *. rewrite IH by lia. replace (N.testbit (lo + 2^32 * hi) k) with (N.testbit lo k); [reflexivity|]. rewrite <- G1 at 1. apply N.mod_pow2_bits_low. lia. }
    apply X. vm_compute. discriminate.
  - change (0 + N.of_nat (length caps0)) with (0 + 32). rewrite sel_shift. f_equal. rewrite N.shiftr_div_pow2. exact G2.
Qed.
(** In the default style a set whose members are all known is the list of the names of exactly its members, in order. *)
Theorem C98_names : forall lo hi, lo < 2^32 -> hi < 2^9 -> lo + 2^32 * hi <> 0 ->
  print_cap_bits XABBREV lo hi = bar (members (lo + 2^32 * hi)).
Proof.
  intros lo hi L H NZ. rewrite bits_eq, bar_join, members_words by exact L.
  assert (FULL : forall l w, w < 2 ^ N.of_nat (length l) -> w <> 0 -> names_in l w <> [] /\ word XABBREV l w = join_bar (names_in l w)).
  { intros l w W Z. assert (C : clr 0 l w = 0) by (rewrite clr_shift, N.shiftr_div_pow2, N.div_small by exact W; apply N.shiftl_0_l).
    assert (NN : names_in l w <> []).
    { intros E. apply Z. rewrite <- C. apply N.bits_inj. intros j. rewrite clr_bits. destruct (N.testbit w j) eqn:T; [|reflexivity]. cbn [andb]. destruct (N.ltb_spec j (N.of_nat (length l))) as [J|J]; [|replace ((0 <=? j) && (j <? 0 + N.of_nat (length l))) with false by lia; reflexivity].
      exfalso. assert (I0 : In (bs "1<<" ++ nth (N.to_nat j) l []) (names_in l w)) by (unfold names_in; apply in_map_iff; exists (N.to_nat j); split; [reflexivity|]; apply filter_In; split; [apply in_seq; lia|]; rewrite N2Nat.id; exact T). rewrite E in I0. destruct I0. }
    split; [exact NN|]. rewrite word_eq by exact Z. rewrite C. replace (0 =? 0) with true by reflexivity. destruct (names_in l w) as [|a ns]; [contradiction|]. rewrite app_nil_r. reflexivity. }
  assert (N0 : forall l, names_in l 0 = []) by (intros l; rewrite <- sel_names; apply sel_0).
  destruct (N.eqb_spec hi 0) as [->|HZ]; destruct (N.eqb_spec lo 0) as [->|LZ]; [lia| | |].
  - rewrite N0, app_nil_r. apply FULL; [exact L|exact LZ].
  - rewrite N0. cbn [app]. apply FULL; [exact H|exact HZ].
  - destruct (FULL caps0 lo L LZ) as [A1 ->]. destruct (FULL caps1 hi H HZ) as [B1 ->]. clear -A1 B1. destruct (names_in caps0 lo) as [|a l]; [contradiction|]. destruct (names_in caps1 hi) as [|b m]; [contradiction|].
    change ((a :: l) ++ b :: m) with (a :: (l ++ b :: m)). rewrite !join_bars. unfold bars. rewrite map_app, concat_app. cbn [map concat]. rewrite <- !app_assoc. reflexivity.
Qed.
Print Assumptions C98_names.

(** ---- nothing is lost ---- *)
Lemma clr_le l w : clr 0 l w <= w.
Proof. rewrite clr_shift, N.shiftl_mul_pow2, N.shiftr_div_pow2, N.mul_comm. apply N.mul_div_le. apply N.pow_nonzero. lia. Qed.
Lemma hex_inj a b : a < 2^64 -> b < 2^64 -> pr_hex a = pr_hex b -> a = b. Proof. intros A B E. apply (sprint_inj FMT_X a b A B E). Qed.
Lemma hex_not c n : plain c -> ~ In c (pr_hex n). Proof. intros P. exact (sprint_not_in c FMT_X n P). Qed.
Lemma hex_48 n : exists r, pr_hex n = 48 :: r. Proof. unfold pr_hex. destruct (n =? 0); eexists; reflexivity. Qed.
Lemma name_49 k l : exists r, bs "1<<" ++ nth k l [] = 49 :: r. Proof. eexists; reflexivity. Qed.
Lemma names_49 l w : Forall (fun s => exists r, s = 49 :: r) (names_in l w).
Proof. unfold names_in. apply Forall_map, Forall_forall. intros k _. eexists; reflexivity. Qed.
(** the tokens of a word, in the default style *)
Definition wtoks (l : list (list N)) (w : N) : list (list N) :=
  if w =? 0 then [] else names_in l w ++ (if clr 0 l w =? 0 then [] else [pr_hex (clr 0 l w) ++ match names_in l w with [] => bs " /* CAP_??? */" | _ => [] end]).
Lemma none_clr l w : names_in l w = [] -> clr 0 l w = w.
Proof.
  intros NS. apply N.bits_inj. intros j. rewrite clr_bits. destruct (N.testbit w j) eqn:T; [|reflexivity]. cbn [andb].
  destruct (N.ltb_spec j (N.of_nat (length l))) as [L|L]; [|replace ((0 <=? j) && (j <? 0 + N.of_nat (length l))) with false by lia; reflexivity].
  exfalso. assert (H : In (bs "1<<" ++ nth (N.to_nat j) l []) (names_in l w)) by (unfold names_in; apply in_map_iff; exists (N.to_nat j); split; [reflexivity|]; apply filter_In; split; [apply in_seq; lia|]; rewrite N2Nat.id; exact T). rewrite NS in H. destruct H.
Qed.
Lemma wtoks_join l w : w <> 0 -> word XABBREV l w = join_bar (wtoks l w) /\ wtoks l w <> [].
Proof.
  intros W. rewrite word_eq by exact W. unfold wtoks. pose proof (none_clr l w) as NC. apply N.eqb_neq in W. rewrite W. destruct (names_in l w) as [|a ns].
  - rewrite NC by reflexivity. rewrite W. split; [reflexivity|discriminate].
  - rewrite app_nil_r. split; [reflexivity|discriminate].
Qed.
Lemma no_bar_name : forallb (fun n => negb (existsb (N.eqb 124) (bs "1<<" ++ n))) (caps0 ++ caps1) = true. Proof. vm_compute. reflexivity. Qed.
Lemma names_no_bar l w : incl l (caps0 ++ caps1) -> Forall (fun s => ~ In 124 s /\ s <> []) (names_in l w).
Proof.
  intros IN. unfold names_in. apply Forall_map, Forall_forall. intros k K. apply filter_In in K as [K _]. apply in_seq in K. split; [|discriminate].
  assert (K0 : In (nth k l []) l) by (apply nth_In; lia). pose proof no_bar_name as NB. rewrite forallb_forall in NB. specialize (NB (nth k l []) (IN _ K0)). apply negb_true_iff in NB. intros X.
  assert (Y : existsb (N.eqb 124) (bs "1<<" ++ nth k l []) = true) by (apply existsb_exists; exists 124; split; [exact X|reflexivity]). rewrite NB in Y. discriminate Y.
Qed.
Lemma wtoks_ok l w : incl l (caps0 ++ caps1) -> Forall (fun s => ~ In 124 s /\ s <> []) (wtoks l w).
Proof.
  intros IN. unfold wtoks. destruct (w =? 0); [constructor|]. apply Forall_app. split; [apply names_no_bar, IN|]. destruct (clr 0 l w =? 0); [constructor|]. constructor; [|constructor]. split.
  - rewrite in_app_iff. intros [X|X]; [exact (hex_not 124 _ plain124 X)|]. destruct (names_in l w); [|destruct X]. revert X. vm_compute. intuition discriminate.
  - destruct (hex_48 (clr 0 l w)) as [r ->]. discriminate.
Qed.
Lemma app_49 a b u v : Forall (fun s => exists r, s = 49 :: r) a -> Forall (fun s : list N => exists r, s = 49 :: r) b ->
  Forall (fun s => exists r, s = 48 :: r) u -> Forall (fun s : list N => exists r, s = 48 :: r) v -> a ++ u = b ++ v -> a = b /\ u = v.
Proof.
  intros A. revert b. induction A as [|x a [r ->] A IH]; intros b B U V E.
  - destruct B as [|y b [r' ->] B]; [split; [reflexivity|exact E]|]. cbn in E. subst u. inversion U as [|? ? [r2 X] ?]. discriminate X.
  - destruct B as [|y b [r' ->] B]; cbn in E; [subst v; inversion V as [|? ? [r2 X] ?]; discriminate X|]. inversion E as [[E1 E2]]. destruct (IH b B U V E2) as [-> ->]. split; reflexivity.
Qed.
Lemma incl0 : incl caps0 (caps0 ++ caps1). Proof. intros x X. apply in_or_app. left. exact X. Qed.
Lemma incl1 : incl caps1 (caps0 ++ caps1). Proof. intros x X. apply in_or_app. right. exact X. Qed.
Fixpoint distinct (l : list (list N)) : bool := match l with [] => true | x :: r => negb (existsb (beqs x) r) && distinct r end.
Lemma distinct_nodup l : distinct l = true -> NoDup l.
Proof.
  induction l as [|x r IH]; intros H; [constructor|]. cbn in H. apply andb_true_iff in H as [H1 H2]. constructor; [|apply IH, H2]. apply negb_true_iff in H1. intros X.
  assert (Y : existsb (beqs x) r = true) by (apply existsb_exists; exists x; split; [exact X|apply beqs_eq; reflexivity]). congruence.
Qed.
Lemma nodup_caps : NoDup (caps0 ++ caps1). Proof. apply distinct_nodup. vm_compute. reflexivity. Qed.
(** the names tell which bits are set *)
Lemma names_bits l f g : NoDup l -> names_in l f = names_in l g -> forall k, (k < length l)%nat -> N.testbit f (N.of_nat k) = N.testbit g (N.of_nat k).
Proof.
  intros ND E k K. assert (M : forall h, N.testbit h (N.of_nat k) = true <-> In (bs "1<<" ++ nth k l []) (names_in l h)).
  { intros h. unfold names_in. rewrite in_map_iff. split.
    - intros T. exists k. split; [reflexivity|]. apply filter_In. split; [apply in_seq; lia|exact T].
    - intros (j & EJ & J). apply filter_In in J as [J T]. apply in_seq in J. apply app_inv_head in EJ. rewrite NoDup_nth in ND. rewrite <- (ND j k) by (try lia; exact EJ). exact T. }
  destruct (N.testbit f (N.of_nat k)) eqn:F; destruct (N.testbit g (N.of_nat k)) eqn:G; try reflexivity.
  - apply M in F. rewrite E in F. apply M in F. congruence.
  - apply M in G. rewrite <- E in G. apply M in G. congruence.
Qed.

Lemma tag_head l w : head_is 32 (match names_in l w with [] => bs " /* CAP_??? */" | _ :: _ => [] end).
Proof. destruct (names_in l w); [right; eexists; reflexivity|left; reflexivity]. Qed.
Lemma tail_same l f g : f < 2^64 -> g < 2^64 ->
  (if clr 0 l f =? 0 then [] else [pr_hex (clr 0 l f) ++ match names_in l f with [] => bs " /* CAP_??? */" | _ => [] end]) =
  (if clr 0 l g =? 0 then [] else [pr_hex (clr 0 l g) ++ match names_in l g with [] => bs " /* CAP_??? */" | _ => [] end]) -> clr 0 l f = clr 0 l g.
Proof.
  intros F G E. pose proof (clr_le l f). pose proof (clr_le l g). pose proof (tag_head l f) as HF. pose proof (tag_head l g) as HG. revert E HF HG.
  generalize (match names_in l f with [] => bs " /* CAP_??? */" | _ :: _ => [] end). generalize (match names_in l g with [] => bs " /* CAP_??? */" | _ :: _ => [] end). intros x y E HF HG.
  destruct (N.eqb_spec (clr 0 l f) 0) as [A|A]; destruct (N.eqb_spec (clr 0 l g) 0) as [B|B]; try discriminate E; [congruence|]. apply sing_inj in E.
  apply (split_at 32) in E as [E _]; [|apply hex_not, plain32|apply hex_not, plain32|exact HF|exact HG]. apply hex_inj in E; [exact E|lia..].
Qed.
Lemma word_bits l f g : NoDup l -> names_in l f = names_in l g -> clr 0 l f = clr 0 l g -> f = g.
Proof.
  intros ND E C. apply N.bits_inj. intros j. destruct (N.ltb_spec j (N.of_nat (length l))) as [J|J].
  - pose proof (names_bits l f g ND E (N.to_nat j) ltac:(lia)) as X. rewrite N2Nat.id in X. exact X.
  - assert (X : forall h, N.testbit (clr 0 l h) j = N.testbit h j) by (intros h; rewrite clr_bits; replace ((0 <=? j) && (j <? 0 + N.of_nat (length l))) with false by lia; apply andb_true_r). rewrite <- (X f), <- (X g), C. reflexivity.
Qed.
Lemma names_0 l : names_in l 0 = []. Proof. rewrite <- sel_names. apply sel_0. Qed.
Lemma clr_0 l : clr 0 l 0 = 0. Proof. apply none_clr, names_0. Qed.
Lemma wtoks_full l w : wtoks l w = names_in l w ++ (if clr 0 l w =? 0 then [] else [pr_hex (clr 0 l w) ++ match names_in l w with [] => bs " /* CAP_??? */" | _ => [] end]).
Proof. unfold wtoks. destruct (N.eqb_spec w 0) as [->|W]; [|reflexivity]. rewrite names_0, clr_0. reflexivity. Qed.
Lemma wtoks0 w : w < 2^32 -> wtoks caps0 w = names_in caps0 w.
Proof. intros W. rewrite wtoks_full. assert (C : clr 0 caps0 w = 0). { rewrite clr_shift, N.shiftr_div_pow2. change (N.of_nat (length caps0)) with 32. rewrite N.div_small by exact W. apply N.shiftl_0_l. } rewrite C. apply app_nil_r. Qed.
Lemma bits_toks lo hi : print_cap_bits XABBREV lo hi = join_bar (match wtoks caps0 lo ++ wtoks caps1 hi with [] => [bs "0"] | l => l end).
Proof.
  rewrite bits_eq. destruct (N.eqb_spec hi 0) as [->|H]; destruct (N.eqb_spec lo 0) as [->|L].
  - reflexivity.
  - destruct (wtoks_join caps0 lo L) as [-> NN]. change (wtoks caps1 0) with (@nil (list N)). rewrite app_nil_r. destruct (wtoks caps0 lo); [contradiction|reflexivity].
  - destruct (wtoks_join caps1 hi H) as [-> NN]. change (wtoks caps0 0) with (@nil (list N)). cbn [app]. destruct (wtoks caps1 hi); [contradiction|reflexivity].
  - destruct (wtoks_join caps0 lo L) as [-> NN]. destruct (wtoks_join caps1 hi H) as [-> NN1]. clear -NN NN1. destruct (wtoks caps0 lo) as [|a l]; [contradiction|]. destruct (wtoks caps1 hi) as [|b m]; [contradiction|].
    cbn [app]. rewrite !join_bars. unfold bars. rewrite map_app, concat_app. cbn [map concat]. rewrite <- !app_assoc. reflexivity.
Qed.
Lemma cut_at (P : list N -> Prop) a b x y : Forall P a -> Forall P b -> Forall (fun s => ~ P s) x -> Forall (fun s => ~ P s) y -> a ++ x = b ++ y -> a = b /\ x = y.
Proof.
  revert b. induction a as [|h a IH]; intros b A B X Y E; destruct b as [|k b]; cbn [app] in E.
  - split; [reflexivity|exact E].
  - exfalso. subst x. inversion X; inversion B; contradiction.
  - exfalso. subst y. inversion Y; inversion A; contradiction.
  - inversion E as [[E1 E2]]. inversion A; inversion B; subst. destruct (IH b) as [-> ->]; try assumption. split; reflexivity.
Qed.
Lemma nth_disjoint i j : (i < length caps0)%nat -> (j < length caps1)%nat -> nth i caps0 [] <> nth j caps1 [].
Proof.
  intros A B E. pose proof nodup_caps as ND. rewrite NoDup_nth in ND. specialize (ND i (length caps0 + j)%nat). rewrite app_nth1, app_nth2 in ND by lia. replace (length caps0 + j - length caps0)%nat with j in ND by lia.
  specialize (ND ltac:(rewrite app_length; lia) ltac:(rewrite app_length; lia) E). lia.
Qed.
Definition first_word (s : list N) : Prop := exists i, (i < length caps0)%nat /\ s = bs "1<<" ++ nth i caps0 [].
Lemma toks0_first w : w < 2^32 -> Forall first_word (wtoks caps0 w).
Proof. intros W. rewrite wtoks0 by exact W. unfold names_in. apply Forall_map, Forall_forall. intros k K. apply filter_In in K as [K _]. apply in_seq in K. exists k. split; [lia|reflexivity]. Qed.
Lemma toks1_other w : Forall (fun s => ~ first_word s) (wtoks caps1 w).
Proof.
  rewrite wtoks_full. apply Forall_app. split.
  - unfold names_in. apply Forall_map, Forall_forall. intros k K. apply filter_In in K as [K _]. apply in_seq in K. intros (i & I0 & E). apply app_inv_head in E. apply (nth_disjoint i k); [exact I0|lia|symmetry; exact E].
  - destruct (clr 0 caps1 w =? 0); [constructor|]. constructor; [|constructor]. intros (i & _ & E). destruct (hex_48 (clr 0 caps1 w)) as [r X]. rewrite X in E. destruct (name_49 i caps0) as [r' Y]. rewrite Y in E. discriminate E.
Qed.
Lemma wtoks_inj l f g : NoDup l -> f < 2^64 -> g < 2^64 -> wtoks l f = wtoks l g -> f = g.
Proof.
  intros ND F G E. rewrite !wtoks_full in E. apply app_49 in E as [E1 E2]; [|apply names_49|apply names_49| |].
  - apply (word_bits l f g ND E1). apply tail_same; assumption.
  - destruct (clr 0 l f =? 0); [constructor|]. constructor; [|constructor]. destruct (hex_48 (clr 0 l f)) as [r ->]. eexists; reflexivity.
  - destruct (clr 0 l g =? 0); [constructor|]. constructor; [|constructor]. destruct (hex_48 (clr 0 l g)) as [r ->]. eexists; reflexivity.
Qed.
Lemma nodup0 : NoDup caps0. Proof. apply distinct_nodup. vm_compute. reflexivity. Qed.
Lemma nodup1 : NoDup caps1. Proof. apply distinct_nodup. vm_compute. reflexivity. Qed.
Lemma zero_tok w v : ~ (wtoks caps0 w ++ wtoks caps1 v = [bs "0"]).
Proof.
  rewrite !wtoks_full. intros E. assert (X : In (bs "0") (wtoks caps0 w ++ wtoks caps1 v)) by (rewrite !wtoks_full, E; left; reflexivity). clear E.
  assert (Y : forall l u, ~ In (bs "0") (wtoks l u)).
  { intros l u Z. rewrite wtoks_full in Z. apply in_app_iff in Z as [Z|Z].
    - pose proof (names_49 l u) as Q. rewrite Forall_forall in Q. destruct (Q _ Z) as [r R]. discriminate R.
    - destruct (N.eqb_spec (clr 0 l u) 0) as [|C]; [destruct Z|]. destruct Z as [Z|[]]. unfold pr_hex in Z. apply N.eqb_neq in C. rewrite C in Z. discriminate Z. }
  apply in_app_iff in X as [X|X]; exact (Y _ _ X).
Qed.
(** the first name after the number tells the word *)
Definition starts (a b : list N) : bool := beqs a (firstn (length a) b) || beqs b (firstn (length b) a).
Lemma starts_app a b x y : a ++ x = b ++ y -> starts a b = true.
Proof.
  intros E. unfold starts. apply orb_true_iff. destruct (Nat.le_ge_cases (length a) (length b)) as [L|L]; [left|right]; apply beqs_eq.
  - assert (X : firstn (length a) (a ++ x) = firstn (length a) (b ++ y)) by (rewrite E; reflexivity). rewrite firstn_app, Nat.sub_diag, firstn_O, app_nil_r, firstn_all in X. rewrite firstn_app in X. replace (length a - length b)%nat with 0%nat in X by lia. rewrite firstn_O, app_nil_r in X. exact X.
  - assert (X : firstn (length b) (b ++ y) = firstn (length b) (a ++ x)) by (rewrite E; reflexivity). rewrite firstn_app, Nat.sub_diag, firstn_O, app_nil_r, firstn_all in X. rewrite firstn_app in X. replace (length b - length a)%nat with 0%nat in X by lia. rewrite firstn_O, app_nil_r in X. exact X.
Qed.
Lemma starts_check : forallb (fun a => negb (starts (bs "1<<" ++ a) (bs "CAP_???")) && forallb (fun b => negb (starts (bs "1<<" ++ a) (bs "1<<" ++ b))) caps1) caps0 = true.
Proof. vm_compute. reflexivity. Qed.
Lemma verbose_form l w : w <> 0 -> exists a r, word XVERBOSE l w = pr_hex w ++ bs " /* " ++ a ++ r /\ (names_in l w = [] /\ a = bs "CAP_???" \/ exists i, (i < length l)%nat /\ a = bs "1<<" ++ nth i l []).
Proof.
  intros W. rewrite word_eq by exact W. destruct (names_in l w) as [|a ns] eqn:NS.
  - exists (bs "CAP_???"), (bs " */"). split; [reflexivity|left; split; reflexivity].
  - cbv zeta. change ((a :: ns) ++ ?x) with (a :: (ns ++ x)). rewrite join_bars, <- app_assoc. eexists a, _. split; [reflexivity|]. right.
    assert (X : In a (names_in l w)) by (rewrite NS; left; reflexivity). unfold names_in in X. apply in_map_iff in X as (i & <- & X). apply filter_In in X as [X _]. apply in_seq in X. exists i. split; [lia|reflexivity].
Qed.
Lemma full_names0 w : w < 2^32 -> w <> 0 -> names_in caps0 w <> [].
Proof. intros W Z E. pose proof (wtoks_join caps0 w Z) as [_ X]. rewrite wtoks0, E in X by exact W. contradiction. Qed.
Lemma hex_head32 x : head_is 32 (bs " /* " ++ x). Proof. right. eexists. reflexivity. Qed.

(** In the default and in the verbose style different sets are shown by different texts. *)
Theorem C98_lossless : forall st lo hi lo' hi', st <> XRAW -> lo < 2^32 -> hi < 2^32 -> lo' < 2^32 -> hi' < 2^32 ->
  print_cap_bits st lo hi = print_cap_bits st lo' hi' -> lo = lo' /\ hi = hi'.
Proof.
  intros st lo hi lo' hi' ST L H L' H' E. destruct st; [|contradiction|].
  - rewrite !bits_toks in E. apply join_inj in E.
    + assert (EE : wtoks caps0 lo ++ wtoks caps1 hi = wtoks caps0 lo' ++ wtoks caps1 hi').
      { pose proof (zero_tok lo hi) as Z. pose proof (zero_tok lo' hi') as Z'. destruct (wtoks caps0 lo ++ wtoks caps1 hi) as [|a x]; destruct (wtoks caps0 lo' ++ wtoks caps1 hi') as [|b y]; congruence. }
      apply (cut_at first_word) in EE as [E0 E1]; [|apply toks0_first; assumption|apply toks0_first; assumption|apply toks1_other|apply toks1_other].
      split; [apply (wtoks_inj caps0 lo lo' nodup0) in E0|apply (wtoks_inj caps1 hi hi' nodup1) in E1]; try assumption; lia.
    + assert (F : Forall (fun s => ~ In 124 s /\ s <> []) (wtoks caps0 lo ++ wtoks caps1 hi)) by (apply Forall_app; split; apply wtoks_ok; [apply incl0|apply incl1]). destruct (wtoks caps0 lo ++ wtoks caps1 hi); [|exact F]. constructor; [|constructor]. split; [|discriminate]. vm_compute. intuition discriminate.
    + assert (F : Forall (fun s => ~ In 124 s /\ s <> []) (wtoks caps0 lo' ++ wtoks caps1 hi')) by (apply Forall_app; split; apply wtoks_ok; [apply incl0|apply incl1]). destruct (wtoks caps0 lo' ++ wtoks caps1 hi'); [|exact F]. constructor; [|constructor]. split; [|discriminate]. vm_compute. intuition discriminate.
  - assert (NUM : forall l l' w w' x y, w <> 0 -> w' <> 0 -> w < 2^32 -> w' < 2^32 -> word XVERBOSE l w ++ x = word XVERBOSE l' w' ++ y -> w = w').
    { intros l l' w w' x y W W' B B' Q. destruct (verbose_form l w W) as (a & r & X & _). destruct (verbose_form l' w' W') as (a' & r' & X' & _). rewrite X, X', <- !app_assoc in Q. apply (split_at 32) in Q as [Q _]; [apply hex_inj in Q; [exact Q|lia..]|apply hex_not, plain32|apply hex_not, plain32|apply hex_head32|apply hex_head32]. }
    assert (DIFF : forall w w' x y, w <> 0 -> w' <> 0 -> w < 2^32 -> word XVERBOSE caps0 w ++ x = word XVERBOSE caps1 w' ++ y -> False).
    { intros w w' x y W W' B Q. destruct (verbose_form caps0 w W) as (a & r & X & A). destruct (verbose_form caps1 w' W') as (a' & r' & X' & A'). rewrite X, X', <- !app_assoc in Q. apply (split_at 32) in Q as [_ Q]; [|apply hex_not, plain32|apply hex_not, plain32|apply hex_head32|apply hex_head32]. apply app_inv_head in Q. apply starts_app in Q.
      destruct A as [[A _]|(i & I0 & ->)]; [exact (full_names0 w B W A)|]. pose proof starts_check as SC. rewrite forallb_forall in SC. specialize (SC (nth i caps0 []) (nth_In caps0 [] I0)). apply andb_true_iff in SC as [S1 S2].
      destruct A' as [[_ ->]|(j & J & ->)]; [rewrite Q in S1; discriminate S1|]. rewrite forallb_forall in S2. specialize (S2 (nth j caps1 []) (nth_In caps1 [] J)). rewrite Q in S2. discriminate S2. }
    assert (ZERO : forall l w x, w <> 0 -> word XVERBOSE l w ++ x = bs "0" -> False).
    { intros l w x W Q. destruct (verbose_form l w W) as (a & r & X & _). rewrite X in Q. unfold pr_hex in Q. apply N.eqb_neq in W. rewrite W in Q. discriminate Q. }
    assert (SHAPE : forall lo hi, print_cap_bits XVERBOSE lo hi = if lo =? 0 then (if hi =? 0 then bs "0" else word XVERBOSE caps1 hi ++ []) else word XVERBOSE caps0 lo ++ (if hi =? 0 then [] else bs "|" ++ word XVERBOSE caps1 hi)).
    { intros a b. rewrite bits_eq. destruct (b =? 0); destruct (a =? 0); rewrite ?app_nil_r; reflexivity. }
    rewrite !SHAPE in E. revert E. destruct (N.eqb_spec lo 0) as [->|LZ]; destruct (N.eqb_spec lo' 0) as [->|LZ']; intros E.
    + destruct (N.eqb_spec hi 0) as [->|HZ]; destruct (N.eqb_spec hi' 0) as [->|HZ']; [split; reflexivity|symmetry in E; destruct (ZERO _ _ _ HZ' E)|destruct (ZERO _ _ _ HZ E)|]. split; [reflexivity|]. exact (NUM _ _ _ _ _ _ HZ HZ' H H' E).
    + exfalso. symmetry in E. destruct (N.eqb_spec hi 0) as [->|HZ]; [exact (ZERO _ _ _ LZ' E)|exact (DIFF _ _ _ _ LZ' HZ L' E)].
    + exfalso. destruct (N.eqb_spec hi' 0) as [->|HZ']; [exact (ZERO _ _ _ LZ E)|exact (DIFF _ _ _ _ LZ HZ' L E)].
    + pose proof (NUM _ _ _ _ _ _ LZ LZ' L L' E). subst lo'. apply app_inv_head in E. split; [reflexivity|].
      destruct (N.eqb_spec hi 0) as [->|HZ]; destruct (N.eqb_spec hi' 0) as [->|HZ']; [reflexivity|discriminate E|discriminate E|]. apply app_inv_head in E. apply (NUM caps1 caps1 hi hi' [] [] HZ HZ' H H'). rewrite !app_nil_r. exact E.
Qed.
Print Assumptions C98_lossless.
(** In the raw style they are not: {CAP_CHOWN} and {CAP_MAC_OVERRIDE} are both 0x1. *)
Theorem C98_lossless_raw_refuted : exists lo hi lo' hi', lo < 2^32 /\ hi < 2^32 /\ lo' < 2^32 /\ hi' < 2^32 /\ (lo, hi) <> (lo', hi') /\
  members (lo + 2^32 * hi) = [bs "1<<CAP_CHOWN"] /\ members (lo' + 2^32 * hi') = [bs "1<<CAP_MAC_OVERRIDE"] /\
  print_cap_bits XRAW lo hi = print_cap_bits XRAW lo' hi'.
Proof. exists 1, 0, 0, 1. repeat split; try (vm_compute; reflexivity). discriminate. Qed.
(** They are when both words of both sets are used, or when both sets fit the first word. *)
Theorem C98_lossless_raw_partial : forall lo hi lo' hi', lo < 2^32 -> hi < 2^32 -> lo' < 2^32 -> hi' < 2^32 ->
  (lo = 0 <-> lo' = 0) -> print_cap_bits XRAW lo hi = print_cap_bits XRAW lo' hi' -> lo = lo' /\ hi = hi'.
Proof.
  intros lo hi lo' hi' L H L' H' Z E. rewrite !bits_eq in E. rewrite !(fun l w => eq_refl : word XRAW l w = (if negb (w =? 0) || true then pr_hex w else [])) in E. rewrite !orb_true_r in E.
  assert (HB : forall n, ~ In 124 (pr_hex n)) by (intros n; apply hex_not, plain124). assert (HD : forall x, head_is 124 (bs "|" ++ x)) by (intros x; right; eexists; reflexivity).
  assert (INJ : forall a b, a < 2^32 -> b < 2^32 -> pr_hex a = pr_hex b -> a = b) by (intros a b A B; apply hex_inj; lia).
  assert (E' : (if lo =? 0 then pr_hex hi else pr_hex lo ++ (if hi =? 0 then [] else bs "|" ++ pr_hex hi)) = (if lo' =? 0 then pr_hex hi' else pr_hex lo' ++ (if hi' =? 0 then [] else bs "|" ++ pr_hex hi'))).
  { revert E. destruct (N.eqb_spec hi 0) as [->|]; destruct (N.eqb_spec hi' 0) as [->|]; destruct (N.eqb_spec lo 0) as [->|]; destruct (N.eqb_spec lo' 0) as [->|]; rewrite ?app_nil_r; intros E; exact E. }
  clear E. destruct (N.eqb_spec lo 0) as [->|LZ]; destruct (N.eqb_spec lo' 0) as [->|LZ']; [split; [reflexivity|]; apply INJ; assumption|destruct Z as [Z _]; specialize (Z eq_refl); contradiction|destruct Z as [_ Z]; specialize (Z eq_refl); contradiction|].
  apply (split_at 124) in E' as [E1 E2]; [|apply HB|apply HB|destruct (hi =? 0); [left; reflexivity|apply HD]|destruct (hi' =? 0); [left; reflexivity|apply HD]].
  split; [apply INJ; assumption|]. destruct (N.eqb_spec hi 0) as [->|HZ]; destruct (N.eqb_spec hi' 0) as [->|HZ']; [reflexivity|discriminate E2|discriminate E2|]. apply app_inv_head in E2. apply INJ; assumption.
Qed.
Print Assumptions C98_lossless_raw_partial.

(** ---- the arguments of capget and capset ---- *)
Lemma get_header o m a b : a <> 0 -> ExtModel.verbose o = true -> length b = 8%nat -> TvalSpec.bytes_at m a b ->
  get_cap_header o m a = Some (InfoSpec.number_at b 0 4, InfoSpec.number_at b 4 4).
Proof.
  intros A V LB B. unfold get_cap_header. apply N.eqb_neq in A. rewrite A, V. cbn [negb orb]. rewrite <- LB, (TvalThms.umoven_bytes m b a B), !InfoThms.ld_number. reflexivity.
Qed.
Lemma no_header o m a : a = 0 \/ ExtModel.verbose o = false \/ TvalSpec.unreadable m a 8 -> get_cap_header o m a = None.
Proof.
  intros [->|[V|U]]; unfold get_cap_header; [reflexivity|rewrite V; rewrite orb_true_r; reflexivity|]. rewrite (TvalThms.umoven_none m 8 a U). destruct ((a =? 0) || negb (ExtModel.verbose o)); reflexivity.
Qed.
(** The header: the name of the version, in the default style, and the pid. *)
Theorem C98_header : forall o m pidtext a b, a <> 0 -> ExtModel.verbose o = true -> length b = 8%nat -> TvalSpec.bytes_at m a b ->
  let v := InfoSpec.number_at b 0 4 in exists t,
  capget_entering o m XABBREV pidtext a = bs "{version=" ++ t ++ bs ", pid=" ++ pidtext (InfoSpec.signed_at b 4 4) ++ bs "}" /\
  match version_name v with Some n => t = n | None => exists x, t = x ++ bs " /* _LINUX_CAPABILITY_VERSION_??? */" /\ (v = 0 /\ x = bs "0" \/ v <> 0 /\ hexnum x v) end.
Proof.
  intros o m pidtext a b A V LB B v. unfold capget_entering. rewrite (get_header o m a b A V LB B). unfold print_cap_header. apply N.eqb_neq in A. rewrite A.
  eexists. split; [reflexivity|]. fold v. clearbody v. unfold version_name, printxvals_ex. cbn [xlookups]. unfold xlookup. cbn [ty data cap_version normal_lookup].
  unfold VERSION_1, VERSION_2, VERSION_3. rewrite (N.eqb_sym v 0x19980330), (N.eqb_sym v 0x20071026), (N.eqb_sym v 0x20080522).
  destruct (0x19980330 =? v); [reflexivity|]. destruct (0x20071026 =? v); [reflexivity|]. destruct (0x20080522 =? v); [reflexivity|].
  exists (pr_hex v). split; [reflexivity|]. destruct (N.eq_dec v 0) as [->|Z]; [left; split; reflexivity|right; split; [exact Z|apply hex_ok, Z]].
Qed.
Print Assumptions C98_header.
(** The three sets of capget, of 64 bits with the versions 2 and 3 and of 32 bits with any other. *)
Definition caps_at (two : Prop) (b : list N) (i : nat) (set : N) : Prop :=
  two /\ set = InfoSpec.number_at b i 4 + 2^32 * InfoSpec.number_at b (12 + i) 4 \/ ~ two /\ set = InfoSpec.number_at b i 4.
Lemma data_eq o m st v p a b : a <> 0 -> ExtModel.verbose o = true -> ExtModel.failed o = false -> Forall (fun x => x < 256) b -> TvalSpec.bytes_at m a b ->
  (two_words v /\ length b = 24%nat \/ ~ two_words v /\ length b = 12%nat) ->
  exists e pe i te tp ti, caps_at (two_words v) b 0 e /\ caps_at (two_words v) b 4 pe /\ caps_at (two_words v) b 8 i /\
    set_shown st e te /\ set_shown st pe tp /\ set_shown st i ti /\
    print_cap_data o m st a (Some (v, p)) = bs "{effective=" ++ te ++ bs ", permitted=" ++ tp ++ bs ", inheritable=" ++ ti ++ bs "}".
Proof.
  intros A V FF BB B LB. unfold print_cap_data. pose proof A as A0. apply N.eqb_neq in A0. rewrite A0.
  assert (TW : ((v =? VERSION_2) || (v =? VERSION_3)) = true <-> two_words v) by (rewrite orb_true_iff, !N.eqb_eq; reflexivity).
  set (t := (v =? VERSION_2) || (v =? VERSION_3)) in *. replace (if t then 24%nat else 12%nat) with (length b).
  2:{ destruct LB as [[T ->]|[T ->]]; [apply TW in T; rewrite T; reflexivity|destruct t; [destruct T; apply TW; reflexivity|reflexivity]]. }
  rewrite (TvalThms.fetched o m a b A V FF B). cbv zeta. rewrite !InfoThms.ld_number.
  assert (SET : forall k, exists s, caps_at (two_words v) b k s /\ set_shown st s (print_cap_bits st (InfoSpec.number_at b k 4) (if t then InfoSpec.number_at b (12 + k) 4 else 0))).
  { intros k. eexists. split; [|apply C98_shown, InfoThms.number4, BB]. destruct t; [left; split; [apply TW; reflexivity|reflexivity]|right; split; [intros X; apply TW in X; discriminate X|]]. rewrite N.mul_0_r, N.add_0_r. reflexivity. }
  destruct (SET 0%nat) as (e & E1 & E2). destruct (SET 4%nat) as (pe & P1 & P2). destruct (SET 8%nat) as (i & I1 & I2).
  exists e, pe, i. do 3 eexists. split; [exact E1|]. split; [exact P1|]. split; [exact I1|]. split; [exact E2|]. split; [exact P2|]. split; [exact I2|]. reflexivity.
Qed.
Theorem C98_capget : forall o m st h a hb b, h <> 0 -> a <> 0 -> ExtModel.verbose o = true -> ExtModel.failed o = false ->
  length hb = 8%nat -> TvalSpec.bytes_at m h hb -> Forall (fun x => x < 256) b -> TvalSpec.bytes_at m a b ->
  let v := InfoSpec.number_at hb 0 4 in (two_words v /\ length b = 24%nat \/ ~ two_words v /\ length b = 12%nat) ->
  exists e p i te tp ti, caps_at (two_words v) b 0 e /\ caps_at (two_words v) b 4 p /\ caps_at (two_words v) b 8 i /\
    set_shown st e te /\ set_shown st p tp /\ set_shown st i ti /\
    capget_exiting o m st h a = bs "{effective=" ++ te ++ bs ", permitted=" ++ tp ++ bs ", inheritable=" ++ ti ++ bs "}".
Proof.
  intros o m st h a hb b H A V FF LH BH BB B v LB. unfold capget_exiting. rewrite FF, (get_header o m h hb H V LH BH). apply data_eq; assumption.
Qed.
Print Assumptions C98_capget.
(** capset, as it is entered: the header and the three sets. *)
Theorem C98_capset : forall o m st pidtext h a hb b, h <> 0 -> a <> 0 -> ExtModel.verbose o = true -> ExtModel.failed o = false ->
  length hb = 8%nat -> TvalSpec.bytes_at m h hb -> Forall (fun x => x < 256) b -> TvalSpec.bytes_at m a b ->
  let v := InfoSpec.number_at hb 0 4 in (two_words v /\ length b = 24%nat \/ ~ two_words v /\ length b = 12%nat) ->
  exists e p i te tp ti, caps_at (two_words v) b 0 e /\ caps_at (two_words v) b 4 p /\ caps_at (two_words v) b 8 i /\
    set_shown st e te /\ set_shown st p tp /\ set_shown st i ti /\
    sys_capset o m st pidtext h a = capget_entering o m st pidtext h ++ bs ", {effective=" ++ te ++ bs ", permitted=" ++ tp ++ bs ", inheritable=" ++ ti ++ bs "}".
Proof.
  intros o m st pidtext h a hb b H A V FF LH BH BB B v LB. unfold sys_capset, capget_entering. rewrite (get_header o m h hb H V LH BH). cbv zeta.
  destruct (data_eq o m st v (InfoSpec.number_at hb 4 4) a b A V FF BB B LB) as (e & p & i & te & tp & ti & R1 & R2 & R3 & R4 & R5 & R6 & R7).
  exists e, p, i, te, tp, ti. repeat (split; [assumption|]). fold v. rewrite R7. reflexivity.
Qed.
Print Assumptions C98_capset.
(** Otherwise they are addresses. *)
Theorem C98_address : forall o m st pidtext h a,
  (h = 0 \/ ExtModel.verbose o = false \/ TvalSpec.unreadable m h 8 ->
    TvalSpec.address (capget_entering o m st pidtext h) h /\ TvalSpec.address (capget_exiting o m st h a) a /\
    exists x y, sys_capset o m st pidtext h a = x ++ bs ", " ++ y /\ TvalSpec.address x h /\ TvalSpec.address y a) /\
  (a = 0 \/ ExtModel.failed o = true \/ TvalSpec.unreadable m a 12 -> TvalSpec.address (capget_exiting o m st h a) a).
Proof.
  intros o m st pidtext h a. split.
  - intros N0. unfold capget_entering, capget_exiting, sys_capset. rewrite (no_header o m h N0). destruct (ExtModel.failed o); cbn; repeat split; try apply TvalThms.printaddr_ok; eexists _, _; (split; [reflexivity|split; apply TvalThms.printaddr_ok]).
  - intros N0. unfold capget_exiting. enough (X : forall hd, (ExtModel.failed o = true -> hd = None) -> TvalSpec.address (print_cap_data o m st a hd) a) by (apply X; intros ->; reflexivity).
    intros hd HD. unfold print_cap_data. destruct hd as [[v p]|]; [|apply TvalThms.printaddr_ok]. destruct (N.eqb_spec a 0) as [Z|Z]; [apply TvalThms.printaddr_ok|].
    destruct N0 as [N0|[N0|N0]]; [contradiction|specialize (HD N0); discriminate HD|]. set (n := if _ || _ then 24%nat else 12%nat). cbv zeta. fold n.
    rewrite (TvalThms.not_fetched o m a n); [apply TvalThms.printaddr_ok|]. right. right. right. destruct N0 as (i & I1 & I2). exists i. split; [|exact I2]. subst n. destruct (_ || _); lia.
Qed.
Print Assumptions C98_address.

(** ---- examples ---- *)
Example bits_ex : print_cap_bits XABBREV 0x3000 0 = bs "1<<CAP_NET_ADMIN|1<<CAP_NET_RAW" /\ print_cap_bits XABBREV 0 0 = bs "0" /\
  print_cap_bits XABBREV 1 0x280 = bs "1<<CAP_CHOWN|1<<CAP_BPF|0x200" /\ print_cap_bits XABBREV 1 0x200 = bs "1<<CAP_CHOWN|0x200 /* CAP_??? */" /\
  print_cap_bits XVERBOSE 1 2 = bs "0x1 /* 1<<CAP_CHOWN */|0x2 /* 1<<CAP_MAC_ADMIN */" /\ print_cap_bits XRAW 3 2 = bs "0x3|0x2".
Proof. vm_compute. repeat split; reflexivity. Qed.
Definition hdr_ex : list N := [0x22; 5; 8; 0x20; 0xd2; 4; 0; 0].
Definition dat_ex : list N := [0; 0x30; 0; 0] ++ [0; 0x30; 0; 0] ++ [0; 0; 0; 0] ++ [0; 1; 0; 0] ++ [0x80; 1; 0; 0] ++ [0; 0; 0; 0].
Definition mem_ex : ExtModel.memory := fun a => if (a <? 4096) then None else nth_error (hdr_ex ++ dat_ex) (N.to_nat (a - 4096)).
Definition opts_ex : ExtModel.opts := {| ExtModel.verbose := true; ExtModel.failed := false; ExtModel.max_strlen := 32; ExtModel.pagesize := 4096 |}.
Lemma mem_hdr : TvalSpec.bytes_at mem_ex 4096 hdr_ex.
Proof. intros i I0. change (length hdr_ex) with 8%nat in I0. do 8 (destruct i as [|i]; [vm_compute; reflexivity|]). lia. Qed.
Lemma mem_dat : TvalSpec.bytes_at mem_ex 4104 dat_ex.
Proof. intros i I0. change (length dat_ex) with 24%nat in I0. do 24 (destruct i as [|i]; [vm_compute; reflexivity|]). lia. Qed.
Example capset_ex : sys_capset opts_ex mem_ex XABBREV (fun z => TvalModel.sdec z) 4096 4104 =
  bs "{version=_LINUX_CAPABILITY_VERSION_3, pid=1234}, {effective=1<<CAP_NET_ADMIN|1<<CAP_NET_RAW|1<<CAP_CHECKPOINT_RESTORE, permitted=1<<CAP_NET_ADMIN|1<<CAP_NET_RAW|1<<CAP_BPF|1<<CAP_CHECKPOINT_RESTORE, inheritable=0}" /\
  two_words (InfoSpec.number_at hdr_ex 0 4) /\ Forall (fun x => x < 256) dat_ex.
Proof. split; [vm_compute; reflexivity|]. split; [right; vm_compute; reflexivity|]. repeat constructor. Qed.
Example address_ex : TvalSpec.unreadable mem_ex 0 8 /\ capget_exiting opts_ex mem_ex XABBREV 16 4104 = bs "0x1008".
Proof. split; [exists 0%nat; split; [lia|vm_compute; reflexivity]|vm_compute; reflexivity]. Qed.
