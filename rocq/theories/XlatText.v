(** The printed forms can be read back. *)
From Coq Require Import Sorted.
From Verif Require Import Base QuoteModel QuoteProofs Printf BitsModel AllocModel XlatModel XlatSpec XlatProofs.
Local Open Scope N_scope.

Ltac change_lits := unfold sprint_xlat_val, pr_hex; change (bs "0") with [48]; change (bs "0x") with [48; 120]; change (bs "-") with [45].
Lemma sing_inj {A} (a b : A) : [a] = [b] -> a = b.
Proof. intros H; inversion H; reflexivity. Qed.
Definition head_is (c : N) (x : list N) : Prop := x = [] \/ exists r, x = c :: r.
Lemma split_at c a b x y : ~ In c a -> ~ In c b -> head_is c x -> head_is c y -> a ++ x = b ++ y -> a = b /\ x = y.
Proof.
  revert b; induction a as [|h a IH]; intros b Ha Hb Hx Hy E; destruct b as [|k b]; cbn [app] in E.
  - auto.
  - exfalso. destruct Hx as [->|[r ->]]; [discriminate|]. inversion E; subst. apply Hb. left; reflexivity.
  - exfalso. destruct Hy as [->|[r ->]]; [discriminate|]. inversion E; subst. apply Ha. left; reflexivity.
  - inversion E; subst. destruct (IH b) as [-> ->]; auto; intros H; [apply Ha|apply Hb]; right; exact H.
Qed.

(** numbers *)
Lemma pr_num_inj base a b : 2 <= base <= 16 -> pr_num base a = pr_num base b -> a = b.
Proof. intros H E. pose proof (pr_num_rd base a H) as A. rewrite E, pr_num_rd in A by exact H. inversion A; reflexivity. Qed.
Lemma hex_char_range d : d < 16 -> 48 <= hex_char d <= 57 \/ 97 <= hex_char d <= 102.
Proof. intros H. unfold hex_char. destruct (N.ltb_spec d 10); lia. Qed.
Lemma hex_char_dec d : d < 10 -> 48 <= hex_char d <= 57.
Proof. intros H. unfold hex_char. destruct (N.ltb_spec d 10); lia. Qed.
Lemma pr_num_not_in c base n : 2 <= base <= 16 -> ~ (48 <= c <= 57 \/ 97 <= c <= 102) -> ~ In c (pr_num base n).
Proof.
  intros H HC HI. pose proof (pr_num_digits base n H) as F. rewrite Forall_forall in F. destruct (F c HI) as (d & Hd & ->).
  apply HC. apply hex_char_range. lia.
Qed.
Lemma pr_num_head base n : 2 <= base <= 10 -> exists c r, pr_num base n = c :: r /\ 48 <= c <= 57.
Proof.
  intros H. pose proof (digits_from_pos base (S (N.size_nat n)) n ltac:(lia)) as L. fold (pr_num base n) in L.
  pose proof (pr_num_digits base n ltac:(lia)) as F. destruct (pr_num base n) as [|c r]; [cbn in L; lia|].
  exists c, r. split; [reflexivity|]. inversion F as [|? ? (d & Hd & ->)]. apply hex_char_dec. lia.
Qed.
Definition plain (c : N) : Prop := ~ (48 <= c <= 57 \/ 97 <= c <= 102) /\ c <> 120 /\ c <> 45.
Lemma sprint_not_in c f v : plain c -> ~ In c (sprint_xlat_val f v).
Proof.
  intros (H1 & H2 & H3). change_lits. destruct f.
  - destruct (v =? 0).
    + intros [E|[]]. subst. apply H1. lia.
    + intros HI. apply in_app_iff in HI as [[E|[E|[]]]|HI]; [subst; apply H1; lia|subst; congruence|]. revert HI. apply pr_num_not_in; [lia|exact H1].
  - apply pr_num_not_in; [lia|exact H1].
  - destruct (v <? 2 ^ 63); [apply pr_num_not_in; [lia|exact H1]|]. intros HI. apply in_app_iff in HI as [[E|[]]|HI]; [congruence|].
    revert HI. apply pr_num_not_in; [lia|exact H1].
Qed.
Lemma sprint_head f v : exists c r, sprint_xlat_val f v = c :: r /\ digit_like c.
Proof.
  change_lits; unfold digit_like. destruct f.
  - destruct (v =? 0); eexists; eexists; (split; [reflexivity|left; lia]).
  - destruct (pr_num_head 10 v ltac:(lia)) as (c & r & E & H). exists c, r. auto.
  - destruct (v <? 2 ^ 63).
    + destruct (pr_num_head 10 v ltac:(lia)) as (c & r & E & H). exists c, r. auto.
    + eexists; eexists. split; [reflexivity|]. right; reflexivity.
Qed.
Lemma sprint_inj f a b : a < 2^64 -> b < 2^64 -> sprint_xlat_val f a = sprint_xlat_val f b -> a = b.
Proof.
  intros Ha Hb. change_lits. destruct f.
  - destruct (N.eqb_spec a 0), (N.eqb_spec b 0); subst; auto; intros E; [discriminate..|].
    apply (pr_num_inj 16); [lia|]. inversion E; reflexivity.
  - apply pr_num_inj; lia.
  - destruct (N.ltb_spec a (2 ^ 63)), (N.ltb_spec b (2 ^ 63)); intros E.
    + revert E. apply pr_num_inj; lia.
    + destruct (pr_num_head 10 a ltac:(lia)) as (c & r & Ec & Hc). rewrite Ec in E. inversion E. subst. lia.
    + destruct (pr_num_head 10 b ltac:(lia)) as (c & r & Ec & Hc). rewrite Ec in E. inversion E. subst. lia.
    + inversion E as [E1]. apply pr_num_inj in E1; lia.
Qed.

(** ** Flags *)
Lemma bars_head l : head_is 124 (bars l).
Proof. destruct l; [left; reflexivity|]. right. eexists. reflexivity. Qed.
Lemma join_inj l m : Forall (fun s => ~ In 124 s /\ s <> []) l -> Forall (fun s => ~ In 124 s /\ s <> []) m -> join_bar l = join_bar m -> l = m.
Proof.
  assert (B : forall l m, Forall (fun s => ~ In 124 s /\ s <> []) l -> Forall (fun s => ~ In 124 s /\ s <> []) m -> bars l = bars m -> l = m).
  { clear l m. induction l as [|a l IH]; intros [|b m] Hl Hm E; try reflexivity; try discriminate.
    inversion Hl as [|? ? [A1 A2] Hl']; subst. inversion Hm as [|? ? [B1 B2] Hm']; subst. unfold bars in E. cbn [map concat app] in E.
    assert (E' : a ++ bars l = b ++ bars m) by (rewrite <- !app_assoc in E; apply app_inv_head in E; exact E).
    destruct (split_at 124 a b (bars l) (bars m)) as [-> E2]; auto using bars_head. f_equal. auto. }
  destruct l as [|a l], m as [|b m]; intros Hl Hm E; try reflexivity.
  - rewrite join_bars in E. inversion Hm as [|? ? [B1 B2] Hm']; subst. destruct b; [congruence|discriminate].
  - rewrite join_bars in E. inversion Hl as [|? ? [B1 B2] Hm']; subst. destruct a; [congruence|discriminate].
  - rewrite !join_bars in E. inversion Hl as [|? ? [A1 A2] Hl']; subst. inversion Hm as [|? ? [B1 B2] Hm']; subst.
    destruct (split_at 124 a b (bars l) (bars m)) as [-> E2]; auto using bars_head. f_equal. auto.
Qed.
Definition starts_digit (s : list N) : Prop := exists c r, s = c :: r /\ digit_like c.
Lemma ors_same ents c1 c2 : names_readable ents -> Forall (fun e => In (fst e, Some (snd e)) ents) c1 ->
  Forall (fun e => In (fst e, Some (snd e)) ents) c2 -> map snd c1 = map snd c2 -> ors c1 = ors c2.
Proof.
  intros [_ HN] F1. revert c2; induction F1 as [|[v s] c1 H F IH]; intros [|[v2 s2] c2] F2 E; try discriminate; [reflexivity|].
  inversion F2; subst. cbn in *. inversion E; subst. rewrite (HN v v2 s2) by assumption. unfold ors in *. cbn. f_equal. apply IH; auto.
Qed.
Lemma tokens_split ents f c1 c2 r1 r2 : names_readable ents -> r1 < 2^64 -> r2 < 2^64 ->
  Forall (fun e => In (fst e, Some (snd e)) ents) c1 -> Forall (fun e => In (fst e, Some (snd e)) ents) c2 ->
  tokens f c1 r1 = tokens f c2 r2 -> map snd c1 = map snd c2 /\ r1 = r2.
Proof.
  intros NR H1 H2 F1. revert c2; induction F1 as [|[v s] c1 H F IH]; intros c2 F2 E.
  - destruct c2 as [|[v2 s2] c2].
    + split; [reflexivity|]. unfold tokens in E. cbn in E. destruct (N.eqb_spec r1 0), (N.eqb_spec r2 0); subst; auto; try discriminate.
      inversion E as [E']. apply sprint_inj in E'; auto.
    + exfalso. inversion F2; subst. cbn in *. destruct NR as [NR _]. destruct (NR _ _ H3) as (_ & c & r & -> & HC).
      unfold tokens in E. cbn in E. destruct (r1 =? 0); [discriminate|]. inversion E as [[E1 E2]].
      destruct (sprint_head f r1) as (c' & r' & E' & HD). rewrite E' in E1. inversion E1; subst. contradiction.
  - destruct c2 as [|[v2 s2] c2].
    + exfalso. cbn in *. destruct NR as [NR _]. destruct (NR _ _ H) as (_ & c & r & -> & HC).
      unfold tokens in E. cbn in E. destruct (r2 =? 0); [discriminate|]. inversion E as [[E1 E2]].
      destruct (sprint_head f r2) as (c' & r' & E' & HD). rewrite E' in E1. inversion E1; subst. contradiction.
    + inversion F2; subst. unfold tokens in E. cbn [map app snd] in E. inversion E as [[E1 E2]]. subst. destruct (IH c2) as [X Y]; auto. cbn [map snd]. rewrite X. auto.
Qed.
Lemma inside_le flags v : N.land flags v = v -> v <= flags.
Proof.
  intros H. destruct (N.le_gt_cases v flags) as [|C]; [assumption|]. exfalso.
  assert (v <> 0) by lia. destruct (N.eq_dec flags 0) as [->|F]; [rewrite N.land_0_l in H; lia|].
  pose proof (N.land_ones flags 0) as _.
  assert (X : N.lor flags v = flags).
  { apply N.bits_inj; intros i. assert (E : N.testbit (N.land flags v) i = N.testbit v i) by (rewrite H; reflexivity).
    rewrite N.land_spec in E. rewrite N.lor_spec. destruct (N.testbit flags i), (N.testbit v i); cbn in *; congruence. }
  assert (Y : N.ldiff v flags = 0).
  { apply N.bits_inj; intros i. assert (E : N.testbit (N.lor flags v) i = N.testbit flags i) by (rewrite X; reflexivity).
    rewrite N.lor_spec in E. rewrite N.ldiff_spec, N.bits_0. destruct (N.testbit flags i), (N.testbit v i); cbn in *; congruence. }
  apply N.ldiff_le in Y. lia.
Qed.
Lemma reading_rest_le ents flags c rest : reading ents flags c rest -> rest <= flags.
Proof.
  intros R. apply inside_le. destruct R as [_ _ R3 _ _ _ _ _]. rewrite <- R3. rewrite N.land_comm, N.lor_comm. 
  apply N.bits_inj; intros i. rewrite N.land_spec, N.lor_spec. destruct (N.testbit rest i), (N.testbit (ors c) i); reflexivity.
Qed.
Definition toks (f : fmt) (dflt : option (list N)) (flags : N) (c : list (N * list N)) (rest : N) : list (list N) :=
  match c with
  | [] => if flags =? 0 then match dflt with Some _ => [bs "0"] | None => [] end else [sprint_xlat_val f flags ++ comment dflt]
  | _ => tokens f c rest
  end.
Lemma abbrev_toks f dflt flags c rest : render XABBREV f dflt flags c rest = join_bar (toks f dflt flags c rest).
Proof. unfold render, toks. destruct c; [|reflexivity]. destruct (flags =? 0); [destruct dflt; reflexivity|reflexivity]. Qed.
Lemma comment_not_in c d : c <> 32 -> c <> 47 -> c <> 42 -> (forall s, d = Some s -> ~ In c s) -> ~ In c (comment d).
Proof.
  intros H1 H2 H3 H HI. unfold comment in HI. destruct d as [[|x s]|]; try (destruct HI; fail).
  change (bs " /* ") with [32; 47; 42; 32] in HI. change (bs " */") with [32; 42; 47] in HI.
  specialize (H _ eq_refl). apply in_app_iff in HI as [HI|HI]; [cbn in HI; intuition congruence|].
  apply in_app_iff in HI as [HI|HI]; [contradiction|]. cbn in HI. intuition congruence.
Qed.
Lemma plain124 : plain 124. Proof. unfold plain. lia. Qed.
Lemma plain32 : plain 32. Proof. unfold plain. lia. Qed.
Lemma toks_ok ents f dflt flags c rest : names_readable ents -> (forall d, dflt = Some d -> ~ In 124 d) ->
  Forall (fun e => In (fst e, Some (snd e)) ents) c -> Forall (fun s => ~ In 124 s /\ s <> []) (toks f dflt flags c rest).
Proof.
  intros [NR _] HD HF. unfold toks. destruct c as [|e c].
  - destruct (flags =? 0).
    + destruct dflt; [|constructor]. constructor; [|constructor]. split; [|discriminate]. intros [E|[]]; discriminate.
    + constructor; [|constructor]. split.
      * intros HI. apply in_app_iff in HI as [HI|HI]; [revert HI; apply sprint_not_in, plain124|]. revert HI. apply comment_not_in; try discriminate. exact HD.
      * destruct (sprint_head f flags) as (x & r & -> & _). discriminate.
  - unfold tokens. apply Forall_app. split.
    + rewrite Forall_forall in *. intros s Hs. apply in_map_iff in Hs as (e' & <- & He'). specialize (HF _ He'). destruct (NR _ _ HF) as (A & x & r & B & _).
      split; [exact A|]. rewrite B. discriminate.
    + destruct (rest =? 0); [constructor|]. constructor; [|constructor]. split; [apply sprint_not_in, plain124|].
      destruct (sprint_head f rest) as (x & r & -> & _). discriminate.
Qed.
Lemma comment_head d : head_is 32 (comment d).
Proof. unfold comment. destruct d as [[|x s]|]; try (left; reflexivity). right. eexists. reflexivity. Qed.
(** with the number in front: the number is what is in front of the first blank *)
Lemma verbose_form f dflt flags c rest : exists R, head_is 32 R /\
  (render XVERBOSE f dflt flags c rest = sprint_xlat_val f flags ++ R \/ render XVERBOSE f dflt flags c rest = [] /\ flags = 0).
Proof.
  unfold render. destruct c as [|e c].
  - destruct (N.eqb_spec flags 0) as [->|F].
    + destruct dflt; [exists []; split; [left; reflexivity|left; rewrite sprint_zero; reflexivity]|].
      exists []. split; [left; reflexivity|right; auto].
    + exists (comment dflt). split; [apply comment_head|left; reflexivity].
  - eexists. split; [|left; reflexivity]. right. eexists. reflexivity.
Qed.

Lemma printflags_lossless f1 f2 dflt st f xs : f1 < 2^64 -> f2 < 2^64 ->
  (st = XABBREV -> names_readable (all_entries xs) /\ forall d, dflt = Some d -> ~ In 124 d) ->
  printflags_ex f1 dflt st f xs = printflags_ex f2 dflt st f xs -> f1 = f2.
Proof.
  intros L1 L2 HA E.
  destruct (printflags_render f1 dflt st f xs) as (c1 & r1 & R1 & E1 & _). destruct (printflags_render f2 dflt st f xs) as (c2 & r2 & R2 & E2 & _).
  rewrite E1, E2 in E. clear E1 E2. pose proof (reading_rest_le _ _ _ _ R1). pose proof (reading_rest_le _ _ _ _ R2). destruct st.
  - destruct (HA eq_refl) as [NR HD]. rewrite !abbrev_toks in E. apply join_inj in E; [|eapply toks_ok; eauto; apply R1|eapply toks_ok; eauto; apply R2].
    assert (MIX : forall g1 g2 c2 r2, reading (all_entries xs) g2 c2 r2 -> c2 <> [] -> toks f dflt g1 [] 0 <> toks f dflt g2 c2 r2).
    { intros g1 g2 c r R C X. destruct c as [|e c]; [congruence|]. unfold toks in X. unfold tokens in X. cbn [map app] in X.
      destruct R as [RN _ _ _ _ _ _ _]. inversion RN; subst. destruct NR as [NR _]. destruct (NR _ _ H3) as (_ & x & s & Es & Hx).
      destruct (g1 =? 0).
      - destruct dflt; [|discriminate]. inversion X as [[X1 X2]]. rewrite Es in X1. inversion X1. subst. apply Hx. left. lia.
      - inversion X as [[X1 X2]]. rewrite Es in X1. destruct (sprint_head f g1) as (y & r' & Ey & Hy). rewrite Ey in X1. inversion X1. subst. contradiction. }
    destruct c1 as [|e1 c1], c2 as [|e2 c2].
    + assert (K : forall g, g <> 0 -> g < 2^64 -> sprint_xlat_val f g ++ comment dflt <> bs "0").
      { intros g Hg Hl X. rewrite <- (app_nil_r (bs "0")), <- (sprint_zero f) in X.
        apply (split_at 32) in X; [|apply sprint_not_in, plain32..|apply comment_head|left; reflexivity].
        destruct X as [X _]. apply sprint_inj in X; [contradiction|exact Hl|lia]. }
      unfold toks in E. destruct (N.eqb_spec f1 0) as [->|N1], (N.eqb_spec f2 0) as [->|N2].
      * reflexivity.
      * destruct dflt; [|discriminate]. exfalso. apply (K f2 N2 L2). apply sing_inj in E. symmetry. exact E.
      * destruct dflt; [|discriminate]. exfalso. apply (K f1 N1 L1). apply sing_inj in E. exact E.
      * assert (E' : sprint_xlat_val f f1 ++ comment dflt = sprint_xlat_val f f2 ++ comment dflt) by (apply sing_inj in E; exact E).
        apply app_inv_tail in E'. apply sprint_inj in E'; auto.
    + exfalso. apply (MIX f1 f2 (e2 :: c2) r2 R2); [discriminate|]. exact E.
    + exfalso. apply (MIX f2 f1 (e1 :: c1) r1 R1); [discriminate|]. symmetry; exact E.
    + change (tokens f (e1 :: c1) r1 = tokens f (e2 :: c2) r2) in E.
      apply (tokens_split (all_entries xs)) in E; auto; try lia; try apply R1; try apply R2. destruct E as [E ->].
      assert (O : ors (e1 :: c1) = ors (e2 :: c2)) by (eapply ors_same; eauto; [apply R1|apply R2]).
      rewrite <- (r_or _ _ _ _ R1), <- (r_or _ _ _ _ R2), O. reflexivity.
  - assert (W : forall g c r, render XRAW f dflt g c r = if (g =? 0) && match dflt with None => true | _ => false end then [] else sprint_xlat_val f g)
      by (intros g c r; destruct c; reflexivity).
    assert (X : forall g, sprint_xlat_val f g <> []) by (intros g X; destruct (sprint_head f g) as (y & r' & Ey & Hy); rewrite Ey in X; discriminate).
    rewrite !W in E. destruct (N.eqb_spec f1 0) as [Z1|Z1], (N.eqb_spec f2 0) as [Z2|Z2]; destruct dflt; cbn [andb] in E; try congruence;
      try (apply sprint_inj in E; auto; fail); exfalso; eapply X; eauto.
  - destruct (verbose_form f dflt f1 c1 r1) as (R & HR & [F|[F ->]]); destruct (verbose_form f dflt f2 c2 r2) as (R' & HR' & [F'|[F' ->]]); rewrite F, F' in E.
    + apply (split_at 32) in E; auto; try (apply sprint_not_in, plain32). destruct E as [E _]. apply sprint_inj in E; auto.
    + exfalso. destruct (sprint_head f f1) as (y & r' & Ey & Hy). rewrite Ey in E. discriminate.
    + exfalso. destruct (sprint_head f f2) as (y & r' & Ey & Hy). rewrite Ey in E. discriminate.
    + reflexivity.
Qed.
