From Coq Require Import Sorted.
From Verif Require Import Base Printf BitsModel XlatModel XlatSpec XlatProofs XlatText IoctlModel IoctlSpec.
Local Open Scope N_scope.

(** ---- the fields of a command ---- *)
Ltac Zify.zify_post_hook ::= Z.div_mod_to_equations.
Lemma land_mod c k : N.land c (2^k - 1) = c mod 2^k.
Proof. replace (2^k - 1) with (N.ones k) by (rewrite N.ones_equiv; lia). apply N.land_ones. Qed.
Lemma nr_eq c : IOC_NR c = c mod 256. Proof. unfold IOC_NR. apply (land_mod c 8). Qed.
Lemma type_eq c : IOC_TYPE c = (c / 256) mod 256. Proof. unfold IOC_TYPE. rewrite N.shiftr_div_pow2. apply (land_mod _ 8). Qed.
Lemma six x : x < 8 -> N.land x 6 = 2 * (x / 2) /\ (N.land x 6 = 0 <-> x < 2).
Proof. intros H. assert (X : x = 0 \/ x = 1 \/ x = 2 \/ x = 3 \/ x = 4 \/ x = 5 \/ x = 6 \/ x = 7) by lia. destruct X as [->|[->|[->|[->|[->|[->|[->| ->]]]]]]]; split; try reflexivity; split; try discriminate; try reflexivity; intros; exfalso; revert H; try discriminate; lia. Qed.
Lemma ioc_eq A c : c < 2^32 -> IOC A (IOC_DIR A c) (IOC_TYPE c) (IOC_NR c) (IOC_SIZE A c) = c.
Proof.
  intros H. rewrite nr_eq, type_eq. unfold IOC. destruct A; cbn [dirshift IOC_DIR IOC_SIZE]; rewrite ?N.shiftr_div_pow2.
  - rewrite (land_mod _ 2), (land_mod _ 14). lia.
  - rewrite (land_mod _ 3), (land_mod _ 13). lia.
  - rewrite (land_mod _ 3).
    assert (L : c / 2^29 < 8) by lia. rewrite (N.mod_small (c / 2^29) (2^3)) by exact L. destruct (six _ L) as [S1 S2].
    destruct (N.eqb_spec (N.land (c / 2^29) 6) 0) as [E|E].
    + rewrite E. cbn [N.eqb]. rewrite (land_mod _ 13). apply S2 in E. lia.
    + rewrite <- N.land_assoc. change (N.land 6 6) with 6. destruct (N.eqb_spec (N.land (c / 2^29) 6) 0); [contradiction|]. rewrite S1. rewrite (land_mod _ 14). lia.
Qed.
Ltac Zify.zify_post_hook ::= idtac.
Lemma dir_small A c : IOC_DIR A c < 8.
Proof.
  assert (X : forall a k, N.land a (2^k-1) < 2^k) by (intros a k; rewrite land_mod; apply N.mod_lt, N.pow_nonzero; lia).
  destruct A; cbn [IOC_DIR]; [apply N.lt_trans with 4; [apply (X _ 2)|lia]|apply (X _ 3)|].
  destruct (N.land _ 6 =? 0); [apply (X _ 3)|]. change 6 with (N.land 7 6). rewrite N.land_assoc. apply N.le_lt_trans with (N.land (N.shiftr c 29) 7); [|apply (X _ 3)].
  apply N.ldiff_le. apply N.bits_inj. intros i. rewrite N.ldiff_spec, !N.land_spec, N.bits_0. destruct (N.testbit (N.shiftr c 29) i), (N.testbit 7 i), (N.testbit 6 i); reflexivity.
Qed.

(** ---- the table ---- *)
Lemma bc_nth d : by_code d -> forall i j a b, nth_error d i = Some a -> nth_error d j = Some b -> (i <= j)%nat -> fst a <= fst b.
Proof.
  induction 1 as [|x l S IH F]; intros i j a b Hi Hj L; [destruct i; discriminate|].
  destruct i as [|i], j as [|j]; try lia; cbn in *.
  - inversion Hi; inversion Hj; subst. lia.
  - inversion Hi; subst. rewrite Forall_forall in F. apply F. apply nth_error_In in Hj. exact Hj.
  - eapply IH; eauto. lia.
Qed.
Lemma isearch_spec fuel d code : by_code d -> forall l u, (u - l < fuel)%nat -> (u <= length d)%nat ->
  (forall i e, nth_error d i = Some e -> (i < l \/ u <= i)%nat -> fst e <> code) ->
  match isearch fuel d code l u with
  | Some i => exists s, nth_error d i = Some (code, s)
  | None => forall e, In e d -> fst e <> code
  end.
Proof.
  intros S. induction fuel as [|fu IH]; intros l u Hf Hu HI; [lia|]. cbn [isearch].
  destruct (Nat.ltb_spec l u) as [L|L].
  - pose proof (div2_bounds l u L) as B. set (idx := Nat.div2 (l + u)) in *. cbv zeta.
    destruct (nth_error d idx) as [e|] eqn:E; [|apply nth_error_None in E; lia].
    destruct (N.ltb_spec code (fst e)) as [C|C]; [|destruct (N.ltb_spec (fst e) code) as [C2|C2]].
    + apply IH; [lia|lia|]. intros i e' Ei [H|H]; [eapply HI; eauto|]. pose proof (bc_nth d S idx i e e' E Ei H). lia.
    + apply IH; [lia|lia|]. intros i e' Ei [H|H]; [|eapply HI; eauto]. pose proof (bc_nth d S i idx e' e Ei E ltac:(lia)). lia.
    + exists (snd e). rewrite E. f_equal. destruct e; cbn in *. f_equal. lia.
  - intros e He. apply In_nth_error in He as [i Ei]. apply (HI i e Ei). lia.
Qed.
Lemma back_spec d code i : (i < length d)%nat -> code_at d i = code -> let j := back d code i in
  (j <= i)%nat /\ code_at d j = code /\ (j = O \/ code_at d (j - 1) <> code).
Proof.
  induction i as [|i IH]; intros L E; cbn [back].
  - auto.
  - cbv zeta in IH. destruct (N.eqb_spec (code_at d i) code) as [E2|E2].
    + destruct (IH ltac:(lia) E2) as (A & B & C). split; [lia|auto].
    + split; [lia|]. split; [exact E|right]. replace (S i - 1)%nat with i by lia. exact E2.
Qed.
Lemma more_spec d code : by_code d -> forall fuel i, (length d <= S i + fuel)%nat -> (i < length d)%nat -> code_at d i = code ->
  more_names fuel d i = concat (map (fun s => bs " or " ++ s) (names_of (skipn (S i) d) code)).
Proof.
  intros BC. induction fuel as [|fu IH]; intros i HF L E; cbn [more_names].
  - rewrite skipn_all2 by lia. reflexivity.
  - unfold ioctl_next_match. destruct (Nat.ltb_spec (S i) (length d)) as [L2|L2]; cbn [andb].
    2:{ rewrite skipn_all2 by lia. reflexivity. }
    assert (SK : exists e, nth_error d (S i) = Some e /\ skipn (S i) d = e :: skipn (S (S i)) d).
    { clear -L2. revert L2. generalize (S i). induction d as [|x d IH]; intros k K; [cbn in K; lia|]. destruct k as [|k]; [exists x; auto|]. cbn [length] in K. destruct (IH k ltac:(lia)) as (e & A & B). exists e. cbn [skipn nth_error]. split; [exact A|exact B]. }
    destruct SK as (e & NE & SK). assert (C2 : code_at d (S i) = fst e) by (unfold code_at; rewrite NE; reflexivity).
    destruct (N.eqb_spec (code_at d (S i)) (code_at d i)) as [E2|E2].
    + rewrite (IH (S i)) by (try lia; congruence). rewrite SK. unfold names_of. cbn [filter]. rewrite <- C2, E2, E, N.eqb_refl. cbn [map concat]. rewrite <- app_assoc. rewrite (nth_error_nth d (S i) (0, []) NE). reflexivity.
    + assert (X : names_of (skipn (S i) d) code = []).
      { unfold names_of. assert (FN : filter (fun e => fst e =? code) (skipn (S i) d) = []); [|rewrite FN; reflexivity].
        assert (AL : forall x, In x (skipn (S i) d) -> (fst x =? code) = false).
        { intros x I. apply In_nth_error in I as (k & K). assert (K2 : nth_error d (S i + k) = Some x).
          { clear -K. revert K. generalize (S i). intros n. revert d. induction n as [|n IHn]; intros d K; [exact K|]. destruct d; [destruct k; discriminate|]. cbn [skipn] in K. cbn [Nat.add nth_error]. apply IHn, K. }
          pose proof (bc_nth d BC (S i) (S i + k) e x NE K2 ltac:(lia)). destruct (nth_error d i) as [y|] eqn:Y; [|apply nth_error_None in Y; lia]. pose proof (bc_nth d BC i (S i) y e Y NE ltac:(lia)). unfold code_at in E. rewrite Y in E. rewrite C2 in E2. unfold code_at in E2. rewrite Y in E2. apply N.eqb_neq. lia. }
        clear -AL. induction (skipn (S i) d) as [|x l IHl]; [reflexivity|]. cbn [filter]. rewrite (AL x) by (left; reflexivity). apply IHl. intros y I. apply AL. right. exact I. }
      rewrite X. reflexivity.
Qed.
Lemma join_or_cons s l : join_or (s :: l) = s ++ concat (map (fun t => bs " or " ++ t) l).
Proof.
  revert s. induction l as [|t l IH]; intros s; cbn [join_or map concat]; [rewrite app_nil_r; reflexivity|].
  fold (join_or (t :: l)). change (match l with [] => t | _ :: _ => t ++ bs " or " ++ join_or l end) with (join_or (t :: l)). rewrite IH, <- app_assoc. reflexivity.
Qed.
Lemma lookup_spec d code : by_code d ->
  match ioctl_lookup d code with
  | Some i => names_of d code <> [] /\ snd (nth i d (0, [])) ++ more_names (length d) d i = join_or (names_of d code)
  | None => names_of d code = []
  end.
Proof.
  intros BC. unfold ioctl_lookup. pose proof (isearch_spec (S (length d)) d code BC 0 (length d) ltac:(lia) ltac:(lia)) as H.
  destruct (isearch _ _ _ _ _) as [i|]; cbn [obind].
  - destruct H as (s & NE). { intros i0 e NE [C|C]; [lia|]. assert (X : nth_error d i0 <> None) by congruence. apply nth_error_Some in X. lia. }
    assert (LI : (i < length d)%nat) by (apply nth_error_Some; congruence).
    destruct (back_spec d code i LI) as (A & B & C). { unfold code_at. rewrite NE. reflexivity. } set (j := back d code i) in *. clearbody j.
    assert (LJ : (j < length d)%nat) by lia. destruct (nth_error d j) as [e|] eqn:EJ; [|apply nth_error_None in EJ; lia].
    assert (FE : fst e = code) by (unfold code_at in B; rewrite EJ in B; exact B).
    assert (SP : d = firstn j d ++ e :: skipn (S j) d).
    { rewrite <- (firstn_skipn j d) at 1. f_equal. clear -EJ. revert d EJ. induction j as [|j IH]; intros d EJ; destruct d; try discriminate; cbn [skipn nth_error] in *; [injection EJ as ->; reflexivity|]. apply IH, EJ. }
    assert (NM : names_of d code = snd e :: names_of (skipn (S j) d) code).
    { rewrite SP at 1. unfold names_of. rewrite filter_app, map_app. cbn [filter]. rewrite FE, N.eqb_refl. cbn [map].
      assert (FN : filter (fun e => fst e =? code) (firstn j d) = []); [|rewrite FN; reflexivity].
      assert (AL : forall x, In x (firstn j d) -> (fst x =? code) = false).
      { intros x I. apply In_nth_error in I as (k & K). assert (KL : (k < j)%nat). { assert (X : nth_error (firstn j d) k <> None) by congruence. apply nth_error_Some in X. rewrite firstn_length in X. lia. }
        assert (K2 : nth_error d k = Some x) by (rewrite <- (firstn_skipn j d), nth_error_app1 by (rewrite firstn_length; lia); exact K).
        destruct C as [->|C]; [lia|]. destruct (nth_error d (j - 1)) as [y|] eqn:Y; [|apply nth_error_None in Y; lia]. unfold code_at in C. rewrite Y in C.
        pose proof (bc_nth d BC k (j - 1) x y K2 Y ltac:(lia)). pose proof (bc_nth d BC (j - 1) j y e Y EJ ltac:(lia)). apply N.eqb_neq. lia. }
      clear -AL. induction (firstn j d) as [|x l IHl]; [reflexivity|]. cbn [filter]. rewrite (AL x) by (left; reflexivity). apply IHl. intros y I. apply AL. right. exact I. }
    rewrite NM. split; [discriminate|]. rewrite join_or_cons. rewrite (nth_error_nth d j (0, []) EJ). f_equal. apply more_spec; [exact BC|lia|exact LJ|exact B].
  - unfold names_of. assert (AL : forall x, In x d -> fst x <> code). { apply H. intros i e NE [C|C]; [lia|]. assert (X : nth_error d i <> None) by congruence. apply nth_error_Some in X. lia. }
    clear -AL. induction d as [|x l IHl]; [reflexivity|]. cbn [filter]. destruct (N.eqb_spec (fst x) code) as [E|E]; [exfalso; eapply AL; [left; reflexivity|exact E]|]. apply IHl. intros y I. apply AL. right. exact I.
Qed.
