(** C19, C20: the sparse map. *)
From Coq Require Import Sorted.
From Verif Require Import Base TrieModel TrieProofs TrieIter.
Local Open Scope N_scope.

(** ** Specification *)
(** a history of stores (key, value) and the value last stored under a key *)
Fixpoint last_stored (h : list (N * N)) (k : N) (acc : option N) : option N :=
  match h with
  | [] => acc
  | (k', v) :: r => last_stored r k (if k =? k' then Some v else acc)
  end.
(** replay: the final map and, for every store, whether it was accepted *)
Fixpoint store_all (p : N) (t : trie) (h : list (N * N)) : res (trie * list bool) :=
  match h with
  | [] => Ok (t, [])
  | (k, v) :: r => rlet x := trie_set p t k v in rlet y := store_all p (fst x) r in Ok (fst y, snd x :: snd y)
  end.

(** ** Proofs *)
Record tinv (p : N) (t : trie) : Prop := { i_geom : geom p t; i_wf : wf t 0 (root t) }.
Definition same_shape (t t' : trie) : Prop :=
  empty_value t' = empty_value t /\ key_size t' = key_size t /\ item_size_lg t' = item_size_lg t.
Lemma key_bad_spec t k : key_size t <= 64 -> k < 2 ^ 64 -> key_bad t k = negb (k <? 2 ^ key_size t).
Proof.
  intros H1 H2. unfold key_bad. pose proof (N.pow_nonzero 2 (key_size t) ltac:(lia)). destruct (N.ltb_spec (key_size t) 64) as [C|C]; cbn [andb].
  - destruct (N.ltb_spec (2 ^ key_size t - 1) k), (N.ltb_spec k (2 ^ key_size t)); try reflexivity; lia.
  - replace (key_size t) with 64 by lia. replace (k <? 2 ^ 64) with true by (symmetry; apply N.ltb_lt; exact H2). reflexivity.
Qed.
Lemma set_spec p t k v : tinv p t -> k < 2 ^ 64 -> exists t', trie_set p t k v = Ok (t', k <? 2 ^ key_size t) /\ tinv p t' /\ same_shape t t' /\
  forall k', k' < 2 ^ 64 -> trie_get p t' k' = if (k' =? k) && (k <? 2 ^ key_size t) then Ok (v mod 2 ^ 2 ^ item_size_lg t) else trie_get p t k'.
Proof.
  intros [G W] Hk. unfold trie_set. rewrite key_bad_spec by (try exact Hk; exact (g_ks _ _ G)). destruct (N.ltb_spec k (2 ^ key_size t)) as [L|L]; cbn [negb].
  - destruct (set_ok p t G (depth_fuel t) 0 (root t) k v ltac:(lia) ltac:(unfold depth_fuel; lia) W) as (n' & E & W' & H). rewrite E. cbn [rbind].
    exists (with_root t n'). split; [reflexivity|]. split; [split|].
    + destruct G. constructor; assumption.
    + cbn [root with_root]. clear -W'. assert (X : forall d n, wf t d n -> wf (with_root t n') d n).
      { induction 1; [constructor| |]; [constructor; auto|]. apply (wf_block (with_root t n')). exact H. }
      apply X. exact W'.
    + split; [repeat split|]. intros k' Hk'. unfold trie_get. cbn [with_root key_bad key_size]. change (key_bad (with_root t n') k') with (key_bad t k').
      rewrite key_bad_spec by (try exact Hk'; exact (g_ks _ _ G)). destruct (N.ltb_spec k' (2 ^ key_size t)) as [L'|L']; cbn [negb].
      * assert (XF : forall fuel d n, find_block fuel p (with_root t n') k' d n = find_block fuel p t k' d n).
        { induction fuel as [|f IHf]; intros d n; [reflexivity|]. cbn [find_block]. destruct n; [reflexivity| |reflexivity].
          change (max_depth (with_root t n')) with (max_depth t). destruct (d =? max_depth t); [reflexivity|].
          change (child_pos p (with_root t n') k' d) with (child_pos p t k' d). destruct (child_pos p t k' d); cbn [rbind]; [|reflexivity..]. destruct (_ <? _); [apply IHf|reflexivity]. }
        change (depth_fuel (with_root t n')) with (depth_fuel t). change (root (with_root t n')) with n'. rewrite XF.
        change (fun b => block_get (with_root t n') b k') with (fun b => block_get t b k').
        rewrite andb_true_r.
        assert (XV : V p t (depth_fuel t) 0 n' k' = (if k' =? k then Ok (v mod 2 ^ 2 ^ item_size_lg t) else V p t (depth_fuel t) 0 (root t) k')).
        { apply H. rewrite (hi0 p t G). rewrite !N.div_small by assumption. reflexivity. }
        exact XV.
      * replace (k' =? k) with false by (symmetry; apply N.eqb_neq; lia). reflexivity.
  - exists t. split; [reflexivity|]. split; [split; assumption|]. split; [repeat split|]. intros k' _. rewrite andb_false_r. reflexivity.
Qed.
Lemma store_spec p h : forall t, tinv p t -> Forall (fun e => fst e < 2 ^ 64) h ->
  exists t', store_all p t h = Ok (t', map (fun e => fst e <? 2 ^ key_size t) h) /\ tinv p t' /\ same_shape t t' /\
  forall k, k < 2 ^ 64 -> trie_get p t' k =
    match last_stored h k None with
    | Some v => if k <? 2 ^ key_size t then Ok (v mod 2 ^ 2 ^ item_size_lg t) else trie_get p t k
    | None => trie_get p t k
    end.
Proof.
  induction h as [|[k v] h IH]; intros t I F.
  - exists t. split; [reflexivity|]. split; [exact I|]. split; [repeat split|]. reflexivity.
  - inversion F as [|? ? F1 F2]; subst. cbn [fst] in F1. destruct (set_spec p t k v I F1) as (t1 & E1 & I1 & (S1 & S2 & S3) & G1).
    destruct (IH t1 I1 F2) as (t2 & E2 & I2 & (S4 & S5 & S6) & G2). cbn [store_all map fst]. rewrite E1. cbn [rbind fst]. rewrite E2. cbn [rbind fst snd].
    exists t2. rewrite S2. split; [reflexivity|]. split; [exact I2|]. split; [unfold same_shape; rewrite S4, S5, S6; auto|].
    intros k0 H0. rewrite G2 by exact H0. rewrite S2, S3. cbn [last_stored].
    assert (LS : forall h acc, last_stored h k0 acc = match last_stored h k0 None with Some v => Some v | None => acc end).
    { clear. induction h as [|[a b] h IH]; intros acc; cbn [last_stored]; [reflexivity|]. rewrite IH. symmetry. rewrite IH. destruct (last_stored h k0 None); [reflexivity|]. destruct (k0 =? a); reflexivity. }
    rewrite (LS h (if k0 =? k then Some v else None)). rewrite G1 by exact H0. destruct (last_stored h k0 None) as [v'|].
    + destruct (N.ltb_spec k0 (2 ^ key_size t)) as [L|L]; [reflexivity|]. destruct (N.eqb_spec k0 k) as [->|]; [|reflexivity].
      replace (k <? 2 ^ key_size t) with false by (symmetry; apply N.ltb_ge; exact L). reflexivity.
    + destruct (N.eqb_spec k0 k) as [->|]; cbn [andb]; reflexivity.
Qed.
Lemma get_total p t k : tinv p t -> k < 2 ^ 64 -> exists v, trie_get p t k = Ok v.
Proof.
  intros [G W] Hk. unfold trie_get. destruct (key_bad t k); [cbn; eauto|]. apply (V_ok p t G); [lia|unfold depth_fuel; lia|exact W].
Qed.
Lemma get_fresh p t k : root t = Null -> trie_get p t k = Ok (empty_value t).
Proof. intros H. unfold trie_get, depth_fuel. rewrite H. destruct (key_bad t k); reflexivity. Qed.

(** ** C19 *)
(** For every accepted geometry whose nodes can be allocated, after any history of stores a
    lookup gives the value last stored under the key, cut to the item width, or the empty value
    given at creation; stores under keys that do not fit the key size are refused.
    Partial: geometries that are accepted but not usable are excluded (see the refuted theorems). *)
Theorem C19_map_partial : forall p ks isl nkb db empty t h, empty < 2 ^ 64 -> sane p ks isl nkb db ->
  trie_create ks isl nkb db empty = Some t -> Forall (fun e => fst e < 2 ^ 64) h ->
  exists t', store_all p t h = Ok (t', map (fun e => fst e <? 2 ^ ks) h) /\
  forall k, k < 2 ^ 64 -> trie_get p t' k =
    Ok ((match (if k <? 2 ^ ks then last_stored h k None else None) with Some v => v | None => empty end) mod 2 ^ 2 ^ isl).
Proof.
  intros p ks isl nkb db empty t h HE HS HC HF. destruct (create_geom p ks isl nkb db empty t HE HS HC) as (G & R & K & I & E).
  assert (INV : tinv p t) by (split; [exact G|rewrite R; constructor]).
  destruct (store_spec p h t INV HF) as (t' & E' & _ & _ & H). exists t'. rewrite K in *. rewrite I in *. split; [exact E'|].
  intros k Hk. rewrite H by exact Hk. rewrite get_fresh by exact R. rewrite E. destruct (k <? 2 ^ ks); destruct (last_stored h k None); reflexivity.
Qed.
Print Assumptions C19_map_partial.

(** What trie_create accepts. *)
Theorem C19_create : forall ks isl nkb db empty, (exists t, trie_create ks isl nkb db empty = Some t) <->
  isl <= 6 /\ ks <= 64 /\ 1 <= nkb /\ 1 <= db <= ks.
Proof.
  intros. unfold trie_create. destruct (N.ltb_spec 6 isl); [split; [intros [t X]; discriminate|lia]|].
  destruct (N.ltb_spec 64 ks); [split; [intros [t X]; discriminate|lia]|]. destruct (N.ltb_spec nkb 1); [split; [intros [t X]; discriminate|lia]|].
  destruct (N.ltb_spec db 1); [split; [intros [t X]; discriminate|lia]|]. destruct (N.ltb_spec ks db); [split; [intros [t X]; discriminate|lia]|].
  cbn [orb]. split; [lia|eauto].
Qed.
Print Assumptions C19_create.
(** Some of it has nodes too large for the shifts in the code: the first store is undefined. *)
Theorem C19_any_geometry_refuted : ~ forall p ks isl nkb db empty t k v, (p = 5 \/ p = 6) -> empty < 2 ^ 64 ->
  trie_create ks isl nkb db empty = Some t -> k < 2 ^ ks -> trie_set p t k v <> Undef.
Proof.
  intros H. eapply (H 6 64 6 64 2 0 _ 1 1); [right; reflexivity|reflexivity|reflexivity|reflexivity|]. reflexivity.
Qed.
Print Assumptions C19_any_geometry_refuted.

Example ex_geometry : sane 6 15 4 4 4 /\ sane 6 32 6 4 4 /\ sane 5 64 0 7 3.
Proof. unfold sane. lia. Qed.
Definition after (p ks isl nkb db empty : N) (h : list (N * N)) (ks' : list N) : option (list bool * list (res N)) :=
  olet t := trie_create ks isl nkb db empty in
  match store_all p t h with Ok (t', r) => Some (r, map (trie_get p t') ks') | _ => None end.
Example ex_trie : after 6 10 4 4 4 0 [(234, 0x54321); (235, 7); (40000, 5); (234, 9)] [234; 235; 236; 40000; 1] =
  Some ([true; true; false; true], [Ok 9; Ok 7; Ok 0; Ok 0; Ok 0]).
Proof. vm_compute. reflexivity. Qed.

(** ** C20 *)
(** Iterating over [start..end] after any history calls the visitor on increasing keys within
    the range, each with the value a lookup gives, at least on all keys of non-empty value, and
    returns the number of calls.
    Partial: as in C19_map_partial; see the refuted theorems. *)
Theorem C20_iterate_partial : forall p ks isl nkb db empty t h t' r start end_, empty < 2 ^ 64 -> sane p ks isl nkb db ->
  trie_create ks isl nkb db empty = Some t -> Forall (fun e => fst e < 2 ^ 64) h -> store_all p t h = Ok (t', r) ->
  start < 2 ^ ks -> end_ < 2 ^ 64 -> (ks = 64 -> end_ < 2 ^ 64 - 1) ->
  exists calls, trie_iterate_keys p t' start end_ = Ok (calls, N.of_nat (length calls)) /\
    StronglySorted (fun a b => fst a < fst b) calls /\
    (forall k v, In (k, v) calls -> start <= k <= end_ /\ k < 2 ^ ks /\ trie_get p t' k = Ok v) /\
    (forall k v, start <= k <= end_ -> trie_get p t' k = Ok v -> v <> empty mod 2 ^ 2 ^ isl -> In (k, v) calls).
Proof.
  intros p ks isl nkb db empty t h t' r start end_ HE HS HC HF HR Hs He H64.
  destruct (create_geom p ks isl nkb db empty t HE HS HC) as (G & R & K & I & E).
  assert (INV : tinv p t) by (split; [exact G|rewrite R; constructor]).
  destruct (store_spec p h t INV HF) as (t2 & E2 & [G2 W2] & (S1 & S2 & S3) & _). rewrite HR in E2. inversion E2; subst t2; clear E2.
  rewrite K in S2. rewrite I in S3. rewrite E in S1. clear HC HR HF INV G R K I E.
  assert (HK : ks <= 64) by (rewrite <- S2; exact (g_ks _ _ G2)).
  assert (GOOD : forall k, k < 2 ^ ks -> key_bad t' k = false).
  { intros k Hk. rewrite key_bad_spec; [|lia|]; [|eapply N.lt_le_trans; [exact Hk|apply N.pow_le_mono_r; lia]]. rewrite S2.
    replace (k <? 2 ^ ks) with true by (symmetry; apply N.ltb_lt; exact Hk). reflexivity. }
  (* the end as clipped to the key size *)
  set (e := N.min end_ (2 ^ ks - 1)).
  assert (P2 : 2 ^ ks <> 0) by (apply N.pow_nonzero; lia).
  unfold trie_iterate_keys.
  destruct (N.le_gt_cases start end_) as [L|L].
  2:{ exists []. unfold depth_fuel. cbn [iterate_node]. replace (end_ <? start) with true by (symmetry; apply N.ltb_lt; exact L).
      split; [reflexivity|]. split; [constructor|]. split; [intros k v []|]. intros; lia. }
  assert (CLIP : iterate_node (depth_fuel t') p t' (root t') start end_ 0 = iterate_node (depth_fuel t') p t' (root t') start e 0).
  { assert (Hse : start <= e) by (unfold e; lia). unfold depth_fuel. cbn [iterate_node].
    replace (end_ <? start) with false by (symmetry; apply N.ltb_ge; exact L). replace (e <? start) with false by (symmetry; apply N.ltb_ge; exact Hse).
    rewrite S2. destruct (N.ltb_spec ks 64) as [C|C].
    - replace (N.min e (2 ^ ks - 1)) with (N.min end_ (2 ^ ks - 1)) by (unfold e; lia). reflexivity.
    - replace e with end_; [reflexivity|]. unfold e. replace ks with 64 by lia. lia. }
  rewrite CLIP. assert (Hse : start <= e) by (unfold e; lia). assert (Hek : e < 2 ^ ks) by (unfold e; lia).
  rewrite (iter_ok p t' G2 (depth_fuel t') 0 (root t') start e); [|lia|unfold depth_fuel; lia|exact W2|exact Hse| |rewrite S2; intros _; exact Hek|].
  2:{ rewrite S2. destruct (N.lt_ge_cases ks 64) as [C|C]; [right; split; [exact C|unfold e; lia]|left; unfold e; specialize (H64 ltac:(lia)); lia]. }
  2:{ rewrite (hi0 p t' G2), S2. rewrite !N.div_small by lia. reflexivity. }
  eexists. split; [reflexivity|].
  assert (VG : forall k, k < 2 ^ ks -> trie_get p t' k = Ok (valn p t' (depth_fuel t') 0 (root t') k)).
  { intros k Hk. unfold trie_get. rewrite (GOOD k Hk). unfold valn. destruct (V_ok p t' G2 (depth_fuel t') 0 (root t') k ltac:(lia) ltac:(unfold depth_fuel; lia) W2) as [v Ev].
    rewrite Ev. exact Ev. }
  split; [|split].
  - unfold visits. assert (SS : StronglySorted N.lt (range start e)) by apply nseq_sorted. revert SS. generalize (range start e). intros l SS.
    induction SS as [|k l SS IH F]; [constructor|]. cbn [filter]. destruct (pres _ _ _ _ _ k); [|exact IH]. cbn [map]. constructor; [exact IH|].
    apply Forall_forall. intros x Hx. apply in_map_iff in Hx as (k' & <- & Hk'). apply filter_In in Hk' as [Hk' _]. rewrite Forall_forall in F. cbn. apply F. exact Hk'.
  - intros k v Hin. unfold visits in Hin. apply in_map_iff in Hin as (k' & X & Hk'). inversion X; subst. apply filter_In in Hk' as [Hk' _]. apply range_in in Hk'.
    split; [unfold e in Hk'; lia|]. split; [unfold e in Hk'; lia|]. apply VG. unfold e in Hk'. lia.
  - intros k v Hk Hg Hv. destruct (N.lt_ge_cases k (2 ^ ks)) as [C|C].
    + unfold visits. apply in_map_iff. exists k. pose proof (VG k C) as X. rewrite X in Hg. inversion Hg. split; [reflexivity|]. apply filter_In. split; [apply range_in; unfold e; lia|].
      unfold pres. unfold trie_get in X. rewrite (GOOD k C) in X.
      destruct (find_ok p t' G2 (depth_fuel t') 0 (root t') k ltac:(lia) ltac:(unfold depth_fuel; lia) W2) as (b & Eb & _). rewrite Eb in X |- *.
      destruct b; [reflexivity|]. exfalso. cbn in X. apply Hv. inversion X. rewrite <- S1. congruence.
    + exfalso. apply Hv. unfold trie_get in Hg. rewrite key_bad_spec in Hg; [|lia|lia]. rewrite S2 in Hg.
      replace (k <? 2 ^ ks) with false in Hg by (symmetry; apply N.ltb_ge; exact C). cbn in Hg. inversion Hg. congruence.
Qed.
Print Assumptions C20_iterate_partial.
Example ex_iterate :
  match trie_create 10 4 4 4 0 with
  | None => None
  | Some t => match store_all 6 t [(234, 77); (30, 5); (999, 6)] with
              | Ok (t', _) => match trie_iterate_keys 6 t' 10 500 with
                              | Ok (calls, n) => Some (filter (fun c => negb (snd c =? 0)) calls, n) | _ => None end
              | _ => None end end = Some ([(30, 5); (234, 77)], 32).
Proof. vm_compute. reflexivity. Qed.

(** The condition on [start] is needed: the number returned is wrong when the whole key is the
    index into one data block and [start] does not fit the key. *)
Theorem C20_start_out_of_range_refuted : ~ forall p ks isl nkb db t t' k v start end_ calls n, sane p ks isl nkb db ->
  trie_create ks isl nkb db 0 = Some t -> k < 2 ^ ks -> trie_set p t k v = Ok (t', true) -> start <= end_ -> end_ < 2 ^ 64 - 1 ->
  trie_iterate_keys p t' start end_ = Ok (calls, n) -> n = N.of_nat (length calls).
Proof.
  intros H. assert (S : sane 6 4 5 4 4) by (unfold sane; lia).
  destruct (trie_create 4 5 4 4 0) as [t|] eqn:E1; [|discriminate]. destruct (trie_set 6 t 1 1) as [[t' b]| |] eqn:E2; try (vm_compute in E1; inversion E1; subst; discriminate).
  assert (b = true) by (vm_compute in E1; inversion E1; subst; vm_compute in E2; inversion E2; reflexivity). subst b.
  assert (E3 : trie_iterate_keys 6 t' 20 21 = Ok ([], 2 ^ 64 - 4)) by (vm_compute in E1; inversion E1; subst; vm_compute in E2; inversion E2; reflexivity).
  pose proof (H _ _ _ _ _ _ _ _ _ _ _ _ _ S E1 (eq_refl : 1 < 2 ^ 4) E2 (ltac:(lia) : 20 <= 21) (eq_refl : 21 < 2 ^ 64 - 1) E3) as X. vm_compute in X. discriminate X.
Qed.
Print Assumptions C20_start_out_of_range_refuted.
