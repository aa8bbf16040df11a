(** C53. *)
From Verif Require Import Base AllocModel.
Local Open Scope N_scope.

Lemma lor_lt a b k : N.lor a b < 2 ^ k <-> a < 2 ^ k /\ b < 2 ^ k.
Proof.
  destruct (N.eq_dec a 0) as [->|Ha]; [rewrite N.lor_0_l; split; [intros; split; [|auto]; apply N.neq_0_lt_0, N.pow_nonzero; lia|tauto]|].
  destruct (N.eq_dec b 0) as [->|Hb]; [rewrite N.lor_0_r; split; [intros; split; [auto|]; apply N.neq_0_lt_0, N.pow_nonzero; lia|tauto]|].
  assert (N.lor a b <> 0) by (intros E; apply N.lor_eq_0_iff in E; tauto).
  rewrite !N.log2_lt_pow2 by lia. rewrite N.log2_lor. lia.
Qed.

Lemma xallocarray_eq k mal n s : 1 <= k -> n < 2 ^ (2 * k) -> s < 2 ^ (2 * k) ->
  xallocarray k mal n s = if n * s <? 2 ^ (2 * k) then (if mal (n * s) then Ok (n * s) else Die) else Die.
Proof.
  intros Hk Hn Hs. unfold xallocarray, szmod. cbv zeta.
  destruct (N.ltb_spec (n * s) (2 ^ (2 * k))) as [L|L].
  - rewrite N.mod_small by exact L.
    destruct (N.eqb_spec s 0) as [->|Z]; [rewrite andb_false_r; reflexivity|].
    rewrite N.div_mul by exact Z. rewrite N.eqb_refl, andb_false_r. reflexivity.
  - assert (Z : s <> 0) by (intros ->; rewrite N.mul_0_r in L; lia).
    assert (B : 2 ^ k <=? N.lor n s = true).
    { apply N.leb_le. destruct (N.le_gt_cases (2 ^ k) (N.lor n s)) as [|C]; [assumption|]. exfalso.
      apply lor_lt in C as [C1 C2]. replace (2 * k) with (k + k) in L by lia. rewrite N.pow_add_r in L. nia. }
    rewrite B. replace (s =? 0) with false by (symmetry; apply N.eqb_neq; exact Z). cbn [negb andb].
    destruct (N.eqb_spec (((n * s) mod 2 ^ (2 * k)) / s) n) as [E|E]; [|reflexivity]. exfalso.
    pose proof (N.mod_lt (n * s) (2 ^ (2 * k)) ltac:(apply N.pow_nonzero; lia)).
    pose proof (N.mul_div_le ((n * s) mod 2 ^ (2 * k)) s Z). rewrite E in *. nia.
Qed.

(** Allocating an array of [nmemb] members of [size] bytes: strace gets a block of exactly
    nmemb * size bytes if that fits in size_t and the C library has such a block, and
    terminates otherwise. *)
Theorem C53_alloc_exact : forall k mal nmemb size, 1 <= k -> nmemb < 2 ^ (2 * k) -> size < 2 ^ (2 * k) ->
  (forall b, xallocarray k mal nmemb size = Ok b <-> nmemb * size < 2 ^ (2 * k) /\ mal (nmemb * size) = true /\ b = nmemb * size) /\
  (xallocarray k mal nmemb size = Die <-> 2 ^ (2 * k) <= nmemb * size \/ mal (nmemb * size) = false).
Proof.
  intros k mal n s Hk Hn Hs. rewrite xallocarray_eq by assumption.
  destruct (N.ltb_spec (n * s) (2 ^ (2 * k))) as [L|L]; [destruct (mal (n * s)) eqn:E|]; split; try intros b; split; intros H;
    repeat match goal with H : _ /\ _ |- _ => destruct H end; subst; try discriminate; try lia; auto.
  all: try (inversion H; auto; fail). all: destruct H; [lia|discriminate].
Qed.
Print Assumptions C53_alloc_exact.

(** Growing: the new capacity is backed by a block of exactly that many members.  An
    allocated array grows by more than a half; a missing one gets at least what was asked for
    and at least one member. *)
Lemma grow_ok k mal n g s n' b : 1 <= k -> n < 2 ^ (2 * k) -> s < 2 ^ (2 * k) -> g < 2 ^ (2 * k) ->
  (if szmod k (n + g) <? n then Die else rlet b := xallocarray k mal (szmod k (n + g)) s in Ok (szmod k (n + g), b)) = Ok (n', b) ->
  b = n' * s /\ n' * s < 2 ^ (2 * k) /\ n' = n + g.
Proof.
  intros Hk Hn Hs Hg. set (M := 2 ^ (2 * k)) in *. assert (M0 : M <> 0) by (apply N.pow_nonzero; lia).
  destruct (N.ltb_spec (szmod k (n + g)) n) as [L|L]; [discriminate|].
  assert (X : n + g < M).
  { unfold szmod in L. fold M in L. destruct (N.lt_ge_cases (n + g) M) as [|C]; [auto|].
    assert ((n + g) mod M = n + g - M).
    { replace (n + g) with ((n + g - M) + 1 * M) at 1 by lia. rewrite N.mod_add by exact M0. apply N.mod_small. lia. }
    lia. }
  unfold szmod in *. fold M. fold M in L. rewrite (N.mod_small _ _ X). intros E.
  rewrite xallocarray_eq in E by assumption. fold M in E.
  destruct (N.ltb_spec ((n + g) * s) M) as [L2|L2]; [|discriminate].
  destruct (mal _); [|discriminate]. cbn [rbind] in E. inversion E. subst. auto.
Qed.
(** Partial: the new capacity holds one more element only for members small enough (a huge memb_size gives capacity 0, see the refuted theorem). *)
Theorem C53_grow_partial : forall k mal null nmemb size n' b,
  (k = 16 \/ k = 32) -> nmemb < 2 ^ (2 * k) -> 1 <= size <= 2 ^ (2 * k) - 128 ->
  xgrowarray k mal null nmemb size = Ok (n', b) ->
  b = n' * size /\ n' * size < 2 ^ (2 * k) /\ nmemb <= n' /\ 1 <= n' /\
  (null = false -> nmemb < n' /\ 3 * nmemb < 2 * n').
Proof.
  intros k mal null n s n' b Hk Hn Hs H. unfold xgrowarray in H. cbv zeta in H.
  assert (HM : 2 ^ 32 <= 2 ^ (2 * k)) by (apply N.pow_le_mono_r; lia).
  assert (K1 : 1 <= k) by lia.
  destruct null.
  - destruct (N.eqb_spec n 0) as [->|Z].
    + destruct (N.eqb_spec s 0) as [->|Zs]; [lia|]. cbn [rbind] in H.
      assert (HD : 64 <= 64 * (k / 4) / 4 <= 128) by (destruct Hk as [->| ->]; cbn; lia).
      set (D := 64 * (k / 4) / 4) in *.
      assert (SM : szmod k (D + s - 1) = D + s - 1) by (unfold szmod; apply N.mod_small; lia).
      rewrite SM in H. apply grow_ok in H; [|lia..|].
      * destruct H as (H1 & H2 & H3). assert (1 <= (D + s - 1) / s) by (apply N.div_le_lower_bound; lia).
        repeat split; try lia; discriminate.
      * eapply N.le_lt_trans; [apply N.div_le_upper_bound with (q := D + s - 1); [exact Zs|nia]|lia].
    + cbn [rbind] in H. apply grow_ok in H; [|lia..]. repeat split; try lia; discriminate.
  - pose proof (N.mul_succ_div_gt n 2 ltac:(lia)). pose proof (N.mul_div_le n 2 ltac:(lia)).
    cbn [rbind] in H. apply grow_ok in H; [|lia..]. destruct H as (A1 & A2 & A3). subst n' b. repeat split; try lia.
Qed.
Print Assumptions C53_grow_partial.

(** With a member size within 127 bytes of the address space the first block has no members;
    no caller has such members. *)
Theorem C53_grow_huge_member_refuted : exists size, 1 <= size < 2 ^ 64 /\
  xgrowarray 32 (fun _ => true) true 0 size = Ok (0, 0).
Proof. exists (2 ^ 64 - 100). split; [cbn; lia|]. vm_compute. reflexivity. Qed.
Print Assumptions C53_grow_huge_member_refuted.

Example ex_alloc : xallocarray 32 (fun _ => true) (2^33) (2^31) = Die /\ xallocarray 32 (fun _ => true) (2^33) (2^30) = Ok (2^63) /\
  xallocarray 32 (fun _ => true) 6700417 (2^40) = Ok (6700417 * 2^40) /\ xallocarray 32 (fun _ => true) 0 0 = Ok 0 /\
  xgrowarray 32 (fun _ => true) true 0 16 = Ok (8, 128) /\ xgrowarray 32 (fun _ => true) false 8 16 = Ok (13, 208) /\
  xgrowarray 32 (fun _ => true) true 3 16 = Ok (3, 48) /\ xgrowarray 16 (fun _ => true) false 3221225472 1 = Die.
Proof. vm_compute. repeat split. Qed.
