(** Proofs about the reading of 64-bit arguments. *)
From Verif Require Import Base ArgsModel ArgsSpec.
Local Open Scope N_scope.

Lemma lor_split x : N.lor (x mod 2^32) (x / 2^32 * 2^32) = x.
Proof.
  apply N.bits_inj. intros i. rewrite N.lor_spec, <- N.shiftl_mul_pow2. destruct (N.lt_ge_cases i 32) as [Hi|Hi].
  - rewrite N.mod_pow2_bits_low, N.shiftl_spec_low by exact Hi. apply orb_false_r.
  - rewrite N.mod_pow2_bits_high, N.shiftl_spec_high' by exact Hi. cbn [orb].
    rewrite N.div_pow2_bits. f_equal. lia.
Qed.
Lemma high_part r x : r mod 2^32 = x / 2^32 -> u64 (r * 2^32) = x / 2^32 * 2^32.
Proof.
  intros H. unfold u64. change (2^64) with (2^32 * 2^32). rewrite N.mul_mod_distr_r by discriminate. rewrite H. reflexivity.
Qed.
Lemma ulong_long_ok (be : bool) lo hi x :
  (if be then hi mod 2^32 = x mod 2^32 /\ lo mod 2^32 = x / 2^32
   else lo mod 2^32 = x mod 2^32 /\ hi mod 2^32 = x / 2^32) -> ulong_long be lo hi = x.
Proof.
  intros H. unfold ulong_long, u32. destruct be; destruct H as [H1 H2]; rewrite H1, (high_part _ _ H2); apply lor_split.
Qed.
Lemma fit_even i j : first_fit Even i j -> (i < 15)%nat -> N.land (N.of_nat i + 1) 14 = N.of_nat j.
Proof.
  intros (H1 & H2 & H3) Hi. cbn [may_begin] in *.
  assert (Hj : j = if Nat.even i then i else S i).
  { destruct (Nat.even i) eqn:E.
    - destruct (Nat.eq_dec j i); [assumption|]. rewrite (H3 i) in E by lia. discriminate.
    - destruct (Nat.eq_dec j i) as [->|]; [congruence|]. destruct (Nat.eq_dec j (S i)); [assumption|].
      specialize (H3 (S i) ltac:(lia)). rewrite Nat.even_succ in H3. unfold Nat.odd in H3. rewrite E in H3. discriminate. }
  subst j. clear - Hi. do 15 (destruct i as [|i]; [reflexivity|]). lia.
Qed.
Lemma fit_sh i j : first_fit Sh i j -> N.of_nat j = if N.of_nat i =? 3 then N.of_nat i + 1 else N.of_nat i.
Proof.
  intros (H1 & H2 & H3). cbn [may_begin] in *. destruct (N.eqb_spec (N.of_nat i) 3) as [E|E].
  - assert (i = 3%nat) as -> by lia. destruct (Nat.eq_dec j 3) as [->|]; [discriminate|].
    destruct (Nat.eq_dec j 4) as [->|]; [reflexivity|]. specialize (H3 4%nat ltac:(lia)). discriminate.
  - destruct (Nat.eq_dec j i) as [->|]; [reflexivity|]. specialize (H3 i ltac:(lia)).
    destruct (Nat.eqb_spec i 3); [lia|discriminate].
Qed.
Lemma fit_pair i j : first_fit Pair i j -> j = i.
Proof. intros (H1 & _ & H3). destruct (Nat.eq_dec j i); [assumption|]. specialize (H3 i ltac:(lia)). discriminate. Qed.

(** the register after a 64-bit argument *)
Lemma long_read v be regs i ws x vals : passed v be regs i (L :: ws) (x :: vals) -> (i < 15)%nat ->
  exists n, getllval v be regs (N.of_nat i) = (x, N.of_nat n) /\ passed v be regs n ws vals /\ (n <= i + 3)%nat.
Proof.
  intros H Hi. inversion H as [| |? ? ? ? Hv Hx Hr|? j ? ? ? Hv Hf Hx Hb Hr]; subst.
  - exists (S i). cbn [getllval]. rewrite Nnat.Nat2N.id. split; [f_equal; lia|]. split; [exact Hr|lia].
  - apply ulong_long_ok in Hb. unfold getllval. destruct v; [congruence| | |].
    + apply fit_pair in Hf. subst j. exists (S (S i)). rewrite Nnat.Nat2N.id, Nat.add_1_r, Hb. split; [f_equal; lia|]. split; [exact Hr|lia].
    + pose proof Hf as (Hle & _). pose proof (fit_even _ _ Hf Hi) as ->. rewrite Nnat.Nat2N.id, Nat.add_1_r, Hb.
      exists (S (S j)). split; [f_equal; lia|]. split; [exact Hr|].
      pose proof (fit_even _ _ Hf Hi) as E. destruct Hf as (_ & A & B). cbn [may_begin] in *.
      destruct (Nat.le_gt_cases j (S i)); [lia|]. pose proof (B i ltac:(lia)) as C. pose proof (B (S i) ltac:(lia)) as D.
      rewrite Nat.even_succ in D. unfold Nat.odd in D. rewrite C in D. discriminate.
    + pose proof (fit_sh _ _ Hf) as E. rewrite <- E. rewrite Nnat.Nat2N.id, Nat.add_1_r, Hb.
      exists (S (S j)). split; [f_equal; lia|]. split; [exact Hr|]. destruct (N.eqb_spec (N.of_nat i) 3); lia.
Qed.
Lemma word_read v be regs i ws x vals : passed v be regs i (W :: ws) (x :: vals) ->
  regs i = x /\ passed v be regs (S i) ws vals.
Proof. intros H. inversion H; subst. auto. Qed.
Lemma width_cons v be regs i w ws vals : passed v be regs i (w :: ws) vals -> exists x k, vals = x :: k.
Proof. intros H. inversion H; eauto. Qed.
Lemma width_nil v be regs i vals : passed v be regs i [] vals -> vals = [].
Proof. intros H. inversion H. reflexivity. Qed.
