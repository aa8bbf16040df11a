(** Proofs about the number-set model. *)
From Verif Require Import Base NumSetModel NumSetSpec.
Local Open Scope N_scope.

Definition inbit (v : list N) (n : N) : bool :=
  match nth_error v (N.to_nat (n / 32)) with
  | Some w => N.testbit w (n mod 32)
  | None => false
  end.

Lemma land_pow2_testbit w k : negb (N.land w (N.shiftl 1 k) =? 0) = N.testbit w k.
Proof.
  rewrite N.shiftl_1_l.
  destruct (N.testbit w k) eqn:E.
  - apply negb_true_iff, N.eqb_neq. intros H.
    assert (N.testbit (N.land w (2^k)) k = false) by (rewrite H; apply N.bits_0).
    rewrite N.land_spec, E, N.pow2_bits_true in H0. discriminate.
  - apply negb_false_iff, N.eqb_eq. apply N.bits_inj. intros j.
    rewrite N.bits_0, N.land_spec.
    destruct (N.eq_dec k j) as [->|Hne].
    + rewrite E; reflexivity.
    + rewrite N.pow2_bits_false by auto. apply andb_false_r.
Qed.

Lemma is_number_in_set_inbit n s : is_number_in_set n (Some s) = Some (xorb (inbit (vec s) n) (nt s)).
Proof.
  unfold is_number_in_set, inbit, number_isset, nslots, bits_per_slot.
  destruct (nth_error (vec s) (N.to_nat (n / 32))) as [w|] eqn:E.
  - assert (N.to_nat (n / 32) < length (vec s))%nat.
    { apply nth_error_Some; congruence. }
    replace (n / 32 <? N.of_nat (length (vec s))) with true by (symmetry; apply N.ltb_lt; lia).
    rewrite land_pow2_testbit. reflexivity.
  - apply nth_error_None in E.
    replace (n / 32 <? N.of_nat (length (vec s))) with false by (symmetry; apply N.ltb_ge; lia).
    reflexivity.
Qed.

Lemma inbit_app_zeros v k n : inbit (v ++ repeat 0 k) n = inbit v n.
Proof.
  unfold inbit. destruct (Nat.ltb (N.to_nat (n / 32)) (length v)) eqn:L.
  - apply Nat.ltb_lt in L. rewrite nth_error_app1 by auto. reflexivity.
  - apply Nat.ltb_ge in L. rewrite nth_error_app2 by auto.
    rewrite (proj2 (nth_error_None v (N.to_nat (n/32)))) by auto.
    destruct (nth_error (repeat 0 k) _) eqn:E; auto.
    apply nth_error_repeat_inv in E. subst. apply N.bits_0.
Qed.

Lemma inbit_realloc s k n : inbit (vec (reallocate_number_set s k)) n = inbit (vec s) n.
Proof.
  unfold reallocate_number_set. destruct (k <=? nslots s); auto. apply inbit_app_zeros.
Qed.

Lemma realloc_slots s k : (N.to_nat k <= length (vec (reallocate_number_set s k)))%nat.
Proof.
  unfold reallocate_number_set, nslots. destruct (k <=? _) eqn:E.
  - apply N.leb_le in E. lia.
  - simpl. rewrite app_length, repeat_length. lia.
Qed.

Lemma setbit_spec i v : (N.to_nat (i / 32) < length v)%nat ->
  exists v', number_setbit i v = Some v' /\ length v' = length v /\
    (forall n, inbit v' n = (n =? i) || inbit v n).
Proof.
  intros H. unfold number_setbit, bits_per_slot.
  destruct (nth_error v (N.to_nat (i/32))) as [w|] eqn:E.
  2:{ apply nth_error_None in E. lia. }
  destruct (upd_some v (N.to_nat (i/32)) (N.lor w (N.shiftl 1 (i mod 32))) H) as [v' Ev].
  exists v'. split; [auto|]. split; [eapply upd_length; eauto|].
  intros n. unfold inbit.
  destruct (N.eq_dec (n/32) (i/32)) as [Hd|Hd].
  - rewrite Hd. erewrite upd_nth_eq by eauto. rewrite E.
    rewrite N.lor_spec, N.shiftl_1_l.
    destruct (N.eqb_spec n i) as [->|Hne].
    + rewrite N.pow2_bits_true. rewrite orb_true_r. reflexivity.
    + rewrite N.pow2_bits_false. 2:{ intros Hm. apply Hne.
        rewrite (N.div_mod n 32), (N.div_mod i 32) by lia. lia. }
      rewrite orb_false_r. reflexivity.
  - erewrite (upd_nth_ne v v' (N.to_nat (i/32)) (N.to_nat (n/32))) by (eauto; lia).
    destruct (N.eqb_spec n i) as [->|Hne]; [congruence|reflexivity].
Qed.

Lemma add_spec i s : exists s', add_number_to_set i s = Some s' /\ nt s' = nt s /\
   (length (vec s) <= length (vec s'))%nat /\
   (forall n, inbit (vec s') n = (n =? i) || inbit (vec s) n).
Proof.
  unfold add_number_to_set, bits_per_slot.
  set (s1 := reallocate_number_set s (i / 32 + 1)).
  assert (Hl : (N.to_nat (i / 32) < length (vec s1))%nat).
  { pose proof (realloc_slots s (i/32+1)). subst s1. lia. }
  destruct (setbit_spec i (vec s1) Hl) as (v & Ev & Hlen & Hb).
  rewrite Ev. eexists; split; [reflexivity|]. simpl. split; [|split].
  - subst s1. unfold reallocate_number_set. destruct (_ <=? _); reflexivity.
  - rewrite Hlen. subst s1. unfold reallocate_number_set.
    destruct (_ <=? _); simpl; auto. rewrite app_length; lia.
  - intros n. rewrite Hb. subst s1. rewrite inbit_realloc. reflexivity.
Qed.

Lemma inbit_clear v n : inbit (map (fun _ : N => 0) v) n = false.
Proof.
  unfold inbit. destruct (nth_error _ _) eqn:E; auto.
  apply nth_error_In, in_map_iff in E. destruct E as (x & <- & _). apply N.bits_0.
Qed.

Lemma map_first_spec f a k : (k <= length a)%nat ->
  exists a', map_first f a k = Some a' /\ length a' = length a /\
   forall i, nth_error a' i = (if Nat.ltb i k then option_map f (nth_error a i) else nth_error a i).
Proof.
  revert a; induction k as [|k IH]; intros a H.
  - exists a. split; [reflexivity|]. split; [reflexivity|]. intros i. reflexivity.
  - destruct a as [|s r]; simpl in *; [lia|].
    destruct (IH r) as (r' & E & L & Hn); [lia|].
    rewrite E. eexists; split; [reflexivity|]. split; [simpl; lia|].
    intros [|i]; simpl; auto. rewrite Hn. reflexivity.
Qed.

(** representation of one set by the history *)
Definition rep (i : nat) (h : list nop) (s : nset) : Prop :=
  nt s = Nat.odd (length (filter (inverts i) h)) /\
  forall n, inbit (vec s) n = existsb (adds i n) h.

Lemma filter_snoc {A} (f : A -> bool) l x :
  filter f (l ++ [x]) = filter f l ++ (if f x then [x] else []).
Proof. induction l; simpl; [destruct (f x); auto|]. rewrite IHl. destruct (f a); auto. Qed.
Lemma existsb_snoc {A} (f : A -> bool) l x : existsb f (l ++ [x]) = existsb f l || f x.
Proof. rewrite existsb_app. simpl. rewrite orb_false_r. reflexivity. Qed.

Lemma since_clear_snoc i acc ops o :
  since_clear i acc (ops ++ [o]) =
  match o with
  | NClear m => if Nat.ltb i m then [] else since_clear i acc ops
  | _ => since_clear i acc ops ++ [o]
  end.
Proof.
  revert acc; induction ops as [|p r IH]; intros acc; simpl.
  - destruct o; simpl; auto. 
  - destruct p; auto. destruct (Nat.ltb i nmemb); apply IH.
Qed.

Lemma nrun_snoc a ops o : nrun a (ops ++ [o]) = obind (nrun a ops) (fun a' => nstep a' o).
Proof.
  revert a; induction ops as [|p r IH]; intros a; simpl.
  - destruct (nstep a o); reflexivity.
  - destruct (nstep a p); auto.
Qed.

Lemma odd_succ_negb n : Nat.odd (S n) = negb (Nat.odd n).
Proof. rewrite Nat.odd_succ. rewrite <- Nat.negb_odd. reflexivity. Qed.

Lemma nrun_rep k ops : Forall (op_ok k) ops ->
  exists a, nrun (alloc_number_set_array k) ops = Some a /\ length a = k /\
   forall i s, nth_error a i = Some s -> rep i (since_clear i [] ops) s.
Proof.
  induction ops as [|o ops IH] using rev_ind; intros Hok.
  - exists (alloc_number_set_array k). simpl. split; [auto|]. split; [apply repeat_length|].
    intros i s Hs. apply nth_error_repeat_inv in Hs. subst s. split; [reflexivity|].
    intros n. unfold inbit. simpl. destruct (N.to_nat (n/32)); reflexivity.
  - apply Forall_app in Hok as [Hok Ho]. inversion Ho as [|? ? Hop _]; subst.
    destruct (IH Hok) as (a & Ea & La & Hrep). rewrite nrun_snoc, Ea. simpl obind.
    destruct o as [n i|m|m]; simpl in Hop; cbn [nstep].
    + destruct Hop as [Hn Hi]. unfold add_number_to_set_array.
      destruct (nth_error a i) as [s|] eqn:Es. 2:{ apply nth_error_None in Es; lia. }
      destruct (add_spec n s) as (s' & Es' & Hnt & _ & Hb). rewrite Es'.
      destruct (upd_some a i s') as [a' Ea']; [lia|]. rewrite Ea'.
      exists a'. split; [auto|]. split; [erewrite upd_length by eauto; auto|].
      intros j t Ht. rewrite since_clear_snoc. 
      destruct (Nat.eq_dec i j) as [<-|Hne].
      * erewrite upd_nth_eq in Ht by eauto. inversion Ht; subst t.
        destruct (Hrep _ _ Es) as [H1 H2]. split.
        -- rewrite filter_snoc. simpl. rewrite app_nil_r. congruence.
        -- intros x. rewrite existsb_snoc, Hb, H2. simpl. rewrite Nat.eqb_refl, andb_true_r.
           apply orb_comm.
      * erewrite upd_nth_ne in Ht by eauto. destruct (Hrep _ _ Ht) as [H1 H2]. split.
        -- rewrite filter_snoc. simpl. rewrite app_nil_r. auto.
        -- intros x. rewrite existsb_snoc, H2. simpl.
           replace (Nat.eqb j i) with false by (symmetry; apply Nat.eqb_neq; auto).
           rewrite andb_false_r, orb_false_r. reflexivity.
    + unfold invert_number_set_array.
      destruct (map_first_spec invert_one a m) as (a' & E & L & Hn); [lia|].
      exists a'. split; [auto|]. split; [lia|]. intros i s Hs. rewrite Hn in Hs.
      rewrite since_clear_snoc. unfold rep. rewrite filter_snoc.
      simpl inverts. destruct (Nat.ltb i m).
      * destruct (nth_error a i) as [t|] eqn:Et; inversion Hs; subst s.
        destruct (Hrep _ _ Et) as [H1 H2]. split.
        -- rewrite app_length. simpl. rewrite Nat.add_1_r, odd_succ_negb. congruence.
        -- intros x. rewrite existsb_snoc. simpl. rewrite orb_false_r. apply H2.
      * destruct (Hrep _ _ Hs) as [H1 H2]. split.
        -- rewrite app_nil_r. auto.
        -- intros x. rewrite existsb_snoc. simpl. rewrite orb_false_r. apply H2.
    + unfold clear_number_set_array.
      destruct (map_first_spec clear_one a m) as (a' & E & L & Hn); [lia|].
      exists a'. split; [auto|]. split; [lia|]. intros i s Hs. rewrite Hn in Hs.
      rewrite since_clear_snoc. destruct (Nat.ltb i m).
      * destruct (nth_error a i) as [t|] eqn:Et; inversion Hs; subst s.
        split; [reflexivity|]. intros x. simpl. apply inbit_clear.
      * auto.
Qed.

Lemma number_set_history k ops : Forall (op_ok k) ops ->
  exists a, nrun (alloc_number_set_array k) ops = Some a /\ length a = k /\
   forall i n, (i < k)%nat ->
     is_number_in_set_array n (Some a) i = Some (member i ops n).
Proof.
  intros H. destruct (nrun_rep k ops H) as (a & E & L & R).
  exists a. split; [auto|]. split; [auto|]. intros i n Hi.
  unfold is_number_in_set_array.
  destruct (nth_error a i) as [s|] eqn:Es. 2:{ apply nth_error_None in Es; lia. }
  rewrite is_number_in_set_inbit. destruct (R _ _ Es) as [H1 H2].
  rewrite H1, H2. reflexivity.
Qed.

Lemma array_is_empty_sound k ops : Forall (op_ok k) ops ->
  exists a, nrun (alloc_number_set_array k) ops = Some a /\
  forall i, (i < k)%nat ->
  exists b, number_set_array_is_empty (Some a) i = Some b /\
    (b = true -> forall n, member i ops n = false).
Proof.
  intros H. destruct (nrun_rep k ops H) as (a & E & L & R).
  exists a; split; [auto|]. intros i Hi. unfold number_set_array_is_empty.
  destruct (nth_error a i) as [s|] eqn:Es. 2:{ apply nth_error_None in Es; lia. }
  eexists; split; [reflexivity|]. intros Hb n. apply negb_true_iff, orb_false_iff in Hb as [Hb1 Hb2].
  apply negb_false_iff, N.eqb_eq in Hb1. unfold nslots in Hb1.
  destruct (R _ _ Es) as [H1 H2]. unfold member. rewrite <- H1, <- H2, Hb2.
  destruct (vec s) eqn:Ev; [|simpl in Hb1; lia].
  unfold inbit. destruct (N.to_nat (n/32)); reflexivity.
Qed.

(** ---- completeness ---- *)
Lemma popcount_double x : popcount (2 * x) = popcount x.
Proof. destruct x; reflexivity. Qed.
Lemma popcount_double1 x : popcount (2 * x + 1) = 1 + popcount x.
Proof. destruct x; reflexivity. Qed.

Fixpoint bcount (f : nat -> bool) (lo n : nat) : nat :=
  match n with O => O | S n' => ((if f lo then 1 else 0) + bcount f (S lo) n')%nat end.

Lemma bcount_ext f g lo lo' n : (forall i, (i < n)%nat -> f (lo + i)%nat = g (lo' + i)%nat) ->
  bcount f lo n = bcount g lo' n.
Proof.
  revert lo lo'; induction n as [|n IH]; intros lo lo' H; simpl; auto.
  f_equal.
  - specialize (H O). rewrite !Nat.add_0_r in H. rewrite H by lia. reflexivity.
  - apply IH. intros i Hi. specialize (H (S i)). rewrite <- !plus_n_Sm in H. simpl. apply H. lia.
Qed.
Lemma bcount_app f lo n m : bcount f lo (n + m) = (bcount f lo n + bcount f (lo + n) m)%nat.
Proof.
  revert lo; induction n as [|n IH]; intros lo; simpl.
  - rewrite Nat.add_0_r. reflexivity.
  - rewrite IH. rewrite <- plus_n_Sm. simpl. lia.
Qed.
Lemma bcount_filter f lo n : bcount f lo n = length (filter f (seq lo n)).
Proof.
  revert lo; induction n as [|n IH]; intros lo; simpl; auto.
  rewrite IH. destruct (f lo); simpl; lia.
Qed.

Lemma popcount_bits k x : x < 2 ^ N.of_nat k ->
  popcount x = N.of_nat (bcount (fun i => N.testbit x (N.of_nat i)) 0 k).
Proof.
  revert x; induction k as [|k IH]; intros x Hx.
  - simpl in Hx. assert (x = 0) by lia. subst. reflexivity.
  - simpl bcount.
    rewrite Nat2N.inj_succ, N.pow_succ_r' in Hx.
    assert (Hh : x / 2 < 2 ^ N.of_nat k) by (apply N.div_lt_upper_bound; lia).
    specialize (IH _ Hh).
    rewrite (bcount_ext _ (fun i => N.testbit (x/2) (N.of_nat i)) 1 0).
    2:{ intros i _. rewrite Nat2N.inj_add, <- (N.div2_div x), N.div2_spec, N.shiftr_spec by lia. f_equal. lia. }
    rewrite Nat2N.inj_add, <- IH.
    rewrite (N.div_mod x 2) at 1 by lia.
    rewrite N.bit0_mod || idtac. 
    destruct (N.testbit x (N.of_nat 0)) eqn:Eb.
    + replace (x mod 2) with 1. 2:{ rewrite <- N.bit0_mod. unfold N.b2n.
        change (N.testbit x 0 = true) in Eb. rewrite Eb. reflexivity. }
      rewrite popcount_double1. lia.
    + replace (x mod 2) with 0. 2:{ rewrite <- N.bit0_mod. unfold N.b2n.
        change (N.testbit x 0 = false) in Eb. rewrite Eb. reflexivity. }
      rewrite N.add_0_r, popcount_double. lia.
Qed.

Definition words_ok (v : list N) : Prop := Forall (fun w => w < 2^32) v.

Lemma inbit_cons w v i :
  inbit (w :: v) (N.of_nat i) = if Nat.ltb i 32 then N.testbit w (N.of_nat i)
                                 else inbit v (N.of_nat (i - 32)).
Proof.
  unfold inbit. destruct (Nat.ltb i 32) eqn:L.
  - apply Nat.ltb_lt in L. rewrite N.div_small, N.mod_small by lia. reflexivity.
  - apply Nat.ltb_ge in L.
    replace (N.of_nat i) with (N.of_nat (i - 32) + 1 * 32) by lia.
    rewrite N.div_add, N.mod_add by lia.
    replace (N.to_nat (N.of_nat (i - 32) / 32 + 1)) with (S (N.to_nat (N.of_nat (i-32) / 32))) by lia.
    simpl nth_error. reflexivity.
Qed.

Lemma popcount32_acc v c : words_ok v -> c + N.of_nat (bcount (fun i => inbit v (N.of_nat i)) 0 (32 * length v)) < 2^32 ->
  popcount32 v c = c + N.of_nat (bcount (fun i => inbit v (N.of_nat i)) 0 (32 * length v)).
Proof.
  revert c; induction v as [|w v IH]; intros c Hw Hlt.
  - simpl in *. lia.
  - inversion Hw as [|? ? Hw1 Hw2]; subst.
    cbn [length] in *. 
    replace (32 * S (length v))%nat with (32 + 32 * length v)%nat in * by lia.
    rewrite bcount_app in *. 
    rewrite (bcount_ext _ (fun i => N.testbit w (N.of_nat i)) 0 0 32) in *.
    2,3: (intros i Hi; rewrite !Nat.add_0_l, inbit_cons; apply Nat.ltb_lt in Hi; rewrite Hi; reflexivity).
    rewrite (bcount_ext _ (fun i => inbit v (N.of_nat i)) (0+32) 0 (32 * length v)) in *.
    2,3: (intros i Hi; rewrite inbit_cons;
          replace (Nat.ltb (0 + 32 + i) 32) with false by (symmetry; apply Nat.ltb_ge; lia);
          do 2 f_equal; lia).
    cbn [popcount32].
    rewrite (popcount_bits 32 w Hw1).
    unfold u32. rewrite N.mod_small by lia.
    rewrite IH by (auto; lia). lia.
Qed.

Lemma count_complete (f : nat -> bool) (m len : nat) :
  (forall n, f n = true -> (n < m)%nat /\ (n < len)%nat) ->
  (bcount f 0 len = m <-> forall n, (n < m)%nat -> f n = true) /\ (bcount f 0 len <= m)%nat.
Proof.
  intros H. rewrite bcount_filter.
  set (L := filter f (seq 0 len)).
  assert (ND : NoDup L) by (apply NoDup_filter, seq_NoDup).
  assert (I : incl L (seq 0 m)).
  { intros x Hx. apply filter_In in Hx as [_ Hx]. apply in_seq. specialize (H _ Hx). lia. }
  assert (LE : (length L <= m)%nat).
  { rewrite <- (seq_length m 0). apply NoDup_incl_length; auto. }
  split; [|auto]. split.
  - intros HL n Hn.
    assert (incl (seq 0 m) L).
    { apply NoDup_length_incl; auto. rewrite seq_length. lia. }
    assert (In n L) by (apply H0, in_seq; lia).
    apply filter_In in H1. tauto.
  - intros Ha. 
    assert (I2 : incl (seq 0 m) L).
    { intros x Hx. apply in_seq in Hx. apply filter_In. 
      specialize (Ha x ltac:(lia)). split; auto. apply in_seq. specialize (H _ Ha). lia. }
    pose proof (NoDup_incl_length (seq_NoDup m 0) I2) as HH. rewrite seq_length in HH. lia.
Qed.

Lemma inbit_range v n : inbit v n = true -> n < 32 * N.of_nat (length v).
Proof.
  unfold inbit. intros H. destruct (nth_error _ _) eqn:E; [|discriminate].
  assert (N.to_nat (n/32) < length v)%nat by (apply nth_error_Some; congruence).
  pose proof (N.div_mod n 32 ltac:(lia)). pose proof (N.mod_lt n 32 ltac:(lia)). lia.
Qed.

Lemma get_setbit_complete v m :
  m < 2^32 -> words_ok v -> (forall n, inbit v n = true -> n < m) ->
  (popcount32 v 0 =? m = true <-> forall n, n < m -> inbit v n = true).
Proof.
  intros Hm Hw Hlt.
  destruct (count_complete (fun i => inbit v (N.of_nat i)) (N.to_nat m) (32 * length v)) as [C1 C2].
  { intros n Hn. split; [specialize (Hlt _ Hn); lia | apply inbit_range in Hn; lia]. }
  rewrite popcount32_acc by (auto; lia). rewrite N.eqb_eq, N.add_0_l.
  split.
  - intros Hc n Hn. rewrite <- (N2Nat.id n). apply C1; lia.
  - intros Ha. apply N2Nat.inj. rewrite Nat2N.id. apply C1. intros n Hn. apply Ha. lia.
Qed.

(** words stay below 2^32 in every reachable set *)
Lemma lor_lt a b k : a < 2^k -> b < 2^k -> N.lor a b < 2^k.
Proof.
  intros Ha Hb. destruct (N.eq_dec (N.lor a b) 0) as [->|H0]; [lia|].
  apply N.log2_lt_pow2; [lia|]. rewrite N.log2_lor.
  destruct (N.eq_dec a 0) as [->|Ha0]; [|apply N.log2_lt_pow2 in Ha; [|lia]];
  (destruct (N.eq_dec b 0) as [->|Hb0]; [|apply N.log2_lt_pow2 in Hb; [|lia]]); simpl; try lia.
  rewrite N.lor_0_l in H0; lia.
Qed.

Lemma upd_Forall {A} (P : A -> Prop) l l' i v : Forall P l -> P v -> upd l i v = Some l' -> Forall P l'.
Proof.
  revert l' i; induction l as [|h t IH]; intros l' [|i] Hl Hv H; simpl in *; try discriminate.
  - inversion H; inversion Hl; subst; constructor; auto.
  - destruct (upd t i v) eqn:E; inversion H; inversion Hl; subst. constructor; eauto.
Qed.

Lemma nth_error_Forall {A} (P : A -> Prop) l i x : Forall P l -> nth_error l i = Some x -> P x.
Proof. intros H E. apply nth_error_In in E. rewrite Forall_forall in H. auto. Qed.

Lemma nstep_words a a' o : Forall (fun s => words_ok (vec s)) a -> nstep a o = Some a' ->
  Forall (fun s => words_ok (vec s)) a'.
Proof.
  intros H. destruct o as [n i|m|m]; cbn [nstep].
  - unfold add_number_to_set_array. destruct (nth_error a i) as [s|] eqn:E; [|discriminate].
    pose proof (nth_error_Forall _ _ _ _ H E) as Hs. simpl in Hs.
    unfold add_number_to_set. set (s1 := reallocate_number_set _ _).
    assert (H1 : words_ok (vec s1)).
    { subst s1. unfold reallocate_number_set. destruct (_ <=? _); auto. simpl.
      apply Forall_app; split; auto. apply Forall_forall. intros x Hx. apply repeat_spec in Hx. subst. lia. }
    unfold number_setbit. destruct (nth_error (vec s1) _) as [w|] eqn:Ew; [|discriminate].
    destruct (upd (vec s1) _ _) as [v|] eqn:Ev; [|discriminate].
    intros Hu. eapply upd_Forall; [exact H| |exact Hu]. simpl.
    eapply upd_Forall; [exact H1| |exact Ev]. 
    apply lor_lt. { exact (nth_error_Forall _ _ _ _ H1 Ew). }
    rewrite N.shiftl_1_l. apply N.pow_lt_mono_r; [lia|]. unfold bits_per_slot. apply N.mod_lt. lia.
  - unfold invert_number_set_array. revert a a' H; induction m as [|m IH]; intros a a' H Hm; simpl in Hm.
    + inversion Hm; subst; auto.
    + destruct a as [|s r]; [discriminate|]. destruct (map_first invert_one r m) eqn:E; inversion Hm; subst.
      inversion H; subst. constructor; eauto.
  - unfold clear_number_set_array. revert a a' H; induction m as [|m IH]; intros a a' H Hm; simpl in Hm.
    + inversion Hm; subst; auto.
    + destruct a as [|s r]; [discriminate|]. destruct (map_first clear_one r m) eqn:E; inversion Hm; subst.
      inversion H; subst. constructor; eauto. simpl. apply Forall_forall. intros x Hx.
      apply in_map_iff in Hx as (? & <- & _). lia.
Qed.

Lemma nrun_words a ops a' : Forall (fun s => words_ok (vec s)) a -> nrun a ops = Some a' ->
  Forall (fun s => words_ok (vec s)) a'.
Proof.
  revert a; induction ops as [|o r IH]; intros a H E; simpl in E.
  - inversion E; subst; auto.
  - destruct (nstep a o) eqn:E1; [|discriminate]. eapply IH; [|exact E]. eapply nstep_words; eauto.
Qed.

Lemma complete_set_uninverted k ops i m : Forall (op_ok k) ops -> (i < k)%nat -> m < 2^32 ->
  (forall n, member i ops n = true -> n < m) ->
  exists a s, nrun (alloc_number_set_array k) ops = Some a /\ nth_error a i = Some s /\
    (nt s = false -> (is_complete_set (Some s) m = true <-> forall n, n < m -> member i ops n = true)).
Proof.
  intros H Hi Hm Hlt. destruct (nrun_rep k ops H) as (a & E & L & R).
  destruct (nth_error a i) as [s|] eqn:Es. 2:{ apply nth_error_None in Es; lia. }
  exists a, s. split; [auto|]. split; [auto|]. intros Hnt.
  destruct (R _ _ Es) as [H1 H2].
  assert (HM : forall n, member i ops n = inbit (vec s) n).
  { intros n. unfold member. rewrite <- H1, <- H2, Hnt, xorb_false_r. reflexivity. }
  unfold is_complete_set, get_number_setbit. rewrite Hnt. cbn [andb orb].
  assert (W : words_ok (vec s)).
  { assert (Forall (fun s => words_ok (vec s)) a).
    { eapply nrun_words; [|exact E]. apply Forall_forall. intros x Hx. apply repeat_spec in Hx. subst.
      constructor. }
    exact (nth_error_Forall _ _ _ _ H0 Es). }
  rewrite get_setbit_complete; auto.
  - split; intros HH n Hn; [rewrite HM|rewrite <- HM]; auto.
  - intros n Hn. apply Hlt. rewrite HM. auto.
Qed.

Lemma complete_set_partial k ops i m : Forall (op_ok k) ops -> (i < k)%nat -> m < 2^32 ->
  (forall n, member i ops n = true -> n < m) ->
  Nat.odd (length (filter (inverts i) (since_clear i [] ops))) = false ->
  exists a s, nrun (alloc_number_set_array k) ops = Some a /\ nth_error a i = Some s /\
    (is_complete_set (Some s) m = true <-> forall n, n < m -> member i ops n = true).
Proof.
  intros H Hi Hm Hlt Hodd.
  destruct (complete_set_uninverted k ops i m H Hi Hm Hlt) as (a & s & Ea & Es & Hc).
  exists a, s. split; [auto|]. split; [auto|]. apply Hc.
  destruct (nrun_rep k ops H) as (a2 & E2 & _ & R). rewrite Ea in E2. inversion E2; subst a2.
  destruct (R _ _ Es) as [H1 _]. congruence.
Qed.

Lemma inverted_untouched_complete k j m : (0 < k)%nat -> (j <= k)%nat -> (0 < j)%nat ->
  exists a s, nrun (alloc_number_set_array k) [NInvert j] = Some a /\ nth_error a 0 = Some s /\
    is_complete_set (Some s) m = true /\ forall n, member 0 [NInvert j] n = true.
Proof.
  intros Hk Hj H0. destruct k as [|k]; [lia|]. destruct j as [|j]; [lia|].
  cbn [nrun nstep]. unfold invert_number_set_array, alloc_number_set_array. cbn [repeat map_first].
  destruct (map_first_spec invert_one (repeat empty_nset k) j) as (a & E & _).
  { rewrite repeat_length. lia. }
  rewrite E. do 2 eexists. split; [reflexivity|]. split; [reflexivity|].
  split; [reflexivity|]. intros n. reflexivity.
Qed.

Lemma complete_array_spec a ms : (length ms <= length a)%nat ->
  exists b, is_complete_set_array a ms = Some b /\
   (b = true <-> forall i s m, nth_error a i = Some s -> nth_error ms i = Some m ->
                 is_complete_set (Some s) m = true).
Proof.
  revert a; induction ms as [|m ms IH]; intros [|s a] H; cbn [length] in *; try lia.
  - exists true. split; [reflexivity|]. split; auto. intros _ [|i] ? ? ? Hm; discriminate.
  - exists true. split; [reflexivity|]. split; auto. intros _ [|i] ? ? ? Hm; discriminate.
  - cbn [is_complete_set_array]. destruct (is_complete_set (Some s) m) eqn:E.
    + destruct (IH a) as (b & Eb & Hb); [lia|]. exists b. split; auto. rewrite Hb. split.
      * intros HH [|i] s' m' Hs Hm; cbn [nth_error] in *; [congruence|eauto].
      * intros HH i s' m' Hs Hm. apply (HH (S i)); auto.
    + exists false. split; auto. split; [discriminate|]. intros HH.
      rewrite <- E. apply (HH O); reflexivity.
Qed.
