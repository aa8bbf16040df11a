(** C81: structures whose size the caller states. *)
From Verif Require Import Base QuoteModel QuoteSpec QuoteProofs InfoModel InfoSpec InfoThms ExtModel ExtSpec.
Local Open Scope N_scope.

(** ** Reading *)
Lemma umoven_some m : forall n a, can_read m a 0 (N.of_nat n) -> umoven m a n = Some (map (fun i => byte m a (N.of_nat i)) (seq 0 n)).
Proof.
  induction n as [|n IH]; intros a C; [reflexivity|]. cbn [umoven seq map].
  pose proof (C 0 ltac:(lia)) as C0. unfold at_ in C0. rewrite N.add_0_r in C0. unfold u64.
  rewrite IH.
  2:{ intros i I. specialize (C (1 + i) ltac:(lia)). unfold at_ in *. replace (a + 1 + i) with (a + (1 + i)) by lia. exact C. }
  change (N.of_nat 0) with 0. unfold byte at 2, at_. rewrite N.add_0_r. destruct (m (a mod 2^64)) as [b|] eqn:E; [|congruence].
  do 2 f_equal. rewrite <- seq_shift, map_map. apply map_ext. intros i. unfold byte, at_. replace (a + N.of_nat (S i)) with (a + 1 + N.of_nat i) by lia. reflexivity.
Qed.
Lemma umoven_none m : forall n a, ~ can_read m a 0 (N.of_nat n) -> umoven m a n = None.
Proof.
  induction n as [|n IH]; intros a C; [destruct C; intros i I; lia|]. cbn [umoven].
  unfold u64. destruct (m (a mod 2^64)) as [b|] eqn:E; [|reflexivity].
  rewrite IH; [reflexivity|]. intros C'. apply C. intros i I. destruct (N.eq_dec i 0) as [->|]; [unfold at_; rewrite N.add_0_r; congruence|].
  specialize (C' (i - 1) ltac:(lia)). unfold at_ in *. replace (a + 1 + (i - 1)) with (a + i) in C' by lia. exact C'.
Qed.
Lemma can_read_dec m a : forall n from, {can_read m a from (from + N.of_nat n)} + {~ can_read m a from (from + N.of_nat n)}.
Proof.
  induction n as [|n IH]; intros from; [left; intros i I; lia|].
  destruct (at_ m a from) eqn:E.
  - destruct (IH (from + 1)) as [C|C].
    + left. intros i I. destruct (N.eq_dec i from) as [->|]; [congruence|]. apply C. lia.
    + right. intros C'. apply C. intros i I. apply C'. lia.
  - right. intros C. apply (C from ltac:(lia)). exact E.
Qed.
Lemma read_dec m a from to : {can_read m a from to} + {~ can_read m a from to}.
Proof.
  destruct (from <? to) eqn:L; [|left; intros i I; lia].
  replace to with (from + N.of_nat (N.to_nat (to - from))) by lia. apply can_read_dec.
Qed.
Lemma addr_none o m a n : ~ accessible o m a (N.of_nat n) -> umoven_or_printaddr o m a n = None.
Proof.
  unfold accessible, looked_at, umoven_or_printaddr. intros A. destruct (a =? 0) eqn:E0; [reflexivity|]. destruct (verbose o); [|reflexivity].
  destruct (failed o); [reflexivity|]. cbn [orb negb]. apply umoven_none. intros C. apply A. apply N.eqb_neq in E0. auto.
Qed.
Lemma addr_some o m a n : accessible o m a (N.of_nat n) -> umoven_or_printaddr o m a n = Some (map (fun i => byte m a (N.of_nat i)) (seq 0 n)).
Proof.
  intros [(A & B & C) D]. unfold umoven_or_printaddr. rewrite B, C. apply N.eqb_neq in A. rewrite A. cbn [orb negb]. apply umoven_some. exact D.
Qed.
Lemma firstn_zeros : forall n i : nat, (i <= n)%nat -> firstn i (repeat 0 n) = repeat 0 i.
Proof. induction n as [|n IH]; intros [|i] L; [reflexivity|lia|reflexivity|]. cbn [repeat firstn]. rewrite IH by lia. reflexivity. Qed.
Lemma filled_taken m a size n c : c = N.of_nat n -> filled n (map (fun i => byte m a (N.of_nat i)) (seq 0 (N.to_nat (N.min size c)))) = taken m a size n.
Proof.
  intros ->.
  unfold filled, taken. set (j := N.to_nat (N.min size (N.of_nat n))). assert (J : (j <= n)%nat) by lia.
  rewrite firstn_app, map_length, seq_length. rewrite firstn_all2 by (rewrite map_length, seq_length; lia).
  replace (seq 0 n) with (seq 0 j ++ seq j (n - j)) by (rewrite <- seq_app; f_equal; lia). rewrite map_app. f_equal.
  - apply map_ext_in. intros i I. apply in_seq in I. replace (N.of_nat i <? size) with true by lia. reflexivity.
  - rewrite firstn_zeros by lia.
    assert (L : forall i, In i (seq j (n - j)) -> (if N.of_nat i <? size then byte m a (N.of_nat i) else 0) = 0).
    { intros i I. apply in_seq in I. replace (N.of_nat i <? size) with false by lia. reflexivity. }
    rewrite (map_ext_in _ (fun _ => 0) _ L). clear. generalize (seq j (n - j)) as l, (seq_length (n - j) j). intros l <-. induction l; cbn; congruence.
Qed.
Lemma all_taken m a size n : N.of_nat n <= size -> map (fun i => byte m a (N.of_nat i)) (seq 0 n) = taken m a size n.
Proof. intros L. unfold taken. apply map_ext_in. intros i I. apply in_seq in I. replace (N.of_nat i <? size) with true by lia. reflexivity. Qed.

(** ** Bits *)
Lemma test_1 v k : test v (2^k) = N.testbit v k.
Proof.
  unfold test. destruct (N.testbit v k) eqn:B.
  - apply negb_true_iff, N.eqb_neq. intros E. assert (T : N.testbit (N.land v (2^k)) k = true) by (rewrite N.land_spec, B, N.pow2_bits_true; reflexivity).
    rewrite E, N.bits_0 in T. discriminate.
  - apply negb_false_iff, N.eqb_eq. apply N.bits_inj. intros i. rewrite N.land_spec, N.bits_0, N.pow2_bits_eqb. destruct (N.eqb_spec k i) as [->|]; [rewrite B; reflexivity|apply andb_false_r].
Qed.
Lemma test_lor v x y : test v (N.lor x y) = test v x || test v y.
Proof.
  unfold test. rewrite N.land_lor_distr_r, <- negb_andb. f_equal. destruct (N.eqb_spec (N.land v x) 0) as [->|X]; cbn [andb].
  - rewrite N.lor_0_l. reflexivity.
  - apply N.eqb_neq. intros E. apply N.lor_eq_0_iff in E. tauto.
Qed.
Lemma test_or_l x y v : test (N.lor x y) v = test x v || test y v.
Proof. unfold test. rewrite !(N.land_comm _ v). apply test_lor. Qed.
Lemma nz v : negb (v =? 0) = (0 <? v).
Proof. lia. Qed.

(** ** The rest *)
Lemma all_zero (l : list N) : forallb (N.eqb 0) l = true <-> forall x, In x l -> x = 0.
Proof. rewrite forallb_forall. split; intros H x I; specialize (H x I); lia. Qed.
Lemma tail_rest o m a known size : bytes_only m -> exists l, tail o m a known size = Ok l /\ rest o m a known size l.
Proof.
  intros B. unfold tail, rest, print_nonzero_bytes. set (upto := N.min size (pagesize o)).
  destruct (upto <=? known) eqn:U; [exists []; destruct (known <? size); auto|].
  replace (known <? size) with true by lia.
  assert (RD : can_read m a known upto <-> can_read m (a + known) 0 (N.of_nat (N.to_nat (upto - known)))).
  { unfold can_read, at_. split; intros C i I.
    - specialize (C (known + i) ltac:(lia)). rewrite N.add_assoc in C. exact C.
    - specialize (C (i - known) ltac:(lia)). replace (a + known + (i - known)) with (a + i) in C by lia. exact C. }
  destruct (read_dec m a known upto) as [C|C].
  2:{ rewrite umoven_none by tauto. eauto. }
  rewrite umoven_some by tauto. set (str := map _ _).
  assert (BE : forall i, byte m (a + known) i = byte m a (known + i)) by (intros i; unfold byte, at_; rewrite N.add_assoc; reflexivity).
  destruct (forallb (N.eqb 0) str) eqn:Z.
  - exists []. split; [reflexivity|]. right. split; [exact C|]. left. split; [|reflexivity]. intros i I.
    rewrite all_zero in Z. specialize (Z (byte m (a + known) (i - known))). rewrite BE in Z. replace (known + (i - known)) with i in Z by lia. apply Z.
    unfold str. apply in_map_iff. exists (N.to_nat (i - known)). rewrite in_seq, BE. split; [f_equal; lia|lia].
  - set (st := {| q0term := false; omit_quotes := false; omit0 := false; expect0 := false; comment := false; xstyle := HEXSTR_ALL |}).
    assert (BS : bytes_ok str).
    { apply Forall_forall. intros x I. unfold str in I. apply in_map_iff in I. destruct I as (i & <- & _). unfold byte, at_. destruct (m _) eqn:E; [apply (B _ _ E)|reflexivity]. }
    assert (LS : length str = N.to_nat (upto - known)) by (unfold str; rewrite map_length, seq_length; reflexivity).
    destruct (string_quote_total str (N.to_nat (N.min (upto - known) (max_strlen o))) st None BS) as (t & rc & Q).
    { unfold readable. cbn [q0term st]. lia. }
    rewrite Q. cbn [rbind]. eexists. split; [reflexivity|]. right. split; [exact C|]. right. split.
    + assert (X : exists x, In x str /\ x <> 0).
      { clear -Z. induction str as [|x l IH]; [discriminate|]. cbn [forallb] in Z. destruct (N.eqb_spec 0 x) as [<-|]; [|exists x; cbn; auto].
        destruct (IH Z) as (y & I & N). exists y. cbn. auto. }
      destruct X as (x & I & N). unfold str in I. apply in_map_iff in I. destruct I as (i & <- & I). apply in_seq in I. rewrite BE in N. exists (known + N.of_nat i). split; [lia|exact N].
    + assert (OK : AllDigits = Two \/ xstyle st <> HEXSTR_NON_ASCII_CHARS) by (right; discriminate).
      destruct (string_quote_lossless AllDigits _ _ st _ _ _ BS OK Q) as (body & b & W1 & W2 & W3 & _).
      exists body. split.
      * rewrite W1. unfold wrap. cbn [comment omit_quotes st]. rewrite app_nil_r. do 2 f_equal. lia.
      * rewrite W2. f_equal. destruct W3 as [W3|(_ & W3 & _)]; [|discriminate]. rewrite W3. unfold subject. cbn [q0term st]. unfold str.
        rewrite firstn_map. rewrite (map_ext _ (fun i => byte m a (known + N.of_nat i))) by (intros; apply BE). f_equal.
        replace (N.to_nat (upto - known)) with (N.to_nat (N.min (upto - known) (max_strlen o)) + N.to_nat (upto - known - max_strlen o))%nat by lia.
        rewrite seq_app, firstn_app, seq_length, Nat.sub_diag, firstn_O, app_nil_r. apply firstn_all2. rewrite seq_length. lia.
Qed.

(** ** The structures *)
Lemma members_cons r l k s : members (r :: l) k s = when (shown_if r k s) [Member (name r) (as_ r k) (value k r)] ++ members l k s.
Proof. unfold members. cbn [filter]. destruct (shown_if r k s); reflexivity. Qed.
Lemma members_nil k s : members [] k s = [].
Proof. reflexivity. Qed.
Ltac rows := rewrite !members_cons, members_nil; cbn [shown_if as_ name value off width]; unfold always, value; cbn [when off width app];
  unfold u64_at, u32_at, bit; rewrite <- ?app_assoc; cbn [app]; rewrite ?app_nil_r.

(** openat2: an address if the size is too small or the bytes cannot be read, else the members by name and value, then the rest. *)
Theorem C81_openat2 : forall o m a size, bytes_only m ->
  (24 <= size /\ accessible o m a 24 -> exists l, rest o m a 24 size l /\ print_open_how o m a size = Ok (Struct (members open_how (taken m a size 24) size ++ l))) /\
  (~ (24 <= size /\ accessible o m a 24) -> print_open_how o m a size = Ok (Address a)).
Proof.
  intros o m a size B. unfold print_open_how. split.
  - intros [L A]. destruct (tail_rest o m a 24 size B) as (l & T & R). exists l. split; [exact R|].
    replace (size <? 24) with false by lia. replace (N.to_nat (N.min size 24)) with 24%nat by lia.
    rewrite addr_some by exact A. rewrite (all_taken m a size) by (cbn; lia). rewrite T. cbn [rbind]. rewrite !ld_number. unfold open_how.
    change (64 + 4194304) with (N.lor (2^6) (2^22)). rewrite test_lor, !test_1, nz. rows. reflexivity.
  - intros A. destruct (size <? 24) eqn:E; [reflexivity|]. rewrite addr_none; [reflexivity|]. replace (N.to_nat (N.min size 24)) with 24%nat by lia.
    intros C. apply A. split; [lia|exact C].
Qed.
Print Assumptions C81_openat2.

(** mount_setattr and open_tree_attr *)
Theorem C81_mount_setattr : forall o m a size, bytes_only m ->
  (32 <= size /\ accessible o m a 32 -> exists l, rest o m a 32 size l /\ print_mount_attr o m a size = Ok (Struct (members mount_attr (taken m a size 32) size ++ l))) /\
  (~ (32 <= size /\ accessible o m a 32) -> print_mount_attr o m a size = Ok (Address a)).
Proof.
  intros o m a size B. unfold print_mount_attr. split.
  - intros [L A]. destruct (tail_rest o m a 32 size B) as (l & T & R). exists l. split; [exact R|].
    replace (size <? 32) with false by lia. replace (N.to_nat (N.min 32 size)) with 32%nat by lia.
    rewrite addr_some by exact A. rewrite (all_taken m a size) by (cbn; lia). rewrite T. cbn [rbind]. rewrite !ld_number. unfold mount_attr, idmap.
    change 0x100000 with (2^20). rewrite test_or_l, !test_1. rows. set (k := taken _ _ _ _).
    do 6 f_equal. destruct (N.testbit (number_at k 0 8) 20 || N.testbit (number_at k 8 8) 20); cbn [negb andb]; [|rewrite orb_true_r; reflexivity].
    rewrite orb_false_r. destruct (2^31 - 1 <? number_at k 24 8) eqn:F; [replace (number_at k 24 8 <? 2^31) with false by lia|replace (number_at k 24 8 <? 2^31) with true by lia]; reflexivity.
  - intros A. destruct (size <? 32) eqn:E; [reflexivity|]. rewrite addr_none; [reflexivity|]. replace (N.to_nat (N.min 32 size)) with 32%nat by lia.
    intros C. apply A. split; [lia|exact C].
Qed.
Print Assumptions C81_mount_setattr.

(** setxattrat *)
Theorem C81_setxattrat : forall o m a size, bytes_only m ->
  (16 <= size /\ accessible o m a 16 -> exists l, rest o m a 16 size l /\ print_xattr_args o m a size = Ok (Struct (members xattr_args (taken m a size 16) size ++ l))) /\
  (~ (16 <= size /\ accessible o m a 16) -> print_xattr_args o m a size = Ok (Address a)).
Proof.
  intros o m a size B. unfold print_xattr_args. split.
  - intros [L A]. destruct (tail_rest o m a 16 size B) as (l & T & R). exists l. split; [exact R|].
    replace (size <? 16) with false by lia. replace (N.to_nat (N.min size 16)) with 16%nat by lia.
    rewrite addr_some by exact A. rewrite (all_taken m a size) by (cbn; lia). rewrite T. cbn [rbind]. rewrite !ld_number. unfold xattr_args. rows. reflexivity.
  - intros A. destruct (size <? 16) eqn:E; [reflexivity|]. rewrite addr_none; [reflexivity|]. replace (N.to_nat (N.min size 16)) with 16%nat by lia.
    intros C. apply A. split; [lia|exact C].
Qed.
Print Assumptions C81_setxattrat.

(** landlock_create_ruleset: of a larger structure, only that there is more *)
Theorem C81_landlock : forall o m a size,
  (8 <= size /\ accessible o m a (N.min size 24) ->
     print_landlock o m a size = Ok (Struct (members landlock_ruleset_attr (taken m a size 24) size ++ if 24 <? size then [More] else []))) /\
  (~ (8 <= size /\ accessible o m a (N.min size 24)) -> print_landlock o m a size = Ok (Address a)).
Proof.
  intros o m a size. unfold print_landlock. split.
  - intros [L A]. replace (size <? 8) with false by lia.
    rewrite addr_some by (rewrite N2Nat.id; exact A). rewrite (filled_taken m a size 24 24 eq_refl). rewrite !ld_number. unfold landlock_ruleset_attr, begun. rows. reflexivity.
  - intros A. destruct (size <? 8) eqn:E; [reflexivity|]. rewrite addr_none; [reflexivity|]. rewrite N2Nat.id. intros C. apply A. split; [lia|exact C].
Qed.
Print Assumptions C81_landlock.

(** statmount, listmount: the structure begins with its size *)
Lemma taken_4 m a size n : (4 <= n)%nat -> 4 <= size -> number_at (taken m a size n) 0 4 = number_at (map (fun i => byte m a (N.of_nat i)) (seq 0 4)) 0 4.
Proof.
  intros L S4. unfold taken. destruct n as [|[|[|[|n]]]]; try lia. cbn [seq map]. rewrite !number_S. cbn [nth].
  change (N.of_nat 0) with 0. change (N.of_nat 1) with 1. change (N.of_nat 2) with 2. change (N.of_nat 3) with 3.
  replace (0 <? size) with true by lia. replace (1 <? size) with true by lia. replace (2 <? size) with true by lia. replace (3 <? size) with true by lia. reflexivity.
Qed.
Definition size_at (m : memory) (a : N) : N := number_at (taken m a 4 4) 0 4.
Lemma size_at_4 m a : number_at (map (fun i => byte m a (N.of_nat i)) (seq 0 4)) 0 4 = size_at m a.
Proof. unfold size_at. symmetry. apply taken_4; lia. Qed.
Lemma read_min o m a n n' : n' <= n -> accessible o m a n -> accessible o m a n'.
Proof. intros L [A C]. split; [exact A|]. intros i I. apply C. lia. Qed.
Theorem C81_mnt_id_req : forall listing o m a, bytes_only m -> let size := size_at m a in let k := taken m a size 32 in
  (~ accessible o m a 4 -> print_mnt_id_req listing o m a = Ok (Address a)) /\
  (accessible o m a 4 -> size < 24 -> print_mnt_id_req listing o m a = Ok (Struct [Member (bs "size") U size])) /\
  (accessible o m a 4 -> 24 <= size -> ~ can_read m a 0 (N.min size 32) -> print_mnt_id_req listing o m a = Ok (Struct [Member (bs "size") U size; Unavailable])) /\
  (accessible o m a 4 -> 24 <= size -> can_read m a 0 (N.min size 32) ->
     exists l, rest o m a 32 size l /\ print_mnt_id_req listing o m a = Ok (Struct (members (mnt_id_req listing) k size ++ l))).
Proof.
  intros listing o m a B size k. unfold print_mnt_id_req.
  split; [intros A; rewrite addr_none by exact A; reflexivity|].
  split; [|split].
  - intros A L. rewrite addr_some by exact A. rewrite ld_number, size_at_4. fold size. replace (size <? 24) with true by lia. reflexivity.
  - intros A L C. rewrite addr_some by exact A. rewrite ld_number, size_at_4. fold size. replace (size <? 24) with false by lia.
    rewrite N.min_comm, umoven_none by (rewrite N2Nat.id; exact C). reflexivity.
  - intros A L C. rewrite addr_some by exact A. rewrite !ld_number, size_at_4. fold size. replace (size <? 24) with false by lia.
    rewrite N.min_comm, umoven_some by (rewrite N2Nat.id; exact C). rewrite (filled_taken m a size 32 32 eq_refl). fold k. rewrite !ld_number.
    assert (E : number_at k 0 4 = size) by (unfold k; rewrite taken_4, size_at_4 by lia; reflexivity).
    rewrite E. destruct (tail_rest o m a 32 size B) as (l & T & R). exists l. split; [exact R|]. rewrite T. cbn [rbind].
    unfold mnt_id_req, whole. rewrite nz. rows. rewrite E. reflexivity.
Qed.
Print Assumptions C81_mnt_id_req.

(** sched_setattr: a size of 0 stands for 48 *)
Theorem C81_sched_setattr : forall o m a, let size := if size_at m a =? 0 then 48 else size_at m a in let k := taken m a size 56 in
  (~ accessible o m a 4 -> print_sched_set o m a = Address a) /\
  (accessible o m a 4 -> size < 48 -> print_sched_set o m a = Struct [Member (bs "size") U size]) /\
  (48 <= size -> ~ accessible o m a (N.min size 56) -> print_sched_set o m a = Address a) /\
  (48 <= size -> accessible o m a (N.min size 56) ->
     print_sched_set o m a = Struct (members (sched_attr true) k size ++ if 56 <? size then [More] else [])).
Proof.
  intros o m a size k.
  assert (SZ : accessible o m a 4 -> umoven_or_printaddr o m a 4 = Some (map (fun i => byte m a (N.of_nat i)) (seq 0 4))) by (intros A; apply addr_some; exact A).
  unfold print_sched_set. split; [intros A; rewrite addr_none by exact A; reflexivity|]. split; [|split].
  - intros A L. rewrite SZ by exact A. rewrite !ld_number, size_at_4. fold size. replace (48 <=? N.min size 56) with false by lia.
    unfold sched_fields. replace (N.min size 56 <? 48) with true by lia. replace (N.min size 56 <? size) with false by lia. cbn [when app].
    do 3 f_equal. rewrite ld_number. change (seq 0 4) with (seq 0 (N.to_nat (N.min 4 56))). rewrite (filled_taken m a 4 56 56 eq_refl), taken_4, size_at_4 by lia.
    subst size. destruct (size_at m a =? 0) eqn:Z; lia.
  - intros L A. destruct (read_dec m a 0 4) as [C4|C4].
    + assert (LK : looked_at o a \/ ~ looked_at o a).
      { unfold looked_at. destruct (N.eq_dec a 0), (verbose o), (failed o); intuition congruence. }
      destruct LK as [LK|LK].
      2:{ rewrite addr_none; [reflexivity|]. intros [X _]. tauto. }
      rewrite SZ by (split; auto). rewrite !ld_number, size_at_4. fold size. replace (48 <=? N.min size 56) with true by lia.
      rewrite addr_none; [reflexivity|]. rewrite N2Nat.id. exact A.
    + rewrite addr_none; [reflexivity|]. intros [_ X]. apply C4. exact X.
  - intros L A. rewrite SZ by (apply (read_min o m a (N.min size 56)); [lia|exact A]). rewrite !ld_number, size_at_4. fold size.
    replace (48 <=? N.min size 56) with true by lia. rewrite addr_some by (rewrite N2Nat.id; exact A). rewrite (filled_taken m a size 56 56 eq_refl). fold k.
    unfold sched_fields. rewrite !ld_number. replace (N.min size 56 <? 48) with false by lia.
    change (8 + 16) with (N.lor (2^3) (2^4)). change 16 with (2^4). rewrite test_lor, !test_1. unfold sched_attr, whole, keep_policy, keep_params, negative.
    replace (negb (N.min size 56 <? 56)) with (56 <=? size) by lia. replace (N.min size 56 <? size) with (56 <? size) by lia. rows. replace (48 <=? size) with true by lia.
    cbn [negb orb andb]. unfold when. destruct (N.testbit (number_at k 8 8) 4), (56 <=? size); cbn [negb andb]; rewrite <- ?app_assoc; reflexivity.
Qed.
Print Assumptions C81_sched_setattr.

(** sched_getattr: as large as the kernel says it is *)
Theorem C81_sched_getattr : forall o m a usize, let k := taken m a usize 56 in
  (accessible o m a (N.min usize 56) -> print_sched_get o m a usize = Struct (members (sched_attr false) k (u32_at k 0))) /\
  (~ accessible o m a (N.min usize 56) -> print_sched_get o m a usize = Address a).
Proof.
  intros o m a usize k. unfold print_sched_get. split; intros A.
  - rewrite addr_some by (rewrite N2Nat.id; exact A). rewrite (filled_taken m a usize 56 56 eq_refl). fold k.
    unfold sched_fields. rewrite !ld_number. unfold sched_attr, whole, keep_policy, keep_params, negative. rows. rewrite N.ltb_irrefl. cbn [negb orb andb].
    destruct (number_at k 0 4 <? 48) eqn:E.
    + replace (48 <=? number_at k 0 4) with false by lia. replace (56 <=? number_at k 0 4) with false by lia. reflexivity.
    + replace (48 <=? number_at k 0 4) with true by lia. destruct (number_at k 0 4 <? 56) eqn:E'.
      * replace (56 <=? number_at k 0 4) with false by lia. reflexivity.
      * replace (56 <=? number_at k 0 4) with true by lia. reflexivity.
  - rewrite addr_none; [reflexivity|]. rewrite N2Nat.id. exact A.
Qed.
Print Assumptions C81_sched_getattr.

(** clone3: on entering, the members and the rest; [namespaces]: the flags for which namespaces are shown on exiting *)
Theorem C81_clone3 : forall o ns m a size, bytes_only m -> let k := taken m a size 88 in
  (64 <= size /\ accessible o m a (N.min size 88) -> exists l, rest o m a (N.min size 88) size l /\
     clone3_enter o ns m a size = Ok (Struct (members clone_args k size ++ l), negb (flag 12 k || flag 20 k || negb (N.land (u64_at k 0) ns =? 0) || (88 <? size)))) /\
  (~ (64 <= size /\ accessible o m a (N.min size 88)) -> clone3_enter o ns m a size = Ok (Address a, true)).
Proof.
  intros o ns m a size B k. unfold clone3_enter. split.
  - intros [L A]. destruct (tail_rest o m a (N.min size 88) size B) as (l & T & R). exists l. split; [exact R|].
    replace (N.min size 88 <? 64) with false by lia. rewrite addr_some by (rewrite N2Nat.id; exact A). rewrite (filled_taken m a size 88 88 eq_refl). fold k.
    rewrite T. cbn [rbind]. rewrite !ld_number. change (0x1000 + 0x100000) with (N.lor (2^12) (2^20)). change (0x1000000 + 0x200000) with (N.lor (2^24) (2^21)).
    change 0x1000 with (2^12). change 0x100000 with (2^20). change 0x80000 with (2^19). change 0x200000000 with (2^33).
    rewrite !test_lor, !test_1, !nz. replace (N.min size 88 <? size) with (88 <? size) by lia. replace (80 <? N.min size 88) with (80 <? size) by lia.
    unfold clone_args, flag, tids, begun. rows. rewrite (orb_comm (N.testbit _ 33)). unfold test. rewrite ?nz.
    replace ((number_at k 64 8 =? 0) || (number_at k 72 8 =? 0) || (32 <? number_at k 72 8)) with (negb ((0 <? number_at k 64 8) && (0 <? number_at k 72 8) && (number_at k 72 8 <=? 32))) by lia.
    destruct ((0 <? number_at k 64 8) && _ && _); cbn [negb]; destruct ((0 <? number_at k 64 8) || _); cbn [when app]; rewrite <- ?app_assoc; cbn [app]; rewrite <- ?app_assoc; cbn [app]; reflexivity.
  - intros A. destruct (N.min size 88 <? 64) eqn:E; [reflexivity|]. rewrite addr_none; [reflexivity|]. rewrite N2Nat.id. intros C. apply A. split; [lia|exact C].
Qed.
Print Assumptions C81_clone3.

(** On exiting, from the memory as it is then: the numbers behind pidfd and parent_tid, if asked for, and the rest. *)
Definition stored (o : opts) (m : memory) (p : N) (v : option N) : Prop :=
  (accessible o m p 4 -> v = Some (u32_at (taken m p 4 4) 0)) /\ (~ accessible o m p 4 -> v = None).
Theorem C81_clone3_exit : forall o m a size, bytes_only m -> let k := taken m a size 88 in
  (failed o = true -> clone3_exit o m a size = Ok Nothing) /\
  (failed o = false -> ~ can_read m a 0 (N.min size 88) -> clone3_exit o m a size = Ok (AfterAddr a)) /\
  (failed o = false -> can_read m a 0 (N.min size 88) -> exists l v w, rest o m a (N.min size 88) size l /\ stored o m (u64_at k 8) v /\ stored o m (u64_at k 24) w /\
     let all := (if flag 12 k then [Behind (bs "pidfd") Fd (u64_at k 8) v] else []) ++ (if flag 20 k then [Behind (bs "parent_tid") U (u64_at k 24) w] else []) ++ map Rest l in
     (all = [] -> clone3_exit o m a size = Ok Nothing) /\ (all <> [] -> clone3_exit o m a size = Ok (AfterStruct all))).
Proof.
  intros o m a size B k. unfold clone3_exit. split; [intros ->; reflexivity|]. split.
  - intros -> C. rewrite umoven_none by (rewrite N2Nat.id; exact C). reflexivity.
  - intros F C. rewrite F. destruct (tail_rest o m a (N.min size 88) size B) as (l & T & R).
    exists l, (printnum_int o m (u64_at k 8)), (printnum_int o m (u64_at k 24)). split; [exact R|].
    assert (ST : forall p, stored o m p (printnum_int o m p)).
    { intros p. unfold printnum_int. split; intros A; [rewrite addr_some by exact A; rewrite ld_number, size_at_4; reflexivity|rewrite addr_none by exact A; reflexivity]. }
    split; [apply ST|]. split; [apply ST|].
    set (all := (if flag 12 k then _ else _) ++ _ ++ _).
    rewrite umoven_some by (rewrite N2Nat.id; exact C). rewrite (filled_taken m a size 88 88 eq_refl). fold k. rewrite T. cbn [rbind]. rewrite !ld_number.
    change 0x1000 with (2^12). change 0x100000 with (2^20). rewrite !test_1. fold (u64_at k 0) (u64_at k 8) (u64_at k 24). fold (bit (u64_at k 0) 12) (bit (u64_at k 0) 20).
    fold (flag 12 k) (flag 20 k). fold all. destruct all; split; congruence.
Qed.
Print Assumptions C81_clone3_exit.

(** Nothing is missed by not waiting for the call to return: when the size follows at once, there would have been nothing to add. *)
Theorem C81_clone3_now : forall o ns m a size l o', bytes_only m -> clone3_enter o ns m a size = Ok (Struct l, true) ->
  clone3_exit o' m a size = Ok Nothing.
Proof.
  intros o ns m a size l o' B E. destruct (C81_clone3 o ns m a size B) as [C1 C2]. set (k := taken m a size 88) in *.
  assert (D : 64 <= size /\ accessible o m a (N.min size 88)).
  { destruct (size <? 64) eqn:L; [exfalso; rewrite C2 in E by lia; discriminate|]. split; [lia|].
    destruct (umoven_or_printaddr o m a (N.to_nat (N.min size 88))) eqn:U.
    - unfold umoven_or_printaddr in U. destruct ((a =? 0) || negb (verbose o) || failed o) eqn:Q; [discriminate|].
      split; [unfold looked_at; destruct (verbose o), (failed o); cbn in Q; rewrite ?orb_true_r in Q; try discriminate; lia|].
      destruct (read_dec m a 0 (N.min size 88)) as [X|X]; [exact X|]. rewrite umoven_none in U by (rewrite N2Nat.id; exact X). discriminate.
    - exfalso. unfold clone3_enter in E. rewrite U in E. destruct (_ <? 64) in E; discriminate. }
  destruct (C1 D) as (l' & R & E'). rewrite E' in E.
  assert (N1 : negb (flag 12 k || flag 20 k || negb (N.land (u64_at k 0) ns =? 0) || (88 <? size)) = true) by congruence. clear E E' C1 C2.
  apply negb_true_iff in N1. apply orb_false_iff in N1. destruct N1 as [N1 SZ]. apply orb_false_iff in N1. destruct N1 as [N1 _]. apply orb_false_iff in N1. destruct N1 as [F1 F2].
  destruct (C81_clone3_exit o' m a size B) as (X1 & X2 & X3). destruct (failed o') eqn:F; [apply X1; reflexivity|].
  destruct (X3 eq_refl (proj2 (proj2 D))) as (t & v & w & RT & _ & _ & G & _). fold k in G. rewrite F1, F2 in G. apply G. cbn [app].
  unfold rest in RT. replace (N.min size (pagesize o') <=? N.min size 88) with true in RT by lia. rewrite RT. reflexivity.
Qed.
Print Assumptions C81_clone3_now.

(** ** Nothing is kept back *)
Theorem C81_layout : contiguous 0 open_how 24 /\ contiguous 0 mount_attr 32 /\ contiguous 0 xattr_args 16 /\ contiguous 0 landlock_ruleset_attr 24 /\
  (forall b, contiguous 0 (mnt_id_req b) 32) /\ (forall b, contiguous 0 (sched_attr b) 56) /\ contiguous 0 clone_args 88.
Proof. cbn. tauto. Qed.
Print Assumptions C81_layout.

Lemma beyond_zero m a size n : forall w off, size <= N.of_nat off -> number_at (taken m a size n) off w = 0.
Proof.
  induction w as [|w IH]; intros off L; [reflexivity|]. rewrite number_S, IH by lia. unfold taken.
  destruct (Nat.ltb_spec off n) as [O|O].
  - set (f := fun i : nat => if N.of_nat i <? size then byte m a (N.of_nat i) else 0). rewrite (nth_indep _ 0 (f 0%nat)) by (rewrite map_length, seq_length; exact O).
    rewrite map_nth, seq_nth by exact O. cbn [plus]. unfold f. replace (N.of_nat off <? size) with false by lia. reflexivity.
  - rewrite nth_overflow by (rewrite map_length, seq_length; exact O). reflexivity.
Qed.
(** A member that is not 0 and that the kernel uses is shown.
    Partial: not the policy of a sched_setattr that keeps the parameters only, nor mnt_ns_id in a structure that ends in it; see below. *)
Theorem C81_shown_partial : forall m a size n l r, let k := taken m a size n in
  plain_size l k size -> In r l -> used r k = true -> value k r <> 0 -> shown_if r k size = true.
Proof.
  intros m a size n l r k P I US V.
  assert (Z : forall w off, size <= N.of_nat off -> number_at k off w = 0) by (intros; apply beyond_zero; assumption).
  unfold plain_size in P. destruct P as [->|[->|[->|[->|[->|[(b & -> & P)|(-> & P & PU & PK)]]]]]]; cbn [In open_how mount_attr xattr_args landlock_ruleset_attr clone_args mnt_id_req sched_attr] in I;
    repeat (destruct I as [<-|I]; [cbn [shown_if used value off width] in *; try reflexivity; unfold value in V; cbn [off width] in V; unfold u64_at, u32_at in *|]); try destruct I.
  - lia.
  - unfold begun. destruct (8 <? size) eqn:E; [reflexivity|]. rewrite Z in V by lia. lia.
  - unfold begun. destruct (16 <? size) eqn:E; [reflexivity|]. rewrite Z in V by lia. lia.
  - exact US.
  - exact US.
  - exact US.
  - exact US.
  - unfold tids, u64_at. lia.
  - unfold tids, u64_at. lia.
  - unfold begun. destruct (80 <? size) eqn:E; [rewrite US; reflexivity|]. rewrite Z in V by lia. lia.
  - lia.
  - unfold whole. destruct (32 <=? size) eqn:E; [reflexivity|]. rewrite Z in V by lia. lia.
  - unfold whole. replace (48 <=? size) with true by lia. cbn [andb negb orb]. destruct (negative k), (keep_policy k), (keep_params k); cbn in *; try reflexivity; try discriminate. specialize (PK eq_refl). discriminate.
  - unfold whole. lia.
  - unfold whole. replace (48 <=? size) with true by lia. exact US.
  - unfold whole. replace (48 <=? size) with true by lia. exact US.
  - unfold whole. replace (48 <=? size) with true by lia. exact US.
  - unfold whole. replace (48 <=? size) with true by lia. exact US.
  - unfold whole. replace (48 <=? size) with true by lia. exact US.
  - unfold whole. rewrite US in PU. cbn [orb] in PU. specialize (PU eq_refl). lia.
  - unfold whole. rewrite US, orb_true_r in PU. specialize (PU eq_refl). lia.
Qed.
Print Assumptions C81_shown_partial.

(** So calls that the kernel tells apart look different: if the members are shown alike, the used ones are the same. *)
Lemma in_members l k s n K v : In (Member n K v) (members l k s) <-> exists r, In r l /\ shown_if r k s = true /\ n = name r /\ K = as_ r k /\ v = value k r.
Proof.
  unfold members. rewrite in_map_iff. split.
  - intros (r & E & I). apply filter_In in I. inversion E. exists r. intuition auto.
  - intros (r & I & S1 & -> & -> & ->). exists r. split; [reflexivity|]. apply filter_In. auto.
Qed.
Lemma names_apart l k s : plain_size l k s -> NoDup (map name l).
Proof.
  intros P. unfold plain_size in P.
  assert (D : forall l : list (list N), (fix f l := match l with [] => true | x :: l => negb (existsb (beqs x) l) && f l end) l = true -> NoDup l).
  { clear. induction l as [|x l IH]; intros H; [constructor|]. apply andb_true_iff in H. destruct H as [H1 H2]. constructor; [|auto].
    intros I. apply negb_true_iff in H1. rewrite <- not_true_iff_false, existsb_exists in H1. apply H1. exists x. split; [exact I|]. apply beqs_eq. reflexivity. }
  destruct P as [->|[->|[->|[->|[->|[(b & -> & P)|(-> & P)]]]]]]; apply D; reflexivity.
Qed.
Lemma by_name (l : list row) : NoDup (map name l) -> forall r r', In r l -> In r' l -> name r = name r' -> r = r'.
Proof.
  induction l as [|x l IH]; intros N r r' I I' E; [destruct I|]. inversion N as [|? ? N1 N2]; subst.
  destruct I as [<-|I], I' as [<-|I']; [reflexivity| | |auto].
  - exfalso. apply N1. rewrite E. apply in_map. exact I'.
  - exfalso. apply N1. rewrite <- E. apply in_map. exact I.
Qed.
Theorem C81_told_apart_partial : forall m a size m' a' size' n l r, let k := taken m a size n in let k' := taken m' a' size' n in
  plain_size l k size -> plain_size l k' size' -> members l k size = members l k' size' ->
  In r l -> used r k = true -> used r k' = true -> value k r = value k' r.
Proof.
  intros m a size m' a' size' n l r k k' P P' E I US US'. pose proof (names_apart _ _ _ P) as ND.
  assert (G : forall k k' s s', members l k s = members l k' s' -> shown_if r k s = true -> value k r = value k' r).
  { clear -ND I. intros k k' s s' E SH. assert (J : In (Member (name r) (as_ r k) (value k r)) (members l k' s')).
    { rewrite <- E. apply in_members. exists r. auto. }
    apply in_members in J. destruct J as (r' & I' & _ & EN & _ & EV). rewrite (by_name l ND r r' I I' EN) at 2. exact EV. }
  destruct (N.eq_dec (value k r) 0) as [Z|Z].
  - destruct (N.eq_dec (value k' r) 0) as [Z'|Z']; [congruence|]. symmetry. apply (G k' k size' size (eq_sym E)). apply (C81_shown_partial m' a' size' n l r); assumption.
  - apply (G k k' size size' E). apply (C81_shown_partial m a size n l r); assumption.
Qed.
Print Assumptions C81_told_apart_partial.

(** ** Examples, and what is not shown *)
Definition mem_of (l : list N) : memory := fun x => if x <? 4096 then None else nth_error l (N.to_nat (x - 4096)).
Definition plain : opts := {| verbose := true; failed := false; max_strlen := 32; pagesize := 4096 |}.
Definition le64 (v : N) : list N := map (fun i => v / 256 ^ N.of_nat i mod 256) (seq 0 8).
Definition le32 (v : N) : list N := map (fun i => v / 256 ^ N.of_nat i mod 256) (seq 0 4).
Lemma mem_bytes l : Forall (fun b => b < 256) l -> bytes_only (mem_of l).
Proof. intros F x b E. unfold mem_of in E. destruct (x <? 4096); [discriminate|]. apply nth_error_In in E. rewrite Forall_forall in F. auto. Qed.
Lemma mem_read l n : n <= N.of_nat (length l) -> n < 2^32 -> can_read (mem_of l) 4096 0 n.
Proof.
  intros L B i I. unfold at_, mem_of. rewrite N.mod_small by lia. replace (4096 + i <? 4096) with false by lia.
  apply nth_error_Some. lia.
Qed.
Lemma mem_ok l n : n <= N.of_nat (length l) -> n < 2^32 -> accessible plain (mem_of l) 4096 n.
Proof. intros L B. split; [repeat split; discriminate|]. apply mem_read; assumption. Qed.

(** openat2 with a size of 32, mode 0644, and something unknown at the end *)
Definition how : list N := le64 65 ++ le64 420 ++ le64 4 ++ [0; 0; 7; 0; 0; 0; 0; 0].
Example how_ok : bytes_only (mem_of how) /\ 24 <= 32 /\ accessible plain (mem_of how) 4096 24.
Proof. split; [apply mem_bytes; repeat constructor|]. split; [lia|]. apply mem_ok; cbn; lia. Qed.
Example ex_how : print_open_how plain (mem_of how) 4096 32 =
  Ok (Struct [Member (bs "flags") (Flags (bs "open_mode_flags")) 65; Member (bs "mode") Mode 420; Member (bs "resolve") (Flags (bs "open_resolve_flags")) 4;
              Bytes 24 31 (bs """\x00\x00\x07\x00\x00\x00\x00\x00""") false]).
Proof. vm_compute. reflexivity. Qed.

(** clone3 with CLONE_PIDFD and a thread ID asked for, size 80 *)
Definition cl : list N := le64 0x1000 ++ le64 5000 ++ le64 0 ++ le64 0 ++ le64 17 ++ le64 0 ++ le64 0 ++ le64 0 ++ le64 6000 ++ le64 1.
Example ex_clone : clone3_enter plain 0 (mem_of cl) 4096 80 =
  Ok (Struct [Member (bs "flags") (Flags (bs "clone_flags")) 0x1000; Member (bs "pidfd") Addr64 5000; Member (bs "exit_signal") Signal 17; Member (bs "stack") Addr64 0;
              Member (bs "stack_size") X 0; Member (bs "set_tid") (Tids 1) 6000; Member (bs "set_tid_size") U 1], false).
Proof. vm_compute. reflexivity. Qed.
Example ex_clone_exit : clone3_exit plain (mem_of (cl ++ repeat 0 824 ++ le64 9)) 4096 80 = Ok (AfterStruct [Behind (bs "pidfd") Fd 5000 (Some 9)]).
Proof. vm_compute. reflexivity. Qed.

(** In full it is false of sched_setattr: with SCHED_FLAG_KEEP_PARAMS alone the policy is used, but not shown. *)
Definition sched (size policy flags rest : N) : list N := le32 size ++ le32 policy ++ le64 flags ++ repeat 0 40 ++ le64 rest.
Theorem C81_policy_refuted : exists m m', let k := taken m 4096 56 56 in let k' := taken m' 4096 56 56 in exists r, In r (sched_attr true) /\ name r = bs "sched_policy" /\
  size_at m 4096 = 56 /\ size_at m' 4096 = 56 /\ used r k = true /\ used r k' = true /\ value k r <> value k' r /\
  print_sched_set plain m 4096 = print_sched_set plain m' 4096 /\ print_sched_set plain m 4096 <> Address 4096.
Proof.
  exists (mem_of (sched 56 1 16 0)), (mem_of (sched 56 2 16 0)). cbv zeta. exists (nth 1 (sched_attr true) (R [] 0 0 (fun _ => U) always yes)).
  split; [right; left; reflexivity|]. repeat split; try reflexivity; vm_compute; discriminate.
Qed.
Print Assumptions C81_policy_refuted.

(** Nor of statmount: a size between that of the first and of the second version gives part of mnt_ns_id, which is used but not shown. *)
Theorem C81_ns_id_refuted : exists m m', let k := taken m 4096 28 32 in let k' := taken m' 4096 28 32 in exists r, In r (mnt_id_req false) /\ name r = bs "mnt_ns_id" /\
  size_at m 4096 = 28 /\ size_at m' 4096 = 28 /\ used r k = true /\ used r k' = true /\ value k r <> value k' r /\
  print_mnt_id_req false plain m 4096 = print_mnt_id_req false plain m' 4096 /\ print_mnt_id_req false plain m 4096 <> Ok (Address 4096).
Proof.
  exists (mem_of (le32 28 ++ le32 0 ++ le64 1 ++ le64 2 ++ le32 3)), (mem_of (le32 28 ++ le32 0 ++ le64 1 ++ le64 2 ++ le32 4)). cbv zeta.
  exists (nth 4 (mnt_id_req false) (R [] 0 0 (fun _ => U) always yes)).
  split; [do 4 right; left; reflexivity|]. repeat split; try reflexivity; vm_compute; discriminate.
Qed.
Print Assumptions C81_ns_id_refuted.

(** And of sched_getattr: of a larger structure that a newer kernel writes, it is not even shown that there is more; the comparison
    that should find out is one of a number with itself. *)
Theorem C81_getattr_more_refuted : exists m m', size_at m 4096 = 64 /\ size_at m' 4096 = 64 /\ byte m 4096 60 <> byte m' 4096 60 /\
  print_sched_get plain m 4096 64 = print_sched_get plain m' 4096 64 /\
  exists l, print_sched_get plain m 4096 64 = Struct l /\ ~ In More l.
Proof.
  exists (mem_of (sched 64 1 0 0)), (mem_of (sched 64 1 0 (256^4))). split; [reflexivity|]. split; [reflexivity|]. split; [vm_compute; discriminate|]. split; [vm_compute; reflexivity|].
  eexists. split; [vm_compute; reflexivity|]. cbn [In]. intuition discriminate.
Qed.
Print Assumptions C81_getattr_more_refuted.
