(** C112: how mount is shown. *)
From Verif Require Import Base Printf XlatModel TvalSpec NumaSpec VmSpec FlagText MountModel MountSpec.
From Verif Require BitsModel TvalModel TvalThms NumaModel NumaThms AioThms.
Local Open Scope N_scope.

Lemma names_ok s v : names_text s v (printflags_ex v (Some (bs "MS_???")) s FMT_X [mount_flags]).
Proof.
  apply (flags_ok s mount_flags None (bs "MS_???") mount_bits v); [| | |discriminate].
  - intros g. unfold mount_flags, mount_bits. cbn [data]. apply (T_bit _ 0); apply (T_bit _ 1); apply (T_bit _ 2); apply (T_bit _ 3); apply (T_bit _ 4); apply (T_bit _ 5); apply (T_bit _ 6); apply (T_bit _ 7); apply (T_bit _ 8).
    apply (T_bit _ 10); apply (T_bit _ 11); apply (T_bit _ 12); apply (T_bit _ 13); apply (T_bit _ 14); apply (T_bit _ 15); apply (T_bit _ 16); apply (T_bit _ 17); apply (T_bit _ 18); apply (T_bit _ 19); apply (T_bit _ 20).
    apply (T_bit _ 21); apply (T_bit _ 22); apply (T_bit _ 23); apply (T_bit _ 24); apply (T_bit _ 25); apply (T_bit _ 26); apply (T_bit _ 27); apply (T_bit _ 28); apply (T_bit _ 29); apply (T_bit _ 30); apply (T_bit _ 31); apply T_nil.
  - unfold mount_flags. cbn [data]. split; [reflexivity|]. intros g ->. split; [reflexivity|]. destruct s; reflexivity.
  - repeat constructor; cbn; intuition discriminate.
Qed.
Lemma land_upper v : N.land v 0xffff0000 = (v / 2 ^ 16 mod 2 ^ 16) * 2 ^ 16.
Proof.
  rewrite <- N.shiftr_div_pow2, <- N.land_ones, <- N.shiftl_mul_pow2. apply N.bits_inj. intros k. change 0xffff0000 with (N.shiftl (N.ones 16) 16). rewrite N.land_spec.
  destruct (N.ltb_spec k 16) as [L|L].
  - rewrite !N.shiftl_spec_low by exact L. apply andb_false_r.
  - rewrite !N.shiftl_spec_high' by exact L. rewrite N.land_spec, N.shiftr_spec'. do 2 f_equal. lia.
Qed.
Lemma magic_ok v : old_magic v = true <-> magic v.
Proof. unfold old_magic, magic. rewrite land_upper, N.eqb_eq. lia. Qed.
Lemma not_magic v : old_magic v = false <-> ~ magic v.
Proof. rewrite <- magic_ok. destruct (old_magic v); split; congruence. Qed.
Lemma lower v : N.land v 0xffff = v mod 2 ^ 16.
Proof. change 0xffff with (N.ones 16). apply N.land_ones. Qed.
Lemma used_ok v f : used v f -> no_magic v = f.
Proof. unfold no_magic. intros [[M ->]|[M ->]]; [apply magic_ok in M|apply not_magic in M]; rewrite M; [apply lower|reflexivity]. Qed.
Lemma flags_text_ok s v : mountflags_text s v (flags s v).
Proof.
  unfold flags, no_magic. split.
  - intros M. apply not_magic in M. rewrite M, orb_true_r. apply names_ok.
  - intros M. apply magic_ok in M. rewrite M, orb_false_r, lower. exists (print_magic s). split.
    + exists (pr_hex 0xc0ed0000). split; [apply (NumaThms.hex_ok 0xc0ed0000)|]. destruct s; reflexivity.
    + destruct (N.eqb_spec (v mod 2 ^ 16) 0) as [Z|Z]; (split; intros H; try contradiction).
      * cbn [negb]. rewrite !app_nil_r. reflexivity.
      * cbn [negb]. eexists. split; [apply names_ok|]. rewrite <- app_assoc. reflexivity.
Qed.
Lemma remount_ok f : remount f = is_remount f.
Proof. unfold remount, is_remount. exact (AioThms.land_bit f 5). Qed.
Lemma change_ok f : change f = is_change f.
Proof.
  unfold change, is_change. cbn [existsb]. rewrite orb_false_r. rewrite <- !AioThms.land_bit.
  change 0x1e3000 with (N.lor (2 ^ 12) (N.lor (2 ^ 13) (N.lor (2 ^ 17) (N.lor (2 ^ 18) (N.lor (2 ^ 19) (2 ^ 20)))))).
  assert (A : forall a b, negb (N.lor a b =? 0) = negb (a =? 0) || negb (b =? 0)).
  { intros a b. destruct (N.eqb_spec (N.lor a b) 0) as [E|E].
    - apply N.lor_eq_0_iff in E. destruct E as [-> ->]. reflexivity.
    - destruct (N.eqb_spec a 0) as [-> |]; [|reflexivity]. rewrite N.lor_0_l in E. apply N.eqb_neq in E. rewrite E. reflexivity. }
  rewrite !N.land_lor_distr_r, !A. reflexivity.
Qed.

(** ---- C112: the flags are named, with the magic number if there is one; what the kernel does not look at is shown as an address ---- *)
Theorem C112_mount : forall path str s a0 a1 a2 a3 a4 f, used a3 f ->
  exists y t d, (if is_remount f || is_change f then address y a2 else y = str a2) /\ mountflags_text s a3 t /\
    (if negb (is_remount f) && is_change f then address d a4 else d = str a4) /\ mount path str s a0 a1 a2 a3 a4 = commas [path a0; path a1; y; t; d].
Proof.
  intros path str s a0 a1 a2 a3 a4 f U. unfold mount. rewrite NumaThms.args_commas, (used_ok a3 f U). unfold ignore_type, ignore_data. rewrite remount_ok, change_ok.
  do 3 eexists. split; [|split; [apply flags_text_ok|split; [|reflexivity]]].
  - destruct (is_remount f || is_change f); [apply TvalThms.printaddr_ok|reflexivity].
  - destruct (negb (is_remount f) && is_change f); [apply TvalThms.printaddr_ok|reflexivity].
Qed.
Print Assumptions C112_mount.
(** Any flags are used in one way *)
Theorem C112_used : forall v, exists f, used v f /\ forall f', used v f' -> f' = f.
Proof.
  intros v. exists (no_magic v). split; [|intros f' U; symmetry; apply used_ok, U]. unfold used, no_magic. destruct (old_magic v) eqn:M.
  - left. split; [apply magic_ok, M|apply lower].
  - right. split; [apply not_magic, M|reflexivity].
Qed.
Print Assumptions C112_used.
(** With the magic number, bits above 31 do not appear: the text does not determine the flags, not even with -X raw *)
Theorem C112_high_bits_refuted : exists v v', v < 2 ^ 64 /\ v' < 2 ^ 64 /\ v <> v' /\ forall path str s a0 a1 a2 a4, mount path str s a0 a1 a2 v a4 = mount path str s a0 a1 a2 v' a4.
Proof.
  exists 0xc0ed0001, (2 ^ 32 + 0xc0ed0001). split; [reflexivity|]. split; [reflexivity|]. split; [discriminate|]. intros path str s a0 a1 a2 a4. unfold mount, flags.
  change (old_magic (2 ^ 32 + 0xc0ed0001)) with (old_magic 0xc0ed0001). change (no_magic (2 ^ 32 + 0xc0ed0001)) with (no_magic 0xc0ed0001). reflexivity.
Qed.
Print Assumptions C112_high_bits_refuted.

Example C112_example :
  let m := mount (fun _ => bs "P") (fun _ => bs "S") BitsModel.XABBREV 1 2 in
  m 0x1000 0xc0ed0001 0x2000 = bs "P, P, S, MS_MGC_VAL|MS_RDONLY, S" /\ m 0x1000 0xc0ed0000 0x2000 = bs "P, P, S, MS_MGC_VAL, S" /\ m 0x1000 0 0x2000 = bs "P, P, S, 0, S" /\
  m 0x1000 0x5000 0 = bs "P, P, 0x1000, MS_BIND|MS_REC, NULL" /\ m 0x1000 0x1020 0x2000 = bs "P, P, 0x1000, MS_REMOUNT|MS_BIND, S" /\
  used 0xc0ed1000 0x1000 /\ magic 0xc0ed1000 /\ m 0x1000 0xc0ed1000 0x2000 = bs "P, P, 0x1000, MS_MGC_VAL|MS_BIND, 0x2000".
Proof. repeat split; try (vm_compute; reflexivity). left. split; reflexivity. Qed.
