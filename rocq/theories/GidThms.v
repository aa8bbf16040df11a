(** C96: how user and group IDs and lists of groups are shown. *)
From Verif Require Import Base Printf TvalModel TvalSpec TvalThms.
From Verif Require Import GidModel.
From Verif Require ArrayModel ArraySpec ArrayThms InfoModel InfoSpec InfoThms.
Local Open Scope N_scope.

(** C96: an ID is shown as its number, and the value of all ones as -1. *)
Theorem C96_id : forall b v, b = 16 \/ b = 32 -> v < 2 ^ 64 ->
  let id := v mod 2 ^ b in
  (id = 2 ^ b - 1 /\ printuid b v = bs "-1") \/ (id <> 2 ^ b - 1 /\ number (printuid b v) id).
Proof.
  intros b v B V id. unfold printuid, print_val_id.
  assert (E : u32 v mod 2 ^ b = id).
  { unfold u32, id. destruct B as [-> | ->]; [|apply N.mod_mod; discriminate].
    change (2 ^ 32) with (2 ^ 16 * 2 ^ 16). rewrite N.mod_mul_r by discriminate. rewrite N.mul_comm, N.mod_add, N.mod_mod by discriminate. reflexivity. }
  rewrite E. destruct (N.eqb_spec id (2 ^ b - 1)); [left; auto|right; split; [auto|apply (udec_number id)]].
Qed.
Print Assumptions C96_id.
(** C96: different IDs are shown differently. *)
Theorem C96_distinct : forall b u v, b = 16 \/ b = 32 -> u < 2 ^ b -> v < 2 ^ b -> printuid b u = printuid b v -> u = v.
Proof.
  intros b u v B U V E.
  assert (M : 2 ^ b <= 2 ^ 32) by (destruct B as [-> | ->]; [discriminate|reflexivity]). assert (M' : 2 ^ 32 < 2 ^ 64) by reflexivity.
  pose proof (C96_id b u B ltac:(lia)) as HU. pose proof (C96_id b v B ltac:(lia)) as HV. cbv zeta in HU, HV.
  rewrite N.mod_small in HU, HV by assumption.
  assert (X : forall n, number (bs "-1") n -> False). { intros n H. apply number_digits in H. inversion H as [|? ? [X _] _]; subst. apply X. reflexivity. }
  destruct HU as [[HU1 HU2]|[HU1 HU2]]; destruct HV as [[HV1 HV2]|[HV1 HV2]].
  - congruence.
  - exfalso. rewrite <- E, HU2 in HV2. exact (X _ HV2).
  - exfalso. rewrite E, HV2 in HU2. exact (X _ HU2).
  - rewrite E in HU2. eapply number_fun; eauto.
Qed.
Print Assumptions C96_distinct.
(** C96: an element of the list is shown as the ID its bytes are. *)
Theorem C96_element : forall w b, w = 2%nat \/ w = 4%nat -> length b = w -> Forall (fun x => x < 256) b ->
  let bits := 8 * N.of_nat w in let id := InfoSpec.number_at b 0 w in
  (id = 2 ^ bits - 1 /\ print_gid bits b = bs "-1") \/ (id <> 2 ^ bits - 1 /\ number (print_gid bits b) id).
Proof.
  intros w b W L BB bits id. unfold print_gid. assert (E : InfoModel.le_num b = id).
  { unfold id. rewrite <- InfoThms.ld_number. unfold InfoModel.ld. rewrite <- L. cbn [skipn]. rewrite firstn_all. reflexivity. }
  pose proof (InfoThms.number_lt b BB w 0) as U. fold id in U. rewrite E.
  assert (P : 256 ^ N.of_nat w = 2 ^ bits) by (unfold bits; change 256 with (2 ^ 8); rewrite <- N.pow_mul_r; reflexivity). rewrite P in U.
  assert (B : bits = 16 \/ bits = 32) by (unfold bits; destruct W as [-> | ->]; auto).
  assert (M : 2 ^ bits <= 2 ^ 32) by (destruct B as [-> | ->]; [discriminate|reflexivity]). assert (M' : 2 ^ 32 < 2 ^ 64) by reflexivity.
  pose proof (C96_id bits id B ltac:(lia)) as H. cbv zeta in H. rewrite N.mod_small in H by exact U. exact H.
Qed.
Print Assumptions C96_element.

(** The list as an array, what C49 is about. *)
Definition groups (e : env) (n addr : N) : ArrayModel.arr :=
  ArrayModel.mk_arr addr n (bits e / 8) false (fetch e) (fun _ => true) false false (abbrev e) (max_strlen e).
Definition shown (e : env) (n : N) : N := if abbrev e then N.min n (max_strlen e) else n.
(** C96: the list of setgroups, and of getgroups if it succeeded, is that of the [n] IDs at the address, in order, each from its own bytes, cut short only by -s. *)
Theorem C96_list : forall e n addr, bits e = 16 \/ bits e = 32 -> 0 < n -> n <= ngroups_max e -> n < 2 ^ 32 -> 0 < addr -> addr + n * (bits e / 8) < 2 ^ 64 ->
  (forall i, i < n -> fetch e (addr + i * (bits e / 8)) <> None) ->
  exists ids, length ids = N.to_nat (shown e n) /\
    (forall i, (i < length ids)%nat -> fetch e (addr + N.of_nat i * (bits e / 8)) = Some (nth i ids [])) /\
    print_groups e n addr = ArraySpec.brackets (map (fun b => [ArrayModel.Elem b]) ids ++ if shown e n <? n then [[ArrayModel.More]] else []).
Proof.
  intros e n addr B NP NM N32 AP AE R. unfold print_groups. replace (u32 n) with n by (unfold u32; symmetry; apply N.mod_small, N32).
  replace (ngroups_max e <? n) with false by lia. fold (groups e n addr).
  assert (ES : 0 < bits e / 8) by (destruct B as [-> | ->]; reflexivity).
  assert (F : ArraySpec.fits (groups e n addr)) by (unfold ArraySpec.fits, groups; cbn [ArrayModel.start ArrayModel.nmemb ArrayModel.esize]; lia).
  assert (L : ArraySpec.limit (groups e n addr) = N.to_nat (shown e n)) by reflexivity.
  assert (LN : shown e n <= n) by (unfold shown; destruct (abbrev e); lia).
  assert (G : forall i, (i < N.to_nat n)%nat -> exists v, fetch e (addr + N.of_nat i * (bits e / 8)) = Some v).
  { intros i Hi. specialize (R (N.of_nat i) ltac:(lia)). destruct (fetch e _) as [v|]; [eauto|congruence]. }
  destruct (ArrayThms.C49_whole_partial (groups e n addr) F (fun _ => N32)) as (fe & Q).
  { intros i Hi. rewrite L in Hi. destruct (G i ltac:(lia)) as [v Hv]. exists v. split; [exact Hv|reflexivity]. }
  { intros Hi. rewrite L. rewrite L in Hi. cbn [groups ArrayModel.nmemb] in Hi. destruct (G (N.to_nat (shown e n)) Hi) as [v Hv].
    unfold ArraySpec.addr, groups. cbn [ArrayModel.fetch ArrayModel.start ArrayModel.esize]. congruence. }
  exists (map (fun i => match fetch e (addr + N.of_nat i * (bits e / 8)) with Some v => v | None => [] end) (seq 0 (N.to_nat (shown e n)))).
  split; [rewrite map_length, seq_length; reflexivity|]. split.
  - intros i Hi. rewrite map_length, seq_length in Hi. destruct (G i ltac:(lia)) as [v Hv]. rewrite Hv. f_equal.
    set (f := fun i => match fetch e (addr + N.of_nat i * (bits e / 8)) with Some v => v | None => [] end).
    rewrite (nth_indep _ [] (f O)) by (rewrite map_length, seq_length; lia). rewrite map_nth, seq_nth by lia. unfold f. cbn [Nat.add]. rewrite Hv. reflexivity.
  - rewrite Q. cbn [snd]. rewrite L. f_equal. f_equal.
    + unfold ArraySpec.items. rewrite map_map. apply map_ext_in. intros i Hi. apply in_seq in Hi. destruct (G i ltac:(lia)) as [v Hv].
      unfold ArraySpec.item, ArraySpec.addr, groups. cbn [ArrayModel.fetch ArrayModel.start ArrayModel.esize ArrayModel.paf_indices]. rewrite Hv. reflexivity.
    + cbn [groups ArrayModel.nmemb ArrayModel.paf_truncated]. rewrite orb_false_r.
      destruct (Nat.ltb_spec (N.to_nat (shown e n)) (N.to_nat n)); destruct (N.ltb_spec (shown e n) n); try lia; reflexivity.
Qed.
Print Assumptions C96_list.
(** C96: a number of groups greater than the system allows, such as the result of a failed call, is not a list: the address is shown. *)
Theorem C96_address : forall e n addr, ngroups_max e < n mod 2 ^ 32 -> print_groups e n addr = [ArrayModel.Addr addr].
Proof. intros e n addr H. unfold print_groups. replace (ngroups_max e <? u32 n) with true by (unfold u32; lia). reflexivity. Qed.
Print Assumptions C96_address.
(** a failed call: -errno as a result, or -1 *)
Theorem C96_failed : forall e size addr, ngroups_max e < 2 ^ 31 -> snd (sys_getgroups e size (2 ^ 64 - 1) addr) = [ArrayModel.Addr addr].
Proof. intros e size addr H. cbn [sys_getgroups snd]. apply C96_address. change ((2 ^ 64 - 1) mod 2 ^ 32) with (2 ^ 32 - 1). change (2 ^ 31) with 2147483648 in H. change (2 ^ 32 - 1) with 4294967295. lia. Qed.
Print Assumptions C96_failed.

(** What getgroups returns in the list: nothing if the size was 0, otherwise as many IDs as it returns. *)
Definition written (size rval : N) : N := if size =? 0 then 0 else rval.
(** C96: after getgroups of size 0, which only asks for the number of groups, memory that getgroups did not write is shown as the list. *)
Theorem C96_size_zero_refuted : ~ (forall e size rval addr ids,
  rval < 2 ^ 31 -> ngroups_max e = 65536 ->
  snd (sys_getgroups e size rval addr) = ArraySpec.brackets (map (fun b => [ArrayModel.Elem b]) ids) ->
  N.of_nat (length ids) <= written size rval).
Proof.
  intros H. specialize (H {| bits := 32; ngroups_max := 65536; fetch := fun _ => Some [42; 0; 0; 0]; abbrev := true; max_strlen := 32 |} 0 2 4096 [[42; 0; 0; 0]; [42; 0; 0; 0]] ltac:(reflexivity) eq_refl).
  specialize (H ltac:(vm_compute; reflexivity)). vm_compute in H. congruence.
Qed.
Print Assumptions C96_size_zero_refuted.

Definition g_env : env := {| bits := 32; ngroups_max := 65536; fetch := fun a => if a <? 4108 then Some [a mod 256; 0; 0; 0] else None; abbrev := true; max_strlen := 2 |}.
Example C96_ex : snd (sys_setgroups g_env 3 4096) = [ArrayModel.Begin; ArrayModel.Elem [0; 0; 0; 0]; ArrayModel.Next; ArrayModel.Elem [4; 0; 0; 0]; ArrayModel.Next; ArrayModel.More; ArrayModel.End]
  /\ print_gid 32 [4; 0; 0; 0] = bs "4" /\ print_gid 16 [255; 255] = bs "-1" /\ fst (sys_setgroups g_env (2 ^ 32 - 1) 0) = bs "-1".
Proof. vm_compute. auto. Qed.
