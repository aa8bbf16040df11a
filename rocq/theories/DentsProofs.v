From Verif Require Import Base DentsModel DentsSpec.
Import ListNotations.
Local Open Scope N_scope.

Lemma u64_small x : x < 2 ^ 64 -> u64 x = x.
Proof. intros. unfold u64. apply N.mod_small. exact H. Qed.

Lemma tail_regions y m a n base len : a < 2 ^ 64 -> a + n <= 2 ^ 64 -> base <= a -> a + n <= base + len ->
  Forall (inside base len) (flat_map region (fst (decode_dentry_tail y m a n))).
Proof.
  intros Ha Hn Hb Hl. unfold decode_dentry_tail, D_NAME_LEN_MAX. destruct (l_64 y).
  - destruct (N.eqb_spec n 0); cbn [fst flat_map region app]; [constructor|].
    constructor; [|constructor]. unfold inside; cbn [fst snd]. destruct (N.ltb_spec 256 n); lia.
  - destruct (N.eqb_spec n 0); cbn [fst flat_map region app]; [constructor|].
    rewrite (u64_small (a + (n - 1))) by lia.
    destruct (N.eqb_spec (n - 1) 0); cbn [fst flat_map region app].
    + constructor; [|constructor]. unfold inside; cbn [fst snd]. lia.
    + constructor; [|constructor; [|constructor]]; unfold inside; cbn [fst snd]; [|lia].
      destruct (N.ltb_spec 256 (n - 1)); lia.
Qed.

Lemma inside_mono a l a' l' r : a' <= a -> a + l <= a' + l' -> inside a l r -> inside a' l' r.
Proof. unfold inside. lia. Qed.

Lemma loop_inside y ab m : good_layout y -> forall fuel addr len count,
  (N.to_nat len < fuel)%nat -> addr + len <= 2 ^ 64 -> addr < 2 ^ 64 ->
  exists o f c l, dents_loop fuel y ab m addr len count = Some (o, f, c, l) /\
    Forall (inside addr len) f /\ Forall (inside addr len) (flat_map region o).
Proof.
  intros GY. induction fuel as [|fuel IH]; intros addr len count Hf HA HA'; [lia|].
  unfold good_layout in GY. cbn [dents_loop].
  destruct (N.ltb_spec len (l_head y)) as [L|L].
  { destruct ab; [repeat eexists; constructor|].
    destruct (len =? 0); repeat eexists; try constructor.
    - unfold inside; cbn [fst snd]; lia.
    - cbn. constructor. }
  assert (HH : inside addr len (addr, l_head y)) by (unfold inside; cbn; lia).
  destruct (fetch m addr (l_head y)) as [h|].
  2:{ repeat eexists; [repeat constructor; apply HH|].
      destruct ab; [constructor|]. destruct (count =? 0); constructor. }
  cbv zeta. set (r := d_reclen y h). set (o1 := if ab then [] else _).
  assert (R1 : flat_map region o1 = []).
  { subst o1. destruct ab; [reflexivity|]. destruct (count =? 0); reflexivity. }
  clearbody o1.
  match goal with |- context [match ?X with pair _ _ => _ end] => set (st := X) end.
  assert (HS : exists o2 r' na nl, st = (o2, r', na, nl) /\ flat_map region o2 = [] /\
     l_head y <= r' <= len /\ (na = 0 \/ (0 < na /\ na = addr + r' /\ nl = len - r' /\ na < 2 ^ 64))).
  { subst st. clearbody r. destruct (N.ltb_spec len r).
    - do 4 eexists. split; [reflexivity|]. cbn. split; [reflexivity|]. lia.
    - destruct (N.ltb_spec r (l_head y)).
      + do 4 eexists. split; [reflexivity|]. cbn. split; [reflexivity|]. lia.
      + destruct (N.eqb_spec (len - r) 0).
        * do 4 eexists. split; [reflexivity|]. cbn. split; [reflexivity|]. lia.
        * rewrite (u64_small (addr + r)) by lia.
          destruct (N.ltb_spec addr (addr + r)); [|lia].
          do 4 eexists. split; [reflexivity|]. cbn. split; [reflexivity|]. split; [lia|].
          right. repeat split; lia. }
  destruct HS as (o2 & r' & na & nl & -> & R2 & Hr & Hna). clear r.
  match goal with |- context [match ?X with pair _ _ => _ end] => set (st := X) end.
  assert (HS : exists o3 brk, st = (o3, brk) /\ Forall (inside addr len) (flat_map region o3)).
  { subst st. destruct ab; [do 2 eexists; split; [reflexivity|constructor]|].
    destruct (N.eq_dec (addr + l_head y) (2 ^ 64)) as [Ew|Ew].
    - assert (Er : r' - l_head y = 0) by lia. rewrite Er.
      assert (X : forall a, flat_map region (fst (decode_dentry_tail y m a 0)) = []).
      { intros a. unfold decode_dentry_tail. destruct (l_64 y); reflexivity. }
      specialize (X (u64 (addr + l_head y))).
      destruct (decode_dentry_tail y m (u64 (addr + l_head y)) 0) as [t rc]. cbn [fst] in X.
      destruct (na =? 0); [do 2 eexists; split; [reflexivity|]; rewrite X; constructor|].
      destruct rc; do 2 eexists; (split; [reflexivity|]); rewrite flat_map_app, X; constructor.
    - rewrite (u64_small (addr + l_head y)) by lia.
      pose proof (tail_regions y m (addr + l_head y) (r' - l_head y) addr len
                    ltac:(lia) ltac:(lia) ltac:(lia) ltac:(lia)) as X.
      destruct (decode_dentry_tail y m (addr + l_head y) (r' - l_head y)) as [t rc]. cbn [fst] in X.
      destruct (na =? 0); [do 2 eexists; split; [reflexivity|]; exact X|].
      destruct rc; do 2 eexists; (split; [reflexivity|]); rewrite flat_map_app; cbn; rewrite app_nil_r; exact X. }
  destruct HS as (o3 & brk & -> & R3).
  destruct (brk || (na =? 0)) eqn:EB.
  - do 4 eexists. split; [reflexivity|]. split; [constructor; [exact HH|constructor]|].
    rewrite !flat_map_app, R1, R2. exact R3.
  - apply orb_false_iff in EB as (_ & EB). apply N.eqb_neq in EB.
    destruct Hna as [Hna|(H0 & H1 & H2 & H3)]; [congruence|].
    destruct (IH na nl (u32 (count + 1)) ltac:(lia) ltac:(lia) H3) as (o & f & c & l & E & HF & HO).
    rewrite E. do 4 eexists. split; [reflexivity|]. split.
    + constructor; [exact HH|]. eapply Forall_impl; [|exact HF]. intros x. apply inside_mono; lia.
    + rewrite !flat_map_app, R1, R2. cbn [app]. apply Forall_app. split; [exact R3|].
      eapply Forall_impl; [|exact HO]. intros x. apply inside_mono; lia.
Qed.

(** Well-formed buffers. *)
Lemma total_cons r rs : total (r :: rs) = N.of_nat (List.length r) + total rs.
Proof. unfold total. cbn [concat]. rewrite app_length. lia. Qed.

Lemma tail_shown y m addr r : record y r -> addr + N.of_nat (List.length r) <= 2 ^ 64 -> 0 < addr ->
  0 < l_head y ->
  (forall a n, addr + l_head y <= a -> a + n <= addr + N.of_nat (List.length r) ->
         path_ok m a n = true /\ (n = 1 -> byte_ok m a = true)) ->
  decode_dentry_tail y m (u64 (addr + l_head y)) (N.of_nat (List.length r) - l_head y) =
    (tl (shown y addr r), false).
Proof.
  intros (HR & _) HA H0 HY HM. unfold decode_dentry_tail, shown, D_NAME_LEN_MAX, name_rc. cbn [tl].
  set (L := N.of_nat (List.length r)) in *. set (n := L - l_head y).
  assert (MN : forall k, (if 256 <? k then 256 else k) = N.min k 256).
  { intros k. destruct (N.ltb_spec 256 k); lia. }
  destruct (N.eqb_spec n 0) as [E|E].
  - destruct (l_64 y); reflexivity.
  - assert (HL : addr + l_head y < 2 ^ 64) by lia. rewrite (u64_small _ HL). rewrite !MN.
    destruct (l_64 y).
    + f_equal. destruct (HM (addr + l_head y) (N.min n 256) ltac:(lia) ltac:(lia)) as (-> & _).
      apply orb_false_iff. split; [apply N.eqb_neq; lia|reflexivity].
    + rewrite (u64_small (addr + l_head y + (n - 1))) by lia.
      replace (addr + l_head y + (n - 1)) with (addr + L - 1) by lia.
      destruct (HM (addr + L - 1) 1 ltac:(lia) ltac:(lia)) as (_ & HB). rewrite (HB eq_refl). cbn [negb].
      destruct (N.eqb_spec (n - 1) 0) as [E1|E1]; destruct (N.eqb_spec n 1); try lia; [reflexivity|].
      cbn [app]. f_equal.
      destruct (HM (addr + l_head y) (N.min (n - 1) 256) ltac:(lia) ltac:(lia)) as (-> & _).
      rewrite orb_false_r. apply orb_false_iff. split; [apply N.eqb_neq; lia|reflexivity].
Qed.

Lemma shown_hd y addr r : shown y addr r = DHead (firstn (N.to_nat (l_head y)) r) :: tl (shown y addr r).
Proof. reflexivity. Qed.

Lemma total_0 y rs : Forall (record y) rs -> 0 < l_head y -> total rs = 0 -> rs = [].
Proof.
  intros HR HY. destruct rs as [|r rs]; [reflexivity|]. rewrite total_cons.
  inversion HR as [|? ? (H & _) _]; subst. lia.
Qed.

Lemma buffer_records y m addr rs : buffer y m addr rs -> Forall (record y) rs.
Proof. revert addr. induction rs as [|r rs IH]; intros addr H; constructor; [apply H|]. eapply IH, H. Qed.

Lemma loop_shown y ab m : good_layout y -> forall rs fuel addr count,
  rs <> [] -> buffer y m addr rs -> (N.to_nat (total rs) < fuel)%nat ->
  0 < addr -> addr + total rs <= 2 ^ 64 -> count + N.of_nat (List.length rs) < 2 ^ 32 ->
  exists f, dents_loop fuel y ab m addr (total rs) count =
    Some (if ab then [] else (if count =? 0 then [DBegin] else []) ++ shown_all y addr rs,
          f, count + N.of_nat (List.length rs), 0).
Proof.
  intros GY. induction rs as [|r rs IH]; intros fuel addr count HN HB Hf H0 HA HC; [congruence|].
  destruct fuel as [|fuel]; [lia|]. unfold good_layout in GY.
  destruct HB as (HR & HF & HM & HB). pose proof HR as (HR1 & HR2).
  rewrite total_cons in *. set (L := N.of_nat (List.length r)) in *.
  assert (HL : addr + L < 2 ^ 64 \/ total rs = 0) by lia.
  cbn [dents_loop]. destruct (N.ltb_spec (L + total rs) (l_head y)); [lia|].
  rewrite HF. cbv zeta. rewrite HR2. fold L.
  destruct (N.ltb_spec (L + total rs) L); [lia|]. destruct (N.ltb_spec L (l_head y)); [lia|].
  replace (L + total rs - L) with (total rs) by lia.
  assert (EC : u32 (count + 1) = count + 1).
  { unfold u32. apply N.mod_small. cbn [List.length] in HC. lia. }
  rewrite EC. pose proof (tail_shown y m addr r HR ltac:(fold L; lia) H0 ltac:(lia) HM) as HT. fold L in HT.
  destruct (N.eqb_spec (total rs) 0) as [Et|Et].
  - rewrite HT. assert (rs = []) by (eapply total_0; [eapply buffer_records; exact HB|lia|exact Et]). subst rs.
    cbn [N.eqb orb]. rewrite Et. exists [(addr, l_head y)].
    cbn [List.length shown_all]. replace (N.of_nat 1) with 1 by reflexivity.
    destruct ab; [reflexivity|]. rewrite (shown_hd y addr r) at 2.
    rewrite <- app_assoc. destruct (count =? 0); reflexivity.
  - destruct HL as [HL|HL]; [|congruence].
    rewrite (u64_small _ HL). destruct (N.ltb_spec addr (addr + L)); [|lia].
    destruct (N.eqb_spec (addr + L) 0); [lia|].
    assert (Hne : rs <> []) by (intros ->; apply Et; reflexivity).
    destruct (IH fuel (addr + L) (count + 1) Hne HB ltac:(lia) ltac:(lia) ltac:(lia)
                 ltac:(cbn [List.length] in HC; lia)) as (f & E).
    rewrite HT. cbn iota beta. exists ((addr, l_head y) :: f).
    replace (count + 1 =? 0) with false in E by (symmetry; apply N.eqb_neq; lia).
    replace (count + N.of_nat (List.length (r :: rs))) with (count + 1 + N.of_nat (List.length rs))
      by (cbn [List.length]; lia).
    destruct ab; cbn [orb]; rewrite E; [reflexivity|].
    destruct rs as [|r2 rs]; [congruence|]. cbn [shown_all]. fold L. rewrite (shown_hd y addr r) at 2.
    rewrite <- !app_assoc. cbn [app]. reflexivity.
Qed.

(** Addresses only grow, even for a buffer that reaches past the end of the address space. *)
Lemma loop_forward y ab m : forall fuel addr len count o f c l,
  dents_loop fuel y ab m addr len count = Some (o, f, c, l) -> Forall (fun p => addr <= fst p) f.
Proof.
  induction fuel as [|fuel IH]; intros addr len count o f c l E; [discriminate|]. cbn [dents_loop] in E.
  destruct (len <? l_head y).
  { destruct ab; [injection E as <- <- <- <-; constructor|]. destruct (len =? 0); injection E as <- <- <- <-; constructor. }
  destruct (fetch m addr (l_head y)) as [h|]; [|injection E as <- <- <- <-; repeat constructor; cbn; lia].
  cbv zeta in E. set (r := d_reclen y h) in *. clearbody r.
  match type of E with context [match ?X with pair _ _ => _ end] => set (st := X) in E end.
  assert (HS : exists o2 r' na nl, st = (o2, r', na, nl) /\ (na = 0 \/ addr < na)).
  { subst st. destruct (len <? r); [eauto 10|]. destruct (r <? l_head y); [eauto 10|].
    destruct (len - r =? 0); [eauto 10|]. destruct (N.ltb_spec addr (u64 (addr + r))); eauto 10. }
  destruct HS as (o2 & r' & na & nl & E2 & Hna). rewrite E2 in E. clear st E2.
  match type of E with context [match ?X with pair _ _ => _ end] => destruct X as [o3 brk] end.
  destruct (brk || (na =? 0)) eqn:EB; [injection E as <- <- <- <-; repeat constructor; cbn; lia|].
  apply orb_false_iff in EB as (_ & EB). apply N.eqb_neq in EB.
  destruct (dents_loop fuel y ab m na nl (u32 (count + 1))) as [[[[o' f'] c'] l']|] eqn:EL; [|discriminate].
  injection E as <- <- <- <-. constructor; [cbn; lia|].
  eapply Forall_impl; [|exact (IH _ _ _ _ _ _ _ EL)]. cbv beta. lia.
Qed.

(** Brackets. *)
Lemma tail_brackets y m a n : filter is_begin (fst (decode_dentry_tail y m a n)) = [] /\ filter is_end (fst (decode_dentry_tail y m a n)) = [].
Proof.
  unfold decode_dentry_tail. destruct (l_64 y), (n =? 0); cbn; auto.
  destruct (n - 1 =? 0); cbn; auto.
Qed.
Lemma loop_brackets y m : good_layout y -> forall fuel addr len count o f c l,
  dents_loop fuel y false m addr len count = Some (o, f, c, l) -> count + len + 1 < 2 ^ 32 -> (0 < count -> 0 < len) ->
  filter is_end o = [] /\
  filter is_begin o = if (count =? 0) && negb (c =? 0) then [DBegin] else [].
Proof.
  intros GY. unfold good_layout in GY. induction fuel as [|fuel IH]; intros addr len count o f c l E HB HC; [discriminate|]. cbn [dents_loop] in E.
  destruct (N.ltb_spec len (l_head y)) as [Hl|Hl].
  { destruct (N.eqb_spec len 0) as [Z|Z]; injection E as <- <- <- <-; cbn.
    - assert (count = 0) as -> by lia. auto.
    - destruct (count =? 0); auto. }
  destruct (fetch m addr (l_head y)) as [h|]; [|injection E as <- <- <- <-; destruct (count =? 0); cbn; auto].
  cbv zeta in E. set (r := d_reclen y h) in *. clearbody r.
  assert (Hu : u32 (count + 1) = count + 1) by (unfold u32; apply N.mod_small; lia). rewrite Hu in E.
  match type of E with context [match ?X with pair _ _ => _ end] => set (st := X) in E end.
  assert (HS : exists o2 r' na nl, st = (o2, r', na, nl) /\ filter is_begin o2 = [] /\ filter is_end o2 = [] /\ (na = 0 \/ 0 < nl < len)).
  { subst st. destruct (N.ltb_spec len r); [do 4 eexists; split; [reflexivity|]; auto|].
    destruct (N.ltb_spec r (l_head y)); [do 4 eexists; split; [reflexivity|]; auto|].
    destruct (N.eqb_spec (len - r) 0); [do 4 eexists; split; [reflexivity|]; auto|].
    destruct (addr <? u64 (addr + r)); (do 4 eexists; split; [reflexivity|]); cbn; (split; [reflexivity|split; [reflexivity|]]); [right; lia|auto]. }
  destruct HS as (o2 & r' & na & nl & E2 & B2 & F2 & Hna). rewrite E2 in E. clear st E2.
  pose proof (tail_brackets y m (u64 (addr + l_head y)) (r' - l_head y)) as [T1 T2].
  destruct (decode_dentry_tail y m (u64 (addr + l_head y)) (r' - l_head y)) as [t rc]. cbn [fst] in T1, T2.
  match type of E with context [match ?X with pair _ _ => _ end] => set (st := X) in E end.
  assert (HS : exists o3 brk, st = (o3, brk) /\ filter is_begin o3 = [] /\ filter is_end o3 = []).
  { subst st. destruct (na =? 0); [eauto|]. destruct rc; (do 2 eexists; split; [reflexivity|]); rewrite !filter_app, T1, T2; auto. }
  destruct HS as (o3 & brk & E3 & B3 & F3). rewrite E3 in E. clear st E3.
  assert (P1 : forall k, filter is_begin (((if count =? 0 then [DBegin] else []) ++ [DHead h]) ++ k) = (if count =? 0 then [DBegin] else []) ++ filter is_begin k).
  { intros k. rewrite !filter_app. destruct (count =? 0); reflexivity. }
  assert (P2 : forall k, filter is_end (((if count =? 0 then [DBegin] else []) ++ [DHead h]) ++ k) = filter is_end k).
  { intros k. rewrite !filter_app. destruct (count =? 0); reflexivity. }
  destruct (brk || (na =? 0)) eqn:EB.
  { injection E as <- <- <- <-. rewrite P1, P2, !filter_app, B2, B3, F2, F3. split; [reflexivity|].
    destruct (N.eqb_spec (count + 1) 0); [lia|]. destruct (count =? 0); reflexivity. }
  apply orb_false_iff in EB as (_ & EB). apply N.eqb_neq in EB.
  destruct (dents_loop fuel y false m na nl (count + 1)) as [[[[o' f'] c'] l']|] eqn:EL; [|discriminate].
  injection E as <- <- <- <-. destruct Hna as [Hna|Hna]; [congruence|].
  destruct (IH _ _ _ _ _ _ _ EL ltac:(lia) ltac:(lia)) as [I1 I2].
  rewrite P1, P2, !filter_app, B2, B3, F2, F3, I1, I2. cbn [app]. split; [reflexivity|].
  destruct (N.eqb_spec (count + 1) 0); [lia|]. cbn [andb].
  assert (c' <> 0).
  { enough (count + 1 <= c') by lia. clear - EL HB Hna Hl GY. 
    assert (G : forall fuel addr len count o f c l, dents_loop fuel y false m addr len count = Some (o, f, c, l) -> count + len < 2^32 -> count <= c).
    { clear - GY. induction fuel as [|fuel IH]; intros addr len count o f c l E HB; [discriminate|]. cbn [dents_loop] in E.
      destruct (N.ltb_spec len (l_head y)) as [Hl|Hl].
      { destruct (len =? 0); injection E as <- <- <- <-; lia. }
      destruct (fetch m addr (l_head y)) as [h|]; [|injection E as <- <- <- <-; lia].
      cbv zeta in E. set (r := d_reclen y h) in *. clearbody r.
      assert (Hu : u32 (count + 1) = count + 1) by (unfold u32; apply N.mod_small; lia). rewrite Hu in E.
      match type of E with context [match ?X with pair _ _ => _ end] => set (st := X) in E end.
      assert (HS : exists o2 r' na nl, st = (o2, r', na, nl) /\ (na = 0 \/ nl < len)).
      { subst st. destruct (N.ltb_spec len r); [eauto 10|]. destruct (N.ltb_spec r (l_head y)); [eauto 10|].
        destruct (N.eqb_spec (len - r) 0); [eauto 10|]. destruct (addr <? u64 (addr + r)); (do 4 eexists; split; [reflexivity|]); [right; lia|auto]. }
      destruct HS as (o2 & r' & na & nl & E2 & Hna). rewrite E2 in E. clear st E2.
      match type of E with context [match ?X with pair _ _ => _ end] => destruct X as [o3 brk] end.
      destruct (brk || (na =? 0)) eqn:EB; [injection E as <- <- <- <-; lia|].
      apply orb_false_iff in EB as (_ & EB). apply N.eqb_neq in EB. destruct Hna as [Hna|Hna]; [congruence|].
      destruct (dents_loop fuel y false m na nl (count + 1)) as [[[[o' f'] c'] l']|] eqn:EL; [|discriminate].
      injection E as <- <- <- <-. specialize (IH _ _ _ _ _ _ _ EL). lia. }
    apply (G _ _ _ _ _ _ _ _ EL). lia. }
  destruct (N.eqb_spec c' 0); [congruence|]. rewrite andb_true_r, app_nil_r. destruct (count =? 0); reflexivity.
Qed.
