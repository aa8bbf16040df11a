From Verif Require Import Base NlModel NlSpec.
Import ListNotations.
Local Open Scope N_scope.

Lemma u64_small x : x < 2 ^ 64 -> u64 x = x.
Proof. intros. unfold u64. apply N.mod_small. exact H. Qed.

Lemma inside_mono a l a' l' r : a' <= a -> a + l <= a' + l' -> inside a l r -> inside a' l' r.
Proof. unfold inside. lia. Qed.

Lemma inside_all a l a' l' rs : a' <= a -> a + l <= a' + l' -> Forall (inside a l) rs -> Forall (inside a' l') rs.
Proof. intros H1 H2. apply Forall_impl. intros x. apply inside_mono; assumption. Qed.

Lemma ldiff3 x : N.ldiff x 3 = 4 * (x / 4).
Proof.
  change 3 with (N.ones 2). rewrite N.ldiff_ones_r, N.shiftl_mul_pow2, N.shiftr_div_pow2.
  change (2 ^ 2) with 4. lia.
Qed.
Lemma nla_align_eq n : nla_align n = padded n.
Proof. unfold nla_align, padded. apply ldiff3. Qed.
Lemma nlmsg_align_eq n : n + 3 < 2 ^ 32 -> nlmsg_align n = padded n.
Proof.
  intros H. unfold nlmsg_align, padded. rewrite ldiff3. unfold u32. rewrite N.mod_small by exact H. reflexivity.
Qed.
Lemma padded_ge n : n <= padded n < n + 4.
Proof. unfold padded. pose proof (N.div_mod (n + 3) 4 ltac:(lia)). pose proof (N.mod_lt (n + 3) 4 ltac:(lia)). lia. Qed.

(** An element function that stays inside. *)
Definition item_ok (k : kind) : Prop := forall h addr len,
  hsz k <= len -> addr + len <= 2 ^ 64 -> addr < 2 ^ 64 ->
  exists t f, item k h addr len = Some (t, f) /\
    Forall (inside addr len) f /\ Forall (inside addr len) (flat_map region t).

Lemma loop_inside k o m : 0 < hsz k -> item_ok k -> forall fuel addr len elt ia,
  (N.to_nat len < fuel)%nat -> addr + len <= 2 ^ 64 -> addr < 2 ^ 64 ->
  exists t f a, seq_loop fuel k o m addr len elt ia = Some (t, f, a) /\
    Forall (inside addr len) f /\ Forall (inside addr len) (flat_map region t).
Proof.
  intros HK HI. induction fuel as [|fuel IH]; intros addr len elt ia Hf HA HA'; [lia|].
  cbn [seq_loop]. destruct (N.ltb_spec len (hsz k)) as [L|L].
  { do 3 eexists. split; [reflexivity|]. split; [constructor|]. cbn. constructor; [|constructor].
    unfold inside; cbn [fst snd]; lia. }
  assert (HH : inside addr len (addr, hsz k)) by (unfold inside; cbn [fst snd]; lia).
  destruct (m addr (hsz k)) as [h|].
  2:{ do 3 eexists. split; [reflexivity|]. split; [constructor; [exact HH|constructor]|].
      destruct ia; constructor. }
  destruct (sequence_truncation_needed o (elt + 1)).
  { do 3 eexists. split; [reflexivity|]. split; [constructor; [exact HH|constructor]|]. constructor. }
  cbv zeta. set (al := align k (hlen k h)). clearbody al.
  match goal with |- context [match ?X with pair _ _ => _ end] => set (st := X) end.
  assert (HS : exists na nl, st = (na, nl) /\
     (na = 0 \/ (0 < na /\ 0 < al /\ na = addr + al /\ nl = len - al /\ al < len))).
  { subst st. destruct (hsz k <=? hlen k h); [|do 2 eexists; split; [reflexivity|left; reflexivity]].
    destruct (N.leb_spec al len) as [La|La].
    - destruct (N.eqb_spec (len - al) 0); cbn [negb andb]; [do 2 eexists; split; [reflexivity|left; reflexivity]|].
      rewrite (u64_small (addr + al)) by lia.
      destruct (N.ltb_spec addr (addr + al)); do 2 eexists; (split; [reflexivity|]); [right|left; reflexivity].
      repeat split; lia.
    - cbn. do 2 eexists; split; [reflexivity|left; reflexivity]. }
  destruct HS as (na & nl & -> & Hna).
  destruct (HI h addr len L HA HA') as (t & f & E & HF & HR). rewrite E.
  set (bg := negb ia && negb (na =? 0)).
  assert (RB : flat_map region (if bg then [NBegin] else []) = []) by (destruct bg; reflexivity).
  destruct (N.eqb_spec na 0) as [En|En].
  - do 3 eexists. split; [reflexivity|]. split; [constructor; [exact HH|exact HF]|].
    rewrite flat_map_app, RB. exact HR.
  - destruct Hna as [Hna|(H0 & H1 & H2 & H3 & H4)]; [congruence|].
    destruct (IH na nl (u32 (elt + 1)) (ia || bg) ltac:(lia) ltac:(lia) ltac:(lia))
      as (t' & f' & a' & E' & HF' & HR').
    rewrite E'. do 3 eexists. split; [reflexivity|]. split.
    + constructor; [exact HH|]. apply Forall_app. split; [exact HF|].
      eapply inside_all; [| |exact HF']; lia.
    + rewrite !flat_map_app, RB. cbn [flat_map region app]. apply Forall_app. split; [exact HR|].
      eapply inside_all; [| |exact HR']; lia.
Qed.

Lemma decode_inside k o m addr len : 0 < hsz k -> item_ok k -> addr + len <= 2 ^ 64 -> addr < 2 ^ 64 ->
  exists t f, decode_seq k o m addr len = Some (t, f) /\
    Forall (inside addr len) f /\ Forall (inside addr len) (flat_map region t).
Proof.
  intros HK HI HA HA'. unfold decode_seq.
  destruct (loop_inside k o m HK HI (S (N.to_nat len)) addr len 0 false ltac:(lia) HA HA')
    as (t & f & a & -> & HF & HR).
  do 2 eexists. split; [reflexivity|]. split; [exact HF|]. rewrite flat_map_app.
  destruct a; cbn; rewrite app_nil_r; exact HR.
Qed.

Lemma nlattr_item_ok : item_ok nlattr_kind.
Proof.
  unfold item_ok, nlattr_kind, item, hsz. intros h addr len HL HA HA'. unfold decode_nlattr_with_data, NLA_HDRLEN.
  cbv zeta. do 2 eexists. split; [reflexivity|]. split; [constructor|].
  destruct (N.ltb_spec 4 (N.min (le16 h 0) len)) as [L|L]; cbn [flat_map region app]; [|constructor].
  constructor; [|constructor]. rewrite u64_small by lia. unfold inside; cbn [fst snd]. lia.
Qed.

Lemma nlattr_inside o m addr len : addr + len <= 2 ^ 64 -> addr < 2 ^ 64 ->
  exists t f, decode_nlattr o m addr len = Some (t, f) /\
    Forall (inside addr len) f /\ Forall (inside addr len) (flat_map region t).
Proof. intros. apply decode_inside; auto; [reflexivity|apply nlattr_item_ok]. Qed.

Lemma nlmsg_inside o m : forall fuel,
  (forall h addr len, (N.to_nat len < fuel)%nat -> 16 <= len -> addr + len <= 2 ^ 64 -> addr < 2 ^ 64 ->
   exists t f, decode_nlmsg fuel o m h addr len = Some (t, f) /\
    Forall (inside addr len) f /\ Forall (inside addr len) (flat_map region t)) /\
  (forall addr len c, (N.to_nat len < fuel)%nat -> addr + len <= 2 ^ 64 -> addr < 2 ^ 64 ->
   exists t f, decode_nlmsgerr fuel o m addr len c = Some (t, f) /\
    Forall (inside addr len) f /\ Forall (inside addr len) (flat_map region t)).
Proof.
  induction fuel as [|fuel (IH1 & IH2)]; [split; intros; lia|]. split.
  - intros h addr len Hf HL HA HA'. cbn [decode_nlmsg]. cbv zeta. unfold NLMSG_HDRLEN.
    destruct (N.ltb_spec 16 (N.min (le32 h 0) len)) as [L|L].
    + rewrite (u64_small (addr + 16)) by lia. destruct (le16 h 4 =? NLMSG_ERROR).
      * set (c := negb _).
        destruct (IH2 (addr + 16) (N.min (le32 h 0) len - 16) c ltac:(lia) ltac:(lia) ltac:(lia))
          as (t & f & -> & HF & HR).
        do 2 eexists. split; [reflexivity|]. split.
        -- eapply inside_all; [| |exact HF]; lia.
        -- cbn [app flat_map region]. rewrite flat_map_app. cbn. rewrite app_nil_r.
           eapply inside_all; [| |exact HR]; lia.
      * do 2 eexists. split; [reflexivity|]. split; [constructor|]. cbn.
        constructor; [|constructor]. unfold inside; cbn [fst snd]. lia.
    + do 2 eexists. split; [reflexivity|]. split; constructor.
  - intros addr len c Hf HA HA'. cbn [decode_nlmsgerr]. destruct (N.ltb_spec len 20) as [L|L].
    { do 2 eexists. split; [reflexivity|]. split; [constructor|]. cbn. constructor; [|constructor].
      unfold inside; cbn [fst snd]; lia. }
    assert (HH : inside addr len (addr, 20)) by (unfold inside; cbn [fst snd]; lia).
    destruct (m addr 20) as [e|].
    2:{ do 2 eexists. split; [reflexivity|]. split; [constructor; [exact HH|constructor]|constructor]. }
    cbv zeta. rewrite (u64_small (addr + 4)) by lia.
    set (h := skipn 4 e). set (p := N.min (len - 4) (if c then 16 else N.max 16 (le32 h 0))).
    assert (Hp : 16 <= p <= len - 4) by (subst p; destruct c; lia).
    destruct (IH1 h (addr + 4) p ltac:(lia) ltac:(lia) ltac:(lia) ltac:(lia)) as (t & f & -> & HF & HR).
    destruct (N.ltb_spec p (len - 4)) as [Lp|Lp].
    + rewrite (u64_small (addr + 4 + p)) by lia.
      destruct (nlattr_inside o m (addr + 4 + p) (len - 4 - p) ltac:(lia) ltac:(lia)) as (t2 & f2 & -> & HF2 & HR2).
      do 2 eexists. split; [reflexivity|]. split.
      * constructor; [exact HH|]. apply Forall_app.
        split; (eapply inside_all; [| |eassumption]; lia).
      * cbn [app flat_map region]. rewrite flat_map_app. cbn [flat_map region app].
        rewrite flat_map_app. cbn [flat_map region app]. rewrite app_nil_r. apply Forall_app.
        split; (eapply inside_all; [| |eassumption]; lia).
    + do 2 eexists. split; [reflexivity|]. split.
      * constructor; [exact HH|]. eapply inside_all; [| |exact HF]; lia.
      * cbn. eapply inside_all; [| |exact HR]; lia.
Qed.

Lemma nlmsg_item_ok o m : item_ok (nlmsg_kind o m).
Proof.
  unfold item_ok, nlmsg_kind, item, hsz. intros h addr len HL HA HA'.
  apply (proj1 (nlmsg_inside o m (S (N.to_nat len)))); auto.
Qed.

(** Well-formed sequences. *)
Definition fits_kind (k : kind) (hs : list (list N)) : Prop :=
  Forall (fun h => align k (hlen k h) = padded (hlen k h)) hs.
Definition plain (k : kind) (h : list N) : Prop := forall addr len,
  hlen k h <= len -> addr + len <= 2 ^ 64 -> hsz k <= hlen k h -> 
  exists f, item k h addr len = Some (shown (hsz k) (hlen k) addr h, f).

Definition cut (o : opts) (elt : N) (l : list (list ntok)) : list (list ntok) :=
  if abbrev o && (max_strlen o <? elt + N.of_nat (List.length l))
  then firstn (N.to_nat (max_strlen o - elt)) l ++ [[NMore]] else l.

Lemma cut_0 o l : cut o 0 l = limited o l.
Proof. unfold cut, limited. rewrite N.sub_0_r. reflexivity. Qed.

Lemma cut_full o elt l : abbrev o && (max_strlen o <? elt + 1) = true -> l <> [] ->
  cut o elt l = [[NMore]].
Proof.
  intros H Hl. apply andb_true_iff in H as (Ha & Hb). apply N.ltb_lt in Hb. unfold cut. rewrite Ha. cbn [andb].
  destruct l as [|x l]; [congruence|]. cbn [List.length].
  destruct (N.ltb_spec (max_strlen o) (elt + N.of_nat (S (List.length l)))); [|lia].
  replace (N.to_nat (max_strlen o - elt)) with O by lia. reflexivity.
Qed.

Lemma cut_cons o elt x l : abbrev o && (max_strlen o <? elt + 1) = false ->
  cut o elt (x :: l) = x :: cut o (elt + 1) l.
Proof.
  intros H. unfold cut. destruct (abbrev o); [|reflexivity]. cbn [andb] in *. apply N.ltb_ge in H.
  cbn [List.length]. replace (elt + N.of_nat (S (List.length l))) with (elt + 1 + N.of_nat (List.length l)) by lia.
  destruct (max_strlen o <? elt + 1 + N.of_nat (List.length l)); [|reflexivity].
  replace (N.to_nat (max_strlen o - elt)) with (S (N.to_nat (max_strlen o - (elt + 1)))) by lia. reflexivity.
Qed.

Lemma cut_ne o elt l : l <> [] -> cut o elt l <> [].
Proof.
  unfold cut. intros Hl. destruct (abbrev o && _); [|exact Hl]. intros X. apply app_eq_nil in X as (_ & X). discriminate.
Qed.

Lemma joined_cons x l : l <> [] -> joined (x :: l) = x ++ NNext :: joined l.
Proof. destruct l; [congruence|reflexivity]. Qed.

Lemma loop_shown k o m : 0 < hsz k -> forall hs fuel addr len elt ia,
  seq_at (hsz k) (hlen k) m addr len hs -> fits_kind k hs -> Forall (plain k) hs ->
  (N.to_nat len < fuel)%nat -> 0 < addr -> addr + len <= 2 ^ 64 ->
  elt + N.of_nat (List.length hs) < 2 ^ 32 ->
  exists f, seq_loop fuel k o m addr len elt ia =
    let l := cut o elt (shown_all (hsz k) (hlen k) addr hs) in
    Some (if ia then joined l else match l with [x] => x | _ => NBegin :: joined l end,
          f, ia || (2 <=? List.length l)%nat).
Proof.
  intros HK. induction hs as [|h hs IH]; intros fuel addr len elt ia HS HF HP Hf H0 HA HE; [destruct HS|].
  destruct fuel as [|fuel]; [lia|]. cbn [seq_at] in HS. destruct HS as (H1 & H2 & H3 & H4).
  pose proof (Forall_inv HF) as HF1. pose proof (Forall_inv_tail HF) as HF2.
  pose proof (Forall_inv HP) as HP1. pose proof (Forall_inv_tail HP) as HP2. clear HF HP. cbn beta in HF1.
  cbn [List.length] in HE.
  cbn [seq_loop shown_all]. destruct (N.ltb_spec len (hsz k)); [lia|]. rewrite H2.
  assert (ET : sequence_truncation_needed o (elt + 1) = abbrev o && (max_strlen o <? elt + 1)).
  { unfold sequence_truncation_needed, u32. rewrite N.mod_small by lia. reflexivity. }
  rewrite ET. destruct (abbrev o && (max_strlen o <? elt + 1)) eqn:EB.
  { rewrite (cut_full _ _ _ EB) by discriminate. eexists. cbv zeta. cbn [joined List.length Nat.leb].
    rewrite orb_false_r. destruct ia; reflexivity. }
  rewrite (cut_cons _ _ _ _ EB). cbv zeta. rewrite HF1.
  destruct (N.leb_spec (hsz k) (hlen k h)); [|lia].
  pose proof (padded_ge (hlen k h)) as HPd. set (p := padded (hlen k h)) in *.
  destruct hs as [|h2 hs].
  - destruct (HP1 addr len ltac:(lia) HA H3) as (f & E).
    assert (EN : (if p <=? len then len - p else 0) = 0) by (destruct (N.leb_spec p len); lia).
    rewrite EN. cbn [N.eqb negb andb]. rewrite E. rewrite andb_false_r, orb_false_r. cbn [app].
    eexists. cbn [shown_all]. unfold cut. cbn [List.length firstn]. 
    replace (abbrev o && (max_strlen o <? elt + 1 + N.of_nat 0)) with false
      by (rewrite N.add_0_r; symmetry; exact EB).
    cbn [joined List.length Nat.leb]. rewrite orb_false_r. destruct ia; reflexivity.
  - destruct H4 as (H4 & HRest). destruct (HP1 addr len ltac:(lia) HA H3) as (f & E).
    destruct (N.leb_spec p len); [|lia]. destruct (N.eqb_spec (len - p) 0); [lia|].
    rewrite (u64_small (addr + p)) by lia.
    destruct (N.ltb_spec addr (addr + p)); [|lia]. cbn [negb andb].
    destruct (N.eqb_spec (addr + p) 0); [lia|]. cbn [negb]. rewrite andb_true_r, E.
    assert (EU : u32 (elt + 1) = elt + 1) by (unfold u32; apply N.mod_small; lia). rewrite EU.
    destruct (IH fuel (addr + p) (len - p) (elt + 1) (ia || negb ia) HRest HF2 HP2
                ltac:(lia) ltac:(lia) ltac:(lia) ltac:(cbn [List.length] in *; lia)) as (f' & E').
    rewrite E'. cbv zeta. replace (ia || negb ia) with true by (destruct ia; reflexivity).
    set (l := cut o (elt + 1) (shown_all (hsz k) (hlen k) (addr + p) (h2 :: hs))).
    assert (Hl : l <> []) by (apply cut_ne; cbn; discriminate).
    rewrite joined_cons by exact Hl. clearbody l. eexists. cbn [orb].
    assert (L2 : (2 <=? List.length (shown (hsz k) (hlen k) addr h :: l))%nat = true).
    { destruct l; [congruence|reflexivity]. }
    rewrite L2, orb_true_r.
    replace (match shown (hsz k) (hlen k) addr h :: l with
             | [x] => x
             | _ => NBegin :: shown (hsz k) (hlen k) addr h ++ NNext :: joined l end)
      with (NBegin :: shown (hsz k) (hlen k) addr h ++ NNext :: joined l)
      by (destruct l; [congruence|reflexivity]).
    destruct ia; cbn [negb app]; rewrite <- ?app_assoc; reflexivity.
Qed.

Lemma decode_shown k o m addr len hs : 0 < hsz k ->
  seq_at (hsz k) (hlen k) m addr len hs -> fits_kind k hs -> Forall (plain k) hs ->
  0 < addr -> addr + len <= 2 ^ 64 -> N.of_nat (List.length hs) < 2 ^ 32 ->
  exists f, decode_seq k o m addr len =
    Some (array (limited o (shown_all (hsz k) (hlen k) addr hs)), f).
Proof.
  intros HK HS HF HP H0 HA HE. unfold decode_seq.
  destruct (loop_shown k o m HK hs (S (N.to_nat len)) addr len 0 false HS HF HP ltac:(lia) H0 HA ltac:(lia)) as (f & ->).
  cbv zeta. rewrite cut_0. exists f. cbn [orb]. unfold array.
  set (l := limited o _).
  assert (Hl : l <> []).
  { unfold l. rewrite <- cut_0. apply cut_ne. destruct hs; [destruct HS|discriminate]. }
  clearbody l. destruct l as [|x [|y l]]; [congruence| |]; cbn [List.length Nat.leb].
  - rewrite app_nil_r. reflexivity.
  - reflexivity.
Qed.

Lemma nlattr_plain h : plain nlattr_kind h.
Proof.
  unfold plain, nlattr_kind, item, hsz, hlen. intros addr len HL HA H4. unfold decode_nlattr_with_data, NLA_HDRLEN, shown.
  cbv zeta. rewrite N.min_l by exact HL. eexists. do 2 f_equal.
  destruct (N.ltb_spec 4 (le16 h 0)); [|reflexivity]. rewrite u64_small by lia. reflexivity.
Qed.

Lemma nlmsg_plain o m h : le16 h 4 <> NLMSG_ERROR -> plain (nlmsg_kind o m) h.
Proof.
  unfold plain, nlmsg_kind, item, hsz, hlen. intros HT addr len HL HA H4. cbn [decode_nlmsg]. unfold NLMSG_HDRLEN, shown.
  cbv zeta. rewrite N.min_l by exact HL. apply N.eqb_neq in HT. rewrite HT.
  destruct (N.ltb_spec 16 (le32 h 0)); [|eexists; reflexivity]. rewrite u64_small by lia. eexists. reflexivity.
Qed.
