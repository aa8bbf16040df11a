From Verif Require Import Base QuoteModel QuoteSpec QuoteProofs TimeModel TimeProofs Printf DumpModel DumpSpec.
Local Open Scope N_scope.

Lemma u64_id x : x < 2^64 -> u64 x = x.
Proof. intros. unfold u64. apply N.mod_small; auto. Qed.
Lemma land7 j k : (k < 16)%nat -> N.land (16 * j + N.of_nat k + 1) 7 =? 0 = ((k =? 7) || (k =? 15))%nat.
Proof.
  intros H. change 7 with (N.ones 3). rewrite N.land_ones. change (2^3) with 8.
  replace (16 * j + N.of_nat k + 1) with (N.of_nat k + 1 + 2 * j * 8) by lia. rewrite N.mod_add by lia.
  do 16 (destruct k as [|k]; [reflexivity|]). lia.
Qed.
Lemma land15 j k : (k < 16)%nat -> N.land (16 * j + N.of_nat k + 1) 15 =? 0 = (k =? 15)%nat.
Proof.
  intros H. change 15 with (N.ones 4). rewrite N.land_ones. change (2^4) with 16.
  replace (16 * j + N.of_nat k + 1) with (N.of_nat k + 1 + j * 16) by lia. rewrite N.mod_add by lia.
  do 16 (destruct k as [|k]; [reflexivity|]). lia.
Qed.

(** the line's bytes are in the buffer *)
Definition loaded (buf chunk : list N) (src : nat) (len j : N) : Prop :=
  forall k, (k < 16)%nat ->
    match nth_error chunk k with
    | Some c => 16 * j + N.of_nat k < len /\ nth_error buf (src + k) = Some c /\ c < 256
    | None => len <= 16 * j + N.of_nat k
    end.
Definition hx (o : option N) : N * N :=
  match o with Some c => (hex_char (c / 16), hex_char (c mod 16)) | None => (32, 32) end.
Definition dcol (k : nat) : nat := if (k <? 16)%nat then hexcol k else 50%nat.

Lemma put2_spec ob p a b : length ob = 67%nat -> (p + 1 < 67)%nat ->
  exists ob', put2 ob p a b = Ok ob' /\ length ob' = 67%nat /\ nth_error ob' p = Some a /\ nth_error ob' (p + 1) = Some b /\
    forall q, q <> p -> q <> (p + 1)%nat -> nth_error ob' q = nth_error ob q.
Proof.
  intros HL Hp. unfold put2. destruct (upd_some ob p a) as [o1 E1]; [lia|]. rewrite E1. cbn [oob rbind].
  pose proof (upd_length _ _ _ _ E1) as L1. destruct (upd_some o1 (S p) b) as [o2 E2]; [lia|]. rewrite E2. cbn [oob].
  pose proof (upd_length _ _ _ _ E2) as L2. exists o2. split; [reflexivity|]. split; [lia|].
  split; [rewrite (upd_nth_ne _ _ _ _ _ E2) by lia; eapply upd_nth_eq; eauto|].
  split; [replace (p + 1)%nat with (S p) by lia; eapply upd_nth_eq; eauto|].
  intros q H1 H2. rewrite (upd_nth_ne _ _ _ _ _ E2) by lia. apply (upd_nth_ne _ _ _ _ _ E1). lia.
Qed.

Lemma hexcol_inj k k' : (k < k')%nat -> (hexcol k + 3 <= hexcol k')%nat.
Proof. unfold hexcol. intros. destruct (Nat.ltb_spec k 8), (Nat.ltb_spec k' 8); lia. Qed.
Lemma hexcol_bound k : (k < 16)%nat -> (hexcol k <= 46)%nat.
Proof. unfold hexcol. intros. destruct (Nat.ltb_spec k 8); lia. Qed.

Lemma hex_cols_spec len j buf chunk src0 : 16 * j + 16 < 2^64 -> loaded buf chunk src0 len j ->
  forall r k ob, (k + S r = 16)%nat -> length ob = 67%nat ->
  exists ob', hex_cols (S r) buf len (16 * j + N.of_nat k) (src0 + k) (dcol k) ob = Ok (16 * j + 16, (src0 + 16)%nat, 50%nat, ob') /\
    length ob' = 67%nat /\
    (forall k', (k <= k' < 16)%nat -> nth_error ob' (hexcol k') = Some (fst (hx (nth_error chunk k'))) /\
       nth_error ob' (hexcol k' + 1) = Some (snd (hx (nth_error chunk k')))) /\
    (forall q, (forall k', (k <= k' < 16)%nat -> q <> hexcol k' /\ q <> (hexcol k' + 1)%nat) -> nth_error ob' q = nth_error ob q).
Proof.
  intros HJ HLD. induction r as [|r IH]; intros k ob Hk HL.
  - assert (k = 15%nat) as -> by lia. cbn [hex_cols].
    destruct (put2_spec ob (dcol 15) (fst (hx (nth_error chunk 15))) (snd (hx (nth_error chunk 15))) HL) as (ob' & E & L & A & B & C);
      [cbn; lia|].
    assert (EP : (if 16 * j + N.of_nat 15 <? len
       then rlet c := oob (nth_error buf (src0 + 15)) in put2 ob (dcol 15) (hex_char (c / 16)) (hex_char (c mod 16))
       else put2 ob (dcol 15) 32 32) = Ok ob').
    { specialize (HLD 15%nat ltac:(lia)). destruct (nth_error chunk 15) as [c|].
      - destruct HLD as (H1 & H2 & _). destruct (N.ltb_spec (16 * j + N.of_nat 15) len); [|lia]. rewrite H2. cbn [oob rbind]. exact E.
      - destruct (N.ltb_spec (16 * j + N.of_nat 15) len); [lia|]. exact E. }
    rewrite EP. cbn [rbind]. rewrite u64_id by lia. cbv zeta. rewrite land7, land15 by lia. cbn [Nat.eqb orb].
    exists ob'. split; [f_equal; repeat (f_equal; try lia)|]. split; [exact L|]. split.
    + intros k' Hk'. assert (k' = 15%nat) as -> by lia. auto.
    + intros q Hq. destruct (Hq 15%nat ltac:(lia)). apply C; auto.
  - cbn [hex_cols].
    destruct (put2_spec ob (dcol k) (fst (hx (nth_error chunk k))) (snd (hx (nth_error chunk k))) HL) as (ob1 & E & L & A & B & C).
    { unfold dcol. destruct (Nat.ltb_spec k 16); [|lia]. pose proof (hexcol_bound k). lia. }
    assert (EP : (if 16 * j + N.of_nat k <? len
       then rlet c := oob (nth_error buf (src0 + k)) in put2 ob (dcol k) (hex_char (c / 16)) (hex_char (c mod 16))
       else put2 ob (dcol k) 32 32) = Ok ob1).
    { specialize (HLD k ltac:(lia)). destruct (nth_error chunk k) as [c|].
      - destruct HLD as (H1 & H2 & _). destruct (N.ltb_spec (16 * j + N.of_nat k) len); [|lia]. rewrite H2. cbn [oob rbind]. exact E.
      - destruct (N.ltb_spec (16 * j + N.of_nat k) len); [lia|]. exact E. }
    rewrite EP. cbn [rbind]. rewrite u64_id by lia. cbv zeta. rewrite land7, land15 by lia.
    replace (k =? 15)%nat with false by (symmetry; apply Nat.eqb_neq; lia). rewrite orb_false_r.
    assert (ED : (if (k =? 7)%nat then dcol k + 4 else dcol k + 3)%nat = dcol (S k)).
    { unfold dcol, hexcol. destruct (Nat.ltb_spec k 16), (Nat.ltb_spec (S k) 16), (Nat.ltb_spec k 8), (Nat.ltb_spec (S k) 8), (Nat.eqb_spec k 7); lia. }
    rewrite ED.
    replace (16 * j + N.of_nat k + 1) with (16 * j + N.of_nat (S k)) by lia. replace (S (src0 + k)) with (src0 + S k)%nat by lia.
    destruct (IH (S k) ob1 ltac:(lia) L) as (ob' & E' & L' & A' & C'). exists ob'. split; [exact E'|]. split; [exact L'|].
    assert (DK : dcol k = hexcol k) by (unfold dcol; destruct (Nat.ltb_spec k 16); [reflexivity|lia]). rewrite DK in *.
    split.
    + intros k' Hk'. destruct (Nat.eq_dec k' k) as [->|Hne]; [|apply A'; lia].
      rewrite !C'; [auto| |]; intros k'' Hk''; pose proof (hexcol_inj k k'' ltac:(lia)); lia.
    + intros q Hq. rewrite C'; [|intros k' Hk'; apply Hq; lia]. destruct (Hq k ltac:(lia)). apply C; auto.
Qed.

Definition ax (o : option N) : N := match o with Some c => if is_print c then c else 46 | None => 32 end.
Lemma ascii_cols_spec len j buf chunk src0 : 16 * j + 16 < 2^64 -> loaded buf chunk src0 len j ->
  forall r k ob, (k + S r = 16)%nat -> length ob = 67%nat ->
  exists ob', ascii_cols (S r) buf len (16 * j + N.of_nat k) (src0 + k) (50 + k) ob = Ok (16 * j + 16, (src0 + 16)%nat, 66%nat, ob') /\
    length ob' = 67%nat /\
    (forall k', (k <= k' < 16)%nat -> nth_error ob' (50 + k') = Some (ax (nth_error chunk k'))) /\
    (forall q, (q < 50 + k)%nat -> nth_error ob' q = nth_error ob q).
Proof.
  intros HJ HLD. induction r as [|r IH]; intros k ob Hk HL; cbn [ascii_cols];
    (destruct (upd_some ob (50 + k) (ax (nth_error chunk k))) as [ob1 E]; [lia|]);
    (assert (EP : (if 16 * j + N.of_nat k <? len
       then rlet c := oob (nth_error buf (src0 + k)) in oob (upd ob (50 + k) (if is_print c then c else 46))
       else oob (upd ob (50 + k) 32)) = Ok ob1);
     [ specialize (HLD k ltac:(lia)); destruct (nth_error chunk k) as [c|];
       [ destruct HLD as (H1 & H2 & _); destruct (N.ltb_spec (16 * j + N.of_nat k) len); [|lia]; rewrite H2; cbn [oob rbind];
         cbn [ax] in E; rewrite E; reflexivity
       | destruct (N.ltb_spec (16 * j + N.of_nat k) len); [lia|]; cbn [ax] in E; rewrite E; reflexivity ] |]);
    rewrite EP; cbn [rbind]; rewrite u64_id by lia; cbv zeta; rewrite land15 by lia;
    pose proof (upd_length _ _ _ _ E) as L.
  - assert (k = 15%nat) as -> by lia. cbn [Nat.eqb]. exists ob1. split; [f_equal; repeat (f_equal; try lia)|].
    split; [lia|]. split.
    + intros k' Hk'. assert (k' = 15%nat) as -> by lia. eapply upd_nth_eq; eauto.
    + intros q Hq. apply (upd_nth_ne _ _ _ _ _ E). lia.
  - replace (k =? 15)%nat with false by (symmetry; apply Nat.eqb_neq; lia).
    replace (16 * j + N.of_nat k + 1) with (16 * j + N.of_nat (S k)) by lia. replace (S (src0 + k)) with (src0 + S k)%nat by lia.
    replace (S (50 + k)) with (50 + S k)%nat by lia.
    destruct (IH (S k) ob1 ltac:(lia) ltac:(lia)) as (ob' & E' & L' & A' & C'). exists ob'. split; [exact E'|]. split; [exact L'|].
    split.
    + intros k' Hk'. destruct (Nat.eq_dec k' k) as [->|Hne]; [|apply A'; lia].
      rewrite C' by lia. eapply upd_nth_eq; eauto.
    + intros q Hq. rewrite C' by lia. apply (upd_nth_ne _ _ _ _ _ E). lia.
Qed.

Lemma gap_free p : gap p -> (p < 50)%nat /\ forall k, (k < 16)%nat -> p <> hexcol k /\ p <> (hexcol k + 1)%nat.
Proof.
  unfold gap, hexcol. intros H. split.
  - destruct H as [->|[->|(k & Hk & ->)]]; [lia|lia|]. destruct (Nat.ltb_spec k 8); lia.
  - intros k Hk. destruct (Nat.ltb_spec k 8); destruct H as [->|[->|(k' & Hk' & ->)]]; try lia; destruct (Nat.ltb_spec k' 8); lia.
Qed.

Lemma hexpair c : c < 256 -> exists vh vl, hex_val (hex_char (c / 16)) = Some vh /\ hex_val (hex_char (c mod 16)) = Some vl /\ c = 16 * vh + vl.
Proof.
  intros H. exists (c / 16), (c mod 16). split; [apply hex_val_char; apply N.div_lt_upper_bound; lia|].
  split; [apply hex_val_char; apply N.mod_lt; lia|]. apply N.div_mod. lia.
Qed.

(** one line *)
Lemma line_spec len j w buf chunk src0 ob : 16 * j + 16 < 2^64 -> 16 * j < 16 ^ N.of_nat w -> (1 <= w)%nat ->
  loaded buf chunk src0 len j -> outbuf_ok ob ->
  exists ob2 ob3, hex_cols 16 buf len (16 * j) src0 0 ob = Ok (16 * j + 16, (src0 + 16)%nat, 50%nat, ob2) /\
    ascii_cols 16 buf len (16 * j) src0 50 ob2 = Ok (16 * j + 16, (src0 + 16)%nat, 66%nat, ob3) /\
    outbuf_ok ob3 /\ line_shows w (fmt_line w (16 * j) ob3) (16 * j) chunk.
Proof.
  intros HJ HW Hw1 HLD [HL HG].
  destruct (hex_cols_spec len j buf chunk src0 HJ HLD 15 0 ob eq_refl HL) as (ob2 & E2 & L2 & A2 & C2).
  destruct (ascii_cols_spec len j buf chunk src0 HJ HLD 15 0 ob2 eq_refl L2) as (ob3 & E3 & L3 & A3 & C3).
  change (N.of_nat 0) with 0 in E2, E3. rewrite N.add_0_r, Nat.add_0_r in E2, E3. change (50 + 0)%nat with 50%nat in *. change (dcol 0) with 0%nat in E2.
  exists ob2, ob3. split; [exact E2|]. split; [exact E3|].
  assert (G3 : forall p, gap p -> nth_error ob3 p = Some 32).
  { intros p Hp. destruct (gap_free p Hp) as [P1 P2]. rewrite C3 by lia. rewrite C2; [apply HG; auto|]. intros k Hk; apply P2; lia. }
  split; [split; auto|].
  assert (FN : forall p, (p < 66)%nat -> nth_error (firstn 66 ob3) p = nth_error ob3 p).
  { intros p Hp. rewrite <- (firstn_skipn 66 ob3) at 2. rewrite nth_error_app1; [reflexivity|]. rewrite firstn_length. lia. }
  exists (pr_pad 16 w (16 * j)), (firstn 66 ob3). split; [reflexivity|].
  split; [apply pr_pad_length; auto; lia|]. split; [apply pr_pad_rd; lia|]. split; [rewrite firstn_length; lia|]. split.
  - intros k Hk. specialize (HLD k Hk). pose proof (hexcol_bound k Hk) as HB.
    destruct (A2 k ltac:(lia)) as [X Y]. specialize (A3 k ltac:(lia)).
    unfold cell, asccol. rewrite !FN by lia. rewrite !(C3 (hexcol k)), !(C3 (hexcol k + 1)%nat), X, Y, A3 by lia.
    destruct (nth_error chunk k) as [c|]; cbn [hx ax fst snd].
    + destruct HLD as (_ & _ & Hc). destruct (hexpair c Hc) as (vh & vl & V1 & V2 & V3). split.
      * exists (hex_char (c / 16)), (hex_char (c mod 16)), vh, vl. auto.
      * f_equal. unfold is_print. destruct (N.ltb_spec c 127), (N.leb_spec c 126); try lia; reflexivity.
    + auto.
  - intros p Hp. destruct (gap_free p Hp). rewrite FN by lia. auto.
Qed.

(** ---- fetching ---- *)
Lemma umoven_spec m n : forall addr b, umoven m addr n = Some b -> length b = n /\ bytes_at m addr b.
Proof.
  induction n as [|n IH]; intros addr b H; cbn [umoven] in H.
  - injection H as <-. split; [reflexivity|]. intros i c Hi. destruct i; discriminate.
  - destruct (m addr) as [x|] eqn:E; [|discriminate]. cbn [obind] in H.
    destruct (umoven m (addr + 1) n) as [r|] eqn:E2; [|discriminate]. cbn [obind] in H. injection H as <-.
    destruct (IH _ _ E2) as [L B]. split; [cbn; lia|]. intros i c Hi. destruct i as [|i]; cbn in Hi.
    + injection Hi as <-. change (N.of_nat 0) with 0. rewrite N.add_0_r. exact E.
    + rewrite Nat2N.inj_succ. replace (addr + N.succ (N.of_nat i)) with (addr + 1 + N.of_nat i) by lia. apply B; auto.
Qed.
Lemma umoven_total m : forall bytes addr, bytes_at m addr bytes -> umoven m addr (length bytes) = Some bytes.
Proof.
  induction bytes as [|x r IH]; intros addr H; [reflexivity|]. cbn [length umoven].
  assert (E : m addr = Some x). { specialize (H 0%nat x eq_refl). change (N.of_nat 0) with 0 in H. rewrite N.add_0_r in H. exact H. }
  rewrite E. cbn [obind]. rewrite IH; [reflexivity|]. intros i b Hi. specialize (H (S i) b Hi).
  rewrite Nat2N.inj_succ in H. replace (addr + N.succ (N.of_nat i)) with (addr + 1 + N.of_nat i) in H by lia. exact H.
Qed.

Definition mem_bytes (m : memory) : Prop := forall a b, m a = Some b -> b < 256.
Section Loop.
  Variable m : memory.
  Variables addr len : N.
  Hypothesis HM : mem_bytes m.
  Hypothesis HA : addr + len < 2^64.
  Hypothesis HLn : len + 16 < 2^64.
  Let alloc := N.min (u64 (len + 15) / 16 * 16) 65536.
  Variable w : nat.
  Hypothesis HW : len <= 16 ^ N.of_nat w.
  Hypothesis HW1 : (1 <= w)%nat.

  Lemma alloc_min b : 65536 * b < len -> N.min (len - 65536 * b) alloc = N.min (len - 65536 * b) 65536.
  Proof.
    intros Hb. unfold alloc. rewrite u64_id by lia.
    pose proof (N.div_mod (len + 15) 16 ltac:(lia)) as D. pose proof (N.mod_lt (len + 15) 16 ltac:(lia)) as B.
    destruct (N.eq_dec b 0) as [->|]; lia.
  Qed.

  Definition inv (i : N) (buf : list N) (src : nat) : Prop :=
    i mod 65536 <> 0 -> exists b, i = 65536 * b + N.of_nat src /\ N.of_nat src < 65536 /\
      N.of_nat (length buf) = N.min (len - 65536 * b) 65536 /\ bytes_at m (addr + 65536 * b) buf.

  Lemma loaded_ok j buf src b : 16 * j < len -> 16 * j = 65536 * b + N.of_nat src -> N.of_nat src < 65536 ->
    N.of_nat (length buf) = N.min (len - 65536 * b) 65536 -> bytes_at m (addr + 65536 * b) buf ->
    let ch := firstn 16 (skipn src buf) in
    loaded buf ch src len j /\ N.of_nat (length ch) = N.min 16 (len - 16 * j) /\ bytes_at m (addr + 16 * j) ch.
  Proof.
    intros Hj Hi Hs HL HB ch.
    assert (Hs16 : N.of_nat src + 16 <= 65536).
    { assert (E : N.of_nat src = 16 * (j - 4096 * b)) by lia. lia. }
    assert (LCH : N.of_nat (length ch) = N.min 16 (len - 16 * j)).
    { unfold ch. rewrite firstn_length, skipn_length. lia. }
    assert (NTH : forall k, (k < length ch)%nat -> nth_error ch k = nth_error buf (src + k)).
    { intros k Hk. unfold ch in *. rewrite firstn_length in Hk.
      rewrite <- (firstn_skipn src buf) at 2. rewrite skipn_length in Hk. rewrite nth_error_app2 by (rewrite firstn_length; lia).
      rewrite firstn_length. replace (src + k - Nat.min src (length buf))%nat with k by lia.
      rewrite <- (firstn_skipn 16 (skipn src buf)) at 2. rewrite nth_error_app1; [reflexivity|]. rewrite firstn_length, skipn_length. lia. }
    split; [|split].
    - intros k Hk. destruct (nth_error ch k) as [c|] eqn:E.
      + assert (Hkl : (k < length ch)%nat) by (apply nth_error_Some; congruence).
        rewrite NTH in E by auto. split; [lia|]. split; [exact E|]. eapply HM, HB; eauto.
      + apply nth_error_None in E. lia.
    - exact LCH.
    - intros k c Hk. assert (Hkl : (k < length ch)%nat) by (apply nth_error_Some; congruence).
      rewrite NTH in Hk by auto. specialize (HB _ _ Hk). rewrite Nat2N.inj_add in HB.
      replace (addr + 16 * j + N.of_nat k) with (addr + 65536 * b + (N.of_nat src + N.of_nat k)) by lia. exact HB.
  Qed.

  Definition shown (j : N) (texts : list (list N)) (bytes : list N) : Prop :=
    length texts = ((length bytes + 15) / 16)%nat /\
    forall t text, nth_error texts t = Some text -> line_shows w text (16 * (j + N.of_nat t)) (chunk t bytes).
  Definition ending (at_ : N) (tail : list dline) : Prop :=
    (tail = [] /\ at_ = len) \/
    (at_ < len /\ at_ mod 65536 = 0 /\ tail = (if at_ =? 0 then [] else [DCannotFetch (N.min (len - at_) 65536) (addr + at_)]) /\
     umoven m (addr + at_) (N.to_nat (N.min (len - at_) 65536)) = None).

  Lemma ceil16_step (ch r : list N) : (length ch = 16 \/ (1 <= length ch <= 16 /\ r = []))%nat ->
    (S ((length r + 15) / 16) = (length (ch ++ r) + 15) / 16)%nat.
  Proof.
    rewrite app_length. intros [E|(E & ->)].
    - replace (length ch + length r + 15)%nat with (length r + 15 + 1 * 16)%nat by lia. rewrite Nat.div_add by lia. lia.
    - cbn [length]. rewrite Nat.add_0_r. change ((0 + 15) / 16)%nat with 0%nat.
      apply Nat.div_unique with (r := (length ch - 1)%nat); lia.
  Qed.

  Lemma dump_loop_spec : forall fuel j buf src ob, N.of_nat fuel * 16 + 16 * j >= len -> 16 * j < len + 16 ->
    inv (16 * j) buf src -> outbuf_ok ob ->
    exists texts tail bytes ob', dump_loop fuel m addr len alloc w (16 * j) buf src ob = Ok (map DLine texts ++ tail, ob') /\
      outbuf_ok ob' /\ bytes_at m (addr + 16 * j) bytes /\ shown j texts bytes /\
      (16 * j < len -> ending (16 * j + N.of_nat (length bytes)) tail) /\ (len <= 16 * j -> texts = [] /\ tail = [] /\ bytes = []).
  Proof.
    induction fuel as [|f IH]; intros j buf src ob HF HJ HI HO.
    - cbn [dump_loop]. destruct (N.ltb_spec (16 * j) len); [lia|]. cbn [negb].
      exists [], [], [], ob. split; [reflexivity|]. split; [auto|]. split; [intros i b Hi; destruct i; discriminate|].
      split; [split; [reflexivity|intros t text Ht; destruct t; discriminate]|]. split; [lia|auto].
    - cbn [dump_loop]. destruct (N.ltb_spec (16 * j) len) as [Hlt|Hge]; cbn [negb].
      2: { exists [], [], [], ob. split; [reflexivity|]. split; [auto|]. split; [intros i b Hi; destruct i; discriminate|].
           split; [split; [reflexivity|intros t text Ht; destruct t; discriminate]|]. split; [lia|auto]. }
      cbv zeta.
      assert (ST : (exists b1 s1 bb, (if (16 * j =? 0) || (16 * j mod 65536 =? 0)
          then match umoven m (u64 (addr + 16 * j)) (N.to_nat (N.min (len - 16 * j) alloc)) with Some b => Some (b, 0%nat) | None => None end
          else Some (buf, src)) = Some (b1, s1) /\ 16 * j = 65536 * bb + N.of_nat s1 /\ N.of_nat s1 < 65536 /\
            N.of_nat (length b1) = N.min (len - 65536 * bb) 65536 /\ bytes_at m (addr + 65536 * bb) b1) \/
        ((if (16 * j =? 0) || (16 * j mod 65536 =? 0)
          then match umoven m (u64 (addr + 16 * j)) (N.to_nat (N.min (len - 16 * j) alloc)) with Some b => Some (b, 0%nat) | None => None end
          else Some (buf, src)) = None /\ 16 * j mod 65536 = 0 /\ N.min (len - 16 * j) alloc = N.min (len - 16 * j) 65536 /\
          umoven m (addr + 16 * j) (N.to_nat (N.min (len - 16 * j) 65536)) = None)).
      { assert (E0 : (16 * j =? 0) || (16 * j mod 65536 =? 0) = (16 * j mod 65536 =? 0)).
        { destruct (N.eqb_spec (16 * j) 0) as [->|]; reflexivity. }
        rewrite E0. rewrite u64_id by lia. destruct (N.eqb_spec (16 * j mod 65536) 0) as [Z|NZ].
        - pose proof (N.div_mod (16 * j) 65536 ltac:(lia)) as D. rewrite Z, N.add_0_r in D.
          set (bb := 16 * j / 65536) in *. rewrite D in *. rewrite alloc_min by lia.
          destruct (umoven m (addr + 65536 * bb) (N.to_nat (N.min (len - 65536 * bb) 65536))) as [b|] eqn:EU.
          + left. destruct (umoven_spec _ _ _ _ EU) as [L B]. exists b, 0%nat, bb. split; [reflexivity|].
            split; [lia|]. split; [lia|]. split; [lia|exact B].
          + right. auto.
        - left. destruct (HI NZ) as (bb & H1 & H2 & H3 & H4). exists buf, src, bb. auto. }
      destruct ST as [(b1 & s1 & bb & -> & H1 & H2 & H3 & H4)|(-> & Z & EM & EU)].
      + destruct (loaded_ok j b1 s1 bb Hlt H1 H2 H3 H4) as (LD & LL & BA).
        set (ch := firstn 16 (skipn s1 b1)) in *.
        destruct (line_spec len j w b1 ch s1 ob ltac:(lia) ltac:(lia) HW1 LD HO) as (ob2 & ob3 & E2 & E3 & O3 & LS).
        rewrite E2. cbn [rbind].
        assert (EI : u64 (16 * j + 16 + 2^64 - 16) = 16 * j).
        { replace (16 * j + 16 + 2^64 - 16) with (16 * j + 1 * 2^64) by lia. unfold u64. rewrite N.mod_add by lia. apply N.mod_small. lia. }
        rewrite EI. replace (s1 + 16 - 16)%nat with s1 by lia. rewrite E3. cbn [rbind].
        rewrite EI. replace (16 * j + 16) with (16 * (j + 1)) by lia.
        assert (HI' : inv (16 * (j + 1)) b1 (s1 + 16)).
        { intros NZ. exists bb. split; [lia|]. split; [|auto].
          assert (N.of_nat s1 = 16 * (j - 4096 * bb)) by lia.
          destruct (N.eq_dec (N.of_nat (s1 + 16)) 65536) as [EQ|]; [|lia]. exfalso. apply NZ.
          replace (16 * (j + 1)) with ((bb + 1) * 65536) by lia. apply N.mod_mul. lia. }
        destruct (IH (j + 1) b1 (s1 + 16)%nat ob3 ltac:(lia) ltac:(lia) HI' O3) as (texts & tail & bytes & ob' & E & O' & B' & (S1 & S2) & EN & EZ).
        rewrite E. cbn [rbind].
        exists (fmt_line w (16 * j) ob3 :: texts), tail, (ch ++ bytes), ob'. split; [reflexivity|]. split; [exact O'|].
        assert (CASE : (length ch = 16 \/ (1 <= length ch <= 16 /\ bytes = []))%nat).
        { destruct (N.le_gt_cases len (16 * (j + 1))) as [Hc|Hc].
          - right. destruct (EZ Hc) as (_ & _ & ->). split; [|reflexivity]. lia.
          - left. lia. }
        split.
        { intros i b Hi. destruct (Nat.lt_ge_cases i (length ch)) as [Hc|Hc].
          - rewrite nth_error_app1 in Hi by auto. apply BA; auto.
          - rewrite nth_error_app2 in Hi by auto. destruct CASE as [C|(_ & ->)]; [|destruct (i - length ch)%nat; discriminate].
            specialize (B' _ _ Hi). replace (addr + 16 * j + N.of_nat i) with (addr + 16 * (j + 1) + N.of_nat (i - length ch)) by lia. exact B'. }
        split.
        { split.
          - cbn [length]. rewrite S1. apply ceil16_step. exact CASE.
          - intros t text Ht. destruct t as [|t]; cbn [nth_error] in Ht.
            + injection Ht as <-. change (N.of_nat 0) with 0. rewrite N.add_0_r.
              assert (EC : chunk 0 (ch ++ bytes) = ch).
              { unfold chunk. change (16 * 0)%nat with 0%nat. cbn [skipn]. rewrite firstn_app. destruct CASE as [C|(C & ->)].
                - rewrite C, Nat.sub_diag. rewrite firstn_O, app_nil_r. apply firstn_all2. lia.
                - rewrite firstn_nil, app_nil_r. apply firstn_all2. lia. }
              rewrite EC. exact LS.
            + specialize (S2 t text Ht). rewrite Nat2N.inj_succ. replace (j + N.succ (N.of_nat t)) with (j + 1 + N.of_nat t) by lia.
              assert (EC : chunk (S t) (ch ++ bytes) = chunk t bytes).
              { destruct CASE as [C|(C & ->)].
                - unfold chunk. f_equal. rewrite skipn_app. replace (16 * S t)%nat with (16 + 16 * t)%nat by lia.
                  rewrite (skipn_all2 ch) by lia. rewrite C. cbn [app]. f_equal. lia.
                - cbn [length] in S1. change ((0 + 15) / 16)%nat with 0%nat in S1.
                  destruct texts; [destruct t; discriminate|discriminate]. }
              rewrite EC. exact S2. }
        split; [|lia]. intros _. rewrite app_length, Nat2N.inj_add.
        destruct (N.le_gt_cases len (16 * (j + 1))) as [Hc|Hc].
        * destruct (EZ Hc) as (_ & -> & ->). left. split; [reflexivity|]. cbn [length]. lia.
        * destruct (EN Hc) as [(-> & X)|X].
          -- left. split; [reflexivity|]. lia.
          -- right. replace (16 * j + (N.of_nat (length ch) + N.of_nat (length bytes))) with (16 * (j + 1) + N.of_nat (length bytes)) by lia. exact X.
      + exists [], (if 16 * j =? 0 then [] else [DCannotFetch (N.min (len - 16 * j) alloc) (u64 (addr + 16 * j))]), [], ob.
        split; [reflexivity|]. split; [auto|]. split; [intros i b Hi; destruct i; discriminate|].
        split; [split; [reflexivity|intros t text Ht; destruct t; discriminate]|]. split; [|lia].
        intros _. right. cbn [length]. change (N.of_nat 0) with 0. rewrite N.add_0_r, EM, u64_id by lia. auto.
  Qed.
End Loop.

Lemma offs_chars_ok len : len < 2^64 -> len <= 16 ^ N.of_nat (offs_chars len) /\ (5 <= offs_chars len)%nat.
Proof.
  intros H. unfold offs_chars. destruct (N.ltb_spec 1048576 len) as [Hb|Hb].
  - pose proof (ilog2_64_spec (len - 1) ltac:(lia) ltac:(lia)) as [L1 L2].
    set (g := ilog2_64 (len - 1)) in *. rewrite N2Nat.id.
    pose proof (N.div_mod g 4 ltac:(lia)) as D. pose proof (N.mod_lt g 4 ltac:(lia)) as B.
    assert (G20 : 20 <= g).
    { destruct (N.le_gt_cases 20 g) as [|X]; [auto|]. exfalso.
      assert (2 ^ (g + 1) <= 2 ^ 20) by (apply N.pow_le_mono_r; lia). change (2 ^ 20) with 1048576 in H0. lia. }
    split.
    + change 16 with (2 ^ 4). rewrite <- N.pow_mul_r.
      assert (2 ^ (g + 1) <= 2 ^ (4 * (1 + g / 4))) by (apply N.pow_le_mono_r; lia). lia.
    + assert (5 <= g / 4) by (apply N.div_le_lower_bound; lia). lia.
  - split; [|lia]. exact Hb.
Qed.

Lemma dumpstr_spec m ob addr len : mem_bytes m -> addr < 2^64 -> len < 2^64 -> outbuf_ok ob ->
  exists texts tail bytes ob', dumpstr m ob addr len = Ok (map DLine texts ++ tail, ob') /\ outbuf_ok ob' /\
    (2^64 <= len + 16 \/ 2^64 <= addr + len -> texts = [] /\ tail = []) /\
    (len + 16 < 2^64 -> addr + len < 2^64 ->
      bytes_at m addr bytes /\
      length texts = ((length bytes + 15) / 16)%nat /\
      (forall t text, nth_error texts t = Some text -> line_shows (offs_chars len) text (16 * N.of_nat t) (chunk t bytes)) /\
      ending m addr len (N.of_nat (length bytes)) tail).
Proof.
  intros HM HA HL HO. unfold dumpstr.
  assert (G : (u64 (len + 16) <? len) || (u64 (addr + len) <? addr) = true <-> 2^64 <= len + 16 \/ 2^64 <= addr + len).
  { assert (W : forall x y, x < 2^64 -> y < 2^64 -> u64 (x + y) <? x = true <-> 2^64 <= x + y).
    { intros x y Hx Hy. rewrite N.ltb_lt. unfold u64. destruct (N.lt_ge_cases (x + y) (2^64)) as [C|C].
      - rewrite N.mod_small by auto. lia.
      - replace (x + y) with (x + y - 2^64 + 1 * 2^64) by lia. rewrite N.mod_add by lia. rewrite N.mod_small by lia. lia. }
    rewrite orb_true_iff, W, W by lia. reflexivity. }
  destruct ((u64 (len + 16) <? len) || (u64 (addr + len) <? addr)) eqn:EG.
  - exists [], [], [], ob. split; [reflexivity|]. split; [auto|]. split; [auto|]. pose proof (proj1 G eq_refl). lia.
  - assert (NG : ~ (2^64 <= len + 16 \/ 2^64 <= addr + len)) by (rewrite <- G; discriminate).
    destruct (offs_chars_ok len HL) as [W1 W2].
    assert (HF : N.of_nat (N.to_nat ((len + 15) / 16)) * 16 + 16 * 0 >= len).
    { rewrite N2Nat.id. pose proof (N.div_mod (len + 15) 16 ltac:(lia)). pose proof (N.mod_lt (len + 15) 16 ltac:(lia)). lia. }
    destruct (dump_loop_spec m addr len HM ltac:(lia) ltac:(lia) (offs_chars len) W1 ltac:(lia)
      (N.to_nat ((len + 15) / 16)) 0 [] 0%nat ob HF ltac:(lia)) as (texts & tail & bytes & ob' & E & O' & B & (S1 & S2) & EN & EZ).
    { intros NZ. exfalso. apply NZ. reflexivity. }
    { exact HO. }
    change (16 * 0) with 0 in *. rewrite N.add_0_r in *. exists texts, tail, bytes, ob'. split; [exact E|]. split; [exact O'|]. split; [tauto|].
    intros _ _. split; [exact B|]. split; [exact S1|]. split; [intros t text Ht; exact (S2 t text Ht)|].
    destruct (N.lt_ge_cases 0 len) as [Hc|Hc]; [exact (EN Hc)|].
    destruct (EZ Hc) as (_ & -> & ->). left. split; [reflexivity|]. cbn. lia.
Qed.
