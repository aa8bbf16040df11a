From Verif Require Import Base QuoteProofs Printf BitsModel BitsSpec.
Local Open Scope N_scope.

Lemma land_pow2 byte k : N.land byte (2 ^ k) =? 0 = negb (N.testbit byte k).
Proof.
  destruct (N.testbit byte k) eqn:E; cbn [negb].
  - apply N.eqb_neq. intros H. assert (X : N.testbit (N.land byte (2 ^ k)) k = false) by (rewrite H; apply N.bits_0).
    rewrite N.land_spec, E, N.pow2_bits_true in X. discriminate.
  - apply N.eqb_eq. apply N.bits_inj. intros i. rewrite N.land_spec, N.bits_0.
    destruct (N.eq_dec i k) as [->|Hne]; [rewrite E; reflexivity|]. rewrite (N.pow2_bits_false k i) by auto. apply andb_false_r.
Qed.
Lemma u8_pow k : k < 8 -> u8 (2 ^ k) = 2 ^ k.
Proof. intros. unfold u8. apply N.mod_small. apply N.pow_lt_mono_r; lia. Qed.
Lemma pow_next k : 2 ^ k * 2 = 2 ^ (k + 1).
Proof. rewrite N.pow_add_r. reflexivity. Qed.
Lemma land_m8 x : x < 2^32 -> N.land x (2^32 - 8) = 8 * (x / 8).
Proof.
  intros H. change (2^32 - 8) with (N.shiftl (N.ones 29) 3).
  replace (8 * (x / 8)) with (N.shiftl (N.shiftr x 3) 3) by (rewrite N.shiftl_mul_pow2, N.shiftr_div_pow2; change (2^3) with 8; lia).
  apply N.bits_inj. intros i. rewrite N.land_spec. destruct (N.lt_ge_cases i 3) as [L|L].
  - rewrite !N.shiftl_spec_low by auto. apply andb_false_r.
  - rewrite !N.shiftl_spec_high' by auto. rewrite N.shiftr_spec'. replace (i - 3 + 3) with i by lia.
    destruct (N.lt_ge_cases (i - 3) 29) as [L2|L2].
    + rewrite N.ones_spec_low by auto. apply andb_true_r.
    + rewrite N.ones_spec_high by auto. rewrite andb_false_r. symmetry. destruct (N.eq_dec x 0) as [->|NZ]; [apply N.bits_0|].
      apply N.bits_above_log2. assert (N.log2 x < 32) by (apply N.log2_lt_pow2; lia). lia.
Qed.

Lemma byte_pos p k : k < 8 -> (8 * p + k) / 8 = p /\ (8 * p + k) mod 8 = k.
Proof.
  intros H. split.
  - replace (8 * p + k) with (k + p * 8) by lia. rewrite N.div_add by lia. rewrite N.div_small by auto. lia.
  - replace (8 * p + k) with (k + p * 8) by lia. rewrite N.mod_add by lia. apply N.mod_small; auto.
Qed.

Lemma inner_spec byte size p : 8 * p + 8 < 2^32 -> size <= 2^32 - 8 ->
  forall fuel k, k < 8 -> N.of_nat fuel + k >= 8 -> 8 * p + k < size ->
  match nsb_inner fuel byte (2 ^ k) (8 * p + k) size with
  | Found b => exists k', b = 8 * p + k' /\ k <= k' < 8 /\ b < size /\ N.testbit byte k' = true /\
                 forall j, k <= j < k' -> N.testbit byte j = false
  | Stop => size <= 8 * p + 8 /\ forall j, k <= j -> 8 * p + j < size -> N.testbit byte j = false
  | Break c => c = 8 * (p + 1) /\ c < size /\ forall j, k <= j < 8 -> N.testbit byte j = false
  | ScanFuel => False
  end.
Proof.
  intros HP HS. induction fuel as [|f IH]; intros k Hk HF Hs; [lia|]. cbn [nsb_inner].
  rewrite land_pow2. destruct (N.testbit byte k) eqn:ET; cbn [negb].
  - exists k. repeat split; try lia.
  - cbv zeta. assert (EU : u32 (8 * p + k + 1) = 8 * p + k + 1) by (unfold u32; apply N.mod_small; lia). rewrite EU.
    destruct (N.leb_spec size (8 * p + k + 1)) as [HL|HL].
    + split; [lia|]. intros j H1 H2. assert (j = k) as -> by lia. exact ET.
    + rewrite pow_next. destruct (N.eq_dec k 7) as [->|Hne].
      * change (u8 (2 ^ (7 + 1)) =? 0) with true. cbv iota. split; [lia|]. split; [lia|].
        intros j Hj. assert (j = 7) as -> by lia. exact ET.
      * rewrite u8_pow by lia. assert (2 ^ (k + 1) <> 0) by (apply N.pow_nonzero; lia).
        destruct (N.eqb_spec (2 ^ (k + 1)) 0); [contradiction|].
        replace (8 * p + k + 1) with (8 * p + (k + 1)) by lia.
        specialize (IH (k + 1) ltac:(lia) ltac:(lia) ltac:(lia)).
        destruct (nsb_inner f byte (2 ^ (k + 1)) (8 * p + (k + 1)) size) as [b| |c|].
        -- destruct IH as (k' & -> & H1 & H2 & H3 & H4). exists k'. repeat split; try lia; auto.
           intros j Hj. destruct (N.eq_dec j k) as [->|]; [exact ET|]. apply H4. lia.
        -- destruct IH as (H1 & H2). split; [exact H1|]. intros j Hj Hl. destruct (N.eq_dec j k) as [->|]; [exact ET|]. apply H2; lia.
        -- destruct IH as (H1 & H2 & H3). split; [exact H1|]. split; [exact H2|]. intros j Hj. destruct (N.eq_dec j k) as [->|]; [exact ET|]. apply H3; lia.
        -- exact IH.
Qed.

(** the answer of a scan from [cur] *)
Definition answer (arr : list N) (xm cur size : N) (r : option N) : Prop :=
  match r with
  | Some b => cur <= b < size /\ bit_set arr xm b /\ forall b', cur <= b' < b -> ~ bit_set arr xm b'
  | None => forall b', cur <= b' < size -> ~ bit_set arr xm b'
  end.
Lemma not_set arr xm p k byte : k < 8 -> nth_error arr (N.to_nat (N.lxor p xm)) = Some byte -> N.testbit byte k = false ->
  ~ bit_set arr xm (8 * p + k).
Proof. intros Hk E T (b & E2 & T2). destruct (byte_pos p k Hk) as [D M]. rewrite D in E2. rewrite M in T2. congruence. Qed.

Lemma outer_spec arr xm size : size <= 2^32 - 8 -> covers arr xm size ->
  forall fuel p k, k < 8 -> (1 <= fuel)%nat -> 8 * N.of_nat fuel + 8 * p >= size + 8 -> 8 * p + k < 2^32 ->
  exists r, nsb_outer fuel arr xm p (8 * p + k) size = Ok r /\ answer arr xm (8 * p + k) size r.
Proof.
  intros HS HC. induction fuel as [|f IH]; intros p k Hk Hf HF HU; [lia|].
  cbn [nsb_outer]. destruct (N.leb_spec size (8 * p + k)) as [HL|HL].
  { exists None. split; [reflexivity|]. intros b' Hb. lia. }
  destruct (nth_error arr (N.to_nat (N.lxor p xm))) as [byte|] eqn:EB.
  2: { apply nth_error_None in EB. specialize (HC p ltac:(lia)). lia. }
  assert (NEXT : forall c, c = 8 * (p + 1) + 0 -> (forall j, k <= j < 8 -> N.testbit byte j = false) ->
    exists r, nsb_outer f arr xm (p + 1) c size = Ok r /\ answer arr xm (8 * p + k) size r).
  { intros c -> HZ. assert (HU' : 8 * (p + 1) + 0 < 2^32) by lia.
    destruct (IH (p + 1) 0 ltac:(lia) ltac:(lia) ltac:(lia) HU') as (r & E & A). exists r. split; [exact E|].
    assert (LOW : forall b', 8 * p + k <= b' < 8 * (p + 1) + 0 -> ~ bit_set arr xm b').
    { intros b' Hb. replace b' with (8 * p + (b' - 8 * p)) by lia. eapply not_set; eauto; [lia|]. apply HZ. lia. }
    destruct r as [b|]; cbn [answer] in *.
    - destruct A as (A1 & A2 & A3). split; [lia|]. split; [exact A2|]. intros b' Hb.
      destruct (N.lt_ge_cases b' (8 * (p + 1) + 0)); [apply LOW; lia|apply A3; lia].
    - intros b' Hb. destruct (N.lt_ge_cases b' (8 * (p + 1) + 0)); [apply LOW; lia|apply A; lia]. }
  destruct (N.eqb_spec byte 0) as [->|NZ].
  - apply NEXT; [|intros j _; apply N.bits_0].
    assert (EU : u32 (8 * p + k + 8) = 8 * p + k + 8) by (unfold u32; apply N.mod_small; lia).
    rewrite EU, land_m8 by lia. replace (8 * p + k + 8) with (8 * (p + 1) + k) by lia.
    destruct (byte_pos (p + 1) k Hk) as [D _]. rewrite D. lia.
  - assert (EM : N.land (8 * p + k) 7 = k).
    { change 7 with (N.ones 3). rewrite N.land_ones. change (2^3) with 8. apply byte_pos; auto. }
    rewrite EM, u8_pow by auto.
    pose proof (inner_spec byte size p ltac:(lia) HS 8 k Hk ltac:(lia) HL) as I.
    destruct (nsb_inner 8 byte (2 ^ k) (8 * p + k) size) as [b| |c|].
    + destruct I as (k' & -> & H1 & H2 & H3 & H4). exists (Some (8 * p + k')). split; [reflexivity|]. cbn [answer].
      split; [lia|]. split.
      * exists byte. destruct (byte_pos p k' ltac:(lia)) as [D M]. rewrite D, M. auto.
      * intros b' Hb. replace b' with (8 * p + (b' - 8 * p)) by lia. eapply not_set; eauto; [lia|]. apply H4. lia.
    + destruct I as (H1 & H2). exists None. split; [reflexivity|]. intros b' Hb.
      replace b' with (8 * p + (b' - 8 * p)) by lia. eapply not_set; eauto; [lia|]. apply H2; lia.
    + destruct I as (-> & H2 & H3). apply NEXT; [lia|exact H3].
    + destruct I.
Qed.
Lemma next_set_bit_spec arr xm cur size : size <= 2^32 - 8 -> cur < 2^32 -> covers arr xm size ->
  exists r, next_set_bit arr xm cur size = Ok r /\ answer arr xm cur size r.
Proof.
  intros HS HCu HC. unfold next_set_bit.
  pose proof (N.div_mod cur 8 ltac:(lia)) as D. pose proof (N.mod_lt cur 8 ltac:(lia)) as B.
  pose proof (N.div_mod size 8 ltac:(lia)) as D2. pose proof (N.mod_lt size 8 ltac:(lia)) as B2.
  pose proof (outer_spec arr xm size HS HC (N.to_nat (size / 8) + 2) (cur / 8) (cur mod 8) B ltac:(lia) ltac:(lia)) as O.
  rewrite <- D in O. apply O. exact HCu.
Qed.

(** ---- signal masks ---- *)
Definition bitb (arr : list N) (xm b : N) : bool :=
  match nth_error arr (N.to_nat (N.lxor (b / 8) xm)) with Some byte => N.testbit byte (b mod 8) | None => false end.
Lemma bitb_iff arr xm b : bitb arr xm b = true <-> bit_set arr xm b.
Proof.
  unfold bitb, bit_set. destruct (nth_error _ _) as [y|]; split.
  - intros H; eauto.
  - intros (y' & E & T). injection E as <-. exact T.
  - discriminate.
  - intros (y' & E & _). discriminate.
Qed.
(** signals after [i] *)
Definition sigs (arr : list N) (xm : N) (i nbits : nat) : list nat :=
  filter (fun n => bitb arr xm (N.of_nat n - 1)) (seq (S i) (nbits - i)).
Fixpoint elems (g : sigcfg) (st : xstyle_t) (sep : N) (l : list nat) (out : list N) : res (list N * N) :=
  match l with
  | [] => Ok (out, sep)
  | n :: r => rlet o := sig_elem g st sep (N.of_nat n) out in elems g st 32 r o
  end.
Lemma filter_seq_none f s n : (forall k, (s <= k < s + n)%nat -> f k = false) -> filter f (seq s n) = [].
Proof.
  revert s; induction n as [|n IH]; intros s H; [reflexivity|]. cbn [seq filter]. rewrite H by lia. apply IH. intros k Hk. apply H. lia.
Qed.
Lemma sigs_none arr xm i nbits : (forall b, N.of_nat i <= b < N.of_nat nbits -> ~ bit_set arr xm b) -> sigs arr xm i nbits = [].
Proof.
  intros H. apply filter_seq_none. intros k Hk. apply not_true_is_false. rewrite bitb_iff. apply H. lia.
Qed.
Lemma sigs_some arr xm i nbits b : N.of_nat i <= b < N.of_nat nbits -> bit_set arr xm b ->
  (forall b', N.of_nat i <= b' < b -> ~ bit_set arr xm b') ->
  sigs arr xm i nbits = S (N.to_nat b) :: sigs arr xm (S (N.to_nat b)) nbits.
Proof.
  intros H1 H2 H3. unfold sigs.
  replace (nbits - i)%nat with ((N.to_nat b - i) + S (nbits - S (N.to_nat b)))%nat by lia.
  rewrite seq_app, filter_app, filter_seq_none.
  - replace (S i + (N.to_nat b - i))%nat with (S (N.to_nat b)) by lia. cbn [app seq filter].
    replace (N.of_nat (S (N.to_nat b)) - 1) with b by lia. rewrite (proj2 (bitb_iff arr xm b) H2). reflexivity.
  - intros k Hk. apply not_true_is_false. rewrite bitb_iff. apply H3. lia.
Qed.
Lemma sig_loop_elems g st xm arr nbits : N.of_nat nbits <= 2^32 - 8 -> covers arr xm (N.of_nat nbits) ->
  forall fuel i sep out, (i <= nbits)%nat -> (nbits - i < fuel)%nat ->
  sig_loop fuel g st xm arr (N.of_nat nbits) (N.of_nat i) sep out = elems g st sep (sigs arr xm i nbits) out.
Proof.
  intros HS HC. induction fuel as [|f IH]; intros i sep out Hi HF; [lia|]. cbn [sig_loop].
  destruct (next_set_bit_spec arr xm (N.of_nat i) (N.of_nat nbits) HS ltac:(lia) HC) as (r & E & A). rewrite E. cbn [rbind].
  destruct r as [b|]; cbn [answer] in A.
  - destruct A as (A1 & A2 & A3). rewrite (sigs_some arr xm i nbits b) by auto. cbn [elems].
    replace (N.of_nat (S (N.to_nat b))) with (b + 1) by lia.
    destruct (sig_elem g st sep (b + 1) out) as [o| |]; cbn [rbind]; try reflexivity.
    replace (b + 1) with (N.of_nat (S (N.to_nat b))) by lia. apply IH; lia.
  - rewrite sigs_none by auto. reflexivity.
Qed.

(** text of one signal *)
Definition signame_txt (g : sigcfg) (st : xstyle_t) (i : N) : list N :=
  match nth_error (signalent g) (N.to_nat i) with
  | Some name => skipn 3 name
  | None =>
      let dflt := match st with XABBREV => [] | _ => pr_num 10 i end in
      match rtmax g with
      | Some mx => if (rtmin g <=? i) && (i <=? mx) then bs "RT_" ++ pr_num 10 (i - rtmin g) else dflt
      | None => dflt
      end
  end.
Definition item (g : sigcfg) (st : xstyle_t) (i : N) : list N :=
  match st with
  | XABBREV => signame_txt g st i
  | XRAW => pr_num 10 i
  | XVERBOSE => pr_num 10 i ++ bs " /* " ++ signame_txt g st i ++ bs " */"
  end.
Lemma put_ok cap out c o : put cap out c = Ok o -> o = out ++ [c].
Proof. unfold put. destruct (_ <? _); congruence. Qed.
Lemma stpcpy_ok cap out c o : stpcpy cap out c = Ok o -> o = out ++ c.
Proof. unfold stpcpy. destruct (_ <? _); congruence. Qed.
Lemma xappendstr_ok cap out c o : xappendstr cap out c = Ok o -> o = out ++ c.
Proof. unfold xappendstr. destruct (_ <? _); [congruence|]. destruct (_ <=? _); congruence. Qed.
Lemma put_fits cap out c : N.of_nat (length out) < cap -> put cap out c = Ok (out ++ [c]).
Proof. intros. unfold put. destruct (N.ltb_spec (N.of_nat (length out)) cap); [reflexivity|lia]. Qed.
Lemma stpcpy_fits cap out s : N.of_nat (length (out ++ s)) < cap -> stpcpy cap out s = Ok (out ++ s).
Proof. rewrite app_length. intros. unfold stpcpy. destruct (N.ltb_spec (N.of_nat (length out) + N.of_nat (length s)) cap); [reflexivity|lia]. Qed.
Lemma xappendstr_fits cap out s : N.of_nat (length (out ++ s)) < cap -> xappendstr cap out s = Ok (out ++ s).
Proof.
  rewrite app_length. intros. unfold xappendstr. destruct (N.ltb_spec cap (N.of_nat (length out))); [lia|].
  destruct (N.leb_spec (cap - N.of_nat (length out)) (N.of_nat (length s))); [lia|reflexivity].
Qed.

Lemma sig_elem_ok g st sep i out o : sig_elem g st sep i out = Ok o -> o = out ++ sep :: item g st i.
Proof.
  unfold sig_elem, item, signame_txt. intros H.
  destruct (put (out_cap g) out sep) as [o1| |] eqn:E1; cbn [rbind] in H; try discriminate. apply put_ok in E1. subst o1.
  destruct st; cbn [rbind] in H.
  - match type of H with context [rbind ?x _] => destruct x as [o4| |] eqn:E4; cbn [rbind] in H; try discriminate end.
    injection H as <-. destruct (nth_error (signalent g) (N.to_nat i)) as [nm|].
    + apply stpcpy_ok in E4. subst. rewrite <- app_assoc. reflexivity.
    + destruct (rtmax g) as [mx|]; [|injection E4 as <-; reflexivity].
      destruct ((rtmin g <=? i) && (i <=? mx)); [apply xappendstr_ok in E4; subst; rewrite <- app_assoc; reflexivity|injection E4 as <-; reflexivity].
  - destruct (xappendstr (out_cap g) (out ++ [sep]) (pr_num 10 i)) as [o2| |] eqn:E2; cbn [rbind] in H; try discriminate.
    injection H as <-. apply xappendstr_ok in E2. subst. rewrite <- app_assoc. reflexivity.
  - destruct (xappendstr (out_cap g) (out ++ [sep]) (pr_num 10 i)) as [o2| |] eqn:E2; cbn [rbind] in H; try discriminate.
    apply xappendstr_ok in E2.
    destruct (xappendstr (out_cap g) o2 (bs " /* ")) as [o3| |] eqn:E3; cbn [rbind] in H; try discriminate. apply xappendstr_ok in E3.
    match type of H with context [rbind ?x _] => destruct x as [o4| |] eqn:E4; cbn [rbind] in H; try discriminate end.
    apply xappendstr_ok in H. subst.
    assert (EX : exists nm, o4 = ((((out ++ [sep]) ++ pr_num 10 i) ++ bs " /* ") ++ nm) /\ nm = signame_txt g XVERBOSE i).
    { unfold signame_txt. destruct (nth_error (signalent g) (N.to_nat i)) as [nm|].
      - apply stpcpy_ok in E4. eauto.
      - destruct (rtmax g) as [mx|]; [|apply xappendstr_ok in E4; eauto].
        destruct ((rtmin g <=? i) && (i <=? mx)); apply xappendstr_ok in E4; eauto. }
    destruct EX as (nm & -> & ->). unfold signame_txt. rewrite <- !app_assoc. reflexivity.
Qed.
Lemma sig_elem_fits g st sep i out : N.of_nat (length (out ++ sep :: item g st i)) < out_cap g ->
  sig_elem g st sep i out = Ok (out ++ sep :: item g st i).
Proof.
  intros H. rewrite app_length in H. cbn [length] in H.
  assert (L : forall s, N.of_nat (length out + S (length s)) < out_cap g -> N.of_nat (length ((out ++ [sep]) ++ s)) < out_cap g)
    by (intros s Hs; rewrite !app_length; cbn [length]; lia).
  assert (R : forall s, (out ++ [sep]) ++ s = out ++ sep :: s) by (intros; rewrite <- app_assoc; reflexivity).
  unfold sig_elem. cbv zeta. rewrite put_fits by lia. cbn [rbind]. destruct st; cbn [rbind item] in *; unfold signame_txt in *.
  - destruct (nth_error (signalent g) (N.to_nat i)) as [nm|].
    + rewrite stpcpy_fits by (apply L; exact H). cbn [rbind]. rewrite R. reflexivity.
    + destruct (rtmax g) as [mx|]; [|rewrite <- R, app_nil_r; reflexivity].
      destruct ((rtmin g <=? i) && (i <=? mx)).
      * rewrite xappendstr_fits by (apply L; exact H). cbn [rbind]. rewrite R. reflexivity.
      * rewrite <- R, app_nil_r. reflexivity.
  - rewrite xappendstr_fits by (apply L; exact H). cbn [rbind]. rewrite R. reflexivity.
  - rewrite !app_length in H. change (length (bs " /* ")) with 4%nat in H. change (length (bs " */")) with 3%nat in H.
    rewrite xappendstr_fits by (apply L; lia). cbn [rbind].
    rewrite xappendstr_fits by (rewrite !app_length; cbn [length]; change (length (bs " /* ")) with 4%nat; lia). cbn [rbind].
    assert (E4 : match nth_error (signalent g) (N.to_nat i) with
      | Some name => stpcpy (out_cap g) (((out ++ [sep]) ++ pr_num 10 i) ++ bs " /* ") (skipn 3 name)
      | None => match rtmax g with
          | Some mx => if (rtmin g <=? i) && (i <=? mx)
              then xappendstr (out_cap g) (((out ++ [sep]) ++ pr_num 10 i) ++ bs " /* ") (bs "RT_" ++ pr_num 10 (i - rtmin g))
              else xappendstr (out_cap g) (((out ++ [sep]) ++ pr_num 10 i) ++ bs " /* ") (pr_num 10 i)
          | None => xappendstr (out_cap g) (((out ++ [sep]) ++ pr_num 10 i) ++ bs " /* ") (pr_num 10 i) end end =
      Ok ((((out ++ [sep]) ++ pr_num 10 i) ++ bs " /* ") ++ signame_txt g XVERBOSE i)).
    { unfold signame_txt. destruct (nth_error (signalent g) (N.to_nat i)) as [nm|].
      - apply stpcpy_fits. rewrite !app_length. cbn [length]. change (length (bs " /* ")) with 4%nat. lia.
      - destruct (rtmax g) as [mx|]; [destruct ((rtmin g <=? i) && (i <=? mx))|]; apply xappendstr_fits; rewrite !app_length in *; cbn [length];
          change (length (bs " /* ")) with 4%nat; lia. }
    rewrite E4. cbn [rbind]. fold (signame_txt g XVERBOSE i) in H |- *.
    rewrite xappendstr_fits.
    + rewrite <- !app_assoc. reflexivity.
    + rewrite !app_length. cbn [length]. change (length (bs " /* ")) with 4%nat. change (length (bs " */")) with 3%nat. lia.
Qed.

Fixpoint body (g : sigcfg) (st : xstyle_t) (sep : N) (l : list nat) : list N :=
  match l with [] => [] | n :: r => sep :: item g st (N.of_nat n) ++ body g st 32 r end.
Lemma elems_ok g st l : forall sep out o s, elems g st sep l out = Ok (o, s) ->
  o = out ++ body g st sep l /\ s = (match l with [] => sep | _ => 32 end).
Proof.
  induction l as [|n r IH]; intros sep out o s H; cbn [elems body] in *.
  - injection H as <- <-. rewrite app_nil_r. auto.
  - destruct (sig_elem g st sep (N.of_nat n) out) as [o1| |] eqn:E; cbn [rbind] in H; try discriminate.
    apply sig_elem_ok in E. apply IH in H as [-> ->]. subst. split; [rewrite <- app_assoc; reflexivity|]. destruct r; reflexivity.
Qed.
Lemma elems_fits g st l : forall sep out, N.of_nat (length (out ++ body g st sep l)) < out_cap g ->
  elems g st sep l out = Ok (out ++ body g st sep l, match l with [] => sep | _ => 32 end).
Proof.
  induction l as [|n r IH]; intros sep out H; cbn [elems body] in *.
  - rewrite app_nil_r. reflexivity.
  - rewrite sig_elem_fits.
    + cbn [rbind]. rewrite IH.
      * rewrite <- app_assoc. cbn [app]. do 2 f_equal. destruct r; reflexivity.
      * rewrite <- app_assoc. exact H.
    + rewrite app_length in *. cbn [length] in *. rewrite app_length in H. lia.
Qed.
Lemma body_join g st l : l <> [] -> forall sep, body g st sep l = sep :: join (map (item g st) (map N.of_nat l)).
Proof.
  induction l as [|n r IH]; intros Hn sep; [congruence|]. cbn [body map join]. destruct r as [|m r].
  - cbn [body map]. rewrite app_nil_r. reflexivity.
  - rewrite (IH ltac:(discriminate) 32). cbn [map]. reflexivity.
Qed.

Definition words (g : sigcfg) (bytes : N) : N := (N.min bytes (nsig_bytes g) + 3) / 4.
Definition shown_mask (inv : bool) (mask : list N) : list N := if inv then map (fun b => 255 - b) mask else mask.
Definition full_text (g : sigcfg) (st : xstyle_t) (prefix : list N) (inv : bool) (l : list nat) : list N :=
  prefix ++ (if inv then [126] else []) ++ [91] ++ join (map (item g st) (map N.of_nat l)) ++ [93].

Lemma text_eq g st (prefix : list N) (inv : bool) l :
  (prefix ++ (if inv then [126] else [])) ++ body g st 91 l ++ (if (match l with [] => 91 | _ => 32 end) =? 91 then [91] else []) ++ [93]
  = full_text g st prefix inv l.
Proof.
  unfold full_text. rewrite <- !app_assoc. f_equal. f_equal. destruct l as [|n l]; [reflexivity|].
  rewrite body_join by discriminate. change (32 =? 91) with false. reflexivity.
Qed.
Lemma sprintsigmask_ok g st xm prefix mask bytes text : words g bytes * 32 <= 2^32 - 8 ->
  covers (firstn (N.to_nat (4 * words g bytes)) mask) xm (words g bytes * 32) ->
  sprintsigmask_n g st xm prefix mask bytes = Ok text ->
  let m := firstn (N.to_nat (4 * words g bytes)) mask in
  exists inv, text = full_text g st prefix inv (sigs (shown_mask inv m) xm 0 (N.to_nat (words g bytes * 32))).
Proof.
  intros HS HC. unfold sprintsigmask_n. fold (words g bytes).
  destruct (stpcpy (out_cap g) [] prefix) as [o1| |] eqn:E1; cbn [rbind]; try discriminate. apply stpcpy_ok in E1. cbn [app] in E1. subst o1.
  destruct (_ <? _); [discriminate|]. set (m := firstn (N.to_nat (4 * words g bytes)) mask) in *.
  set (inv := words g bytes * 32 * 2 / 3 <=? popcount m). intros H. exists inv.
  destruct (if inv then put (out_cap g) prefix 126 else Ok prefix) as [o2| |] eqn:E2; cbn [rbind] in H; try discriminate.
  assert (E2' : o2 = prefix ++ (if inv then [126] else [])).
  { destruct inv; [apply put_ok in E2; auto|injection E2 as <-; rewrite app_nil_r; reflexivity]. }
  fold (shown_mask inv m) in H.
  assert (HC2 : covers (shown_mask inv m) xm (words g bytes * 32)).
  { intros p Hp. unfold shown_mask. destruct inv; [rewrite map_length|]; apply HC; auto. }
  change 0 with (N.of_nat 0) in H at 1.
  rewrite <- (N2Nat.id (words g bytes * 32)) in H at 2.
  rewrite sig_loop_elems in H; try rewrite N2Nat.id; auto; try lia.
  destruct (elems g st 91 (sigs (shown_mask inv m) xm 0 (N.to_nat (words g bytes * 32))) o2) as [[o3 sep]| |] eqn:E3; cbn [rbind] in H; try discriminate.
  apply elems_ok in E3 as [-> ->].
  set (l := sigs (shown_mask inv m) xm 0 (N.to_nat (words g bytes * 32))) in *.
  destruct (if (match l with [] => 91 | _ => 32 end) =? 91 then put (out_cap g) (o2 ++ body g st 91 l) 91 else Ok (o2 ++ body g st 91 l)) as [o4| |] eqn:E4;
    cbn [rbind] in H; try discriminate.
  destruct (put (out_cap g) o4 93) as [o5| |] eqn:E5; cbn [rbind] in H; try discriminate. apply put_ok in E5.
  destruct (_ <? _); [|discriminate]. injection H as <-. subst o5.
  assert (E4' : o4 = (o2 ++ body g st 91 l) ++ (if (match l with [] => 91 | _ => 32 end) =? 91 then [91] else [])).
  { destruct (_ =? 91); [apply put_ok in E4; auto|injection E4 as <-; rewrite app_nil_r; reflexivity]. }
  subst o4 o2. rewrite <- !app_assoc. rewrite <- text_eq. rewrite <- !app_assoc. reflexivity.
Qed.

Lemma sprintsigmask_fits g st xm prefix mask bytes : words g bytes * 32 <= 2^32 - 8 ->
  4 * words g bytes <= N.of_nat (length mask) ->
  let m := firstn (N.to_nat (4 * words g bytes)) mask in
  covers m xm (words g bytes * 32) ->
  (forall inv, N.of_nat (length (full_text g st prefix inv (sigs (shown_mask inv m) xm 0 (N.to_nat (words g bytes * 32))))) < out_cap g) ->
  exists text, sprintsigmask_n g st xm prefix mask bytes = Ok text.
Proof.
  intros HS HL m HC HF. unfold sprintsigmask_n. fold (words g bytes).
  set (inv := words g bytes * 32 * 2 / 3 <=? popcount m). specialize (HF inv).
  set (l := sigs (shown_mask inv m) xm 0 (N.to_nat (words g bytes * 32))) in *.
  rewrite <- text_eq in HF. rewrite !app_length in HF.
  rewrite stpcpy_fits by (cbn [app]; lia). cbn [rbind app].
  destruct (N.ltb_spec (N.of_nat (length mask)) (4 * words g bytes)); [lia|]. fold m. fold inv.
  assert (E2 : (if inv then put (out_cap g) prefix 126 else Ok prefix) = Ok (prefix ++ (if inv then [126] else []))).
  { destruct inv; [apply put_fits; cbn [length] in HF; lia|rewrite app_nil_r; reflexivity]. }
  rewrite E2. cbn [rbind]. fold (shown_mask inv m).
  assert (HC2 : covers (shown_mask inv m) xm (words g bytes * 32)).
  { intros p Hp. unfold shown_mask. destruct inv; [rewrite map_length|]; apply HC; auto. }
  assert (SL : sig_loop (N.to_nat (words g bytes * 32) + 1) g st xm (shown_mask inv m) (words g bytes * 32) 0 91
      (prefix ++ (if inv then [126] else [])) = elems g st 91 l (prefix ++ (if inv then [126] else []))).
  { pose proof (sig_loop_elems g st xm (shown_mask inv m) (N.to_nat (words g bytes * 32))) as SL. rewrite N2Nat.id in SL.
    apply (SL HS HC2 _ 0%nat); lia. }
  rewrite SL.
  rewrite elems_fits by (rewrite !app_length; lia). cbn [rbind].
  set (o3 := (prefix ++ (if inv then [126] else [])) ++ body g st 91 l) in *.
  assert (L3 : length o3 = (length prefix + length (if inv then [126%N] else []) + length (body g st 91 l))%nat) by (unfold o3; rewrite !app_length; lia).
  assert (E4 : (if (match l with [] => 91 | _ => 32 end) =? 91 then put (out_cap g) o3 91 else Ok o3) =
     Ok (o3 ++ (if (match l with [] => 91 | _ => 32 end) =? 91 then [91] else []))).
  { destruct (_ =? 91); [apply put_fits; cbn [length] in HF; lia|rewrite app_nil_r; reflexivity]. }
  rewrite E4. cbn [rbind]. rewrite put_fits by (rewrite app_length; cbn [length] in HF; lia). cbn [rbind].
  rewrite !app_length. cbn [length] in *.
  match goal with |- context [?a <? ?b] => destruct (N.ltb_spec a b) as [X|X] end; [eauto|lia].
Qed.

(** ---- reading a mask back ---- *)
Definition brk (c : N) : Prop := c = 32 \/ c = 93.
Lemma token_unique k1 k2 c1 c2 r1 r2 : Forall (fun c => ~ brk c) k1 -> Forall (fun c => ~ brk c) k2 -> brk c1 -> brk c2 ->
  k1 ++ c1 :: r1 = k2 ++ c2 :: r2 -> k1 = k2 /\ c1 :: r1 = c2 :: r2.
Proof.
  revert k2; induction k1 as [|x k1 IH]; intros [|y k2] F1 F2 B1 B2 E; cbn [app] in E.
  - auto.
  - injection E as -> E. inversion F2; subst. tauto.
  - injection E as <- E. inversion F1; subst. tauto.
  - injection E as <- E. inversion F1; subst. inversion F2; subst. destruct (IH k2) as [-> ->]; auto.
Qed.
(** what makes the names of signals 1..n readable *)
Definition names_ok (g : sigcfg) (n : nat) : Prop :=
  (forall i, (1 <= i <= n)%nat -> signame_txt g XABBREV (N.of_nat i) <> [] /\ Forall (fun c => ~ brk c) (signame_txt g XABBREV (N.of_nat i))) /\
  (forall i j, (1 <= i <= n)%nat -> (1 <= j <= n)%nat ->
     signame_txt g XABBREV (N.of_nat i) = signame_txt g XABBREV (N.of_nat j) -> i = j).
Definition key (g : sigcfg) (st : xstyle_t) (i : N) : list N :=
  match st with XABBREV => signame_txt g st i | _ => pr_num 10 i end.
Definition rest (g : sigcfg) (st : xstyle_t) (i : N) : list N :=
  match st with XVERBOSE => bs " /* " ++ signame_txt g st i ++ bs " */" | _ => [] end.
Lemma item_key g st i : item g st i = key g st i ++ rest g st i.
Proof. destruct st; cbn [item key rest]; rewrite ?app_nil_r; reflexivity. Qed.
Lemma digit_not_brk c : (exists d, d < 10 /\ c = QuoteModel.hex_char d) -> ~ brk c.
Proof. intros (d & Hd & ->). unfold brk, QuoteModel.hex_char. destruct (N.ltb_spec d 10); lia. Qed.
Lemma key_ok g st n i : names_ok g n -> (1 <= i <= n)%nat ->
  key g st (N.of_nat i) <> [] /\ Forall (fun c => ~ brk c) (key g st (N.of_nat i)).
Proof.
  intros [H _] Hi. destruct st; cbn [key]; [apply H; auto| |];
    (split; [pose proof (digits_from_pos 10 (S (N.size_nat (N.of_nat i))) (N.of_nat i) ltac:(lia)) as L; fold (pr_num 10 (N.of_nat i)) in L;
             intros E; rewrite E in L; cbn in L; lia
            |eapply Forall_impl; [|apply pr_num_digits; lia]; apply digit_not_brk]).
Qed.
Lemma key_inj g st n i j : names_ok g n -> (1 <= i <= n)%nat -> (1 <= j <= n)%nat ->
  key g st (N.of_nat i) = key g st (N.of_nat j) -> i = j.
Proof.
  intros [_ H] Hi Hj E. destruct st; cbn [key] in E; [apply H; auto| |];
    (assert (X : rd_num 10 0 (pr_num 10 (N.of_nat i)) = rd_num 10 0 (pr_num 10 (N.of_nat j))) by (rewrite E; reflexivity);
     rewrite !pr_num_rd in X by lia; injection X as X; lia).
Qed.
Lemma rest_starts g st i t : (exists c r, t = c :: r /\ brk c) -> exists c r, rest g st i ++ t = c :: r /\ brk c.
Proof.
  intros H. destruct st; cbn [rest app]; auto. exists 32. eexists. split; [reflexivity|left; reflexivity].
Qed.
Definition tail (g : sigcfg) (st : xstyle_t) (l : list nat) : list N := body g st 32 l ++ [93].
Lemma tail_starts g st l : exists c r, tail g st l = c :: r /\ brk c.
Proof. destruct l; unfold tail; cbn [body app]; eexists; eexists; (split; [reflexivity|unfold brk; auto]). Qed.
Lemma step_inj g st n i j t1 t2 : names_ok g n -> (1 <= i <= n)%nat -> (1 <= j <= n)%nat ->
  (exists c r, t1 = c :: r /\ brk c) -> (exists c r, t2 = c :: r /\ brk c) ->
  item g st (N.of_nat i) ++ t1 = item g st (N.of_nat j) ++ t2 -> i = j /\ t1 = t2.
Proof.
  intros HN Hi Hj B1 B2 E. rewrite !item_key, <- !app_assoc in E.
  destruct (rest_starts g st (N.of_nat i) t1 B1) as (c1 & r1 & E1 & K1).
  destruct (rest_starts g st (N.of_nat j) t2 B2) as (c2 & r2 & E2 & K2). rewrite E1, E2 in E.
  apply token_unique in E; auto; try (eapply key_ok; eauto). destruct E as [EK ER].
  assert (i = j) as -> by (eapply key_inj; eauto). split; [reflexivity|].
  rewrite <- E1, <- E2 in ER. apply app_inv_head in ER. exact ER.
Qed.
Lemma tail_inj g st n : names_ok g n -> forall l1 l2, Forall (fun i => (1 <= i <= n)%nat) l1 -> Forall (fun i => (1 <= i <= n)%nat) l2 ->
  tail g st l1 = tail g st l2 -> l1 = l2.
Proof.
  intros HN. induction l1 as [|i l1 IH]; intros [|j l2] F1 F2 E; unfold tail in E; cbn [body app] in E.
  - reflexivity.
  - discriminate E.
  - discriminate E.
  - injection E as E. rewrite <- !app_assoc in E. fold (tail g st l1) in E. fold (tail g st l2) in E.
    inversion F1; subst. inversion F2; subst.
    apply (step_inj g st n) in E as [-> E]; auto; try apply tail_starts. f_equal. apply IH; auto.
Qed.
Lemma full_text_inj g st n prefix inv1 inv2 l1 l2 : names_ok g n ->
  Forall (fun i => (1 <= i <= n)%nat) l1 -> Forall (fun i => (1 <= i <= n)%nat) l2 ->
  full_text g st prefix inv1 l1 = full_text g st prefix inv2 l2 -> inv1 = inv2 /\ l1 = l2.
Proof.
  intros HN F1 F2 E. unfold full_text in E. apply app_inv_head in E.
  assert (EI : inv1 = inv2) by (destruct inv1, inv2; try reflexivity; discriminate E). subst inv2. split; [reflexivity|].
  apply app_inv_head in E. apply app_inv_head in E.
  assert (NB : forall i l, (1 <= i <= n)%nat -> join (map (item g st) (map N.of_nat (i :: l))) ++ [93] = item g st (N.of_nat i) ++ tail g st l).
  { intros i l Hi. destruct l as [|m l]; [reflexivity|]. unfold tail. rewrite body_join by discriminate.
    change (join (map (item g st) (map N.of_nat (i :: m :: l)))) with (item g st (N.of_nat i) ++ [32] ++ join (map (item g st) (map N.of_nat (m :: l)))).
    rewrite <- !app_assoc. reflexivity. }
  assert (NE : forall i l, (1 <= i <= n)%nat -> join (map (item g st) (map N.of_nat (i :: l))) ++ [93] <> [93]).
  { intros i l Hi X. rewrite NB in X by auto. rewrite item_key in X. destruct (key_ok g st n i HN Hi) as [K1 K2].
    destruct (key g st (N.of_nat i)) as [|c k]; [congruence|]. inversion K2; subst. cbn [app] in X. injection X as -> _. unfold brk in *. tauto. }
  destruct l1 as [|i l1], l2 as [|j l2].
  - reflexivity.
  - exfalso. inversion F2; subst. eapply NE; eauto.
  - exfalso. inversion F1; subst. eapply NE; eauto.
  - inversion F1; subst. inversion F2; subst. rewrite !NB in E by auto.
    apply (step_inj g st n) in E as [-> E]; auto; try apply tail_starts. f_equal. eapply tail_inj; eauto.
Qed.
Lemma sigs_in arr xm nb n : In n (sigs arr xm 0 nb) <-> (1 <= n <= nb)%nat /\ bit_set arr xm (N.of_nat n - 1).
Proof. unfold sigs. rewrite filter_In, in_seq, bitb_iff. split; intros [H1 H2]; (split; [lia|exact H2]). Qed.
Lemma sigs_range arr xm nb : Forall (fun i => (1 <= i <= nb)%nat) (sigs arr xm 0 nb).
Proof. apply Forall_forall. intros i Hi. apply sigs_in in Hi. tauto. Qed.
Lemma invert_bit b k : b < 256 -> k < 8 -> N.testbit (255 - b) k = negb (N.testbit b k).
Proof.
  intros Hb Hk.
  assert (X : forallb (fun b => forallb (fun k => Bool.eqb (N.testbit (255 - N.of_nat b) (N.of_nat k)) (negb (N.testbit (N.of_nat b) (N.of_nat k)))) (seq 0 8)) (seq 0 256) = true)
    by (vm_compute; reflexivity).
  rewrite forallb_forall in X. specialize (X (N.to_nat b) ltac:(apply in_seq; lia)). rewrite forallb_forall in X.
  specialize (X (N.to_nat k) ltac:(apply in_seq; lia)). rewrite !N2Nat.id in X. apply eqb_prop in X. exact X.
Qed.
Lemma bit_set_inv arr xm b : bytes_ok arr -> (N.to_nat (N.lxor (b / 8) xm) < length arr)%nat ->
  bit_set (shown_mask true arr) xm b <-> ~ bit_set arr xm b.
Proof.
  intros HB HL. unfold bit_set, shown_mask. destruct (nth_error arr (N.to_nat (N.lxor (b / 8) xm))) as [y|] eqn:E;
    [|apply nth_error_None in E; lia].
  assert (Hy : y < 256) by (eapply Forall_forall in HB; [exact HB|]; eapply nth_error_In; eauto).
  rewrite nth_error_map, E. cbn [option_map]. split.
  - intros (y1 & E1 & T) (y2 & E2 & T2). injection E1 as <-. injection E2 as <-. rewrite invert_bit in T by (auto; apply N.mod_lt; lia).
    rewrite T2 in T. discriminate.
  - intros H. exists (255 - y). split; [reflexivity|]. rewrite invert_bit by (auto; apply N.mod_lt; lia).
    destruct (N.testbit y (b mod 8)) eqn:T; [|reflexivity]. exfalso. apply H. eauto.
Qed.

Lemma div8_lt n w : (1 <= n <= N.to_nat (w * 32))%nat -> 8 * ((N.of_nat n - 1) / 8) < w * 32.
Proof. intros H. pose proof (N.mul_div_le (N.of_nat n - 1) 8 ltac:(lia)). lia. Qed.
Lemma lossless g st xm prefix m1 m2 bytes text :
  let w := words g bytes in
  w * 32 <= 2^32 - 8 -> names_ok g (N.to_nat (w * 32)) -> bytes_ok m1 -> bytes_ok m2 ->
  covers (firstn (N.to_nat (4 * w)) m1) xm (w * 32) -> covers (firstn (N.to_nat (4 * w)) m2) xm (w * 32) ->
  sprintsigmask_n g st xm prefix m1 bytes = Ok text -> sprintsigmask_n g st xm prefix m2 bytes = Ok text ->
  forall n, (1 <= n <= N.to_nat (w * 32))%nat ->
    sig_in (firstn (N.to_nat (4 * w)) m1) xm n <-> sig_in (firstn (N.to_nat (4 * w)) m2) xm n.
Proof.
  intros w HS HN B1 B2 C1 C2 E1 E2 n Hn.
  destruct (sprintsigmask_ok g st xm prefix m1 bytes text HS C1 E1) as (i1 & T1).
  destruct (sprintsigmask_ok g st xm prefix m2 bytes text HS C2 E2) as (i2 & T2). fold w in T1, T2.
  set (a1 := firstn (N.to_nat (4 * w)) m1) in *. set (a2 := firstn (N.to_nat (4 * w)) m2) in *.
  rewrite T1 in T2. apply (full_text_inj g st (N.to_nat (w * 32))) in T2; auto using sigs_range. destruct T2 as [<- EL].
  pose proof (sigs_in (shown_mask i1 a1) xm (N.to_nat (w * 32)) n) as I1.
  pose proof (sigs_in (shown_mask i1 a2) xm (N.to_nat (w * 32)) n) as I2. rewrite EL in I1. unfold sig_in.
  assert (BA1 : bytes_ok a1) by (unfold a1; apply QuoteProofs.bytes_firstn; auto).
  assert (BA2 : bytes_ok a2) by (unfold a2; apply QuoteProofs.bytes_firstn; auto).
  pose proof (div8_lt n w Hn) as HD.
  destruct i1.
  - rewrite (bit_set_inv a1) in I1 by (auto; apply C1; exact HD). rewrite (bit_set_inv a2) in I2 by (auto; apply C2; exact HD).
    assert (D : ~ bit_set a1 xm (N.of_nat n - 1) <-> ~ bit_set a2 xm (N.of_nat n - 1)) by tauto.
    rewrite <- !bitb_iff in D |- *. destruct (bitb a1 xm (N.of_nat n - 1)), (bitb a2 xm (N.of_nat n - 1)); try tauto;
      exfalso; destruct D as [D1 D2]; [destruct D2|destruct D1]; congruence || discriminate.
  - cbn [shown_mask] in *. tauto.
Qed.
