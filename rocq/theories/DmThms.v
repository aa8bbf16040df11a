(** C76: the data of device mapper requests. *)
From Verif Require Import Base InfoModel InfoSpec InfoThms DmModel DmSpec.
Local Open Scope N_scope.

Lemma last_snoc l x : last_of (l ++ [x]) = Some x.
Proof. unfold last_of. rewrite rev_app_distr. reflexivity. Qed.
Lemma last_none l : last_of l = None -> l = [].
Proof. unfold last_of. intros H. rewrite <- (rev_involutive l). destruct (rev l); [reflexivity|discriminate]. Qed.
Lemma u32_small n : n < 2^32 -> u32 n = n.
Proof. intros H. apply N.mod_small, H. Qed.
Lemma align8 x : N.ldiff x 7 = 8 * (x / 8).
Proof. change 7 with (N.ones 3). rewrite N.ldiff_ones_r, N.shiftl_mul_pow2, N.shiftr_div_pow2. change (2^3) with 8. lia. Qed.
Lemma header_pos k : 12 <= header k <= 40.
Proof. destruct k; cbn; lia. Qed.

Lemma not_truncated o (V : abbrev o = false) n : truncated o n = false.
Proof. unfold truncated. rewrite V. reflexivity. Qed.

Section Walk.
Variables (mem : memory) (addr : N) (d : ioc) (k : list_kind).
Hypothesis D : ioc_ok d.
Hypothesis M : mem_ok mem.
Lemma chain_last l : chain mem addr d k l -> forall off s, last_of l = Some (off, s) ->
  data_start d <= off /\ off + header k <= data_size d /\ Forall (fun b => b < 256) s /\ N.of_nat (length l) * header k <= off + header k.
Proof.
  intros C. pose proof (header_pos k) as HP. induction C as [|l off s C IH P F R]; intros off' s' L; [discriminate|].
  rewrite last_snoc in L. injection L as <- <-. destruct F as (F1 & F2). split; [|split; [exact F1|split; [exact (M _ _ _ R)|]]].
  - destruct (last_of l) as [[p t]|] eqn:E.
    + specialize (F2 _ _ eq_refl). specialize (IH _ _ eq_refl). lia.
    + unfold place in P. rewrite (last_none _ E) in P. cbn [last_of rev nth_error length] in P. destruct k; try (destruct (_ =? _) in P; [discriminate P|]); injection P as <-; lia.
  - rewrite app_length. cbn [length]. destruct (last_of l) as [[p t]|] eqn:E.
    + specialize (F2 _ _ eq_refl). specialize (IH _ _ eq_refl). nia.
    + rewrite (last_none _ E). cbn [length]. lia.
Qed.

(** the tests of the loops *)
Definition refused (first : bool) (off e : N) : bool :=
  (negb first && (off <=? e)) || ((u32 (off + header k) <=? off) || (data_size d <? u32 (off + header k))).
Definition end_of (l : list structure) : N := match last_of l with None => 0 | Some (off, _) => off + header k end.
Definition is_first (l : list structure) : bool := match l with [] => true | _ => false end.

Lemma place_bound l P : chain mem addr d k l -> place d k l = Some P -> P < 2^32 \/ (2^32 <= P /\ is_first l = false /\ u32 P <= end_of l).
Proof.
  intros C E. destruct D as (D1 & D2 & D3). pose proof (header_pos k) as HP. unfold place, end_of in *. destruct (last_of l) as [[p t]|] eqn:L.
  - pose proof (chain_last l C _ _ L) as (A & B & T & _).
    assert (G : forall base n, base <= p -> n < 2^32 -> base + n < 2^32 \/ (2^32 <= base + n /\ u32 (base + n) <= p + header k)).
    { intros b n B1 B2. destruct (N.lt_ge_cases (b + n) (2^32)) as [X|X]; [left; exact X|right]. split; [lia|]. unfold u32.
      replace (b + n) with (b + n - 2^32 + 1 * 2^32) by lia. rewrite N.mod_add, N.mod_small by lia. lia. }
    assert (NF : is_first l = false) by (destruct l; [discriminate|reflexivity]).
    pose proof (number4 t 20 T) as N20. pose proof (number4 t 8 T) as N8. pose proof (number4 t 0 T) as N0.
    destruct k; cbv zeta in E.
    + destruct (_ =? _); [discriminate|]. injection E as <-. destruct (G p _ (N.le_refl _) N20) as [X|(X & Y)]; auto.
    + destruct (_ =? _); [discriminate|]. injection E as <-. destruct (G (data_start d) _ A N20) as [X|(X & Y)]; auto.
    + destruct (_ =? _); [discriminate|]. injection E as <-. destruct (G p _ (N.le_refl _) N8) as [X|(X & Y)]; auto.
    + destruct (_ =? _); [discriminate|]. injection E as <-. destruct (G p _ (N.le_refl _) N0) as [X|(X & Y)]; auto.
  - left. destruct k; try (destruct (_ =? _); [discriminate|]); injection E as <-; exact D2.
Qed.
Lemma refused_fits l P : chain mem addr d k l -> place d k l = Some P ->
  (refused (is_first l) (u32 P) (end_of l) = true /\ ~ fits d k l P) \/ (refused (is_first l) (u32 P) (end_of l) = false /\ fits d k l P /\ u32 P = P /\ u32 (P + header k) = P + header k).
Proof.
  intros C E. pose proof (place_bound l P C E) as B. destruct D as (D1 & D2 & D3). pose proof (header_pos k) as HP.
  unfold refused, fits, end_of in *. destruct B as [B|(B1 & B2 & B3)].
  - rewrite (u32_small P B). destruct (N.lt_ge_cases (P + header k) (2^32)) as [X|X].
    + rewrite (u32_small _ X). destruct (last_of l) as [[p t]|] eqn:L.
      * assert (NF : is_first l = false) by (destruct l; [discriminate|reflexivity]). rewrite NF. cbn [negb andb].
        destruct (N.leb_spec P (p + header k)) as [Y|Y].
        { left. split; [reflexivity|]. intros (_ & F). specialize (F _ _ eq_refl). lia. }
        cbn [orb]. replace (P + header k <=? P) with false by (symmetry; apply N.leb_gt; lia). cbn [orb].
        destruct (N.ltb_spec (data_size d) (P + header k)) as [Z|Z]; [left; split; [reflexivity|]; intros (F & _); lia|].
        right. split; [reflexivity|]. split; [|split; reflexivity]. split; [exact Z|]. intros p' t' Q. injection Q as <- <-. exact Y.
      * rewrite (last_none _ L). cbn [is_first negb andb orb]. replace (P + header k <=? P) with false by (symmetry; apply N.leb_gt; lia). cbn [orb].
        destruct (N.ltb_spec (data_size d) (P + header k)) as [Z|Z]; [left; split; [reflexivity|]; intros (F & _); lia|].
        right. split; [reflexivity|]. split; [|split; reflexivity]. split; [exact Z|]. intros p' t' Q. discriminate Q.
    + left. split; [|intros (F & _); lia]. apply orb_true_iff. right. apply orb_true_iff. left. apply N.leb_le. unfold u32.
      replace (P + header k) with (P + header k - 2^32 + 1 * 2^32) by lia. rewrite N.mod_add, N.mod_small by lia. lia.
  - left. rewrite B2. cbn [negb andb]. apply N.leb_le in B3. rewrite B3. split; [reflexivity|].
    destruct (last_of l) as [[p t]|] eqn:L; [|destruct l; [discriminate B2|apply last_none in L; discriminate L]].
    intros (F & _). apply N.leb_le in B3. lia.
Qed.
Lemma end_snoc l off s : end_of (l ++ [(off, s)]) = off + header k.
Proof. unfold end_of. rewrite last_snoc. reflexivity. Qed.
Lemma first_snoc l x : is_first (l ++ [x]) = false.
Proof. destruct l; reflexivity. Qed.
Lemma chain_length l : chain mem addr d k l -> N.of_nat (length l) < 2^32 - 1 /\ (N.of_nat (length l) =? 0) = is_first l /\ N.of_nat (length l) * header k <= end_of l <= data_size d.
Proof.
  intros C. destruct D as (D1 & D2 & D3). pose proof (header_pos k) as HP. unfold end_of. destruct (last_of l) as [[p t]|] eqn:L.
  - pose proof (chain_last l C _ _ L) as (A & B & T & Q). split; [nia|]. split; [|lia]. destruct l; [discriminate L|]. cbn [length is_first]. apply N.eqb_neq. lia.
  - rewrite (last_none _ L). cbn [length is_first]. split; [lia|]. split; [reflexivity|lia].
Qed.
End Walk.

(** one iteration: [rest] is what follows the structure *)
Definition finds (mem : memory) (addr : N) (d : ioc) (k : list_kind) (rc : N -> N -> Z) (l : list structure) (out : option (list elem)) : Prop :=
  exists l' e, chain mem addr d k (l ++ l') /\ ends mem addr d k (l ++ l') e /\ out = Some (map (shown mem addr d k rc) l' ++ shown_end addr e).
Lemma finds_end mem addr d k rc l e : chain mem addr d k l -> ends mem addr d k l e -> finds mem addr d k rc l (Some (shown_end addr e)).
Proof. intros C E. exists [], e. rewrite app_nil_r. auto. Qed.
Lemma finds_more mem addr d k rc l st out r : finds mem addr d k rc (l ++ [st]) out -> r = (olet x := out in Some (shown mem addr d k rc st :: x)) -> finds mem addr d k rc l r.
Proof. intros (l' & e & C & E & ->) ->. exists (st :: l'), e. rewrite <- app_assoc in C, E. cbn in *. auto. Qed.

Lemma vers_finds o mem addr d rc : ioc_ok d -> mem_ok mem -> abbrev o = false -> forall fuel l P,
  chain mem addr d Versions l -> place d Versions l = Some P -> data_size d + 17 <= end_of Versions l + 16 * N.of_nat fuel ->
  finds mem addr d Versions rc l (vers_loop o mem addr d fuel (N.of_nat (length l)) (u32 P) (end_of Versions l)).
Proof.
  intros D M V. induction fuel as [|fuel IH]; intros l P C E FU.
  { exfalso. pose proof (chain_length mem addr d Versions D M l C). lia. }
  pose proof (chain_length mem addr d Versions D M l C) as (LL & LZ & LH). cbn [vers_loop]. rewrite LZ, (not_truncated o V).
  destruct (refused_fits mem addr d Versions D M l P C E) as [(R & F)|(R & F & U1 & U2)]; unfold refused in R; cbn [header] in *.
  - destruct (negb (is_first l) && (u32 P <=? end_of Versions l)); [apply (finds_end _ _ _ _ _ _ Wrong C); exists P; auto|]. cbn [orb] in R. rewrite R.
    apply (finds_end _ _ _ _ _ _ Wrong C); exists P; auto.
  - apply orb_false_iff in R as (R1 & R2). rewrite R1, R2, U1, U2. destruct (mem (u64 (addr + P)) 16) as [s|] eqn:R.
    + assert (C' : chain mem addr d Versions (l ++ [(P, s)])) by (constructor; auto).
      assert (NX : place d Versions (l ++ [(P, s)]) = if ld s 0 4 =? 0 then None else Some (P + ld s 0 4)).
      { unfold place. rewrite last_snoc, ld_number. reflexivity. }
      eapply finds_more with (st := (P, s)); [|unfold shown; cbn [fst snd header events]; rewrite (N.add_assoc addr P 16); reflexivity].
      destruct (ld s 0 4 =? 0) eqn:Z.
      * apply (finds_end _ _ _ _ _ _ End C' NX).
      * replace (u32 (N.of_nat (length l) + 1)) with (N.of_nat (length (l ++ [(P, s)]))) by (rewrite app_length, u32_small; cbn [length]; lia).
        replace (P + 16) with (end_of Versions (l ++ [(P, s)])) by apply end_snoc. apply IH; [exact C'|exact NX|]. rewrite end_snoc. cbn [header].
        destruct F as (F1 & F2). unfold end_of in FU. destruct (last_of l) as [[p t]|]; [specialize (F2 _ _ eq_refl)|]; cbn [header] in *; lia.
    + apply (finds_end _ _ _ _ _ _ (Unreadable P) C). split; [exact E|]. split; [exact F|exact R].
Qed.

Lemma name_finds o mem addr d rc : ioc_ok d -> mem_ok mem -> abbrev o = false -> addr + 2^34 <= 2^64 -> (forall a n, rc a n <= Z.of_N n)%Z -> forall fuel l P,
  chain mem addr d Names l -> place d Names l = Some P -> data_size d + 13 <= end_of Names l + 12 * N.of_nat fuel ->
  finds mem addr d Names rc l (name_loop o mem addr d rc fuel (N.of_nat (length l)) (u32 P) (end_of Names l)).
Proof.
  intros D M V AD RC. induction fuel as [|fuel IH]; intros l P C E FU.
  { exfalso. pose proof (chain_length mem addr d Names D M l C). lia. }
  pose proof (chain_length mem addr d Names D M l C) as (LL & LZ & LH). cbn [name_loop]. rewrite LZ, (not_truncated o V).
  destruct (refused_fits mem addr d Names D M l P C E) as [(R & F)|(R & F & U1 & U2)]; unfold refused in R; cbn [header] in *.
  - destruct (negb (is_first l) && (u32 P <=? end_of Names l)); [apply (finds_end _ _ _ _ _ _ Wrong C); exists P; auto|]. cbn [orb] in R. rewrite R.
    apply (finds_end _ _ _ _ _ _ Wrong C); exists P; auto.
  - apply orb_false_iff in R as (R1 & R2). rewrite R1, R2, U1, U2. destruct (mem (u64 (addr + P)) 16) as [s|] eqn:R.
    + assert (C' : chain mem addr d Names (l ++ [(P, s)])) by (constructor; auto).
      assert (NX : place d Names (l ++ [(P, s)]) = if ld s 8 4 =? 0 then None else Some (P + ld s 8 4)).
      { unfold place. rewrite last_snoc, ld_number. reflexivity. }
      eapply finds_more with (st := (P, s)).
      2: { unfold shown; cbn [fst snd header events]. rewrite (N.add_assoc addr P 12). match goal with |- (olet r := _ in Some (Elem _ _ _ _ ?x :: r)) = (olet _ := _ in Some (Elem _ _ _ _ ?y :: _)) => replace y with x; [reflexivity|] end.
           set (n := data_size d - (P + 12)). set (str := u64 (addr + P + 12)). pose proof (RC str n) as RN. destruct F as (F1 & _). cbn [header] in F1.
           destruct D as (D1 & _ & _). pose proof (number4 s 8 (M _ _ _ R)) as NB. rewrite ld_number.
           destruct (Z.ltb_spec 0 (rc str n)) as [Z0|Z0]; [|reflexivity]. destruct (37 <=? version1 d); [|reflexivity]. cbn [andb].
           rewrite align8. assert (UU : u64 (addr + P + 12 + Z.to_N (rc str n) + 7) = addr + P + 12 + Z.to_N (rc str n) + 7) by (apply N.mod_small; subst n; lia).
           rewrite UU. set (e := addr + P + 12 + Z.to_N (rc str n) + 7) in *.
           assert (EB : 8 * (e / 8) <= e) by (apply N.mul_div_le; lia).
           assert (U3 : u64 (8 * (e / 8) + 4) = 8 * (e / 8) + 4) by (apply N.mod_small; subst e n; lia).
           assert (U4 : u64 (addr + P + number_at s 8 4) = addr + P + number_at s 8 4) by (apply N.mod_small; lia).
           rewrite U3, U4. destruct (8 * (e / 8) + 4 <=? addr + P + number_at s 8 4); [|reflexivity]. destruct (mem (8 * (e / 8)) 4); [|reflexivity]. cbn [option_map]. rewrite ld_number. reflexivity. }
      destruct (ld s 8 4 =? 0) eqn:Z.
      * apply (finds_end _ _ _ _ _ _ End C' NX).
      * replace (u32 (N.of_nat (length l) + 1)) with (N.of_nat (length (l ++ [(P, s)]))) by (rewrite app_length, u32_small; cbn [length]; lia).
        replace (P + 12) with (end_of Names (l ++ [(P, s)])) by apply end_snoc. apply IH; [exact C'|exact NX|]. rewrite end_snoc. cbn [header].
        destruct F as (F1 & F2). unfold end_of in FU. destruct (last_of l) as [[p t]|]; [specialize (F2 _ _ eq_refl)|]; cbn [header] in *; lia.
    + apply (finds_end _ _ _ _ _ _ (Unreadable P) C). split; [exact E|]. split; [exact F|exact R].
Qed.

Lemma spec_finds o mem addr d rc (entering : bool) : ioc_ok d -> mem_ok mem -> abbrev o = false -> let k := if entering then Loaded else Status in forall fuel l P,
  chain mem addr d k l -> N.of_nat (length l) <= target_count d -> (N.of_nat (length l) < target_count d -> place d k l = Some P) -> data_size d + 81 <= end_of k l + 40 * N.of_nat fuel ->
  finds mem addr d k rc l (spec_loop o mem addr d entering fuel (N.of_nat (length l)) (u32 P) (end_of k l)).
Proof.
  intros D M V k. assert (HK : header k = 40) by (destruct entering; reflexivity). assert (NK : needed k = 40) by (destruct entering; reflexivity).
  induction fuel as [|fuel IH]; intros l P C LE E FU.
  { exfalso. pose proof (chain_length mem addr d k D M l C). lia. }
  pose proof (chain_length mem addr d k D M l C) as (LL & LZ & LH). cbn [spec_loop]. rewrite LZ, (not_truncated o V).
  destruct (N.ltb_spec (N.of_nat (length l)) (target_count d)) as [LT|GE]; cbn [negb].
  2: { apply (finds_end _ _ _ _ _ _ End C). assert (Q : N.of_nat (length l) =? target_count d = true) by (apply N.eqb_eq; lia). unfold ends, place. rewrite Q. destruct entering; reflexivity. }
  specialize (E LT). destruct (refused_fits mem addr d k D M l P C E) as [(R & F)|(R & F & U1 & U2)]; unfold refused in R; rewrite HK in *.
  - destruct (negb (is_first l) && (u32 P <=? end_of k l)); [apply (finds_end _ _ _ _ _ _ Wrong C); exists P; auto|]. cbn [orb] in R. rewrite R.
    apply (finds_end _ _ _ _ _ _ Wrong C); exists P; auto.
  - apply orb_false_iff in R as (R1 & R2). rewrite R1, R2, U1, U2. destruct (mem (u64 (addr + P)) 40) as [s|] eqn:R.
    + assert (C' : chain mem addr d k (l ++ [(P, s)])) by (constructor; auto; unfold content; rewrite NK; exact R).
      set (P' := (if entering then P else data_start d) + ld s 20 4).
      assert (NX : N.of_nat (length (l ++ [(P, s)])) < target_count d -> place d k (l ++ [(P, s)]) = Some P').
      { intros Q. assert (Q' : N.of_nat (length (l ++ [(P, s)])) =? target_count d = false) by (apply N.eqb_neq; lia).
        unfold place. rewrite last_snoc, Q'. subst k P'. rewrite ld_number. destruct entering; reflexivity. }
      eapply finds_more with (st := (P, s)).
      2: { unfold shown; cbn [fst snd]. rewrite HK, (N.add_assoc addr P 40). replace (events mem addr d k (rc (u64 (addr + P + 40)) (data_size d - (P + 40))) (P, s)) with (@None N) by (destruct entering; reflexivity). reflexivity. }
      replace (if entering then u32 (P + ld s 20 4) else u32 (data_start d + ld s 20 4)) with (u32 P') by (subst P'; destruct entering; reflexivity).
      assert (LS : N.of_nat (length (l ++ [(P, s)])) = N.of_nat (length l) + 1) by (rewrite app_length; cbn [length]; lia). rewrite <- LS.
      replace (P + 40) with (end_of k (l ++ [(P, s)])) by (rewrite end_snoc, HK; reflexivity). apply IH; [exact C'|lia|exact NX|]. rewrite end_snoc, HK.
      destruct F as (F1 & F2). unfold end_of in FU. destruct (last_of l) as [[p t]|]; [specialize (F2 _ _ eq_refl)|]; rewrite HK in *; lia.
    + apply (finds_end _ _ _ _ _ _ (Unreadable P) C). split; [exact E|]. split; [exact F|]. unfold content. rewrite NK. exact R.
Qed.

(** Whatever the request and the memory of the tracee hold, the loops come to an end, and what they show is the chain of the
    structures up to where it ends, where a structure is not inside the data and behind the one before, or where nothing
    can be read. *)
Theorem C76_lists o mem addr d c entering failed rc fuel k :
  ioc_ok d -> mem_ok mem -> comes_with c entering failed = Some k -> abbrev o = false ->
  (k = Names -> addr + 2^34 <= 2^64 /\ forall a n, (rc a n <= Z.of_N n)%Z) -> data_size d + 3 <= N.of_nat fuel ->
  exists out, payload o mem addr d c entering failed rc fuel = Some out /\
    (if no_data k d then out = [] else
     exists l e, chain mem addr d k l /\ ends mem addr d k l e /\ out = map (shown mem addr d k rc) l ++ shown_end addr e).
Proof.
  intros D M W V H FU. assert (CN : chain mem addr d k []) by constructor.
  assert (G : forall out, finds mem addr d k rc [] out -> exists out', out = Some out' /\ exists l e, chain mem addr d k l /\ ends mem addr d k l e /\ out' = map (shown mem addr d k rc) l ++ shown_end addr e).
  { intros out (l & e & X & Y & ->). eexists. split; [reflexivity|]. exists l, e. auto. }
  assert (U : u32 (data_start d) = data_start d) by (apply u32_small, D).
  destruct c; cbn in W; try discriminate W; destruct entering; try discriminate W; try (destruct failed; [discriminate W|]); injection W as <-; cbn [payload negb andb no_data].
  1,2: unfold target_spec; rewrite V; apply G; rewrite <- U at 1; apply (spec_finds o mem addr d rc false D M V fuel [] (data_start d) CN); cbn [length]; [lia| |unfold end_of; cbn; lia];
       intros Q; unfold place; cbn [length last_of rev nth_error]; replace (N.of_nat 0 =? target_count d) with false by (symmetry; apply N.eqb_neq; lia); reflexivity.
  - unfold target_spec; rewrite V; apply G; rewrite <- U at 1; apply (spec_finds o mem addr d rc true D M V fuel [] (data_start d) CN); cbn [length]; [lia| |unfold end_of; cbn; lia];
       intros Q; unfold place; cbn [length last_of rev nth_error]; replace (N.of_nat 0 =? target_count d) with false by (symmetry; apply N.eqb_neq; lia); reflexivity.
  - unfold name_list. destruct (data_start d =? data_size d); [eexists; split; reflexivity|]. rewrite V. destruct (H eq_refl) as (H1 & H2). apply G. rewrite <- U at 1.
    apply (name_finds o mem addr d rc D M V H1 H2 fuel [] (data_start d) CN); [reflexivity|unfold end_of; cbn; lia].
  - unfold target_versions. destruct (data_start d =? data_size d); [eexists; split; reflexivity|]. rewrite V. apply G. rewrite <- U at 1.
    apply (vers_finds o mem addr d rc D M V fuel [] (data_start d) CN); [reflexivity|unfold end_of; cbn; lia].
Qed.
Print Assumptions C76_lists.

(** Only one list fits a memory, so a list that is well formed and readable is shown entirely, and nothing else. *)
Lemma app_snoc_cases {A} (a b c : list A) (x : A) : a ++ [x] = b ++ c -> (c = [] /\ b = a ++ [x]) \/ exists c', c = c' ++ [x] /\ a = b ++ c'.
Proof.
  intros H. destruct (rev c) as [|y r] eqn:R.
  - left. apply (f_equal (@rev A)) in R. rewrite rev_involutive in R. cbn in R. subst c. rewrite app_nil_r in H. auto.
  - right. apply (f_equal (@rev A)) in R. rewrite rev_involutive in R. cbn in R. subst c. rewrite app_assoc in H. apply app_inj_tail in H as (H & ->). eauto.
Qed.
Lemma chain_prefix mem addr d k l m : chain mem addr d k (l ++ m) -> chain mem addr d k l.
Proof.
  revert l. induction m as [|x m IH] using rev_ind; intros l C; [rewrite app_nil_r in C; exact C|]. rewrite app_assoc in C. inversion C as [E|l0 off s C0 P F R E].
  - destruct l, m; discriminate E.
  - apply app_inj_tail in E as (-> & _). apply IH, C0.
Qed.
Lemma chain_next mem addr d k l off s m : chain mem addr d k (l ++ (off, s) :: m) -> place d k l = Some off /\ fits d k l off /\ content mem addr k off = Some s.
Proof.
  intros C. change ((off, s) :: m) with ([(off, s)] ++ m) in C. rewrite app_assoc in C. apply chain_prefix in C. inversion C as [E|l0 off0 s0 C0 P F R E].
  - destruct l; discriminate E.
  - apply app_inj_tail in E as (-> & E). injection E as -> ->. auto.
Qed.
Lemma ends_last mem addr d k l x m e : chain mem addr d k (l ++ x :: m) -> ends mem addr d k l e -> False.
Proof.
  destruct x as (off, s). intros C E. apply chain_next in C as (P & F & R). destruct e; cbn in E.
  - congruence.
  - destruct E as (off' & E & NF). rewrite P in E. injection E as <-. exact (NF F).
  - destruct E as (E & _ & N). rewrite P in E. injection E as <-. congruence.
Qed.
Lemma chain_unique mem addr d k l1 l2 e1 e2 : chain mem addr d k l1 -> ends mem addr d k l1 e1 -> chain mem addr d k l2 -> ends mem addr d k l2 e2 -> l1 = l2.
Proof.
  intros C1 E1 C2 E2. assert (G : forall p a b, l1 = p ++ a -> l2 = p ++ b -> a = b).
  { intros p a. revert p. induction a as [|[o1 s1] a IH]; intros p [|[o2 s2] b] -> ->.
    - reflexivity.
    - rewrite app_nil_r in E1. exfalso. eapply ends_last; eassumption.
    - rewrite app_nil_r in E2. exfalso. eapply ends_last; eassumption.
    - destruct (chain_next _ _ _ _ _ _ _ _ C1) as (P1 & _ & R1). destruct (chain_next _ _ _ _ _ _ _ _ C2) as (P2 & _ & R2).
      rewrite P1 in P2. injection P2 as <-. rewrite R1 in R2. injection R2 as <-. f_equal. apply (IH (p ++ [(o1, s1)])); rewrite <- app_assoc; reflexivity. }
  apply (G [] l1 l2 eq_refl eq_refl).
Qed.
Theorem C76_complete o mem addr d c entering failed rc fuel k l e :
  ioc_ok d -> mem_ok mem -> comes_with c entering failed = Some k -> abbrev o = false -> no_data k d = false ->
  (k = Names -> addr + 2^34 <= 2^64 /\ forall a n, (rc a n <= Z.of_N n)%Z) -> data_size d + 3 <= N.of_nat fuel ->
  chain mem addr d k l -> ends mem addr d k l e ->
  payload o mem addr d c entering failed rc fuel = Some (map (shown mem addr d k rc) l ++ shown_end addr e).
Proof.
  intros D M W V ND H FU C E. destruct (C76_lists o mem addr d c entering failed rc fuel k D M W V H FU) as (out & -> & X). rewrite ND in X.
  destruct X as (l' & e' & C' & E' & ->). pose proof (chain_unique _ _ _ _ _ _ _ _ C' E' C E) as ->. f_equal. f_equal. f_equal.
  destruct e, e'; cbn in E, E'; try reflexivity;
    repeat match goal with A : exists _, _ |- _ => destruct A as (? & ?) | A : _ /\ _ |- _ => destruct A end;
    try congruence; exfalso; match goal with A : place _ _ _ = Some ?x, B : place _ _ _ = Some ?y |- _ => assert (x = y) by congruence; subst; contradiction end.
Qed.
Print Assumptions C76_complete.

(** What is shown lies inside the data, structure behind structure, so there are at most as many as fit. *)
Theorem C76_extent mem addr d k l : ioc_ok d -> mem_ok mem -> chain mem addr d k l ->
  (forall off s, In (off, s) l -> data_start d <= off /\ off + header k <= data_size d) /\
  (forall i off s off' s', nth_error l i = Some (off, s) -> nth_error l (S i) = Some (off', s') -> off + header k < off') /\
  N.of_nat (length l) * header k <= data_size d.
Proof.
  intros D M C. split; [|split].
  - intros off s I. apply in_split in I as (a & b & ->). change ((off, s) :: b) with ([(off, s)] ++ b) in C. rewrite app_assoc in C. apply chain_prefix in C.
    pose proof (chain_last mem addr d k M _ C off s (last_snoc _ _)). lia.
  - intros i off s off' s' I J. apply nth_error_split in I as (a & b & -> & L). rewrite nth_error_app2 in J by lia. replace (S i - length a)%nat with 1%nat in J by lia.
    cbn in J. destruct b as [|x b]; [discriminate|]. cbn in J. injection J as ->. change ((off, s) :: (off', s') :: b) with ([(off, s)] ++ (off', s') :: b) in C. rewrite app_assoc in C.
    apply chain_next in C as (_ & (_ & F) & _). apply (F off s), last_snoc.
  - pose proof (chain_length mem addr d k D M l C). lia.
Qed.
Print Assumptions C76_extent.

(** A single structure: shown when it is inside the data, with what belongs to it, also inside the data. *)
Theorem C76_single o mem addr d c entering failed rc fuel k :
  ioc_ok d -> mem_ok mem -> comes_with_one c entering failed (data_out d) = Some k -> abbrev o = false -> k = String \/ data_start d <> data_size d ->
  let at_ := data_start d in let rest := data_size d - (at_ + one_header k) in
  payload o mem addr d c entering failed rc fuel =
    Some (if data_size d <? at_ + one_header k then [Misplaced]
          else match (if one_header k =? 0 then Some [] else mem (u64 (addr + at_)) (one_header k)) with
               | None => [Addr (u64 (addr + at_))]
               | Some s => if rest <? one_length k s rest then [Misplaced]
                           else [Elem (u64 (addr + at_)) s (u64 (addr + at_ + one_header k)) (one_length k s rest) None]
               end).
Proof.
  intros D M W V NE at_ rest. subst at_ rest. destruct D as (D1 & D2 & D3).
  assert (B : (u32 (data_start d + 8) <=? data_start d) || (data_size d <? u32 (data_start d + 8)) = (data_size d <? data_start d + 8)).
  { destruct (N.lt_ge_cases (data_start d + 8) (2^32)) as [X|X].
    - rewrite (u32_small _ X). replace (data_start d + 8 <=? data_start d) with false by (symmetry; apply N.leb_gt; lia). reflexivity.
    - assert (Q : u32 (data_start d + 8) = data_start d + 8 - 2^32).
      { unfold u32. replace (data_start d + 8) with (data_start d + 8 - 2^32 + 1 * 2^32) at 1 by lia. rewrite N.mod_add, N.mod_small by lia. reflexivity. }
      rewrite Q. replace (data_start d + 8 - 2^32 <=? data_start d) with true by (symmetry; apply N.leb_le; lia). symmetry. apply N.ltb_lt. lia. }
  assert (U : data_size d <? data_start d + 8 = false -> u32 (data_start d + 8) = data_start d + 8) by (intros X; apply u32_small; apply N.ltb_ge in X; lia).
  assert (S0 : Some (string o addr d) = Some (if data_size d <? data_start d + 0 then [Misplaced] else if data_size d - (data_start d + 0) <? data_size d - (data_start d + 0) then [Misplaced]
       else [Elem (u64 (addr + data_start d)) [] (u64 (addr + data_start d + 0)) (data_size d - (data_start d + 0)) None])).
  { unfold string. rewrite V, !N.add_0_r, N.ltb_irrefl. destruct (N.leb_spec (data_start d) (data_size d)), (N.ltb_spec (data_size d) (data_start d)); reflexivity || lia. }
  destruct c; cbn in W; try discriminate W; destruct entering; try discriminate W; try (destruct failed; [discriminate W|]); try (destruct (data_out d) eqn:DO; [|discriminate W]);
    injection W as <-; cbn [payload negb andb one_header one_length]; try rewrite DO; try exact S0; (destruct NE as [NE|NE]; [discriminate NE|]); apply N.eqb_neq in NE;
    change (8 =? 0) with false; cbv iota.
  - unfold target_deps. rewrite NE, V, B. destruct (data_size d <? data_start d + 8) eqn:Q; [reflexivity|]. rewrite (U eq_refl). destruct (mem _ 8) as [s|]; [|reflexivity].
    rewrite ld_number. set (r := data_size d - (data_start d + 8)). set (n := number_at s 0 4). rewrite N.add_assoc. f_equal.
    assert (T : (r / 8 <? n) = (r <? 8 * n)). { clear. apply eq_true_iff_eq. rewrite !N.ltb_lt. split; intros H; [pose proof (N.div_mod r 8 ltac:(lia)); pose proof (N.mod_lt r 8 ltac:(lia)); lia|apply N.div_lt_upper_bound; lia]. }
    rewrite T. reflexivity.
  - unfold target_msg. rewrite NE, V. destruct (data_size d <? data_start d + 8) eqn:Q.
    + replace ((data_start d <? u32 (data_start d + 8)) && (u32 (data_start d + 8) <=? data_size d)) with false; [reflexivity|]. symmetry. rewrite (N.ltb_antisym (u32 (data_start d + 8)) (data_start d)), (N.leb_antisym (data_size d) (u32 (data_start d + 8))), <- negb_orb, B. reflexivity.
    + rewrite (U eq_refl). apply N.ltb_ge in Q. replace ((data_start d <? data_start d + 8) && (data_start d + 8 <=? data_size d)) with true.
      2: { symmetry. apply andb_true_iff. split; [apply N.ltb_lt; lia|apply N.leb_le; exact Q]. }
      destruct (mem _ 8) as [s|]; [|reflexivity]. rewrite N.ltb_irrefl, N.add_assoc. reflexivity.
Qed.
Print Assumptions C76_single.

(** Nothing is read or shown of the data of other requests, of failed ones, and unless -v is given. *)
Theorem C76_none o mem addr d c entering failed rc fuel :
  comes_with c entering failed = None -> comes_with_one c entering failed (data_out d) = None -> payload o mem addr d c entering failed rc fuel = Some [].
Proof. destruct c, entering, failed; cbn; try discriminate; try reflexivity; destruct (data_out d); cbn; try discriminate; reflexivity. Qed.
Print Assumptions C76_none.
(** Without -v, "..." stands for the data, if there are any. *)
Definition any_data (d : ioc) (c : cmd) (entering failed : bool) : bool :=
  match comes_with c entering failed, comes_with_one c entering failed (data_out d) with
  | Some (Loaded | Status), _ => negb (target_count d =? 0)
  | Some _, _ | None, Some (Deps | Message) => negb (data_start d =? data_size d)
  | None, Some String => true
  | None, None => false
  end.
Theorem C76_abbreviated o mem addr d c entering failed rc fuel :
  abbrev o = true -> payload o mem addr d c entering failed rc fuel = Some (if any_data d c entering failed then [More] else []).
Proof.
  intros A. destruct c, entering, failed; cbn [payload negb andb any_data comes_with comes_with_one]; unfold any_data; cbn [comes_with comes_with_one];
    unfold target_spec, name_list, target_versions, target_deps, target_msg, string; rewrite ?A;
    destruct (target_count d =? 0), (data_start d =? data_size d), (data_out d); reflexivity.
Qed.
Print Assumptions C76_abbreviated.

(** The number of events of the last device is never shown, although it is there as for the others: there is no next structure it
    could be in front of. *)
Theorem C76_last_event_refuted o mem addr d rc fuel a s str n ev out :
  ioc_ok d -> mem_ok mem -> abbrev o = false -> addr + 2^34 <= 2^64 -> (forall a n, (rc a n <= Z.of_N n)%Z) -> data_size d + 3 <= N.of_nat fuel ->
  payload o mem addr d LIST_DEVICES false false rc fuel = Some out -> In (Elem a s str n ev) out -> number_at s 8 4 = 0 -> ev = None.
Proof.
  intros D M V AD RC FU P I H. destruct (C76_lists o mem addr d LIST_DEVICES false false rc fuel Names D M eq_refl V (fun _ => conj AD RC) FU) as (out' & P' & X).
  rewrite P in P'. injection P' as <-. destruct (no_data Names d); [subst out; contradiction|]. destruct X as (l & e & _ & _ & ->). apply in_app_or in I as [I|I].
  - apply in_map_iff in I as ((off & s') & Q & _). unfold shown in Q. cbn [fst snd] in Q. injection Q as _ <- _ _ <-. unfold events. rewrite H.
    set (z := Z.to_N _). replace (8 * ((addr + off + 12 + z + 7) / 8) + 4 <=? addr + off + 0) with false; [rewrite andb_false_r; reflexivity|].
    symmetry. apply N.leb_gt. pose proof (N.div_mod (addr + off + 12 + z + 7) 8 ltac:(lia)). pose proof (N.mod_lt (addr + off + 12 + z + 7) 8 ltac:(lia)). lia.
  - destruct e; cbn in I; intuition discriminate.
Qed.
Print Assumptions C76_last_event_refuted.

(** Two devices at the end of a request of 376 bytes at address 4096, the first with 3 events; a reader of the model sees them. *)
Definition ex_bytes : list N :=
  repeat 0 312 ++
  [1;253;0;0;0;0;0;0] ++ [32;0;0;0] ++ [118;103;48;0] ++ [3;0;0;0] ++ [0;0;0;0] ++ [0;0;0;0;0;0;0;0] ++ 
  [2;253;0;0;0;0;0;0] ++ [0;0;0;0] ++ [118;103;49;0] ++ repeat 0 16.
Definition ex_mem : memory := fun a n => if (4096 <=? a) && (a + n <=? 4096 + 376) then Some (firstn (N.to_nat n) (skipn (N.to_nat (a - 4096)) ex_bytes)) else None.
Definition ex_ioc : ioc := Build_ioc 37 376 312 0 false.
Definition ex_opts : opts := Build_opts false 32.
Definition ex_rc (a n : N) : Z := if 4 <=? n then 4%Z else 0%Z.
Example ex_premises : ioc_ok ex_ioc /\ mem_ok ex_mem /\ 4096 + 2^34 <= 2^64 /\ (forall a n, (ex_rc a n <= Z.of_N n)%Z) /\ no_data Names ex_ioc = false.
Proof.
  split; [repeat split|]. split; [|split; [vm_compute; discriminate|split; [intros a n; unfold ex_rc; destruct (N.leb_spec 4 n); lia|reflexivity]]].
  intros a n s. unfold ex_mem. destruct (_ && _); [|discriminate]. intros E. injection E as <-.
  assert (A : Forall (fun b => b < 256) ex_bytes) by (apply Forall_forall; intros x I; apply N.ltb_lt, (proj1 (forallb_forall (fun b => b <? 256) ex_bytes) ltac:(vm_compute; reflexivity) x I)).
  rewrite Forall_forall in *. intros x I. apply A. rewrite <- (firstn_skipn (N.to_nat (a - 4096)) ex_bytes). apply in_or_app. right.
  rewrite <- (firstn_skipn (N.to_nat n) (skipn (N.to_nat (a - 4096)) ex_bytes)). apply in_or_app. left. exact I.
Qed.
Example ex_devices : option_map (map (fun x => match x with Elem a s str n ev => Some (a, str, n, ev) | _ => None end)) (payload ex_opts ex_mem 4096 ex_ioc LIST_DEVICES false false ex_rc 379)
  = Some [Some (4096 + 312, 4096 + 324, 52, Some 3); Some (4096 + 344, 4096 + 356, 20, None)].
Proof. vm_compute. reflexivity. Qed.
(** a table of two targets of which the first says that the second is where it is itself *)
Example ex_loop : option_map (map (fun x => match x with Elem a s str n ev => Some (a, str, n, ev) | _ => None end))
    (payload ex_opts (fun a n => Some (repeat 0 (N.to_nat n))) 4096 (Build_ioc 37 400 312 2 false) TABLE_STATUS false false ex_rc 403)
  = Some [Some (4096 + 312, 4096 + 352, 48, None); None].
Proof. vm_compute. reflexivity. Qed.
