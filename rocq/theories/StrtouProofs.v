From Verif Require Import Base StrtouModel StrtouSpec.
Local Open Scope N_scope.

Lemma is_space_blank c : is_space c = true <-> blank c.
Proof. unfold is_space, blank. lia. Qed.
Lemma is_digit_digit c : is_digit c = true <-> digit c.
Proof. unfold is_digit, digit. lia. Qed.

Lemma skip_space_spec s : exists b, s = b ++ skip_space s /\ Forall blank b /\
  (forall c r, skip_space s = c :: r -> ~ blank c).
Proof.
  induction s as [|c r IH]; simpl.
  - exists []. repeat split; auto. discriminate.
  - destruct (is_space c) eqn:E.
    + destruct IH as (b & Hb & Fb & Hn). exists (c :: b). simpl. rewrite <- Hb. repeat split; auto.
      constructor; auto. apply is_space_blank; auto.
    + exists []. repeat split; auto. intros c' r' H. inversion H; subst.
      intros Hb. apply is_space_blank in Hb. congruence.
Qed.

Lemma skip_space_app b s : Forall blank b -> (forall c r, s = c :: r -> ~ blank c) ->
  skip_space (b ++ s) = s.
Proof.
  intros Hb Hs. induction b as [|c b IH]; simpl.
  - destruct s as [|c r]; auto. simpl. destruct (is_space c) eqn:E; auto.
    apply is_space_blank in E. exfalso. eapply Hs; eauto.
  - inversion Hb; subst. rewrite (proj2 (is_space_blank c)) by auto. auto.
Qed.

Lemma decimal_app a b : decimal (a ++ b) = decimal a * 10 ^ N.of_nat (length b) + decimal b.
Proof.
  induction a as [|x a IH]; simpl; [lia|].
  rewrite IH, app_length, Nat2N.inj_add, N.pow_add_r. lia.
Qed.

Lemma digits_loop_spec s acc k : exists ds rest,
  s = ds ++ rest /\ Forall digit ds /\ (forall c r, rest = c :: r -> ~ digit c) /\
  digits_loop s acc k = (acc * 10 ^ N.of_nat (length ds) + decimal ds, k + N.of_nat (length ds), rest).
Proof.
  revert acc k; induction s as [|c r IH]; intros acc k; simpl.
  - exists [], []. simpl. repeat split; auto; try discriminate. do 2 f_equal; lia.
  - destruct (is_digit c) eqn:E.
    + destruct (IH (acc * 10 + (c - 48)) (k + 1)) as (ds & rest & Hs & Hd & Hr & HL).
      exists (c :: ds), rest. simpl. subst r. repeat split; auto.
      { constructor; auto. apply is_digit_digit; auto. }
      rewrite HL. 
      rewrite Nat2N.inj_succ.
      rewrite N.pow_succ_r'. do 2 f_equal; lia.
    + exists [], (c :: r). simpl. repeat split; auto.
      { intros c' r' H. inversion H; subst. intros Hd. apply is_digit_digit in Hd. congruence. }
      do 2 f_equal; lia.
Qed.

Lemma digits_maximal ds ds' rest rest' : ds ++ rest = ds' ++ rest' ->
  Forall digit ds -> Forall digit ds' ->
  (forall c r, rest = c :: r -> ~ digit c) -> (forall c r, rest' = c :: r -> ~ digit c) ->
  ds = ds' /\ rest = rest'.
Proof.
  revert ds'; induction ds as [|d ds IH]; intros [|d' ds'] H F F' R R'; simpl in *.
  - auto.
  - exfalso. inversion F'; subst. eapply R; eauto.
  - exfalso. inversion F; subst. eapply R'; eauto.
  - inversion H; subst. inversion F; inversion F'; subst.
    destruct (IH ds') as [-> ->]; auto.
Qed.

Lemma digits_loop_at ds rest : Forall digit ds -> (forall c r, rest = c :: r -> ~ digit c) ->
  digits_loop (ds ++ rest) 0 0 = (decimal ds, N.of_nat (length ds), rest).
Proof.
  intros Hd Hr. destruct (digits_loop_spec (ds ++ rest) 0 0) as (ds' & rest' & Hs & Hd' & Hr' & HL).
  destruct (digits_maximal _ _ _ _ Hs Hd Hd' Hr Hr') as [-> ->].
  rewrite HL. do 2 f_equal; lia.
Qed.

(** strtoll when there is a numeral with an optional sign *)
Lemma strtoll_at blanks sign ds rest :
  Forall blank blanks -> (sign = [] \/ sign = [43] \/ sign = [45]) ->
  ds <> [] -> Forall digit ds -> (forall c r, rest = c :: r -> ~ digit c) ->
  strtoll10 (blanks ++ sign ++ ds ++ rest) =
    let z := if beqs sign [45] then (- Z.of_N (decimal ds))%Z else Z.of_N (decimal ds) in
    if (LLONG_MAX <? z)%Z then {| sv := LLONG_MAX; send := rest; sconv := true; serange := true |}
    else if (z <? LLONG_MIN)%Z then {| sv := LLONG_MIN; send := rest; sconv := true; serange := true |}
    else {| sv := z; send := rest; sconv := true; serange := false |}.
Proof.
  intros Hb Hsg Hne Hd Hr. unfold strtoll10.
  destruct ds as [|d ds]; [congruence|].
  assert (Dd : digit d) by (inversion Hd; auto). unfold digit in Dd.
  rewrite skip_space_app; auto.
  2:{ intros c r. destruct Hsg as [->|[->| ->]]; simpl; intros H; inversion H; subst; unfold blank; lia. }
  destruct Hsg as [->|[->| ->]]; cbn [app].
  - replace (d =? 45) with false by lia. replace (d =? 43) with false by lia.
    change (d :: ds ++ rest) with ((d :: ds) ++ rest). rewrite digits_loop_at by auto.
    replace (N.of_nat (length (d :: ds)) =? 0) with false by (simpl; lia). reflexivity.
  - cbn [N.eqb Pos.eqb].
    change (d :: ds ++ rest) with ((d :: ds) ++ rest). rewrite digits_loop_at by auto.
    replace (N.of_nat (length (d :: ds)) =? 0) with false by (simpl; lia). reflexivity.
  - cbn [N.eqb Pos.eqb].
    change (d :: ds ++ rest) with ((d :: ds) ++ rest). rewrite digits_loop_at by auto.
    replace (N.of_nat (length (d :: ds)) =? 0) with false by (simpl; lia). reflexivity.
Qed.

Lemma strtoll_conv s : sconv (strtoll10 s) = true ->
  exists blanks sign ds rest, s = blanks ++ sign ++ ds ++ rest /\
    Forall blank blanks /\ (sign = [] \/ sign = [43] \/ sign = [45]) /\ ds <> [] /\ Forall digit ds /\
    (forall c r, rest = c :: r -> ~ digit c).
Proof.
  unfold strtoll10. destruct (skip_space_spec s) as (b & Hb & Fb & Hn).
  set (s1 := skip_space s) in *.
  assert (exists sign neg s2, s1 = sign ++ s2 /\ (sign = [] \/ sign = [43] \/ sign = [45]) /\
    match s1 with
    | c :: r => if c =? 45 then (true, r) else if c =? 43 then (false, r) else (false, s1)
    | [] => (false, [])
    end = (neg, s2)) as (sign & neg & s2 & Hs & Hsg & ->).
  { destruct s1 as [|c r]; [exists [], false, []; auto|].
    destruct (N.eqb_spec c 45) as [->|]; [exists [45], true, r; auto|].
    destruct (N.eqb_spec c 43) as [->|]; [exists [43], false, r; auto|].
    exists [], false, (c :: r); auto. }
  destruct (digits_loop_spec s2 0 0) as (ds & rest & H2 & Hd & Hr & ->).
  destruct ds as [|d ds]; simpl length.
  - simpl. discriminate.
  - intros _. exists b, sign, (d :: ds), rest. rewrite Hb, Hs, H2. repeat split; auto. discriminate.
Qed.

Lemma string_to_uint_ex_iff str max acc v rest :
  string_to_uint_ex str max acc = Some (v, rest) <->
  (0 <= v)%Z /\ numeral str (Z.to_N v) rest /\ Z.to_N v <= max /\ (v <= LLONG_MAX)%Z /\
  (rest = [] \/ exists c r a, rest = c :: r /\ acc = Some a /\ In c a).
Proof.
  split.
  - unfold string_to_uint_ex. destruct str as [|c0 r0]; [discriminate|].
    set (str := c0 :: r0). destruct (sconv (strtoll10 str)) eqn:EC.
    2:{ cbn [negb orb]. discriminate. }
    destruct (strtoll_conv _ EC) as (bl & sg & ds & rs & Hs & Hb & Hsg & Hne & Hd & Hr).
    rewrite Hs. rewrite strtoll_at by auto. cbv zeta.
    set (z := if beqs sg [45] then (- Z.of_N (decimal ds))%Z else Z.of_N (decimal ds)).
    destruct (LLONG_MAX <? z)%Z eqn:E1.
    { cbn. rewrite Z.eqb_refl. rewrite orb_true_r. discriminate. }
    destruct (z <? LLONG_MIN)%Z eqn:E2.
    { cbn. discriminate. }
    cbn [sconv sv send serange negb orb].
    rewrite andb_false_r, orb_false_r.
    destruct (z <? 0)%Z eqn:E3; [discriminate|]. cbn [orb].
    destruct (max <? Z.to_N z) eqn:E4; [discriminate|].
    assert (HN : numeral (bl ++ sg ++ ds ++ rs) (Z.to_N z) rs).
    { exists bl, sg, ds. repeat split; auto.
      - destruct Hsg as [->|[->| ->]]; auto. right; right. split; auto.
        subst z. cbn in E3. cbn. lia.
      - subst z. destruct (beqs sg [45]); lia. }
    destruct rs as [|c r]; [|destruct acc as [a|]; [destruct (strchr_in a c) eqn:E5|]];
      intros H; inversion H; subst v rest; (split; [lia|]); (split; [exact HN|]); (split; [lia|]);
      (split; [lia|]); auto.
    right. exists c, r, a. repeat split; auto. unfold strchr_in in E5.
    apply existsb_exists in E5 as (x & Hx & Ex). apply N.eqb_eq in Ex. subst; auto.
  - intros (Hv & (bl & sg & ds & Hs & Hb & Hsg & Hne & Hd & Hr & HV) & Hmax & Hll & Hend).
    unfold string_to_uint_ex.
    assert (str <> []) as Hnn.
    { rewrite Hs. destruct bl; [|discriminate]. destruct sg; [|discriminate]. destruct ds; [congruence|discriminate]. }
    destruct str as [|c0 r0] eqn:Estr; [congruence|].
    rewrite Hs. rewrite strtoll_at; auto.
    2:{ destruct Hsg as [->|[->|[-> _]]]; auto. }
    cbv zeta.
    assert (Ez : (if beqs sg [45] then (- Z.of_N (decimal ds))%Z else Z.of_N (decimal ds)) = v).
    { destruct Hsg as [->|[->|[-> H0]]]; cbn; lia. }
    rewrite Ez.
    replace (LLONG_MAX <? v)%Z with false by lia.
    replace (v <? LLONG_MIN)%Z with false by (unfold LLONG_MIN; lia).
    cbn [sconv sv send serange negb orb]. rewrite andb_false_r, orb_false_r.
    replace (v <? 0)%Z with false by lia. replace (max <? Z.to_N v) with false by lia. cbn [orb].
    destruct Hend as [->|(c & r & a & -> & -> & Hin)]; auto.
    replace (strchr_in a c) with true; auto.
    symmetry. apply existsb_exists. exists c. split; auto. apply N.eqb_refl.
Qed.

Lemma string_to_uint_upto_iff str max v : max < 2^63 ->
  (string_to_uint_upto str max = Some v <-> numeral str v [] /\ v <= max).
Proof.
  intros Hm. unfold string_to_uint_upto. split.
  - destruct (string_to_uint_ex str max None) as [[z rest]|] eqn:E; [|discriminate].
    intros H; inversion H; subst v. apply string_to_uint_ex_iff in E.
    destruct E as (H1 & H2 & H3 & H4 & [->|(c & r & a & _ & ? & _)]); [auto|discriminate].
  - intros [Hn Hv].
    assert (E : string_to_uint_ex str max None = Some (Z.of_N v, [])).
    { apply string_to_uint_ex_iff. rewrite N2Z.id. unfold LLONG_MAX. repeat split; auto; lia. }
    rewrite E. f_equal. lia.
Qed.

Lemma numeral_functional s v v' r r' : numeral s v r -> numeral s v' r' -> v = v' /\ r = r'.
Proof.
  intros (bl & sg & ds & Hs & Hb & Hsg & Hne & Hd & Hr & HV)
         (bl' & sg' & ds' & Hs' & Hb' & Hsg' & Hne' & Hd' & Hr' & HV').
  assert (E1 : skip_space s = sg ++ ds ++ r).
  { rewrite Hs. apply skip_space_app; auto. intros c x Hx.
    destruct ds as [|d ds]; [congruence|]. inversion Hd; subst.
    destruct Hsg as [->|[->|[-> _]]]; simpl in Hx; inversion Hx; subst; unfold blank, digit in *; lia. }
  assert (E2 : skip_space s = sg' ++ ds' ++ r').
  { rewrite Hs'. apply skip_space_app; auto. intros c x Hx.
    destruct ds' as [|d ds']; [congruence|]. inversion Hd'; subst.
    destruct Hsg' as [->|[->|[-> _]]]; simpl in Hx; inversion Hx; subst; unfold blank, digit in *; lia. }
  rewrite E1 in E2.
  assert (ds ++ r = ds' ++ r').
  { destruct ds as [|d ds]; [congruence|]. destruct ds' as [|d' ds']; [congruence|].
    inversion Hd; inversion Hd'; subst. unfold digit in *.
    destruct Hsg as [->|[->|[-> _]]], Hsg' as [->|[->|[-> _]]]; simpl in *; inversion E2; subst; try lia; auto. }
  destruct (digits_maximal _ _ _ _ H Hd Hd' Hr Hr') as [-> ->]. subst. auto.
Qed.
