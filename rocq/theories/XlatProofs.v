From Coq Require Import Sorted.
From Verif Require Import Base QuoteProofs Printf BitsModel AllocModel AllocThms XlatModel XlatSpec.
Local Open Scope N_scope.

(** ** Lookup *)
Lemma ss_nth (d : list entry) : StronglySorted (fun a b => fst a < fst b) d ->
  forall i j a b, nth_error d i = Some a -> nth_error d j = Some b -> (i < j)%nat -> fst a < fst b.
Proof.
  induction 1 as [|x l S IH F]; intros i j a b Hi Hj L; [destruct i; discriminate|].
  destruct i as [|i], j as [|j]; try lia; cbn in *.
  - inversion Hi; subst. rewrite Forall_forall in F. apply F. apply nth_error_In in Hj. exact Hj.
  - eapply IH; eauto. lia.
Qed.
Lemma div2_bounds l u : (l < u)%nat -> (l <= Nat.div2 (l + u) < u)%nat.
Proof. intros H. rewrite Nat.div2_div. split; [apply Nat.div_le_lower_bound; lia|apply Nat.div_lt_upper_bound; lia]. Qed.
Lemma bsearch_spec fuel (d : list entry) val : StronglySorted (fun a b => fst a < fst b) d ->
  forall l u, (u - l < fuel)%nat -> (u <= length d)%nat ->
  (forall i (e : entry), nth_error d i = Some e -> (i < l \/ u <= i)%nat -> fst e <> val) ->
  match bsearch fuel d val l u with
  | Some e => In e d /\ fst e = val
  | None => forall e, In e d -> fst e <> val
  end.
Proof.
  intros S. induction fuel as [|fu IH]; intros l u Hf Hu HI; [lia|]. cbn [bsearch].
  destruct (Nat.ltb_spec l u) as [L|L].
  - pose proof (div2_bounds l u L) as B. set (idx := Nat.div2 (l + u)) in *. cbv zeta.
    destruct (nth_error d idx) as [e|] eqn:E; [|apply nth_error_None in E; lia].
    destruct (N.ltb_spec val (fst e)) as [C|C]; [|destruct (N.ltb_spec (fst e) val) as [C2|C2]].
    + apply IH; [lia|lia|]. intros i e' Ei [H|H].
      * eapply HI; eauto.
      * destruct (Nat.eq_dec i idx) as [->|]; [rewrite E in Ei; inversion Ei; subst; lia|].
        pose proof (ss_nth d S idx i e e' E Ei ltac:(lia)). lia.
    + apply IH; [lia|lia|]. intros i e' Ei [H|H].
      * destruct (Nat.eq_dec i idx) as [->|]; [rewrite E in Ei; inversion Ei; subst; lia|].
        pose proof (ss_nth d S i idx e' e Ei E ltac:(lia)). lia.
      * eapply HI; eauto.
    + split; [eapply nth_error_In; eauto|lia].
  - intros e He. apply In_nth_error in He as [i Ei]. apply (HI i e Ei). lia.
Qed.
Lemma normal_spec (d : list entry) val : Forall (fun e => snd e <> None) d ->
  match normal_lookup d val with
  | Some s => In (val, Some s) d
  | None => forall s, ~ In (val, s) d
  end.
Proof.
  induction 1 as [|[v s] d H F IH]; cbn [normal_lookup]; [auto|].
  destruct (N.eqb_spec v val) as [->|Ne].
  - destruct s as [s|]; [left; reflexivity|]. cbn in H. congruence.
  - destruct (normal_lookup d val) as [s'|]; [right; exact IH|]. intros s' [E|E]; [inversion E; subst; contradiction|]. eapply IH; eauto.
Qed.
Lemma xlookup_spec x val : table_ok x ->
  match xlookup x val with
  | Some s => named x val s
  | None => forall s, ~ named x val s
  end.
Proof.
  unfold table_ok, xlookup, named. destruct (ty x) eqn:T; intros OK.
  - pose proof (normal_spec (data x) val OK) as H. destruct (normal_lookup _ _); auto.
  - destruct OK as [S F]. pose proof (bsearch_spec (Datatypes.S (length (data x))) (data x) val S 0 (length (data x)) ltac:(lia) ltac:(lia)) as H.
    destruct (bsearch _ _ _ _ _) as [[v s]|].
    + destruct H as [H1 H2].
      { intros i e Ei [C|C]; [lia|]. assert (nth_error (data x) i <> None) by congruence. apply nth_error_Some in H. lia. }
      cbn [snd fst] in *. subst. rewrite Forall_forall in F. specialize (F _ H1). cbn in F. destruct s; [auto|congruence].
    + intros s Hs. apply H in Hs; [auto|]. intros i e Ei [C|C]; [lia|].
      assert (X : nth_error (data x) i <> None) by congruence. apply nth_error_Some in X. lia.
  - destruct (N.ltb_spec val (N.of_nat (length (data x)))) as [L|L].
    + destruct (nth_error (data x) (N.to_nat val)) as [[v s]|] eqn:E; [|apply nth_error_None in E; lia].
      destruct (OK _ _ _ E) as [[H1 H2]|[H1 H2]].
      * rewrite N2Nat.id in H2. subst v. rewrite N.eqb_refl. destruct s; [|congruence]. eapply nth_error_In; eauto.
      * subst s v. assert (X : forall s, ~ In (val, Some s) (data x)).
        { intros s Hs. apply In_nth_error in Hs as [i Ei]. destruct (OK _ _ _ Ei) as [[A B]|[A B]]; [|discriminate].
          assert (i = N.to_nat val) as -> by lia. rewrite E in Ei. discriminate. }
        destruct (0 =? val); exact X.
    + intros s Hs. apply In_nth_error in Hs as [i Ei]. destruct (OK _ _ _ Ei) as [[A B]|[A B]]; [|discriminate].
      assert (X : nth_error (data x) i <> None) by congruence. apply nth_error_Some in X. lia.
Qed.
Lemma xrlookup_spec x str u :
  (exists v, xrlookup x str u = v /\ named x v str) \/ (xrlookup x str u = u /\ forall v, ~ named x v str).
Proof.
  unfold xrlookup, named. induction (data x) as [|[v [s|]] d IH]; cbn [xrlookup_in].
  - right. split; [reflexivity|]. auto.
  - destruct (beqs str s) eqn:E.
    + apply beqs_eq in E. subst. left. exists v. split; [reflexivity|left; reflexivity].
    + destruct IH as [(v' & H1 & H2)|[H1 H2]]; [left; exists v'; split; [auto|right; auto]|].
      right. split; [exact H1|]. intros v' [A|A]; [inversion A; subst; rewrite beqs_refl in E; discriminate|]. eapply H2; eauto.
  - destruct IH as [(v' & H1 & H2)|[H1 H2]]; [left; exists v'; split; [auto|right; auto]|].
    right. split; [exact H1|]. intros v' [A|A]; [discriminate|]. eapply H2; eauto.
Qed.

(** ** Nearest lower *)
Lemma le_loop_spec fuel (d : list entry) val : StronglySorted (fun a b => fst a < fst b) d ->
  forall base nmemb cur, (nmemb < fuel)%nat -> (base + nmemb <= length d)%nat ->
  (forall i (e : entry), nth_error d i = Some e -> (i < base)%nat -> fst e < val) ->
  (forall i (e : entry), nth_error d i = Some e -> (base + nmemb <= i)%nat -> val < fst e) ->
  (nmemb = 0 -> (cur = base /\ (cur < length d)%nat) \/ (S cur = base)%nat)%nat ->
  match le_loop fuel d val base nmemb cur with
  | LeFound e => In e d /\ fst e = val
  | LeEnd c => exists b, (c = b \/ S c = b)%nat /\ (c < length d)%nat /\
       (forall i (e : entry), nth_error d i = Some e -> (i < b)%nat -> fst e < val) /\
       (forall i (e : entry), nth_error d i = Some e -> (b <= i)%nat -> val < fst e)
  | LeUndef => False
  end.
Proof.
  intros S. induction fuel as [|fu IH]; intros base nm cur Hf Hb HL HR HC; [lia|]. cbn [le_loop].
  destruct (Nat.ltb_spec 0 nm) as [L|L].
  - cbv zeta. assert (B : (Nat.div2 nm < nm)%nat) by (rewrite Nat.div2_div; apply Nat.div_lt; lia).
    set (c := (base + Nat.div2 nm)%nat).
    destruct (nth_error d c) as [e|] eqn:E; [|apply nth_error_None in E; lia].
    destruct (N.eqb_spec val (fst e)) as [Q|Q]; [split; [eapply nth_error_In; eauto|auto]|].
    assert (D1 : Nat.div2 (nm - 1) = (nm - 1 - Nat.div2 nm)%nat).
    { rewrite !Nat.div2_div. pose proof (Nat.div_mod nm 2 ltac:(lia)). pose proof (Nat.mod_upper_bound nm 2 ltac:(lia)).
      pose proof (Nat.div_mod (nm - 1) 2 ltac:(lia)). pose proof (Nat.mod_upper_bound (nm - 1) 2 ltac:(lia)). lia. }
    destruct (N.ltb_spec (fst e) val) as [C|C].
    + apply IH; [lia|lia| | |].
      * intros i e' Ei Hi. destruct (Nat.eq_dec i c) as [->|]; [rewrite E in Ei; inversion Ei; subst; exact C|].
        pose proof (ss_nth d S i c e' e Ei E ltac:(lia)). lia.
      * intros i e' Ei Hi. apply (HR i e' Ei). lia.
      * intros _. right. reflexivity.
    + apply IH; [lia|lia| | |].
      * exact HL.
      * intros i e' Ei Hi. destruct (Nat.eq_dec i c) as [->|]; [rewrite E in Ei; inversion Ei; subst; lia|].
        pose proof (ss_nth d S c i e e' E Ei ltac:(lia)). lia.
      * intros Z. left. split; [unfold c; lia|]. assert (X : nth_error d c <> None) by congruence. apply nth_error_Some in X. exact X.
  - assert (nm = 0)%nat as -> by lia. exists base. destruct (HC eq_refl) as [[-> HX]|HX].
    + split; [auto|]. split; [exact HX|]. split; [exact HL|]. intros i e Ei Hi. apply (HR i e Ei). lia.
    + split; [auto|]. split; [lia|]. split; [exact HL|]. intros i e Ei Hi. apply (HR i e Ei). lia.
Qed.
Lemma xlookup_le_spec (d : list entry) val : StronglySorted (fun a b => fst a < fst b) d -> d <> [] ->
  exists r, xlat_search_eq_or_less d val = Ok r /\
  match r with
  | Some (s, v) => In (v, s) d /\ v <= val /\ forall e, In e d -> fst e <= val -> fst e <= v
  | None => forall e, In e d -> val < fst e
  end.
Proof.
  intros S NE. unfold xlat_search_eq_or_less.
  pose proof (le_loop_spec (Datatypes.S (length d)) d val S 0 (length d) 0 ltac:(lia) ltac:(lia)) as H.
  destruct (le_loop _ _ _ _ _ _) as [e|c|].
  - destruct H as [H1 H2].
    { intros; lia. }
    { intros i e' Ei Hi. assert (X : nth_error d i <> None) by congruence. apply nth_error_Some in X. lia. }
    { intros Z. destruct d; [congruence|discriminate]. }
    eexists. split; [reflexivity|]. destruct e as [v s]. cbn [fst snd] in *. subst v. split; [exact H1|]. split; [lia|]. intros; lia.
  - destruct H as (b & B & Lc & HL & HR).
    { intros; lia. }
    { intros i e' Ei Hi. assert (X : nth_error d i <> None) by congruence. apply nth_error_Some in X. lia. }
    { intros Z. destruct d; [congruence|discriminate]. }
    destruct (nth_error d c) as [[v s]|] eqn:E; [|apply nth_error_None in E; lia]. cbn [fst snd].
    assert (K : forall i v s, nth_error d i = Some (v, s) -> (1 + i = b)%nat ->
      In (v, s) d /\ v <= val /\ forall e, In e d -> fst e <= val -> fst e <= v).
    { intros i v' s' Ei Hi. split; [eapply nth_error_In; eauto|]. pose proof (HL i _ Ei ltac:(lia)) as X. cbn in X. split; [lia|].
      intros e He Hle. apply In_nth_error in He as [j Ej]. destruct (Nat.lt_trichotomy j i) as [Q|[->|Q]].
      - pose proof (ss_nth d S j i _ _ Ej Ei Q). cbn in *. lia.
      - rewrite Ei in Ej. inversion Ej. cbn. lia.
      - pose proof (HR j _ Ej ltac:(lia)). lia. }
    destruct (N.ltb_spec val v) as [C|C].
    + assert (c = b) as -> by (destruct B as [|B]; [auto|]; pose proof (HL c _ E ltac:(lia)) as X; cbn in X; lia).
      destruct b as [|b].
      * eexists. split; [reflexivity|]. cbn. intros e He. apply In_nth_error in He as [j Ej]. apply (HR j e Ej). lia.
      * destruct (nth_error d b) as [[v' s']|] eqn:E'; [|apply nth_error_None in E'; lia].
        eexists. split; [reflexivity|]. cbn [fst snd]. apply (K b); auto.
    + assert (1 + c = b)%nat as HB by (destruct B as [->|B]; [|auto]; pose proof (HR b _ E ltac:(lia)) as X; cbn in X; lia).
      eexists. split; [reflexivity|]. cbn. apply (K c); auto.
  - destruct H.
    { intros; lia. }
    { intros i e' Ei Hi. assert (X : nth_error d i <> None) by congruence. apply nth_error_Some in X. lia. }
    { intros Z. destruct d; [congruence|discriminate]. }
Qed.

(** ** Flag sets *)
Definition takes (flags : N) (e : entry) : option (list N) :=
  match snd e with
  | Some name => if (flags =? fst e) || (negb (fst e =? 0) && (N.land flags (fst e) =? fst e)) then Some name else None
  | None => None
  end.
(** what the loops choose *)
Fixpoint pk (d : list entry) (flags : N) (first : bool) : list (N * list N) * N :=
  match d with
  | [] => ([], flags)
  | e :: r =>
      if negb (flags =? 0) || first then
        match takes flags e with
        | Some name => if N.ldiff flags (fst e) =? 0 then ([(fst e, name)], 0)
                       else let '(c, rest) := pk r (N.ldiff flags (fst e)) false in ((fst e, name) :: c, rest)
        | None => if flags =? 0 then ([], flags) else pk r flags first
        end
      else ([], flags)
  end.
Definition nonempty {A} (l : list A) : bool := match l with [] => false | _ => true end.
Fixpoint pks (xs : list xlat) (flags : N) (first : bool) : list (N * list N) * N :=
  match xs with
  | [] => ([], flags)
  | x :: r => let '(c1, r1) := pk (data x) flags first in
              let '(c2, r2) := pks r r1 (first && negb (nonempty c1)) in (c1 ++ c2, r2)
  end.
Definition bars (l : list (list N)) : list N := concat (map (fun s => bs "|" ++ s) l).
Definition glue (st : xstyle_t) (flags : N) (first : bool) (c : list (N * list N)) : list N :=
  match map snd c with
  | [] => []
  | s :: r => (match st with XVERBOSE => if flags =? 0 then bs "0" else [] | _ => [] end) ++
              (if first then match st with XVERBOSE => bs " /* " | _ => [] end else bs "|") ++ s ++ bars r
  end.

Lemma pf_table_eq st d : forall flags n out,
  pf_table st d flags n out =
  let '(c, rest) := pk d flags (n =? 0) in (rest, n + N.of_nat (length c), out ++ glue st flags (n =? 0) c).
Proof.
  induction d as [|[v s] r IH]; intros flags n out; cbn [pf_table pk].
  - unfold glue. cbn. rewrite N.add_0_r, app_nil_r. reflexivity.
  - destruct (negb (flags =? 0) || (n =? 0)) eqn:G; [|unfold glue; cbn; rewrite N.add_0_r, app_nil_r; reflexivity].
    unfold takes. cbn [fst snd]. destruct s as [name|].
    + destruct ((flags =? v) || (negb (v =? 0) && (N.land flags v =? v))) eqn:T.
      * cbv zeta. destruct (N.eqb_spec (N.ldiff flags v) 0) as [Z|Z].
        -- rewrite Z. unfold glue. cbn [map length snd bars concat]. rewrite app_nil_r.
           change (N.of_nat 1) with 1. rewrite <- !app_assoc. destruct (n =? 0); reflexivity.
        -- rewrite IH. replace (n + 1 =? 0) with false by (symmetry; apply N.eqb_neq; lia).
           destruct (pk r (N.ldiff flags v) false) as [c rest]. cbn [length].
           f_equal; [f_equal; lia|]. unfold glue. cbn [map snd].
           destruct (N.eqb_spec flags 0) as [F|F].
           { subst. rewrite N.ldiff_0_l in Z. congruence. }
           rewrite <- !app_assoc. f_equal.
           assert (X : forall (b : list N), (match st with XVERBOSE => [] | _ => [] end) ++ b = b) by (destruct st; reflexivity).
           replace (match st with | XVERBOSE => if N.ldiff flags v =? 0 then bs "0" else [] | _ => [] end) with (@nil N)
             by (replace (N.ldiff flags v =? 0) with false by (symmetry; apply N.eqb_neq; exact Z); destruct st; reflexivity).
           replace (match st with XVERBOSE => [] | _ => [] end) with (@nil N) by (destruct st; reflexivity). cbn [app].
           f_equal; [destruct (n =? 0); reflexivity|]. f_equal. destruct (map snd c) as [|s' l]; [reflexivity|].
           unfold bars. cbn [map concat]. rewrite <- app_assoc. reflexivity.
      * destruct (N.eqb_spec flags 0); [unfold glue; cbn; rewrite N.add_0_r, app_nil_r; reflexivity|apply IH].
    + destruct (N.eqb_spec flags 0); [unfold glue; cbn; rewrite N.add_0_r, app_nil_r; reflexivity|apply IH].
Qed.

(** ** the choice is a reading *)
Lemma bits_take flags v : N.land flags v = v -> N.lor v (N.ldiff flags v) = flags /\ N.land v (N.ldiff flags v) = 0.
Proof.
  intros H. split; apply N.bits_inj; intros i; rewrite ?N.lor_spec, ?N.land_spec, ?N.ldiff_spec, ?N.bits_0.
  - assert (E : N.testbit (N.land flags v) i = N.testbit v i) by (rewrite H; reflexivity). rewrite N.land_spec in E.
    destruct (N.testbit flags i), (N.testbit v i); cbn in *; congruence.
  - destruct (N.testbit flags i), (N.testbit v i); reflexivity.
Qed.
Lemma inside_trans a b c : N.land a b = b -> N.land b c = c -> N.land a c = c.
Proof. intros H1 H2. rewrite <- H2 at 1. rewrite N.land_assoc, H1. exact H2. Qed.
Lemma takes_inside flags e name : takes flags e = Some name -> snd e = Some name /\ N.land flags (fst e) = fst e /\ (fst e <> 0 \/ flags = 0).
Proof.
  unfold takes. destruct (snd e) as [s|]; [|discriminate]. destruct (_ || _) eqn:G; [|discriminate]. intros E; inversion E; subst.
  split; [reflexivity|]. apply orb_true_iff in G as [G|G].
  - apply N.eqb_eq in G. subst. split; [apply N.land_diag|]. destruct (N.eq_dec (fst e) 0); auto.
  - apply andb_true_iff in G as [G1 G2]. apply N.eqb_eq in G2. apply negb_true_iff, N.eqb_neq in G1. auto.
Qed.
Lemma takes_none flags e s : takes flags e = None -> snd e = Some s -> fst e <> 0 -> N.land flags (fst e) <> fst e.
Proof.
  unfold takes. intros H Hs Z E. rewrite Hs, E, N.eqb_refl in H. replace (fst e =? 0) with false in H by (symmetry; apply N.eqb_neq; auto).
  rewrite orb_true_r in H. discriminate.
Qed.

Record pkd (ents : list entry) (flags : N) (chosen : list (N * list N)) (rest : N) : Prop := {
  p_named : Forall (fun e => In (fst e, Some (snd e)) ents) chosen;
  p_inside : Forall (fun e => N.land flags (fst e) = fst e) chosen;
  p_or : N.lor (ors chosen) rest = flags;
  p_disj : N.land (ors chosen) rest = 0;
  p_once : ForallOrdPairs (fun a b => N.land (fst a) (fst b) = 0) chosen;
  p_nonzero : flags <> 0 -> Forall (fun e => fst e <> 0) chosen;
  p_max : flags <> 0 -> forall v s, In (v, Some s) ents -> v <> 0 -> N.land rest v <> v;
  p_rest : N.land flags rest = rest
}.
Lemma zero_inside v : N.land 0 v = v -> v = 0.
Proof. rewrite N.land_0_l. auto. Qed.
Lemma ors_inside flags c : Forall (fun e => N.land flags (fst e) = fst e) c -> N.land flags (ors c) = ors c.
Proof.
  induction 1 as [|e c H F IH]; [apply N.land_0_r|]. cbn [ors fold_right]. fold (ors c). rewrite N.land_lor_distr_r, H, IH. reflexivity.
Qed.
Lemma disj_mono a b c : N.land a b = 0 -> N.land b c = c -> N.land a c = 0.
Proof. intros H1 H2. rewrite <- H2, N.land_assoc, H1. apply N.land_0_l. Qed.
Lemma pk_zero d first : exists c, pk d 0 first = (c, 0) /\ (c = [] \/ first = true /\ exists s, c = [(0, s)] /\ In (0, Some s) d) /\
  (c = [] -> first = true -> forall v s r, d = (v, Some s) :: r -> v <> 0).
Proof.
  destruct d as [|[v s] r]; cbn [pk].
  - exists []. split; [reflexivity|]. split; [auto|]. intros; discriminate.
  - change (0 =? 0) with true. cbn [negb orb]. destruct first.
    + destruct (takes 0 (v, s)) as [name|] eqn:T.
      * apply takes_inside in T as (H1 & H2 & _). cbn [fst snd] in *. subst s. apply zero_inside in H2. subst v.
        rewrite N.ldiff_0_l. change (0 =? 0) with true. cbv iota. exists [(0, name)]. split; [reflexivity|].
        split; [right; split; [auto|]; exists name; split; [reflexivity|left; reflexivity]|discriminate].
      * exists []. split; [reflexivity|]. split; [auto|]. intros _ _ v' s' r' E. inversion E; subst. intros ->.
        unfold takes in T. cbn in T. discriminate.
    + exists []. split; [reflexivity|]. split; [auto|discriminate].
Qed.
Lemma pk_ok d : forall flags first, flags <> 0 -> pkd d flags (fst (pk d flags first)) (snd (pk d flags first)).
Proof.
  induction d as [|e r IH]; intros flags first F; cbn [pk].
  - cbn. constructor; auto; try constructor; try apply N.lor_0_l || apply N.land_diag || reflexivity.
  - replace (flags =? 0) with false by (symmetry; apply N.eqb_neq; exact F). cbn [negb orb].
    destruct (takes flags e) as [name|] eqn:T.
    + apply takes_inside in T as (H1 & H2 & H3). destruct H3 as [H3|H3]; [|contradiction].
      destruct (bits_take flags (fst e) H2) as [B1 B2].
      assert (IN : In (fst e, Some name) (e :: r)) by (left; destruct e; cbn in *; subst; reflexivity).
      destruct (N.eqb_spec (N.ldiff flags (fst e)) 0) as [Z|Z].
      * cbn [fst snd]. rewrite Z, N.lor_0_r in B1. constructor; cbn [fst snd ors fold_right].
        -- constructor; [exact IN|constructor].
        -- constructor; [exact H2|constructor].
        -- rewrite !N.lor_0_r. exact B1.
        -- apply N.land_0_r.
        -- constructor; constructor.
        -- intros _. constructor; [exact H3|constructor].
        -- intros _ v s _ Hv E. apply zero_inside in E. contradiction.
        -- apply N.land_0_r.
      * specialize (IH (N.ldiff flags (fst e)) false Z). destruct (pk r (N.ldiff flags (fst e)) false) as [c rest]. cbn [fst snd] in *.
        assert (LD : N.land flags (N.ldiff flags (fst e)) = N.ldiff flags (fst e)).
        { apply N.bits_inj; intros i. rewrite N.land_spec, N.ldiff_spec. destruct (N.testbit flags i); reflexivity. }
        destruct IH as [P1 P2 P3 P4 P5 P6 P7 P8].
        constructor; cbn [fst snd ors fold_right]; fold (ors c).
        -- constructor; [exact IN|]. eapply Forall_impl; [|exact P1]. cbn. auto.
        -- constructor; [exact H2|]. eapply Forall_impl; [|exact P2]. cbn. intros a Ha. eapply inside_trans; [exact LD|exact Ha].
        -- rewrite <- N.lor_assoc, P3. exact B1.
        -- rewrite N.land_lor_distr_l, P4, N.lor_0_r. eapply disj_mono; [exact B2|exact P8].
        -- constructor; [|exact P5]. eapply Forall_impl; [|exact P2]. cbn. intros a Ha. eapply disj_mono; [exact B2|exact Ha].
        -- intros _. constructor; [exact H3|]. apply P6; exact Z.
        -- intros _ v s [E|E] Hv HL.
           ++ destruct e as [v' s']. cbn [fst snd] in *. inversion E; subst v' s'.
              assert (X : N.land v rest = 0) by (eapply disj_mono; [exact B2|exact P8]). rewrite N.land_comm in X. congruence.
           ++ exact (P7 Z v s E Hv HL).
        -- eapply inside_trans; [exact LD|exact P8].
    + specialize (IH flags first F). destruct (pk r flags first) as [c rest]. cbn [fst snd] in *. destruct IH as [P1 P2 P3 P4 P5 P6 P7 P8].
      constructor; auto.
      * eapply Forall_impl; [|exact P1]. cbn. auto.
      * intros _ v s [E|E] Hv; [|apply (P7 F v s E Hv)]. intros HL.
        destruct e as [v' s']. inversion E; subst v' s'. apply (takes_none _ _ s T eq_refl Hv). cbn [fst].
        eapply inside_trans; [exact P8|exact HL].
Qed.
Lemma ors_app a b : ors (a ++ b) = N.lor (ors a) (ors b).
Proof. induction a as [|e a IH]; [symmetry; apply N.lor_0_l|]. cbn [app ors fold_right]. fold (ors (a ++ b)) (ors a). rewrite IH, N.lor_assoc. reflexivity. Qed.
Lemma fop_app {A} (R : A -> A -> Prop) a b : ForallOrdPairs R a -> ForallOrdPairs R b -> Forall (fun x => Forall (R x) b) a -> ForallOrdPairs R (a ++ b).
Proof.
  induction 1 as [|x a H P IH]; intros Hb Hab; [exact Hb|]. inversion Hab; subst. cbn. constructor; [|auto].
  apply Forall_app. auto.
Qed.
Lemma land_ors v c : N.land v (ors c) = 0 -> Forall (fun e => N.land v (fst e) = 0) c.
Proof.
  induction c as [|e c IH]; intros H; [constructor|]. cbn [ors fold_right] in H. fold (ors c) in H. rewrite N.land_lor_distr_r in H.
  apply N.lor_eq_0_iff in H as [H1 H2]. constructor; auto.
Qed.
Lemma in_ors e c : In e c -> N.land (ors c) (fst e) = fst e.
Proof.
  induction c as [|x c IH]; intros H; [destruct H|]. cbn [ors fold_right]. fold (ors c). rewrite N.land_lor_distr_l. destruct H as [->|H].
  - rewrite N.land_diag. apply N.bits_inj; intros i. rewrite N.lor_spec, N.land_spec. destruct (N.testbit (ors c) i), (N.testbit (fst e) i); reflexivity.
  - rewrite (IH H). apply N.bits_inj; intros i. rewrite N.lor_spec, N.land_spec. destruct (N.testbit (fst x) i), (N.testbit (fst e) i); reflexivity.
Qed.
Lemma pks_zero xs : forall first, exists c, pks xs 0 first = (c, 0) /\ (c = [] \/ first = true /\ exists s, c = [(0, s)] /\ In (0, Some s) (all_entries xs)) /\
  (c = [] -> first = true -> forall x v s r, In x xs -> data x = (v, Some s) :: r -> v <> 0).
Proof.
  induction xs as [|x xs IH]; intros first; cbn [pks].
  - exists []. split; [reflexivity|]. split; [auto|]. intros ? ? ? ? ? ? [].
  - destruct (pk_zero (data x) first) as (c & E & [C|(C & s & C2 & C3)] & HZ); rewrite E.
    + subst c. cbn [nonempty negb]. rewrite andb_true_r. destruct (IH first) as (c2 & E2 & D & HZ2). rewrite E2. exists c2. split; [reflexivity|]. split.
      * destruct D as [D|(D & s & D2 & D3)]; [auto|]. right. split; [auto|]. exists s. split; [auto|]. unfold all_entries. cbn [map concat]. apply in_app_iff. auto.
      * intros Hc Hf y v s r [<-|Hy] Ed; [eapply HZ; eauto|eapply HZ2; eauto].
    + subst c first. cbn [nonempty negb andb]. destruct (IH false) as (c2 & E2 & D & _). rewrite E2.
      assert (c2 = []) as -> by (destruct D as [|(D & _)]; [auto|discriminate]). rewrite app_nil_r.
      exists [(0, s)]. split; [reflexivity|]. split; [|discriminate]. right. split; [auto|]. exists s. split; [auto|].
      unfold all_entries. cbn [map concat]. apply in_app_iff. auto.
Qed.
Lemma pks_ok xs : forall flags first, flags <> 0 -> pkd (all_entries xs) flags (fst (pks xs flags first)) (snd (pks xs flags first)).
Proof.
  induction xs as [|x xs IH]; intros flags first F; cbn [pks].
  - cbn. constructor; auto; try constructor; try apply N.lor_0_l || apply N.land_diag || reflexivity.
  - pose proof (pk_ok (data x) flags first F) as P. destruct (pk (data x) flags first) as [c1 r1]. cbn [fst snd] in P.
    unfold all_entries. cbn [map concat]. fold (all_entries xs).
    destruct (N.eq_dec r1 0) as [Z|Z].
    + subst r1. destruct (pks_zero xs (first && negb (nonempty c1))) as (c2 & E2 & D & _). rewrite E2.
      assert (C1 : c1 <> []).
      { intros ->. destruct P as [_ _ P3 _ _ _ _ _]. cbn in P3. congruence. }
      assert (c2 = []) as -> by (destruct D as [|(D & _)]; [auto|]; destruct c1; [congruence|cbn in D; rewrite andb_false_r in D; discriminate]).
      cbn [fst snd]. rewrite app_nil_r. destruct P as [P1 P2 P3 P4 P5 P6 P7 P8]. constructor; auto.
      eapply Forall_impl; [|exact P1]. cbn. intros a Ha. apply in_app_iff; auto.
    + specialize (IH r1 (first && negb (nonempty c1)) Z). destruct (pks xs r1 _) as [c2 r2]. cbn [fst snd] in *.
      destruct P as [P1 P2 P3 P4 P5 P6 P7 P8]. destruct IH as [Q1 Q2 Q3 Q4 Q5 Q6 Q7 Q8].
      constructor.
      * apply Forall_app. split; [eapply Forall_impl; [|exact P1]|eapply Forall_impl; [|exact Q1]]; cbn; intros a Ha; apply in_app_iff; auto.
      * apply Forall_app. split; [exact P2|]. eapply Forall_impl; [|exact Q2]. cbn. intros a Ha. eapply inside_trans; eauto.
      * rewrite ors_app, <- N.lor_assoc, Q3. exact P3.
      * rewrite ors_app, N.land_lor_distr_l, Q4, N.lor_0_r. eapply disj_mono; eauto.
      * apply fop_app; auto. apply Forall_forall. intros e He. apply Forall_forall. intros e' He'.
        rewrite Forall_forall in Q2. specialize (Q2 e' He'). cbn in Q2.
        assert (X : N.land (ors c1) (fst e') = 0) by (eapply disj_mono; eauto).
        pose proof (in_ors e c1 He) as Y. rewrite <- Y. rewrite (N.land_comm (ors c1)), <- N.land_assoc, X. apply N.land_0_r.
      * intros _. apply Forall_app. auto.
      * intros _ v s Hin Hv HL. apply in_app_iff in Hin as [H|H].
        -- apply (P7 F v s H Hv). eapply inside_trans; eauto.
        -- exact (Q7 Z v s H Hv HL).
      * eapply inside_trans; eauto.
Qed.
Lemma pks_reading xs flags : reading (all_entries xs) flags (fst (pks xs flags true)) (snd (pks xs flags true)).
Proof.
  destruct (N.eq_dec flags 0) as [->|F].
  - destruct (pks_zero xs true) as (c & E & D & _). rewrite E. cbn [fst snd].
    destruct D as [->|(_ & s & -> & HI)]; constructor; cbn [ors fold_right fst]; auto; try (repeat constructor; auto; fail); try congruence;
      try (intros v s' _ Hv HL; apply zero_inside in HL; contradiction). right. exists s; reflexivity.
  - destruct (pks_ok xs flags true F) as [P1 P2 P3 P4 P5 P6 P7 P8]. constructor; auto; [apply P7; exact F|intros; contradiction].
Qed.

(** ** the text *)
Definition glue2 st flags c : list N := glue st flags true c.
Lemma glue_app st flags flags1 c1 c2 : (flags <> 0 -> c1 <> [] -> c2 <> [] -> flags1 <> 0) -> (flags = 0 -> c1 <> [] -> c2 = []) ->
  (c1 = [] -> flags1 = flags) ->
  glue st flags true c1 ++ glue st flags1 (negb (nonempty c1)) c2 = glue st flags true (c1 ++ c2).
Proof.
  intros H1 H2 H3. unfold glue. rewrite map_app. destruct c1 as [|e c1].
  - cbn. rewrite H3 by reflexivity. reflexivity.
  - cbn [map app nonempty negb]. destruct c2 as [|e2 c2].
    + cbn. rewrite !app_nil_r. reflexivity.
    + destruct (N.eqb_spec flags 0) as [Z|Z]; [rewrite (H2 Z) by discriminate; cbn; rewrite !app_nil_r; reflexivity|].
      cbn [map]. replace (flags1 =? 0) with false by (symmetry; apply N.eqb_neq; apply H1; auto; discriminate).
      replace (match st with XVERBOSE => [] | _ => [] end) with (@nil N) by (destruct st; reflexivity). cbn [app].
      rewrite <- !app_assoc. f_equal. f_equal. unfold bars. rewrite map_app, concat_app. cbn [map concat]. rewrite <- app_assoc. reflexivity.
Qed.
Lemma glue_app_false st flags flags1 c1 c2 : flags <> 0 -> (c2 <> [] -> flags1 <> 0) ->
  glue st flags false c1 ++ glue st flags1 false c2 = glue st flags false (c1 ++ c2).
Proof.
  intros F H. unfold glue. rewrite map_app. replace (flags =? 0) with false by (symmetry; apply N.eqb_neq; exact F).
  replace (match st with XVERBOSE => [] | _ => [] end) with (@nil N) by (destruct st; reflexivity).
  assert (X : c2 <> [] -> (match st with XVERBOSE => if flags1 =? 0 then bs "0" else [] | _ => [] end) = []).
  { intros C. replace (flags1 =? 0) with false by (symmetry; apply N.eqb_neq; auto). destruct st; reflexivity. }
  destruct c1 as [|e c1], c2 as [|e2 c2]; cbn [map app].
  - reflexivity.
  - rewrite X by discriminate. reflexivity.
  - rewrite !app_nil_r. reflexivity.
  - rewrite X by discriminate. cbn [app]. rewrite <- !app_assoc. f_equal. f_equal. unfold bars. rewrite map_app, concat_app. cbn [map concat].
    rewrite <- app_assoc. reflexivity.
Qed.
Lemma pks_false_zero xs : pks xs 0 false = ([], 0).
Proof. destruct (pks_zero xs false) as (c & E & [->|(D & _)] & _); [exact E|discriminate]. Qed.
Lemma pf_tables_eq st xs : forall flags n out,
  pf_tables st xs flags n out =
  let '(c, rest) := pks xs flags (n =? 0) in (rest, n + N.of_nat (length c), out ++ glue st flags (n =? 0) c).
Proof.
  induction xs as [|x xs IH]; intros flags n out; cbn [pf_tables pks].
  - unfold glue. cbn. rewrite N.add_0_r, app_nil_r. reflexivity.
  - rewrite pf_table_eq. destruct (pk (data x) flags (n =? 0)) as [c1 r1] eqn:E1. rewrite IH.
    assert (NE : (n + N.of_nat (length c1) =? 0) = (n =? 0) && negb (nonempty c1)).
    { destruct (N.eqb_spec n 0) as [->|]; cbn [andb].
      - destruct c1; [reflexivity|]. cbn [nonempty negb]. apply N.eqb_neq. cbn [length]. lia.
      - apply N.eqb_neq. lia. }
    rewrite NE. destruct (pks xs r1 ((n =? 0) && negb (nonempty c1))) as [c2 r2] eqn:E2. rewrite app_length.
    f_equal; [f_equal; lia|]. rewrite <- app_assoc. f_equal.
    assert (A1 : c1 = [] -> r1 = flags).
    { intros ->. destruct (N.eq_dec flags 0) as [->|F].
      - destruct (pk_zero (data x) (n =? 0)) as (c & E & _). rewrite E in E1. inversion E1; reflexivity.
      - pose proof (pk_ok (data x) flags (n =? 0) F) as P. rewrite E1 in P. destruct P as [_ _ P3 _ _ _ _ _]. cbn in P3. congruence. }
    assert (A2 : c1 <> [] -> r1 = 0 -> c2 = []).
    { intros C ->. destruct c1; [congruence|]. cbn [nonempty negb] in E2. rewrite andb_false_r, pks_false_zero in E2. inversion E2; reflexivity. }
    destruct (n =? 0) eqn:N0; cbn [andb].
    + apply glue_app; [| |exact A1].
      * intros F C1 C2 E0. apply C2. apply A2; auto.
      * intros -> C. destruct (pk_zero (data x) true) as (c & E & _). rewrite E in E1. inversion E1; subst. apply A2; auto.
    + destruct (N.eq_dec flags 0) as [->|F].
      * destruct (pk_zero (data x) false) as (c & E & [->|(D & _)] & _); [|discriminate]. rewrite E in E1. inversion E1; subst.
        cbn in E2. rewrite pks_false_zero in E2. inversion E2; subst. reflexivity.
      * apply glue_app_false; [exact F|]. intros C2 E0. destruct c1 as [|e c1]; [rewrite A1 in E0; auto|apply C2, A2; auto; discriminate].
Qed.
Lemma join_bars a l : join_bar (a :: l) = a ++ bars l.
Proof.
  revert a; induction l as [|b l IH]; intros a; [cbn; rewrite app_nil_r; reflexivity|].
  change (join_bar (a :: b :: l)) with (a ++ bs "|" ++ join_bar (b :: l)). rewrite IH. unfold bars. cbn [map concat]. rewrite <- app_assoc. reflexivity.
Qed.
Lemma sprint_zero f : sprint_xlat_val f 0 = bs "0".
Proof. destruct f; reflexivity. Qed.
Lemma printflags_render flags dflt st f xs : exists chosen rest,
  reading (all_entries xs) flags chosen rest /\
  printflags_ex flags dflt st f xs = render st f dflt flags chosen rest /\
  (flags = 0 -> chosen = [] -> forall x v s r, In x xs -> data x = (v, Some s) :: r -> v <> 0).
Proof.
  exists (fst (pks xs flags true)), (snd (pks xs flags true)). split; [apply pks_reading|].
  assert (Z0 : flags = 0 -> fst (pks xs flags true) = [] -> forall x v s r, In x xs -> data x = (v, Some s) :: r -> v <> 0).
  { intros -> C. destruct (pks_zero xs true) as (c & E & _ & H). rewrite E in C. cbn in C. intros. eapply H; eauto. }
  split; [|exact Z0].
  destruct st; unfold printflags_ex, render.
  - rewrite pf_tables_eq. change (0 =? 0) with true. pose proof (pks_reading xs flags) as R. destruct (pks xs flags true) as [c rest]. cbn [fst snd app] in *.
    rewrite N.add_0_l. destruct c as [|e c].
    + cbn [length]. change (N.of_nat 0 =? 0) with true. cbn [negb]. destruct R as [_ _ R3 _ _ _ _ _]. cbn in R3. subst rest.
      unfold glue. cbn [map]. cbn [app]. destruct (flags =? 0); [destruct dflt; reflexivity|reflexivity].
    + replace (N.of_nat (length (e :: c)) =? 0) with false by (symmetry; apply N.eqb_neq; cbn [length]; lia). cbn [negb].
      unfold tokens. cbn [map app]. rewrite join_bars. unfold glue. cbn [map app]. unfold bars. rewrite map_app, concat_app.
      destruct (rest =? 0); cbn [map concat]; rewrite ?app_nil_r; [reflexivity|]. rewrite <- app_assoc. reflexivity.
  - destruct (flags =? 0), dflt; reflexivity.
  - rewrite pf_tables_eq. change (0 =? 0) with true. pose proof (pks_reading xs flags) as R. destruct (pks xs flags true) as [c rest]. cbn [fst snd] in *.
    rewrite N.add_0_l. destruct c as [|e c].
    + cbn [length]. change (N.of_nat 0 =? 0) with true. cbn [negb]. destruct R as [_ _ R3 _ _ _ _ _]. cbn in R3. subst rest.
      unfold glue. cbn [map]. rewrite app_nil_r. destruct (N.eqb_spec flags 0) as [->|F]; [destruct dflt; reflexivity|].
      reflexivity.
    + replace (N.of_nat (length (e :: c)) =? 0) with false by (symmetry; apply N.eqb_neq; cbn [length]; lia). cbn [negb].
      unfold tokens. cbn [map app]. rewrite join_bars. unfold glue. cbn [map]. unfold bars. rewrite map_app, concat_app.
      destruct (N.eqb_spec flags 0) as [->|F].
      * rewrite sprint_zero. cbn [app]. destruct (rest =? 0); cbn [map concat]; rewrite ?app_nil_r, <- ?app_assoc; reflexivity.
      * cbn [app]. destruct (rest =? 0); cbn [map concat]; rewrite ?app_nil_r, <- ?app_assoc; cbn [app]; rewrite <- ?app_assoc; reflexivity.
Qed.
