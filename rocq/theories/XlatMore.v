(** sprintflags_ex agrees with printflags_ex; dynamic tables. *)
From Coq Require Import Sorted.
From Verif Require Import Base QuoteProofs Printf BitsModel AllocModel AllocThms XlatModel XlatSpec XlatProofs XlatText.
Local Open Scope N_scope.

Lemma put_ok cap out c : N.of_nat (length out) < cap -> put cap out c = Ok (out ++ [c]).
Proof. intros H. unfold put. replace (_ <? _) with true by (symmetry; apply N.ltb_lt; exact H). reflexivity. Qed.
Lemma stpcpy_ok cap out s : N.of_nat (length (out ++ s)) < cap -> stpcpy cap out s = Ok (out ++ s).
Proof. intros H. unfold stpcpy. rewrite app_length in H. replace (_ <? _) with true by (symmetry; apply N.ltb_lt; lia). reflexivity. Qed.
Lemma xappendstr_ok cap out s : N.of_nat (length (out ++ s)) < cap -> xappendstr cap out s = Ok (out ++ s).
Proof.
  intros H. unfold xappendstr. rewrite app_length in H. replace (cap <? _) with false by (symmetry; apply N.ltb_ge; lia).
  replace (_ <=? _) with false by (symmetry; apply N.leb_gt; lia). reflexivity.
Qed.
Definition sepb (sep : N) : list N := if sep =? 0 then [] else [sep].
Definition sglue (st : xstyle_t) (aux : bool) (sep : N) (c : list (N * list N)) : list N :=
  match map snd c with
  | [] => []
  | s :: r => (if sep =? 0 then match st, aux with XVERBOSE, false => bs " /* " | _, _ => [] end else [sep]) ++ s ++ bars r
  end.
Lemma takes_nz flags v s : flags <> 0 -> takes flags (v, s) =
  match s with Some name => if negb (v =? 0) && (N.land flags v =? v) then Some name else None | None => None end.
Proof.
  intros F. unfold takes. cbn [fst snd]. destruct s; [|reflexivity]. destruct (N.eqb_spec flags v) as [->|]; [|reflexivity].
  rewrite N.land_diag, N.eqb_refl. replace (v =? 0) with false by (symmetry; apply N.eqb_neq; exact F). reflexivity.
Qed.
Lemma sf_loop_eq st aux d : forall flags sep found out first, flags <> 0 ->
  let '(c, rest) := pk d flags first in
  N.of_nat (length (out ++ sglue st aux sep c)) < OUTCAP ->
  sf_loop st aux d flags sep found out = Ok (rest, if nonempty c then 124 else sep, found || nonempty c, out ++ sglue st aux sep c).
Proof.
  induction d as [|[v s] r IH]; intros flags sep found out first F; cbn [pk sf_loop].
  - intros _. cbn. rewrite orb_false_r, app_nil_r. reflexivity.
  - replace (flags =? 0) with false by (symmetry; apply N.eqb_neq; exact F). cbn [negb orb].
    rewrite takes_nz by exact F. destruct s as [name|]; [|apply IH; exact F].
    destruct (negb (v =? 0) && (N.land flags v =? v)) eqn:T; [|apply IH; exact F]. cbn [fst].
    assert (STEP : forall c, N.of_nat (length (out ++ sglue st aux sep ((v, name) :: c))) < OUTCAP ->
      (rlet o1 := (if negb (sep =? 0) then put OUTCAP out sep
                   else match st, aux with XVERBOSE, false => stpcpy OUTCAP out (bs " /* ") | _, _ => Ok out end) in
       rlet o2 := stpcpy OUTCAP o1 name in sf_loop st aux r (N.ldiff flags v) 124 true o2) =
      sf_loop st aux r (N.ldiff flags v) 124 true (out ++ sglue st aux sep [(v, name)])).
    { intros c L. unfold sglue in *. cbn [map snd] in *. rewrite !app_length in L. unfold bars at 1. cbn [map concat]. rewrite app_nil_r.
      destruct (sep =? 0) eqn:S0; cbn [negb].
      - assert (X : forall o, N.of_nat (length (out ++ o)) + N.of_nat (length name) < OUTCAP ->
          (rlet o1 := stpcpy OUTCAP out o in rlet o2 := stpcpy OUTCAP o1 name in sf_loop st aux r (N.ldiff flags v) 124 true o2) =
          sf_loop st aux r (N.ldiff flags v) 124 true (out ++ o ++ name)).
        { intros o Ho. rewrite stpcpy_ok by lia. cbn [rbind]. rewrite stpcpy_ok by (rewrite app_length; lia). cbn [rbind]. rewrite <- app_assoc. reflexivity. }
        destruct st, aux; cbn [rbind]; try (rewrite stpcpy_ok by (rewrite app_length; cbn [length] in L; lia); cbn [rbind app]; reflexivity).
        rewrite X; [reflexivity|]. rewrite app_length. lia.
      - cbn [length] in L. rewrite put_ok by lia. cbn [rbind]. rewrite stpcpy_ok by (rewrite !app_length; cbn [length]; lia). cbn [rbind].
        rewrite <- app_assoc. reflexivity. }
    destruct (N.eqb_spec (N.ldiff flags v) 0) as [Z|Z].
    + intros L. rewrite (STEP [] L), Z. rewrite orb_true_r. cbn [nonempty].
      assert (X : forall d s f o, sf_loop st aux d 0 s f o = Ok (0, s, f, o)) by (intros [|[v' s'] d]; reflexivity).
      apply X.
    + specialize (IH (N.ldiff flags v) 124 true (out ++ sglue st aux sep [(v, name)]) false Z).
      destruct (pk r (N.ldiff flags v) false) as [c rest]. intros L. rewrite (STEP c L). 
      assert (G : (out ++ sglue st aux sep [(v, name)]) ++ sglue st aux 124 c = out ++ sglue st aux sep ((v, name) :: c)).
      { rewrite <- app_assoc. f_equal. unfold sglue. cbn [map snd]. unfold bars at 1. cbn [map concat]. rewrite app_nil_r, <- app_assoc. f_equal. f_equal.
        destruct (map snd c) as [|s' l]; [reflexivity|]. change (124 =? 0) with false. cbv iota. unfold bars. cbn [map concat].
        rewrite <- app_assoc. reflexivity. }
      rewrite G in IH. rewrite (IH L). rewrite orb_true_r. cbn [nonempty orb]. destruct (nonempty c); reflexivity.
Qed.
Lemma pks_one x flags : pks [x] flags true = pk (data x) flags true.
Proof. cbn [pks]. destruct (pk (data x) flags true) as [c r]. rewrite app_nil_r. reflexivity. Qed.
Lemma render_nonempty f st flags c rest : flags <> 0 -> (st = XABBREV -> Forall (fun e => snd e <> []) c) -> render st f None flags c rest <> [].
Proof.
  intros F HC. assert (X : forall v (t : list N), sprint_xlat_val f v ++ t <> []) by (intros v t X; destruct (sprint_head f v) as (y & r' & Ey & Hy); rewrite Ey in X; discriminate).
  unfold render. replace (flags =? 0) with false by (symmetry; apply N.eqb_neq; exact F). destruct st, c as [|e c]; cbn [andb].
  - apply X.
  - specialize (HC eq_refl). inversion HC; subst. unfold tokens. cbn [map app]. rewrite join_bars. destruct (snd e); [congruence|discriminate].
  - rewrite <- (app_nil_r (sprint_xlat_val f flags)). apply X.
  - rewrite <- (app_nil_r (sprint_xlat_val f flags)). apply X.
  - apply X.
  - apply X.
Qed.
Lemma sprintflags_eq prefix x flags sep st f :
  let text := printflags_ex flags None st f [x] in
  (data x <> [] \/ flags <> 0 \/ st = XRAW) ->
  Forall (fun e => snd e <> Some []) (data x) ->
  N.of_nat (length (prefix ++ sepb sep ++ text)) < OUTCAP ->
  sprintflags_ex prefix x flags sep st false f = Ok (match text with [] => None | _ => Some (prefix ++ sepb sep ++ text) end).
Proof.
  intros text HD HNE L. unfold sprintflags_ex.
  assert (L0 : N.of_nat (length ([] ++ prefix)) < OUTCAP) by (rewrite !app_length in L; cbn [app]; lia).
  rewrite stpcpy_ok by exact L0. cbn [rbind app].
  assert (SEP : forall (K : list N -> res (option (list N))), (N.of_nat (length (prefix ++ sepb sep)) < OUTCAP) ->
     rbind (if negb (sep =? 0) then put OUTCAP prefix sep else Ok prefix) K = K (prefix ++ sepb sep)).
  { intros K HL. unfold sepb in *. destruct (sep =? 0); cbn [negb]; [rewrite app_nil_r; reflexivity|].
    rewrite put_ok by (rewrite app_length in HL; cbn [length] in HL; lia). reflexivity. }
  assert (L1 : N.of_nat (length (prefix ++ sepb sep)) < OUTCAP) by (rewrite !app_length in *; lia).
  assert (SNE : forall v, sprint_xlat_val f v <> []) by (intros v X; destruct (sprint_head f v) as (y & r' & Ey & Hy); rewrite Ey in X; discriminate).
  destruct (N.eq_dec flags 0) as [->|F].
  - (* zero *)
    destruct st.
    + destruct (data x) as [|[v s] d] eqn:ED; [destruct HD as [H|[H|H]]; try congruence; discriminate|].
      destruct (v =? 0) eqn:EV; [apply N.eqb_eq in EV; subst v; destruct s as [z|]|].
      * assert (T : text = z).
        { unfold text, printflags_ex. cbn [pf_tables]. rewrite ED. reflexivity. }
        change (0 =? 0) with true. cbv iota. rewrite SEP by exact L1.
        rewrite stpcpy_ok by (rewrite <- app_assoc, <- T; exact L). cbn [rbind]. pose proof (Forall_inv HNE) as H1. cbn in H1.
        rewrite <- app_assoc, <- T. destruct text eqn:Q; [|reflexivity]. exfalso. apply H1. rewrite <- T. reflexivity.
      * assert (T : text = []) by (unfold text, printflags_ex; cbn [pf_tables]; rewrite ED; reflexivity). rewrite T. reflexivity.
      * assert (T : text = []).
        { unfold text, printflags_ex. cbn [pf_tables]. rewrite ED. cbn [pf_table]. rewrite (N.eqb_sym 0 v), EV. cbn [negb orb andb]. destruct s; [|reflexivity].
          rewrite N.land_0_l, (N.eqb_sym 0 v), EV. reflexivity. }
        rewrite T. destruct v; [discriminate|]. destruct s; reflexivity.
    + cbn. reflexivity.
    + destruct (data x) as [|[v s] d] eqn:ED; [destruct HD as [H|[H|H]]; try congruence; discriminate|].
      destruct (v =? 0) eqn:EV; [apply N.eqb_eq in EV; subst v; destruct s as [z|]|].
      * assert (T : text = bs "0 /* " ++ z ++ bs " */").
        { unfold text, printflags_ex. cbn [pf_tables]. rewrite ED. cbn -[bs]. change (bs "0 /* ") with (bs "0" ++ bs " /* "). rewrite <- !app_assoc. reflexivity. }
        change (0 =? 0) with true. cbv iota. rewrite SEP by exact L1.
        rewrite xappendstr_ok by (rewrite <- app_assoc, <- T; exact L). cbn [rbind]. rewrite T, <- app_assoc. reflexivity.
      * assert (T : text = []) by (unfold text, printflags_ex; cbn [pf_tables]; rewrite ED; reflexivity). rewrite T. reflexivity.
      * assert (T : text = []).
        { unfold text, printflags_ex. cbn [pf_tables]. rewrite ED. cbn [pf_table]. rewrite (N.eqb_sym 0 v), EV. cbn [negb orb andb]. destruct s; [|reflexivity].
          rewrite N.land_0_l, (N.eqb_sym 0 v), EV. reflexivity. }
        rewrite T. destruct v; [discriminate|]. destruct s; reflexivity.
  - assert (HM : match (match data x with (0, Some z) :: _ => if flags =? 0 then Some (Some z) else Some None
                             | [] => if flags =? 0 then None else Some None | _ => Some None end) with
                 | Some None => True | _ => False end).
    { replace (flags =? 0) with false by (symmetry; apply N.eqb_neq; exact F). destruct (data x) as [|[[|p] [z|]] d]; exact I. }
    destruct (match data x with (0, Some z) :: _ => if flags =? 0 then Some (Some z) else Some None
                             | [] => if flags =? 0 then None else Some None | _ => Some None end) as [[z|]|]; try contradiction.
    destruct (printflags_render flags None st f [x]) as (c' & rest' & _ & _ & _).
    assert (F0 : (flags =? 0) = false) by (apply N.eqb_neq; exact F).
    assert (HP : forall st, printflags_ex flags None st f [x] = render st f None flags (fst (pk (data x) flags true)) (snd (pk (data x) flags true))).
    { intros st'. pose proof (pks_one x flags) as P1.
      assert (G : forall st, printflags_ex flags None st f [x] = render st f None flags (fst (pks [x] flags true)) (snd (pks [x] flags true))).
      { intros st0. clear. destruct st0; unfold printflags_ex, render.
        - rewrite pf_tables_eq. change (0 =? 0) with true. pose proof (pks_reading [x] flags) as R. destruct (pks [x] flags true) as [c rest]. cbn [fst snd app] in *.
          rewrite N.add_0_l. destruct c as [|e c].
          + cbn [length]. change (N.of_nat 0 =? 0) with true. cbn [negb]. destruct R as [_ _ R3 _ _ _ _ _]. cbn in R3. subst rest.
            unfold glue. cbn [map app]. destruct (flags =? 0); reflexivity.
          + replace (N.of_nat (length (e :: c)) =? 0) with false by (symmetry; apply N.eqb_neq; cbn [length]; lia). cbn [negb].
            unfold tokens. cbn [map app]. rewrite join_bars. unfold glue. cbn [map app]. unfold bars. rewrite map_app, concat_app.
            destruct (rest =? 0); cbn [map concat]; rewrite ?app_nil_r; [reflexivity|]. rewrite <- app_assoc. reflexivity.
        - destruct (flags =? 0); destruct (fst (pks [x] flags true)); reflexivity.
        - rewrite pf_tables_eq. change (0 =? 0) with true. pose proof (pks_reading [x] flags) as R. destruct (pks [x] flags true) as [c rest]. cbn [fst snd] in *.
          rewrite N.add_0_l. destruct c as [|e c].
          + cbn [length]. change (N.of_nat 0 =? 0) with true. cbn [negb]. destruct R as [_ _ R3 _ _ _ _ _]. cbn in R3. subst rest.
            unfold glue. cbn [map]. rewrite app_nil_r. destruct (N.eqb_spec flags 0) as [->|F]; reflexivity.
          + replace (N.of_nat (length (e :: c)) =? 0) with false by (symmetry; apply N.eqb_neq; cbn [length]; lia). cbn [negb].
            unfold tokens. cbn [map app]. rewrite join_bars. unfold glue. cbn [map]. unfold bars. rewrite map_app, concat_app.
            destruct (N.eqb_spec flags 0) as [->|F].
            * rewrite sprint_zero. cbn [app]. destruct (rest =? 0); cbn [map concat]; rewrite ?app_nil_r, <- ?app_assoc; reflexivity.
            * cbn [app]. destruct (rest =? 0); cbn [map concat]; rewrite ?app_nil_r, <- ?app_assoc; cbn [app]; rewrite <- ?app_assoc; reflexivity. }
      rewrite G, P1. reflexivity. }
    pose proof (pks_reading [x] flags) as R. rewrite pks_one in R.
    assert (CN : Forall (fun e => snd e <> []) (fst (pk (data x) flags true))).
    { eapply Forall_impl; [|apply R]. intros [v s] Hin. cbn in *. unfold all_entries in Hin. cbn in Hin. rewrite app_nil_r in Hin.
      rewrite Forall_forall in HNE. specialize (HNE _ Hin). cbn in HNE. congruence. }
    pose proof (render_nonempty f st flags (fst (pk (data x) flags true)) (snd (pk (data x) flags true)) F (fun _ => CN)) as RNE.
    rewrite <- HP in RNE. fold text in RNE.
    assert (TS : match text with [] => None | _ => Some (prefix ++ sepb sep ++ text) end = Some (prefix ++ sepb sep ++ text)) by (destruct text; [congruence|reflexivity]).
    rewrite TS. unfold text in *. rewrite HP in *. clear TS.
    pose proof (sf_loop_eq st false (data x) flags) as SF.
    destruct st; unfold render in *; rewrite ?F0 in *.
    + cbn [rbind]. specialize (SF sep false prefix true F). destruct (pk (data x) flags true) as [c rest]. cbn [fst snd] in *.
      assert (GL : prefix ++ sglue XABBREV false sep c ++ (if rest =? 0 then [] else (if nonempty c then [124] else sepb sep) ++ sprint_xlat_val f rest)
                   = prefix ++ sepb sep ++ match c with [] => sprint_xlat_val f flags ++ comment None | _ :: _ => join_bar (tokens f c rest) end).
      { f_equal. destruct c as [|e c].
        - destruct R as [_ _ R3 _ _ _ _ _]. cbn in R3. subst rest. rewrite F0. cbn. rewrite app_nil_r. reflexivity.
        - unfold sglue, tokens, sepb. cbn [map nonempty]. cbn [app]. rewrite join_bars. unfold bars. rewrite map_app, concat_app.
          destruct (sep =? 0); destruct (rest =? 0); cbn [app map concat]; rewrite ?app_nil_r, <- ?app_assoc; cbn [app]; reflexivity. }
      rewrite <- GL in L |- *. rewrite SF by (rewrite !app_length in *; lia). cbn [rbind orb].
      destruct (N.eqb_spec rest 0) as [Z|Z].
      * destruct c as [|e c]; [exfalso; destruct R as [_ _ R3 _ _ _ _ _]; cbn in R3; congruence|]. cbn [nonempty negb rbind].
        rewrite app_nil_r in *. destruct (prefix ++ sglue XABBREV false sep (e :: c)) eqn:Q; [|reflexivity]. exfalso.
        apply app_eq_nil in Q as [_ Q]. unfold sglue in Q. cbn [map] in Q. inversion CN; subst. apply app_eq_nil in Q as [_ Q]. apply app_eq_nil in Q as [Q _]. contradiction.
      * replace (negb (sep =? 0)) with (negb (sep =? 0)) by reflexivity.
        destruct c as [|e c]; cbn [nonempty orb negb] in *.
        -- cbn [sglue map app] in *. rewrite app_nil_r. unfold sepb in *. destruct (sep =? 0); cbn [negb rbind app] in *.
           ++ rewrite xappendstr_ok by (rewrite !app_length in *; cbn [length app] in *; lia). cbn [rbind].
              destruct (prefix ++ sprint_xlat_val f rest) eqn:Q; [apply app_eq_nil in Q as [_ Q]; exfalso; eapply SNE; exact Q|]. reflexivity.
           ++ rewrite put_ok by (rewrite !app_length in *; cbn [length app] in *; lia). cbn [rbind].
              rewrite xappendstr_ok by (rewrite !app_length in *; cbn [length app] in *; lia). cbn [rbind]. rewrite <- app_assoc. cbn [app].
              destruct (prefix ++ sep :: sprint_xlat_val f rest) eqn:Q; [apply app_eq_nil in Q as [_ Q]; discriminate|]. reflexivity.
        -- change (124 =? 0) with false. cbn [negb]. rewrite put_ok by (rewrite !app_length in *; cbn [length app] in *; lia). cbn [rbind].
           rewrite xappendstr_ok by (rewrite !app_length in *; cbn [length app] in *; lia). cbn [rbind]. rewrite <- !app_assoc. cbn [app].
           destruct (prefix ++ sglue XABBREV false sep (e :: c) ++ 124 :: sprint_xlat_val f rest) eqn:Q; [|reflexivity].
           apply app_eq_nil in Q as [_ Q]. apply app_eq_nil in Q as [_ Q]. discriminate.
    + assert (Y : forall A (c : list A) (y : list N), match c with [] => y | _ :: _ => y end = y) by (destruct c; reflexivity).
      cbn [andb orb] in *. rewrite ?Y in *. rewrite SEP by exact L1. rewrite app_assoc in L. rewrite xappendstr_ok by exact L.
      cbn [rbind]. rewrite <- app_assoc. reflexivity.
    + assert (L2 : N.of_nat (length ((prefix ++ sepb sep) ++ sprint_xlat_val f flags)) < OUTCAP).
      { destruct (fst (pk (data x) flags true)); rewrite !app_length in *; lia. }
      assert (SEP2 : forall (K : list N -> res (N * list N)), rbind (if negb (sep =? 0) then put OUTCAP prefix sep else Ok prefix) K = K (prefix ++ sepb sep)).
      { intros K. unfold sepb in *. destruct (sep =? 0); cbn [negb]; [rewrite app_nil_r; reflexivity|].
        rewrite put_ok by (rewrite app_length in L1; cbn [length] in L1; lia). reflexivity. }
      rewrite SEP2. rewrite xappendstr_ok by exact L2. cbn [rbind].
      specialize (SF 0 false ((prefix ++ sepb sep) ++ sprint_xlat_val f flags) true F). destruct (pk (data x) flags true) as [c rest]. cbn [fst snd] in *.
      set (P := (prefix ++ sepb sep) ++ sprint_xlat_val f flags) in *.
      assert (PNE : forall t, P ++ t <> []).
      { intros t X. apply app_eq_nil in X as [X _]. unfold P in X. apply app_eq_nil in X as [_ X]. eapply SNE; exact X. }
      destruct c as [|e c].
      * destruct R as [_ _ R3 _ _ _ _ _]. cbn in R3. subst rest. cbn [comment] in *. rewrite app_nil_r in *.
        cbn [sglue map] in SF. rewrite ?app_nil_r in SF. rewrite SF by exact L2. cbn [rbind nonempty orb]. rewrite F0. change (0 =? 0) with true. cbn [negb rbind].
        assert (PE : P = prefix ++ sepb sep ++ sprint_xlat_val f flags) by (unfold P; rewrite <- app_assoc; reflexivity).
        rewrite <- PE. clearbody P. destruct P; [exfalso; apply (PNE []); reflexivity|reflexivity].
      * assert (GL : (prefix ++ sepb sep ++ sprint_xlat_val f flags ++ bs " /* " ++ join_bar (tokens f (e :: c) rest) ++ bs " */")
                     = P ++ sglue XVERBOSE false 0 (e :: c) ++ (if rest =? 0 then [] else 124 :: sprint_xlat_val f rest) ++ bs " */").
        { unfold P. rewrite <- !app_assoc. f_equal. f_equal. f_equal. unfold sglue, tokens. cbn [map app]. rewrite join_bars. unfold bars. rewrite map_app, concat_app.
          change (0 =? 0) with true. cbv iota. destruct (rest =? 0); cbn [map concat]; rewrite ?app_nil_r, <- ?app_assoc; cbn [app]; rewrite ?app_nil_r; reflexivity. }
        rewrite GL in *. rewrite SF by (rewrite !app_length in *; lia). cbn [rbind nonempty orb]. destruct (rest =? 0); cbn [negb].
        -- cbn [app] in *. rewrite stpcpy_ok by (rewrite <- app_assoc; exact L). cbn [rbind]. rewrite <- app_assoc.
           destruct (P ++ sglue XVERBOSE false 0 (e :: c) ++ bs " */") eqn:Q; [exfalso; eapply PNE; exact Q|]. reflexivity.
        -- change (124 =? 0) with false. cbn [negb]. rewrite put_ok by (rewrite !app_length in *; cbn [length] in *; lia). cbn [rbind orb].
           rewrite xappendstr_ok by (rewrite !app_length in *; cbn [length] in *; lia). cbn [rbind].
           rewrite stpcpy_ok by (rewrite !app_length in *; cbn [length] in *; lia). cbn [rbind]. rewrite <- !app_assoc. cbn [app].
           destruct (P ++ sglue XVERBOSE false 0 (e :: c) ++ 124 :: sprint_xlat_val f rest ++ bs " */") eqn:Q; [exfalso; eapply PNE; exact Q|]. reflexivity.
Qed.

(** ** Dynamic tables *)
Lemma cstr_firstn s : forall len, ~ In 0 (firstn len s) -> cstr s len = firstn len s.
Proof.
  induction s as [|c r IH]; intros [|k] H; cbn [cstr firstn] in *; auto.
  destruct (N.eqb_spec c 0) as [->|]; [exfalso; apply H; left; reflexivity|]. f_equal. apply IH. intros X. apply H. right. exact X.
Qed.
Lemma cstr_not0 s : forall len, ~ In 0 (cstr s len).
Proof.
  induction s as [|c r IH]; intros [|k]; cbn [cstr]; auto. destruct (N.eqb_spec c 0); [auto|]. intros [E|E]; [congruence|]. eapply IH; eauto.
Qed.
Definition dyget (p : list (N * list N)) (v : N) : option (list N) :=
  match find (fun e => fst e =? v) p with Some e => Some (snd e) | None => None end.
Lemma dyget_lookup p v : xlookup (dyxlat_get XT_NORMAL {| allocated := 0; pairs := p |}) v = dyget p v.
Proof.
  unfold xlookup, dyxlat_get, dyget. cbn [ty data pairs]. induction p as [|[w s] p IH]; [reflexivity|]. cbn [map normal_lookup find fst snd].
  destruct (w =? v); [reflexivity|exact IH].
Qed.
Lemma dyget_fresh p v : dyget p v = None <-> ~ In v (map fst p).
Proof.
  unfold dyget. induction p as [|[w s] p IH]; cbn [find map In fst]; [tauto|].
  destruct (N.eqb_spec w v); [split; [discriminate|intros X; exfalso; apply X; auto]|]. rewrite IH. tauto.
Qed.
Definition stored_ok (p : list (N * list N)) := Forall (fun e => ~ In 0 (snd e)) p.
Lemma dy_update_spec p val str len : (len <= length str)%nat -> ~ In 0 (firstn len str) -> stored_ok p ->
  match dy_update p val str len with
  | Ok None => ~ In val (map fst p)
  | Ok (Some p') => In val (map fst p) /\ map fst p' = map fst p /\ stored_ok p' /\
      forall v, dyget p' v = if v =? val then Some (firstn len str) else dyget p v
  | _ => False
  end.
Proof.
  intros L NZ. induction p as [|[v s] p IH]; intros SO; cbn [dy_update]; [auto|].
  inversion SO as [|? ? S1 S2]; subst. cbn [snd] in S1.
  assert (CS : cstr s len = firstn len s) by (apply cstr_firstn; intros X; apply S1; rewrite <- (firstn_skipn len s); apply in_or_app; auto).
  rewrite CS, (cstr_firstn str) by exact NZ.
  destruct (N.eqb_spec v val) as [->|Ne].
  - assert (CH : In val (map fst ((val, s) :: p)) /\ map fst ((val, firstn len str) :: p) = map fst ((val, s) :: p) /\ stored_ok ((val, firstn len str) :: p) /\
      forall v, dyget ((val, firstn len str) :: p) v = if v =? val then Some (firstn len str) else dyget ((val, s) :: p) v).
    { split; [left; reflexivity|]. split; [reflexivity|]. split; [constructor; auto|]. intros v. unfold dyget. cbn [find fst snd].
      rewrite (N.eqb_sym v). destruct (val =? v); reflexivity. }
    destruct (beqs (firstn len s) (firstn len str)) eqn:B; [|exact CH].
    apply beqs_eq in B. destruct (Nat.ltb_spec (length s) len) as [C|C].
    + assert (X : length (firstn len s) = length (firstn len str)) by (rewrite B; reflexivity). rewrite !firstn_length in X. lia.
    + destruct (Nat.eqb_spec (length s) len) as [E|E]; [|exact CH].
      rewrite <- B in *. assert (F : firstn len s = s) by (apply firstn_all2; lia). rewrite F in CH |- *. exact CH.
  - specialize (IH S2). destruct (dy_update p val str len) as [[p'|]| |]; cbn [rbind]; try contradiction.
    + destruct IH as (H1 & H2 & H3 & H4). split; [right; exact H1|]. split; [cbn; rewrite H2; reflexivity|]. split; [constructor; auto|].
      intros w. unfold dyget in *. cbn [find fst snd]. destruct (N.eqb_spec v w) as [->|]; [|apply H4].
      replace (w =? val) with false by (symmetry; apply N.eqb_neq; exact Ne). reflexivity.
    + intros [E|E]; [cbn in E; congruence|contradiction].
Qed.

Record dyinv (n : N) (d : dyxlat) : Prop := {
  di_nodup : NoDup (map fst (pairs d));
  di_stored : stored_ok (pairs d);
  di_cap : N.of_nat (length (pairs d)) <= allocated d;
  di_small : allocated d < 2 ^ 64;
  di_grow : allocated d <= n + 128 + 2 * N.of_nat (length (pairs d))
}.
Lemma xgrow_total mal null n : (forall b, mal b = true) -> n < 2 ^ 50 -> exists r, xgrowarray 32 mal null n SIZEOF_XLAT_DATA = Ok r.
Proof.
  intros HM Hn. unfold xgrowarray, SIZEOF_XLAT_DATA.
  assert (G : forall g, g <= 2 ^ 51 -> exists r, (let n' := szmod 32 (n + g) in if n' <? n then Die else rlet b := xallocarray 32 mal n' 16 in Ok (n', b)) = Ok r).
  { intros g Hg. cbv zeta. assert (E : szmod 32 (n + g) = n + g) by (unfold szmod; apply N.mod_small; change (2 ^ (2 * 32)) with (2 ^ 64); lia).
    rewrite E. replace (n + g <? n) with false by (symmetry; apply N.ltb_ge; lia).
    rewrite xallocarray_eq; [|lia|change (2 ^ (2 * 32)) with (2 ^ 64); lia|change (2 ^ (2 * 32)) with (2 ^ 64); lia].
    replace ((n + g) * 16 <? 2 ^ (2 * 32)) with true by (symmetry; apply N.ltb_lt; change (2 ^ (2 * 32)) with (2 ^ 64); lia).
    rewrite HM. cbn [rbind]. eauto. }
  destruct null.
  - destruct (n =? 0); cbn [rbind].
    + change (16 =? 0) with false. cbn [rbind]. apply G. vm_compute. discriminate.
    + apply G. lia.
  - cbn [rbind]. apply G. assert (n / 2 <= n) by (apply N.div_le_upper_bound; lia). lia.
Qed.
Lemma dy_alloc_spec mal n : n < 2 ^ 64 ->
  match dyxlat_alloc mal n with
  | Ok d => pairs d = [] /\ dyinv n d
  | Die => ~ ((forall b, mal b = true) /\ n < 2 ^ 50)
  | Undef => False
  end.
Proof.
  intros Hn. unfold dyxlat_alloc. destruct (xgrowarray 32 mal true n SIZEOF_XLAT_DATA) as [[a b]| |] eqn:G; cbn [rbind fst].
  - pose proof G as G2. apply C53_grow_partial in G; [|right; reflexivity|exact Hn|vm_compute; split; discriminate].
    destruct G as (H1 & H2 & H3 & H4 & _). change (2 ^ (2 * 32)) with (2 ^ 64) in H2. unfold SIZEOF_XLAT_DATA in *.
    split; [reflexivity|]. constructor; cbn [pairs allocated map length]; try lia; try constructor.
    unfold xgrowarray in G2. cbv zeta in G2. destruct (N.eqb_spec n 0) as [->|Z]; cbn [rbind] in G2.
    + change (16 =? 0) with false in G2. cbn [rbind] in G2. destruct (_ <? 0); [discriminate|].
      destruct (xallocarray _ _ _ _); [|discriminate|discriminate]. cbn [rbind] in G2. inversion G2. subst.
      match goal with |- ?a <= _ => change a with 8 end. lia.
    + assert (E : szmod 32 (n + 0) = n) by (unfold szmod; rewrite N.add_0_r; apply N.mod_small; exact Hn). rewrite E in G2.
      replace (n <? n) with false in G2 by (symmetry; apply N.ltb_ge; lia). destruct (xallocarray _ _ _ _); [|discriminate|discriminate].
      cbn [rbind] in G2. inversion G2. subst. lia.
  - intros [H1 H2]. destruct (xgrow_total mal true n H1 H2) as [r E]. congruence.
  - unfold xgrowarray in G. cbv zeta in G. destruct (n =? 0); cbn [rbind] in G.
    + unfold SIZEOF_XLAT_DATA in G. change (16 =? 0) with false in G. cbn [rbind] in G. destruct (_ <? _); [discriminate|].
      unfold xallocarray in G. destruct (_ && _); [discriminate|]. destruct (mal _); discriminate.
    + destruct (_ <? _); [discriminate|]. unfold xallocarray in G. destruct (_ && _); [discriminate|]. destruct (mal _); discriminate.
Qed.
Lemma dy_add_spec mal n d val str len : n < 2 ^ 48 -> (len <= length str)%nat -> ~ In 0 (firstn len str) -> dyinv n d ->
  match dyxlat_add_pair mal d val str len with
  | Ok d' => dyinv n d' /\ (length (pairs d) <= length (pairs d') <= S (length (pairs d)))%nat /\
             forall v, dyget (pairs d') v = if v =? val then Some (firstn len str) else dyget (pairs d) v
  | Die => ~ ((forall b, mal b = true) /\ N.of_nat (length (pairs d)) < 2 ^ 48)
  | Undef => False
  end.
Proof.
  intros Hn L NZ [D1 D2 D3 D4 D5]. unfold dyxlat_add_pair. pose proof (dy_update_spec (pairs d) val str len L NZ D2) as U.
  destruct (dy_update (pairs d) val str len) as [[p'|]| |]; cbn [rbind]; try contradiction.
  - destruct U as (H1 & H2 & H3 & H4). assert (LE : length p' = length (pairs d)) by (rewrite <- (map_length fst p'), H2, map_length; reflexivity).
    split; [|split; [cbn; lia|exact H4]]. constructor; cbn [pairs allocated]; auto; try lia. rewrite H2. exact D1.
  - assert (ADD : forall a, N.of_nat (length (pairs d)) < a -> a < 2 ^ 64 -> a <= n + 128 + 2 * N.of_nat (S (length (pairs d))) ->
      match (if N.of_nat (length (pairs d)) <? a then Ok {| allocated := a; pairs := pairs d ++ [(val, cstr str len)] |} else Undef) with
      | Ok d' => dyinv n d' /\ (length (pairs d) <= length (pairs d') <= S (length (pairs d)))%nat /\
             forall v, dyget (pairs d') v = if v =? val then Some (firstn len str) else dyget (pairs d) v
      | Die => ~ ((forall b, mal b = true) /\ N.of_nat (length (pairs d)) < 2 ^ 48)
      | Undef => False
      end).
    { intros a A1 A2 A3. replace (_ <? a) with true by (symmetry; apply N.ltb_lt; exact A1). rewrite (cstr_firstn str) by exact NZ.
      assert (LE : length (pairs d ++ [(val, firstn len str)]) = S (length (pairs d))) by (rewrite app_length; cbn; lia).
      split; [constructor; cbn [pairs allocated]; rewrite ?LE; try lia|split; [cbn [pairs]; lia|]].
      - rewrite map_app. cbn [map fst]. apply NoDup_Add with (a := val) (l := map fst (pairs d)); [|auto].
        rewrite <- (app_nil_r (map fst (pairs d))) at 1. apply Add_app.
      - apply Forall_app. split; [exact D2|constructor; [exact NZ|constructor]].
      - intros v. cbn [pairs]. unfold dyget. clear -U. induction (pairs d) as [|[w s] p IH]; cbn [app find fst snd map In] in *.
        + rewrite (N.eqb_sym v). destruct (val =? v); reflexivity.
        + destruct (N.eqb_spec w v) as [->|]; [|apply IH; tauto]. destruct (N.eqb_spec v val); [subst; tauto|reflexivity]. }
    destruct (N.leb_spec (allocated d) (N.of_nat (length (pairs d)))) as [C|C].
    + destruct (xgrowarray 32 mal false (allocated d) SIZEOF_XLAT_DATA) as [[a b]| |] eqn:G; cbn [rbind fst].
      * pose proof G as G2. apply C53_grow_partial in G; [|right; reflexivity|exact D4|vm_compute; split; discriminate].
        destruct G as (H1 & H2 & H3 & H4 & H5). destruct (H5 eq_refl) as [H6 H7]. change (2 ^ (2 * 32)) with (2 ^ 64) in H2. unfold SIZEOF_XLAT_DATA in *.
        apply ADD; try lia.
        unfold xgrowarray in G2. cbn [rbind] in G2. cbv zeta in G2. destruct (_ <? _) eqn:LT; [discriminate|]. apply N.ltb_ge in LT.
        destruct (xallocarray _ _ _ _); [|discriminate|discriminate]. cbn [rbind] in G2. inversion G2. subst a.
        assert (szmod 32 (allocated d + (allocated d / 2 + 1)) <= allocated d + (allocated d / 2 + 1)) by (apply N.mod_le; vm_compute; discriminate).
        assert (allocated d / 2 <= allocated d) by (apply N.div_le_upper_bound; lia). lia.
      * intros [X1 X2]. destruct (xgrow_total mal false (allocated d) X1 ltac:(lia)) as [r E]. congruence.
      * unfold xgrowarray in G. cbn [rbind] in G. cbv zeta in G. destruct (_ <? _); [discriminate|]. unfold xallocarray in G. destruct (_ && _); [discriminate|]. destruct (mal _); discriminate.
    + cbn [rbind]. apply ADD; try lia.
Qed.
