(** Sets of flags printed with a table of which each entry is one bit, or cannot match. *)
From Verif Require Import Base Printf XlatModel XlatSpec XlatProofs XlatText VmSpec.
From Verif Require BitsModel CapSpec CapThms NumaSpec NumaThms.
Import BitsModel.
Local Open Scope N_scope.

Fixpoint sel (d : list entry) (f : N) : list (list N) :=
  match d with
  | [] => []
  | (v, Some s) :: r => if negb (v =? 0) && (N.land f v =? v) then s :: sel r (N.ldiff f v) else sel r f
  | (_, None) :: r => sel r f
  end.
Fixpoint left (d : list entry) (f : N) : N :=
  match d with
  | [] => f
  | (v, Some s) :: r => if negb (v =? 0) && (N.land f v =? v) then left r (N.ldiff f v) else left r f
  | (_, None) :: r => left r f
  end.
Lemma zero d : sel d 0 = [] /\ left d 0 = 0.
Proof.
  induction d as [|[v [s|]] d [IH1 IH2]]; cbn [sel left]; [split; reflexivity| |auto].
  rewrite N.land_0_l. destruct (N.eqb_spec v 0) as [-> |Z]; cbn [negb andb]; [auto|]. destruct (N.eqb_spec 0 v); [congruence|]. auto.
Qed.
Lemma pf_sel st : forall d f n out, f <> 0 -> exists n', pf_table st d f n out = (left d f, n', out ++ CapThms.bars_of st n (sel d f)) /\ n' = n + N.of_nat (length (sel d f)).
Proof.
  induction d as [|[v [s|]] d IH]; intros f n out F.
  - exists n. cbn. rewrite app_nil_r. split; [reflexivity|lia].
  - apply N.eqb_neq in F as F'. cbn [pf_table sel left]. rewrite F'. cbn [negb orb].
    assert (C : (f =? v) || (negb (v =? 0) && (N.land f v =? v)) = negb (v =? 0) && (N.land f v =? v)).
    { destruct (N.eqb_spec f v) as [<- |]; [|reflexivity]. rewrite F', N.land_diag, N.eqb_refl. reflexivity. }
    rewrite C. destruct (negb (v =? 0) && (N.land f v =? v)).
    + set (o1 := (out ++ match st with XVERBOSE => [] | _ => [] end) ++ (if negb (n =? 0) then bs "|" else match st with XVERBOSE => bs " /* " | _ => [] end)).
      assert (O1 : o1 = out ++ (if n =? 0 then CapThms.lead st else bs "|")).
      { unfold o1. replace (match st with XVERBOSE => [] | _ => @nil N end) with (@nil N) by (destruct st; reflexivity). rewrite app_nil_r. destruct (n =? 0); [|reflexivity]. destruct st; reflexivity. }
      assert (JO : forall l, (o1 ++ s) ++ CapThms.bars_of st (n + 1) l = out ++ CapThms.bars_of st n (s :: l)).
      { intros l. rewrite O1. unfold CapThms.bars_of. replace (n + 1 =? 0) with false by lia. destruct (n =? 0).
        - destruct l as [|x l]; [cbn [join_bar]; rewrite app_nil_r, <- !app_assoc; reflexivity|]. rewrite (join_bars s), <- !app_assoc. reflexivity.
        - unfold bars. destruct l as [|x l]; cbn [map concat]; rewrite <- ?app_assoc, ?app_nil_r; reflexivity. }
      destruct (N.eqb_spec (N.ldiff f v) 0) as [Z|Z].
      * exists (n + 1). rewrite Z. destruct (zero d) as [-> ->]. rewrite <- JO. unfold CapThms.bars_of at 1. rewrite app_nil_r. split; [reflexivity|cbn; lia].
      * destruct (IH (N.ldiff f v) (n + 1) (o1 ++ s) Z) as (n' & E & EN). exists n'. rewrite E, JO. split; [reflexivity|]. cbn [length]. lia.
    + rewrite F'. apply IH, F.
  - cbn [pf_table sel left]. apply N.eqb_neq in F as F'. rewrite F'. cbn [negb orb]. apply IH, F.
Qed.
Definition tail (u : N) : list (list N) := if u =? 0 then [] else [pr_hex u].
Lemma tail_ok u : rest_text u (tail u).
Proof. unfold rest_text, tail. destruct (N.eqb_spec u 0) as [Z|Z]; [left; auto|right; split; [exact Z|]]. exists (pr_hex u). split; [apply CapThms.hex_ok, Z|reflexivity]. Qed.
Lemma flags_eq st x f dflt : f <> 0 -> printflags_ex f dflt st FMT_X [x] =
  match st with
  | XRAW => pr_hex f
  | _ => match sel (data x) f with
         | [] => pr_hex f ++ comment dflt
         | ns => let b := CapSpec.bar (ns ++ tail (left (data x) f)) in
                 match st with XVERBOSE => pr_hex f ++ bs " /* " ++ b ++ bs " */" | _ => b end
         end
  end.
Proof.
  intros F. apply N.eqb_neq in F as F'.
  assert (NONE : forall d g, sel d g = [] -> left d g = g).
  { induction d as [|[v [s|]] d IH]; intros g E; cbn [sel left] in *; [reflexivity| |auto]. destruct (_ && _); [discriminate|auto]. }
  unfold printflags_ex. change (sprint_xlat_val FMT_X) with pr_hex. unfold tail. destruct st; [|rewrite F'; reflexivity|]; rewrite ?F'; cbn [pf_tables].
  - destruct (pf_sel XABBREV (data x) f 0 [] F) as (n' & E & EN). rewrite E. destruct (sel (data x) f) as [|a ns] eqn:NS.
    + rewrite EN. replace (negb (0 + N.of_nat (@length (list N) []) =? 0)) with false by reflexivity. rewrite NONE, F' by exact NS. reflexivity.
    + rewrite EN. replace (negb (0 + N.of_nat (length (a :: ns)) =? 0)) with true by (symmetry; apply negb_true_iff, N.eqb_neq; cbn [length]; lia).
      unfold CapThms.bars_of, CapThms.lead. cbn [app]. replace (0 =? 0) with true by reflexivity. cbv zeta. change CapSpec.bar with join_bar.
      destruct (left (data x) f =? 0); [rewrite app_nil_r; reflexivity|]. rewrite (join_bars a (ns ++ _)), join_bars. unfold bars. rewrite map_app, concat_app. cbn [map concat]. rewrite app_nil_r, <- app_assoc. reflexivity.
  - destruct (pf_sel XVERBOSE (data x) f 0 (pr_hex f) F) as (n' & E & EN). rewrite E. destruct (sel (data x) f) as [|a ns] eqn:NS.
    + rewrite EN. replace (negb (0 + N.of_nat (@length (list N) []) =? 0)) with false by reflexivity. rewrite NONE, F' by exact NS. unfold CapThms.bars_of. rewrite app_nil_r. reflexivity.
    + rewrite EN. replace (negb (0 + N.of_nat (length (a :: ns)) =? 0)) with true by (symmetry; apply negb_true_iff, N.eqb_neq; cbn [length]; lia).
      unfold CapThms.bars_of, CapThms.lead. replace (0 =? 0) with true by reflexivity. cbv zeta. change CapSpec.bar with join_bar.
      destruct (left (data x) f =? 0); [rewrite app_nil_r, <- !app_assoc; reflexivity|]. change ((a :: ns) ++ [pr_hex (left (data x) f)]) with (a :: (ns ++ [pr_hex (left (data x) f)])). rewrite !join_bars. unfold bars. rewrite map_app, concat_app. cbn [map concat]. rewrite app_nil_r, <- !app_assoc. reflexivity.
Qed.

(** ---- tables of bits ---- *)
Inductive tab (g : N) : list entry -> list (N * list N) -> Prop :=
| T_nil : tab g [] []
| T_bit k s d b : tab g d b -> tab g ((2 ^ k, Some s) :: d) ((k, s) :: b)
| T_skip v s d b : v = 0 \/ N.land g v <> v -> tab g d b -> tab g ((v, Some s) :: d) b.
Lemma clear_ldiff f k : N.ldiff f (2 ^ k) = N.clearbit f k.
Proof. unfold N.clearbit. rewrite N.shiftl_1_l. reflexivity. Qed.
Lemma clear_none f k : N.testbit f k = false -> N.clearbit f k = f.
Proof. intros T. apply N.bits_inj. intros j. rewrite N.clearbit_eqb. destruct (N.eqb_spec k j) as [<- |]; [rewrite T; reflexivity|apply andb_true_r]. Qed.
Lemma marks_ext b f g : (forall k, In k (map fst b) -> N.testbit f k = N.testbit g k) -> marks b f = marks b g.
Proof.
  intros H. unfold marks. induction b as [|[k s] b IH]; [reflexivity|]. cbn [flat_map fst snd]. rewrite (H k) by (left; reflexivity). f_equal. apply IH. intros j J. apply H. right. exact J.
Qed.
Lemma tab_sel g d b : tab g d b -> NoDup (map fst b) -> forall f, N.land f g = f -> sel d f = marks b f /\ left d f = unnamed b f.
Proof.
  induction 1 as [|k s d b T IH|v s d b S T IH]; intros ND f I.
  - split; reflexivity.
  - cbn [map fst] in ND. inversion ND as [|? ? NI ND']; subst. cbn [sel left]. unfold marks, unnamed. cbn [flat_map fold_left fst snd]. fold (marks b f).
    assert (Z : 2 ^ k <> 0) by (apply N.pow_nonzero; lia). pose proof (CapThms.bit_in f k) as B. destruct (N.testbit f k) eqn:TB.
    + assert (L : N.land f (2 ^ k) = 2 ^ k).
      { apply N.bits_inj. intros j. rewrite N.land_spec, N.pow2_bits_eqb. destruct (N.eqb_spec k j) as [<- |]; [rewrite TB; reflexivity|apply andb_false_r]. }
      apply N.eqb_neq in Z. rewrite Z, L, N.eqb_refl. cbn [negb andb]. destruct (IH ND' (N.ldiff f (2 ^ k))) as [E1 E2].
      { rewrite <- I at 2. apply N.bits_inj. intros j. rewrite N.land_spec, !N.ldiff_spec, N.land_spec. destruct (N.testbit f j), (N.testbit g j), (N.testbit (2 ^ k) j); reflexivity. }
      rewrite E1, E2, clear_ldiff. split; [|reflexivity]. cbn [app]. f_equal. apply marks_ext. intros j J. rewrite N.clearbit_eqb. destruct (N.eqb_spec k j) as [<- |]; [contradiction|apply andb_true_r].
    + apply orb_false_iff in B as [_ B]. rewrite B. rewrite clear_none by exact TB. apply IH; assumption.
  - cbn [sel left]. assert (C : negb (v =? 0) && (N.land f v =? v) = false).
    { destruct S as [-> |S]; [reflexivity|]. apply andb_false_iff. right. apply N.eqb_neq. intros E. apply S. apply N.bits_inj. intros j.
      rewrite N.land_spec. destruct (N.testbit v j) eqn:V; [|apply andb_false_r]. rewrite andb_true_r. assert (F : N.testbit f j = true) by (rewrite <- E, N.land_spec in V; apply andb_prop in V; tauto).
      rewrite <- I, N.land_spec in F. apply andb_prop in F. tauto. }
    rewrite C. apply IH; assumption.
Qed.
Lemma unnamed_bits b : forall f j, N.testbit (unnamed b f) j = N.testbit f j && negb (existsb (N.eqb j) (map fst b)).
Proof.
  induction b as [|[k s] b IH]; intros f j; unfold unnamed; cbn [fold_left fst map existsb]; [rewrite andb_true_r; reflexivity|]. fold (unnamed b (N.clearbit f k)). rewrite IH, N.clearbit_eqb, (N.eqb_sym k j).
  destruct (N.testbit f j), (j =? k), (existsb (N.eqb j) (map fst b)); reflexivity.
Qed.
Lemma flags_ok st x zr dflt bits v : (forall g, tab g (match data x with (0, Some _) :: d => d | d => d end) bits) ->
  (match data x with (0, Some z) :: _ => zr = Some z | d => zr = None /\ forall g, g = 0 -> sel d g = [] /\ pf_table st d g 0 (match st with XVERBOSE => [] | _ => [] end) = (0, 0, []) end) ->
  NoDup (map fst bits) -> dflt <> [] -> flags_text st bits zr (bs " /* " ++ dflt ++ bs " */") v (printflags_ex v (Some dflt) st FMT_X [x]).
Proof.
  intros T Z ND DN. exists (pr_hex v), (tail (unnamed bits v)). split; [apply NumaThms.hex_ok|]. split; [apply tail_ok|].
  destruct (N.eqb_spec v 0) as [-> |NZ].
  - assert (U : unnamed bits 0 = 0) by (apply N.bits_inj; intros j; rewrite unnamed_bits, N.bits_0; reflexivity). rewrite U. unfold tail. cbn [N.eqb]. unfold printflags_ex.
    destruct (data x) as [|[[|p] [z|]] d] eqn:D; cbn [pf_tables]; rewrite D.
    + destruct Z as [-> Z]. destruct st; reflexivity.
    + subst zr. destruct st; reflexivity.
    + destruct Z as [-> Z]. destruct (Z 0 eq_refl) as [_ E]. destruct st; cbn [app] in *; rewrite ?E; reflexivity.
    + destruct Z as [-> Z]. destruct (Z 0 eq_refl) as [_ E]. destruct st; cbn [app] in *; rewrite ?E; reflexivity.
    + destruct Z as [-> Z]. destruct (Z 0 eq_refl) as [_ E]. destruct st; cbn [app] in *; rewrite ?E; reflexivity.
  - rewrite flags_eq by exact NZ. assert (S : sel (data x) v = marks bits v /\ left (data x) v = unnamed bits v).
    { specialize (T v). apply tab_sel with (f := v) in T; [|exact ND|apply N.land_diag]. destruct (data x) as [|[[|p] [z|]] d]; exact T. }
    destruct S as [-> ->]. destruct st; destruct (marks bits v) as [|a ns]; cbv zeta; try reflexivity.
    all: unfold comment; destruct dflt; [contradiction|reflexivity].
Qed.

(** ---- the names tell the bits ---- *)
Lemma marks_in b f s : In s (marks b f) <-> exists k, In (k, s) b /\ N.testbit f k = true.
Proof.
  unfold marks. rewrite in_flat_map. split.
  - intros ([k x] & I & M). cbn [fst snd] in M. destruct (N.testbit f k) eqn:T; [|destruct M]. destruct M as [<- |[]]. exists k. auto.
  - intros (k & I & T). exists (k, s). split; [exact I|]. cbn [fst snd]. rewrite T. left. reflexivity.
Qed.
Lemma marks_inj b f g : NoDup (map snd b) -> marks b f = marks b g -> forall k, In k (map fst b) -> N.testbit f k = N.testbit g k.
Proof.
  assert (U : NoDup (map snd b) -> forall s k j, In (k, s) b -> In (j, s) b -> k = j).
  { induction b as [|[q x] b IH]; intros ND s k j K J; [destruct K|]. cbn [map snd] in ND. inversion ND as [|? ? NI ND']; subst. destruct K as [K|K], J as [J|J].
    - congruence.
    - injection K as -> ->. elim NI. apply in_map_iff. exists (j, s). auto.
    - injection J as -> ->. elim NI. apply in_map_iff. exists (k, s). auto.
    - exact (IH ND' s k j K J). }
  intros ND E k K. apply in_map_iff in K as ([k' s] & <- & K). cbn [fst].
  assert (X : forall f, N.testbit f k' = true <-> In s (marks b f)).
  { intros f'. rewrite marks_in. split; [intros T; exists k'; auto|]. intros (j & J & T). rewrite (U ND s k' j K J). exact T. }
  destruct (N.testbit f k') eqn:A, (N.testbit g k') eqn:B; try reflexivity.
  - apply X in A. rewrite E in A. apply X in A. congruence.
  - apply X in B. rewrite <- E in B. apply X in B. congruence.
Qed.
