From Verif Require Import Base QuoteModel QuoteSpec.
Local Open Scope N_scope.

(** ---- digits ---- *)
Lemma hex_val_char d : d < 16 -> hex_val (hex_char d) = Some d.
Proof.
  intros H. unfold hex_val, hex_char. destruct (N.ltb_spec d 10).
  - replace ((48 <=? 48 + d) && (48 + d <=? 57)) with true by lia. f_equal. lia.
  - replace ((48 <=? 87 + d) && (87 + d <=? 57)) with false by lia.
    replace ((97 <=? 87 + d) && (87 + d <=? 102)) with true by lia. f_equal. lia.
Qed.
Lemma is_oct_digit x : x < 8 -> is_oct (48 + x) = true.
Proof. unfold is_oct. lia. Qed.

Definition starts_oct (o : list N) : bool := match o with c :: _ => is_oct c | [] => false end.
Definition starts_bs (o : list N) : bool := match o with c :: _ => c =? 92 | [] => true end.

Lemma unq_plain h c r : c <> 92 -> c <> 34 -> unquote h Plain (c :: r) = emit c (unquote h Plain r).
Proof. intros H1 H2. cbn. replace (c =? 92) with false by lia. replace (c =? 34) with false by lia. reflexivity. Qed.
Lemma unq_bs h r : unquote h Plain (92 :: r) = unquote h Esc r.
Proof. reflexivity. Qed.
Lemma unq_esc_oct h x r : x < 8 -> unquote h Esc (48 + x :: r) = unquote h (Oct 1 x) r.
Proof. intros H. cbn [unquote]. rewrite is_oct_digit by auto. do 2 f_equal. lia. Qed.
Lemma unq_oct_step h n v x r : (n < 3)%nat -> x < 8 ->
  unquote h (Oct n v) (48 + x :: r) = unquote h (Oct (S n) (8 * v + x)) r.
Proof.
  intros Hn H. cbn [unquote]. rewrite is_oct_digit by auto. apply Nat.ltb_lt in Hn. rewrite Hn. cbn [andb].
  do 3 f_equal. lia.
Qed.
Lemma unq_oct_end h n v o : n = 3%nat \/ starts_oct o = false ->
  unquote h (Oct n v) o = emit v (unquote h Plain o).
Proof.
  intros H. destruct o as [|c o]; [reflexivity|]. cbn [unquote].
  replace (is_oct c && Nat.ltb n 3) with false; [reflexivity|].
  destruct H as [->|H]; [rewrite andb_false_r; reflexivity|]. cbn in H. rewrite H. reflexivity.
Qed.
Lemma unq_hex2 h c o : c < 256 -> h = Two \/ starts_bs o = true ->
  unquote h Plain ([92; 120] ++ sprint_byte_hex c ++ o) = emit c (unquote h Plain o).
Proof.
  intros Hc Ho. unfold sprint_byte_hex. cbn [app]. rewrite unq_bs.
  assert (H1 : c / 16 < 16) by (apply N.div_lt_upper_bound; lia).
  assert (H2 : c mod 16 < 16) by (apply N.mod_lt; lia).
  change (unquote h Esc (120 :: hex_char (c / 16) :: hex_char (c mod 16) :: o))
    with (unquote h (Hex 0 0) (hex_char (c / 16) :: hex_char (c mod 16) :: o)).
  assert (S1 : forall n v d r, d < 16 -> (n < 2)%nat -> unquote h (Hex n v) (hex_char d :: r) = unquote h (Hex (S n) (16 * v + d)) r).
  { intros n v d r Hd Hn. cbn [unquote]. rewrite hex_val_char by auto. destruct h; [reflexivity|].
    destruct n as [|[|n]]; [reflexivity|reflexivity|lia]. }
  rewrite !S1 by (auto; lia).
  replace (16 * (16 * 0 + c / 16) + c mod 16) with c
    by (pose proof (N.div_mod c 16 ltac:(lia)); lia).
  destruct o as [|d o]; [reflexivity|]. cbn [unquote].
  destruct Ho as [->|Ho].
  - destruct (hex_val d); reflexivity.
  - cbn in Ho. apply N.eqb_eq in Ho. subst d. reflexivity.
Qed.

Lemma oct_parts c : c < 256 -> c = 8 * (8 * (c / 64) + (c / 8) mod 8) + c mod 8
   /\ c / 64 < 8 /\ (c / 8) mod 8 < 8 /\ c mod 8 < 8.
Proof.
  intros H. pose proof (N.div_mod c 8 ltac:(lia)). pose proof (N.div_mod (c / 8) 8 ltac:(lia)).
  rewrite N.div_div in H1 by lia. change (8 * 8) with 64 in H1.
  pose proof (N.mod_lt c 8 ltac:(lia)). pose proof (N.mod_lt (c / 8) 8 ltac:(lia)).
  assert (c / 64 < 8) by (apply N.div_lt_upper_bound; lia). lia.
Qed.
Lemma unq_oct h c nx o : c < 256 -> (starts_oct o = true -> nx = true) ->
  unquote h Plain ((92 :: sprint_byte_oct c nx) ++ o) = emit c (unquote h Plain o).
Proof.
  intros Hc Ho. destruct (oct_parts c Hc) as (E & H1 & H2 & H3).
  cbn [app]. rewrite unq_bs. unfold sprint_byte_oct.
  destruct nx.
  - cbn [app]. rewrite unq_esc_oct, !unq_oct_step, unq_oct_end by (auto; lia).
    rewrite <- E. reflexivity.
  - assert (Hs : starts_oct o = false) by (destruct (starts_oct o); auto; discriminate (Ho eq_refl)).
    destruct (N.eqb_spec (c / 8) 0) as [Z8|Z8].
    + cbn [negb app]. rewrite unq_esc_oct, unq_oct_end by auto.
      replace (c mod 8) with c by (pose proof (N.div_mod c 8 ltac:(lia)); lia). reflexivity.
    + destruct (N.eqb_spec (c / 64) 0) as [Z64|Z64].
      * cbn [negb app]. rewrite unq_esc_oct, unq_oct_step, unq_oct_end by (auto; lia).
        replace (8 * ((c / 8) mod 8) + c mod 8) with c by lia. reflexivity.
      * cbn [negb app]. rewrite unq_esc_oct, !unq_oct_step, unq_oct_end by (auto; lia).
        rewrite <- E. reflexivity.
Qed.

Lemma unq_quote_char h st esc c nx o : c < 256 ->
  (h = Two \/ xstyle st <> HEXSTR_NON_ASCII_CHARS) -> (starts_oct o = true -> nx = true) ->
  unquote h Plain (quote_char st esc c nx ++ o) = emit c (unquote h Plain o).
Proof.
  intros Hc Hx Ho. unfold quote_char.
  destruct ((c =? 34) || (c =? 92)) eqn:E1.
  { assert (c = 34 \/ c = 92) as [->| ->] by lia; reflexivity. }
  destruct (N.eqb_spec c 12) as [->|N1]; [reflexivity|].
  destruct (N.eqb_spec c 10) as [->|N2]; [reflexivity|].
  destruct (N.eqb_spec c 13) as [->|N3]; [reflexivity|].
  destruct (N.eqb_spec c 9) as [->|N4]; [reflexivity|].
  destruct (N.eqb_spec c 11) as [->|N5]; [reflexivity|].
  destruct (is_print c && _) eqn:EP.
  { cbn [app]. apply unq_plain; lia. }
  destruct (xstyle st) eqn:EX; try (apply unq_oct; assumption).
  rewrite <- app_assoc. apply unq_hex2; auto. left. destruct Hx; [auto|congruence].
Qed.

Lemma emit_some c b : c < 256 -> emit c (Some b) = Some (c :: b).
Proof. intros H. cbn. replace (c <? 256) with true by lia. reflexivity. Qed.

Lemma before_nul_no s : ~ In 0 s -> before_nul s = s.
Proof.
  induction s as [|c s IH]; cbn; intros H; auto. destruct (N.eqb_spec c 0); [subst; tauto|].
  f_equal. apply IH. tauto.
Qed.

(** ---- the loops ---- *)
Lemma starts_quote_char st esc c nx o : starts_oct (quote_char st esc c nx ++ o) = true -> is_oct c = true.
Proof.
  unfold quote_char. repeat match goal with |- context [if ?b then _ else _] => destruct b eqn:? end;
    cbn [app starts_oct]; intros H; try exact H; try discriminate H.
  destruct (xstyle st); cbn in H; discriminate.
Qed.

Definition ended (st : qstyle) (om : bool) (n : nat) (s b : list N) (e : qend) : Prop :=
  match e with
  | string_ended rest => b = firstn n s /\ rest = skipn n s /\ (n <= length s)%nat /\ (q0term st = true -> ~ In 0 b)
  | asciz_ended =>
      if q0term st then exists r, firstn n s = b ++ 0 :: r /\ ~ In 0 b
      else om = true /\ firstn n s = b ++ [0]
  end.

Lemma quote_loop_spec h st esc n s o e :
  bytes_ok s -> (h = Two \/ xstyle st <> HEXSTR_NON_ASCII_CHARS) ->
  quote_loop st esc n s = Ok (o, e) ->
  exists b, unquote h Plain o = Some b /\ ended st (omit0 st) n s b e.
Proof.
  intros HB Hx. revert s o e HB; induction n as [|n IH]; intros s o e HB H; cbn [quote_loop] in H.
  - inversion H; subst. exists []. split; [reflexivity|]. cbn. repeat split; auto; lia.
  - destruct s as [|c s]; [discriminate|]. inversion HB as [|? ? HC HB']; subst.
    destruct (q0term st && (c =? 0)) eqn:E0.
    { inversion H; subst. exists []. split; [reflexivity|]. apply andb_true_iff in E0 as [E0 E1].
      unfold ended. rewrite E0. apply N.eqb_eq in E1; subst c. exists (firstn n s). cbn. auto. }
    destruct (Nat.eqb n 0 && omit0 st && (c =? 0)) eqn:E1.
    { inversion H; subst. exists []. split; [reflexivity|].
      apply andb_true_iff in E1 as [E1 E2]. apply andb_true_iff in E1 as [E1 E3].
      apply Nat.eqb_eq in E1. apply N.eqb_eq in E2. subst. unfold ended.
      destruct (q0term st); [discriminate|]. split; [auto|reflexivity]. }
    destruct (next_is_octal n s) as [nx| |] eqn:EN; try discriminate. cbn [rbind] in H.
    destruct (quote_loop st esc n s) as [[o1 e1]| |] eqn:EL; try discriminate. cbn [rbind] in H.
    inversion H; subst o e. destruct (IH s o1 e1 HB' EL) as (b & Hb & He).
    exists (c :: b). split.
    + rewrite unq_quote_char; auto.
      * rewrite Hb. apply emit_some. exact HC.
      * intros Hs. destruct n as [|n]; [cbn in EL; inversion EL; subst; discriminate|].
        cbn in EN. destruct s as [|d s]; [discriminate|]. inversion EN; subst nx.
        cbn [quote_loop] in EL.
        destruct (q0term st && (d =? 0)); [inversion EL; subst; discriminate|].
        destruct (Nat.eqb n 0 && omit0 st && (d =? 0)); [inversion EL; subst; discriminate|].
        destruct (next_is_octal n s); try discriminate. cbn [rbind] in EL.
        destruct (quote_loop st esc n s) as [[o2 e2]| |]; try discriminate. cbn [rbind] in EL.
        inversion EL; subst. apply starts_quote_char in Hs. exact Hs.
    + unfold ended in *. destruct e1 as [|rest].
      * destruct (q0term st) eqn:EQ.
        -- destruct He as (r & He & Hn). exists r. cbn [firstn app]. rewrite He. split; [reflexivity|].
           intros [->|]; [discriminate E0|auto].
        -- destruct He as [He1 He2]. split; [auto|]. cbn [firstn app]. rewrite He2. reflexivity.
      * destruct He as (He1 & He2 & He3 & He4). cbn [firstn skipn length]. repeat split; auto; try lia.
        -- rewrite He1. reflexivity.
        -- intros EQ [->|Hi]; [rewrite EQ in E0; discriminate E0|exact (He4 EQ Hi)].
Qed.

Lemma hex_loop_spec h st n s o e : bytes_ok s -> hex_loop (q0term st) n s = Ok (o, e) ->
  starts_bs o = true /\ exists b, unquote h Plain o = Some b /\ ended st false n s b e.
Proof.
  revert s o e; induction n as [|n IH]; intros s o e HB H; cbn [hex_loop] in H.
  - inversion H; subst. split; [reflexivity|]. exists []. split; [reflexivity|]. cbn. repeat split; auto; lia.
  - destruct s as [|c s]; [discriminate|]. inversion HB as [|? ? HC HB']; subst.
    destruct (q0term st && (c =? 0)) eqn:E0.
    { inversion H; subst. split; [reflexivity|]. exists []. split; [reflexivity|]. apply andb_true_iff in E0 as [E0 E1].
      unfold ended. rewrite E0. apply N.eqb_eq in E1; subst c. exists (firstn n s). cbn. auto. }
    destruct (hex_loop (q0term st) n s) as [[o1 e1]| |] eqn:EL; try discriminate. cbn [rbind] in H.
    inversion H; subst o e. split; [reflexivity|]. destruct (IH s o1 e1 HB' EL) as (Hs & b & Hb & He).
    exists (c :: b). split.
    + change (unquote h Plain ([92; 120] ++ sprint_byte_hex c ++ o1) = Some (c :: b)).
      rewrite unq_hex2 by auto. rewrite Hb. apply emit_some. exact HC.
    + unfold ended in *. destruct e1 as [|rest].
      * destruct (q0term st) eqn:EQ.
        -- destruct He as (r & He & Hn). exists r. cbn [firstn app]. rewrite He. split; [reflexivity|].
           intros [->|]; [discriminate E0|auto].
        -- destruct He as [He1 He2]. discriminate.
      * destruct He as (He1 & He2 & He3 & He4). cbn [firstn skipn length]. repeat split; auto; try lia.
        -- rewrite He1. reflexivity.
        -- intros EQ [->|Hi]; [rewrite EQ in E0; discriminate E0|exact (He4 EQ Hi)].
Qed.

Lemma before_nul_app b r : ~ In 0 b -> before_nul (b ++ 0 :: r) = b.
Proof.
  induction b as [|c b IH]; cbn; intros H; auto. destruct (N.eqb_spec c 0); [subst; tauto|].
  f_equal. apply IH. tauto.
Qed.

Lemma body_spec h st esc n s hx o e :
  bytes_ok s -> (h = Two \/ xstyle st <> HEXSTR_NON_ASCII_CHARS) ->
  (if hx : bool then hex_loop (q0term st) n s else quote_loop st esc n s) = Ok (o, e) ->
  exists b, unquote h Plain o = Some b /\ ended st (omit0 st) n s b e.
Proof.
  intros HB Hx H. destruct hx.
  - destruct (hex_loop_spec h st n s o e HB H) as (_ & b & Hb & He). exists b. split; auto.
    unfold ended in *. destruct e, (q0term st); auto. destruct He; discriminate.
  - eapply quote_loop_spec; eauto.
Qed.

(** ---- C12 ---- *)
Lemma string_quote_lossless h s size st esc out rc :
  bytes_ok s -> (h = Two \/ xstyle st <> HEXSTR_NON_ASCII_CHARS) ->
  string_quote s size st esc = Ok (out, rc) ->
  exists body b, out = wrap st body /\ unquote h Plain body = Some b /\
    (b = subject st size s \/
     (q0term st = false /\ omit0 st = true /\ rc = false /\ subject st size s = b ++ [0])) /\
    (q0term st = false -> b = subject st size s -> rc = true) /\
    (q0term st = true -> rc = false <-> exists r, s = b ++ 0 :: r).
Proof.
  intros HB Hx H. unfold string_quote in H.
  destruct (usehex st size s) as [hx| |]; try discriminate. cbn [rbind] in H.
  destruct (if hx then _ else _) as [[o e]| |] eqn:EL; try discriminate. cbn [rbind] in H.
  destruct (body_spec h st esc size s hx o e HB Hx EL) as (b & Hb & He).
  exists o, b. assert (HW : forall X, X = Ok (out, rc) -> X = Ok (wrap st o, rc) -> out = wrap st o)
    by (intros X -> E; inversion E; auto).
  unfold ended in He. destruct e as [|rest].
  - inversion H; subst out rc. split; [reflexivity|]. split; [exact Hb|]. unfold subject.
    destruct (q0term st) eqn:EQ.
    + destruct He as (r & He & Hn). rewrite He, before_nul_app by auto. split; [left; reflexivity|].
      split; [discriminate|]. intros _. split; [|auto]. intros _.
      exists (r ++ skipn size s). rewrite <- (firstn_skipn size s) at 1. rewrite He.
      rewrite <- app_assoc. reflexivity.
    + destruct He as [He1 He2]. split; [right; auto|]. split; [|discriminate].
      intros _ E. exfalso. rewrite He2 in E. apply (f_equal (@length N)) in E. rewrite app_length in E. cbn in E. lia.
  - destruct He as (He1 & He2 & He3 & He4). unfold subject. destruct (q0term st) eqn:EQ.
    + destruct rest as [|c rest]; [discriminate|]. inversion H; subst out rc. split; [reflexivity|]. split; [exact Hb|].
      rewrite before_nul_no by (rewrite <- He1; auto). split; [left; auto|]. split; [discriminate|]. intros _.
      split.
      * intros Hc. assert (c = 0) by lia. subst c. exists rest. rewrite He1, He2. symmetry. apply firstn_skipn.
      * intros [r Hr]. assert (rest = r /\ c = 0) as [_ ->]; [|reflexivity].
        rewrite <- (firstn_skipn size s), <- He1, <- He2 in Hr. apply app_inv_head in Hr. inversion Hr; auto.
    + inversion H; subst out rc. split; [reflexivity|]. split; [exact Hb|]. split; [left; auto|]. split; [auto|discriminate].
Qed.

(** ---- totality ---- *)
Lemma scan_hex_total z n s : (n <= length s)%nat \/ (z = true /\ In 0 (firstn n s)) -> exists b, scan_hex z n s = Ok b.
Proof.
  revert s; induction n as [|n IH]; intros s H; cbn [scan_hex]; [eauto|].
  destruct s as [|c s]; [cbn in H; destruct H as [H|[_ []]]; lia|].
  destruct (z && (c =? 0)) eqn:E; [eauto|]. destruct (126 <? c); [eauto|].
  destruct ((c <? 32) && _); [eauto|]. apply IH. cbn [length firstn In] in H.
  destruct H as [H|[-> [->|H]]]; [left; lia|discriminate E|right; auto].
Qed.
Lemma hex_loop_total z n s : (n <= length s)%nat \/ (z = true /\ In 0 (firstn n s)) -> exists o, hex_loop z n s = Ok o.
Proof.
  revert s; induction n as [|n IH]; intros s H; cbn [hex_loop]; [eauto|].
  destruct s as [|c s]; [cbn in H; destruct H as [H|[_ []]]; lia|].
  destruct (z && (c =? 0)) eqn:E; [eauto|]. destruct (IH s) as [[o e] Ho].
  { cbn [length firstn In] in H. destruct H as [H|[-> [->|H]]]; [left; lia|discriminate E|right; auto]. }
  rewrite Ho. cbn [rbind]. eauto.
Qed.
Lemma quote_loop_total st esc n s : (n <= length s)%nat \/ (q0term st = true /\ In 0 (firstn n s)) ->
  exists o, quote_loop st esc n s = Ok o.
Proof.
  revert s; induction n as [|n IH]; intros s H; cbn [quote_loop]; [eauto|].
  destruct s as [|c s]; [cbn in H; destruct H as [H|[_ []]]; lia|].
  destruct (q0term st && (c =? 0)) eqn:E; [eauto|].
  assert (H' : (n <= length s)%nat \/ (q0term st = true /\ In 0 (firstn n s))).
  { cbn [length firstn In] in H. destruct H as [H|[Q [->|H]]]; [left; lia|rewrite Q in E; discriminate E|right; auto]. }
  destruct (Nat.eqb n 0 && omit0 st && (c =? 0)); [eauto|].
  assert (exists nx, next_is_octal n s = Ok nx) as [nx Hn].
  { unfold next_is_octal. destruct n; [eauto|]. destruct s; [|eauto]. cbn in H'. destruct H' as [H'|[_ []]]; lia. }
  rewrite Hn. cbn [rbind]. destruct (IH s H') as [[o e] Ho]. rewrite Ho. cbn [rbind]. eauto.
Qed.
Lemma string_quote_total s size st esc : bytes_ok s -> readable st size s ->
  exists out rc, string_quote s size st esc = Ok (out, rc).
Proof.
  intros HB HR. unfold readable in HR.
  assert (H : (size <= length s)%nat \/ (q0term st = true /\ In 0 (firstn size s))).
  { destruct (q0term st); [destruct HR; [auto|left; lia]|auto]. }
  assert (exists hx, usehex st size s = Ok hx) as [hx Hhx].
  { unfold usehex. destruct (xstyle st); eauto. apply scan_hex_total. tauto. }
  unfold string_quote. rewrite Hhx. cbn [rbind].
  assert (exists o, (if hx then hex_loop (q0term st) size s else quote_loop st esc size s) = Ok o) as [[o e] Ho].
  { destruct hx; [apply hex_loop_total|apply quote_loop_total]; auto. }
  rewrite Ho. cbn [rbind].
  destruct (body_spec Two st esc size s hx o e HB (or_introl eq_refl) Ho) as (b & _ & He).
  destruct e as [|rest]; [eauto|]. destruct (q0term st) eqn:EQ; [|eauto].
  cbn in He. rewrite EQ in He. destruct He as (He1 & He2 & He3 & He4). destruct rest as [|c rest]; [|eauto].
  exfalso. destruct HR as [HR|HR].
  - apply (He4 eq_refl). rewrite He1. exact HR.
  - apply (f_equal (@length N)) in He2. rewrite skipn_length in He2. cbn in He2. lia.
Qed.

(** ---- C13, C14 ---- *)
Definition printable_l (l : list N) := Forall printable_ascii l.
Lemma hex_char_print d : d < 16 -> printable_ascii (hex_char d).
Proof. intros H. unfold printable_ascii, hex_char. destruct (d <? 10) eqn:E; lia. Qed.
Lemma hex_print c : c < 256 -> printable_l ([92; 120] ++ sprint_byte_hex c).
Proof.
  intros H. assert (c / 16 < 16) by (apply N.div_lt_upper_bound; lia).
  assert (c mod 16 < 16) by (apply N.mod_lt; lia).
  repeat apply Forall_cons; try apply Forall_nil; try (unfold printable_ascii; lia); apply hex_char_print; auto.
Qed.
Lemma oct_print c nx : c < 256 -> printable_l (92 :: sprint_byte_oct c nx) /\ (length (92%N :: sprint_byte_oct c nx) <= 4)%nat.
Proof.
  intros H. destruct (oct_parts c H) as (_ & H1 & H2 & H3). unfold sprint_byte_oct, printable_l.
  destruct nx; [|destruct (negb (c / 8 =? 0)); [destruct (negb (c / 64 =? 0))|]]; cbn [app length];
    (split; [repeat apply Forall_cons; try apply Forall_nil; unfold printable_ascii; lia|lia]).
Qed.
Lemma quote_char_print st esc c nx : c < 256 ->
  printable_l (quote_char st esc c nx) /\ (length (quote_char st esc c nx) <= 4)%nat.
Proof.
  intros H. unfold quote_char.
  destruct ((c =? 34) || (c =? 92)) eqn:E0; [|destruct (c =? 12); [|destruct (c =? 10); [|destruct (c =? 13);
    [|destruct (c =? 9); [|destruct (c =? 11); [|destruct (is_print c && _) eqn:EP]]]]]];
  try (split; [repeat apply Forall_cons; try apply Forall_nil; unfold printable_ascii, is_print in *; lia|cbn [length]; lia]).
  destruct (xstyle st); try (apply oct_print; auto; fail).
  split; [apply hex_print; auto|]. cbn. lia.
Qed.
Lemma body_print st esc n s hx o e : bytes_ok s ->
  (if hx : bool then hex_loop (q0term st) n s else quote_loop st esc n s) = Ok (o, e) ->
  printable_l o /\ (length o <= 4 * n)%nat.
Proof.
  revert s o e; induction n as [|n IH]; intros s o e HB H.
  - destruct hx; cbn in H; inversion H; subst; split; try constructor; cbn; lia.
  - destruct hx; cbn [hex_loop quote_loop] in H; destruct s as [|c s]; try discriminate;
      inversion HB as [|? ? HC HB']; subst;
      (destruct (q0term st && (c =? 0)); [inversion H; subst; split; [constructor|cbn; lia]|]).
    + destruct (hex_loop (q0term st) n s) as [[o1 e1]| |] eqn:EL; try discriminate. cbn [rbind] in H. inversion H; subst.
      destruct (IH s o1 e HB' EL) as [P L]. change (printable_l (([92; 120] ++ sprint_byte_hex c) ++ o1) /\
        (length (([92%N; 120%N] ++ sprint_byte_hex c) ++ o1) <= 4 * S n)%nat).
      rewrite app_length. split; [apply Forall_app; split; auto; apply hex_print; auto|]. cbn [length app sprint_byte_hex]. lia.
    + destruct (Nat.eqb n 0 && omit0 st && (c =? 0)); [inversion H; subst; split; [constructor|cbn; lia]|].
      destruct (next_is_octal n s) as [nx| |]; try discriminate. cbn [rbind] in H.
      destruct (quote_loop st esc n s) as [[o1 e1]| |] eqn:EL; try discriminate. cbn [rbind] in H. inversion H; subst.
      destruct (IH s o1 e HB' EL) as [P L]. destruct (quote_char_print st esc c nx HC) as [P1 L1].
      rewrite app_length. split; [apply Forall_app; auto|]. lia.
Qed.
Lemma wrap_print st o : printable_l o -> printable_l (wrap st o).
Proof.
  intros H. unfold wrap, printable_l. destruct (comment st), (omit_quotes st);
    repeat (apply Forall_app; split); try exact H; vm_compute;
    repeat (apply Forall_cons; [split; discriminate|]); apply Forall_nil.
Qed.
Lemma wrap_length st o : length (wrap st o) = (length o + (if omit_quotes st then 0 else 2) + (if comment st then 7 else 0))%nat.
Proof. unfold wrap. rewrite !app_length. destruct (comment st), (omit_quotes st); cbn; lia. Qed.

Lemma string_quote_wrap s size st esc out rc : bytes_ok s -> string_quote s size st esc = Ok (out, rc) ->
  exists o, out = wrap st o /\ printable_l o /\ (length o <= 4 * size)%nat.
Proof.
  intros HB H. unfold string_quote in H.
  destruct (usehex st size s) as [hx| |]; try discriminate. cbn [rbind] in H.
  destruct (if hx then _ else _) as [[o e]| |] eqn:EL; try discriminate. cbn [rbind] in H.
  exists o. split; [|eapply body_print; eauto].
  destruct e as [|rest]; [inversion H; reflexivity|].
  destruct (q0term st); [destruct rest; [discriminate|]|]; inversion H; reflexivity.
Qed.

(** ---- C15 ---- *)
Lemma cstr_terminated h st n esc bb r : q0term st = true -> bytes_ok (bb ++ 0 :: r) -> rule_ok h st ->
  ~ In 0 bb -> (length bb <= n)%nat ->
  exists body, string_quote (bb ++ 0 :: r) n st esc = Ok (wrap st body, false) /\ unquote h Plain body = Some bb.
Proof.
  intros Q HB HR Hn HL.
  assert (RD : readable st n (bb ++ 0 :: r)).
  { unfold readable. rewrite Q. destruct (Nat.eq_dec (length bb) n) as [E|E].
    - right. rewrite app_length. cbn. lia.
    - left. rewrite firstn_app. apply in_or_app. right. destruct (n - length bb)%nat eqn:D; [lia|]. left; reflexivity. }
  destruct (string_quote_total _ n st esc HB RD) as (out & rc & E).
  destruct (string_quote_lossless h _ _ _ _ _ _ HB HR E) as (body & b & -> & HU & HS & _ & HZ).
  assert (HSub : subject st n (bb ++ 0 :: r) = bb).
  { unfold subject. rewrite Q. rewrite firstn_app, firstn_all2 by auto. destruct (n - length bb)%nat.
    - cbn [firstn]. rewrite app_nil_r. apply before_nul_no; auto.
    - cbn [firstn]. apply before_nul_app; auto. }
  rewrite HSub in HS. destruct HS as [->|(C & _)]; [|congruence].
  assert (rc = false) as -> by (apply HZ; [exact Q|eauto]). eauto.
Qed.

Lemma cstr_unterminated h st n esc s : q0term st = true -> bytes_ok s -> rule_ok h st ->
  ~ In 0 (firstn (S n) s) -> (n < length s)%nat ->
  exists body, string_quote s n st esc = Ok (wrap st body, true) /\ unquote h Plain body = Some (firstn n s).
Proof.
  intros Q HB HR Hn HL.
  assert (RD : readable st n s) by (unfold readable; rewrite Q; auto).
  destruct (string_quote_total _ n st esc HB RD) as (out & rc & E).
  destruct (string_quote_lossless h _ _ _ _ _ _ HB HR E) as (body & b & -> & HU & HS & _ & HZ).
  assert (HN' : ~ In 0 (firstn n s)).
  { intros Hi. apply Hn. replace n with (Init.Nat.min n (S n)) in Hi by lia. rewrite <- firstn_firstn in Hi.
    rewrite <- (firstn_skipn n (firstn (S n) s)). apply in_or_app. auto. }
  assert (HSub : subject st n s = firstn n s).
  { unfold subject. rewrite Q. apply before_nul_no; auto. }
  rewrite HSub in HS. destruct HS as [->|(C & _)]; [|congruence].
  destruct rc; [eauto|]. exfalso. destruct (proj1 (HZ Q) eq_refl) as [r Hr].
  apply Hn. rewrite Hr. rewrite firstn_app, firstn_all2 by (rewrite firstn_length; lia).
  apply in_or_app. right. rewrite firstn_length. replace (S n - Init.Nat.min n (length s))%nat with 1%nat by lia. left; reflexivity.
Qed.

Lemma bytes_quote h st n esc s : q0term st = false -> omit0 st = false -> bytes_ok s -> rule_ok h st ->
  (n <= length s)%nat ->
  exists body, string_quote s n st esc = Ok (wrap st body, true) /\ unquote h Plain body = Some (firstn n s).
Proof.
  intros Q O HB HR HL.
  assert (RD : readable st n s) by (unfold readable; rewrite Q; auto).
  destruct (string_quote_total _ n st esc HB RD) as (out & rc & E).
  destruct (string_quote_lossless h _ _ _ _ _ _ HB HR E) as (body & b & -> & HU & HS & HR2 & _).
  destruct HS as [->|(_ & C & _)]; [|congruence]. rewrite HR2 in E by auto.
  exists body. split; [exact E|]. unfold subject in HU. rewrite Q in HU. exact HU.
Qed.

Lemma fetch_str_spec m size old : (size <= length old)%nat ->
  match fetch_str m size old with
  | None => ~ In 0 m /\ (length m < size)%nat
  | Some (b, S k) => (k < size)%nat /\ exists bb rest, length bb = k /\ ~ In 0 bb /\ m = bb ++ 0 :: rest
                       /\ b = bb ++ 0 :: skipn (S k) old
  | Some (b, O) => (size <= length m)%nat /\ ~ In 0 (firstn size m) /\ b = firstn size m ++ skipn size old
  end.
Proof.
  revert m old; induction size as [|size IH]; intros m old HL; cbn [fetch_str].
  - cbn. split; [lia|]. split; [tauto|reflexivity].
  - destruct m as [|c m]; [cbn; split; [tauto|lia]|].
    destruct (N.eqb_spec c 0) as [->|Hc].
    + split; [lia|]. exists [], m. cbn. repeat split; auto.
    + destruct old as [|x old]; [cbn in HL; lia|]. cbn [tl length] in *. specialize (IH m old ltac:(lia)).
      destruct (fetch_str m size old) as [[b r]|].
      * destruct r as [|k]; cbn [Nat.eqb].
        -- destruct IH as (H1 & H2 & ->). cbn [length firstn skipn app In]. repeat split; [lia|intros [|]; auto].
        -- destruct IH as (H1 & bb & rest & H2 & H3 & -> & ->). split; [lia|]. exists (c :: bb), rest.
           cbn [length In app skipn]. repeat split; [lia|intros [|]; auto].
      * destruct IH as [H1 H2]. cbn [length In]. split; [intros [|]; auto|lia].
Qed.

Lemma upd_app_past {A} (l1 l2 : list A) k v : (length l1 <= k)%nat ->
  upd (l1 ++ l2) k v = match upd l2 (k - length l1) v with Some l => Some (l1 ++ l) | None => None end.
Proof.
  revert k; induction l1 as [|x l1 IH]; intros k H; cbn [app length] in *.
  - rewrite Nat.sub_0_r. destruct (upd l2 k v); reflexivity.
  - destruct k; [lia|]. cbn [upd Nat.sub]. rewrite IH by lia. destruct (upd l2 _ v); reflexivity.
Qed.
Lemma upd_bytes l l' k v : bytes_ok l -> v < 256 -> upd l k v = Some l' -> bytes_ok l'.
Proof.
  revert k l'; induction l as [|x l IH]; intros [|k] l' HB Hv H; cbn in H; try discriminate.
  - inversion H; subst. inversion HB; subst. constructor; auto.
  - destruct (upd l k v) eqn:E; inversion H; subst. inversion HB; subst. constructor; eauto. eapply IH; eauto.
Qed.
Lemma bytes_firstn l n : bytes_ok l -> bytes_ok (firstn n l).
Proof. intros H. rewrite <- (firstn_skipn n l) in H. apply Forall_app in H. tauto. Qed.
Lemma bytes_skipn l n : bytes_ok l -> bytes_ok (skipn n l).
Proof. intros H. rewrite <- (firstn_skipn n l) in H. apply Forall_app in H. tauto. Qed.
Lemma In_firstn_le {A} (x : A) i j l : (i <= j)%nat -> In x (firstn i l) -> In x (firstn j l).
Proof.
  intros H Hi. replace i with (Init.Nat.min i j) in Hi by lia. rewrite <- firstn_firstn in Hi.
  rewrite <- (firstn_skipn i (firstn j l)). apply in_or_app. auto.
Qed.
Lemma firstn_app_le {A} n (l1 l2 : list A) : (n <= length l1)%nat -> firstn n (l1 ++ l2) = firstn n l1.
Proof. intros H. rewrite firstn_app. replace (n - length l1)%nat with O by lia. cbn [firstn]. apply app_nil_r. Qed.

Lemma printstr_shows h max m len st old :
  bytes_ok m -> bytes_ok old -> N.of_nat (length old) = max + 1 -> rule_ok h st ->
  omit0 st = false -> (expect0 st = true -> q0term st = true) ->
  exists p, printstr_ex max false m len st old = Ok p /\ shows h max st m len p.
Proof.
  intros HM HO HL HR Om Ex. unfold printstr_ex.
  set (size := if len <? max + 1 then len else max + 1).
  assert (HS : size <= len /\ size <= max + 1) by (subst size; destruct (len <? max + 1) eqn:E; lia).
  assert (HSE : size = len \/ (size = max + 1 /\ max < len)) by (subst size; destruct (len <? max + 1) eqn:E; lia).
  destruct (q0term st) eqn:Q.
  - pose proof (fetch_str_spec m (N.to_nat size) old ltac:(lia)) as F.
    destruct (fetch_str m (N.to_nat size) old) as [[b r]|]; cbn [option_map fst].
    2:{ exists PAddr. split; [reflexivity|]. cbn. split; [lia|]. split; [lia|]. tauto. }
    destruct r as [|k].
    + destruct F as (F1 & F2 & ->).
      destruct (N.ltb_spec max size) as [Hlt|Hge].
      * assert (size = max + 1) by lia. cbn [rbind].
        replace (max =? len) with false by lia. rewrite andb_false_r. cbn [andb].
        assert (EQ : firstn (S (N.to_nat max)) (firstn (N.to_nat size) m ++ skipn (N.to_nat size) old) = firstn (N.to_nat size) m).
        { rewrite firstn_app_le by (rewrite firstn_length; lia). rewrite firstn_firstn. f_equal. lia. }
        destruct (cstr_unterminated h st (N.to_nat max) None (firstn (N.to_nat size) m ++ skipn (N.to_nat size) old)) as (body & E & U); auto.
        { apply Forall_app; split; [apply bytes_firstn|apply bytes_skipn]; auto. }
        { rewrite EQ; auto. }
        { rewrite app_length, firstn_length. lia. }
        rewrite E. cbn [rbind]. replace (len =? 0) with false by lia. cbn [negb andb orb].
        eexists. split; [reflexivity|].
        assert (EF : firstn (N.to_nat max) (firstn (N.to_nat size) m ++ skipn (N.to_nat size) old) = firstn (N.to_nat max) m).
        { rewrite firstn_app_le by (rewrite firstn_length; lia). rewrite firstn_firstn. f_equal. lia. }
        rewrite EF in U. cbn [shows]. exists body, (firstn (N.to_nat max) m), (skipn (N.to_nat max) m).
        rewrite firstn_length. split; [reflexivity|]. split; [exact U|]. split; [symmetry; apply firstn_skipn|].
        split; [lia|]. split; [lia|]. split; [|intros _; left; lia].
        split; [discriminate|]. unfold shown_completely. rewrite Q. intros [Z|(rest & Hm & _)]; [lia|].
        exfalso. apply F2. rewrite Hm. rewrite firstn_app. apply in_or_app. right. rewrite firstn_length.
        replace (N.to_nat size - Init.Nat.min (N.to_nat max) (length m))%nat with 1%nat by lia. left; reflexivity.
      * assert (Es : size = len) by lia.
        rewrite upd_app_past by (rewrite firstn_length; lia). rewrite firstn_length, Nat.min_l, Nat.sub_diag by lia.
        destruct (skipn (N.to_nat size) old) as [|x ot] eqn:ES.
        { exfalso. apply (f_equal (@length N)) in ES. rewrite skipn_length in ES. cbn in ES. lia. }
        cbn [upd oob rbind]. rewrite Es, N.eqb_refl. cbn [andb]. rewrite andb_true_r.
        set (size' := if expect0 st && negb (len =? 0) then len - 1 else len).
        assert (HS' : size' <= len /\ len <= size' + 1 /\ (size' = len \/ len <> 0)).
        { subst size'. destruct (expect0 st), (N.eqb_spec len 0); cbn; lia. }
        rewrite Es in *.
        destruct (cstr_unterminated h st (N.to_nat size') None (firstn (N.to_nat len) m ++ 255 :: ot)) as (body & E & U); auto.
        { apply Forall_app; split; [apply bytes_firstn; auto|]. constructor; [unfold is_byte; lia|].
          assert (bytes_ok (x :: ot)) by (rewrite <- ES; apply bytes_skipn; auto). inversion H; auto. }
        { intros Hi. rewrite firstn_app in Hi. apply in_app_or in Hi as [Hi|Hi].
          - apply F2. rewrite firstn_firstn in Hi. eapply In_firstn_le; [|exact Hi]. lia.
          - rewrite firstn_length in Hi. destruct (S (N.to_nat size') - _)%nat as [|[|]] eqn:D; cbn in Hi; [tauto| |lia].
            destruct Hi as [Hi|[]]; discriminate. }
        { rewrite app_length, firstn_length. cbn. lia. }
        rewrite E. cbn [rbind]. cbn [orb]. eexists. split; [reflexivity|].
        rewrite firstn_app_le in U by (rewrite firstn_length; lia). rewrite firstn_firstn, Nat.min_l in U by lia.
        cbn [shows]. exists body, (firstn (N.to_nat size') m), (skipn (N.to_nat size') m).
        rewrite firstn_length. split; [reflexivity|]. split; [exact U|]. split; [symmetry; apply firstn_skipn|].
        split; [lia|]. split; [lia|]. rewrite andb_true_r. cbn [andb]. split; [|intros _; right; split; [exact Q|lia]].
        unfold shown_completely. rewrite Q. split.
        -- intros Hz. left. lia.
        -- intros [Z|(rest & Hm & Hl)]; [lia|]. exfalso. apply F2. rewrite Hm. rewrite firstn_app. apply in_or_app. right.
           destruct (N.to_nat len - length (firstn (N.to_nat size') m))%nat eqn:D; [lia|]. left; reflexivity.
    + destruct F as (F1 & bb & rest & F2 & F3 & Hm & ->).
      assert (DONE : forall st2 size' tail, bytes_ok (bb ++ 0 :: tail) -> (k <= N.to_nat size')%nat -> st2 = st ->
        exists p, (rlet (o, rc) := string_quote (bb ++ 0 :: tail) (N.to_nat size') st2 None in
                   Ok (PText o (rc && negb (len =? 0) && (true || expect0 st || (max <? len))))) = Ok p /\ shows h max st m len p).
      { intros st2 size' tail HBt Hk ->.
        destruct (cstr_terminated h st (N.to_nat size') None bb tail Q HBt HR F3 ltac:(lia)) as (body & E & U).
        rewrite E. cbn [rbind]. eexists. split; [reflexivity|]. cbn [shows andb].
        exists body, bb, (0 :: rest). split; [reflexivity|]. split; [exact U|]. split; [exact Hm|].
        split; [lia|]. split; [lia|]. split; [|discriminate]. split; [|reflexivity]. intros _.
        unfold shown_completely. rewrite Q. right. exists rest. split; [exact Hm|]. lia. }
      assert (HBb : bytes_ok bb) by (rewrite Hm in HM; apply Forall_app in HM; tauto).
      destruct (N.ltb_spec max size) as [Hlt|Hge]; cbn [rbind].
      * apply DONE; auto.
        -- apply Forall_app; split; [auto|]. constructor; [unfold is_byte; lia|apply bytes_skipn; auto].
        -- replace (max =? len) with false by lia. rewrite andb_false_r. cbn [andb]. lia.
      * rewrite upd_app_past by lia. destruct (N.to_nat size - length bb)%nat as [|j] eqn:D; [lia|]. cbn [upd].
        destruct (upd_some (skipn (S k) old) j 255) as [tail Ht].
        { rewrite skipn_length. lia. }
        rewrite Ht. cbn [oob rbind]. apply DONE; auto.
        -- apply Forall_app; split; [auto|]. constructor; [unfold is_byte; lia|].
           eapply upd_bytes; [|  |exact Ht]; [apply bytes_skipn; auto|lia].
        -- destruct (true && expect0 st && (size =? len) && negb (size =? 0)); lia.
  - assert (Ex' : expect0 st = false) by (apply not_true_is_false; intros X; discriminate (Ex X)). rewrite Ex'.
    unfold fetch. cbn [andb orb]. destruct (Nat.leb_spec (N.to_nat size) (length m)) as [Hle|Hgt].
    2:{ exists PAddr. split; [reflexivity|]. cbn. split; [lia|]. split; [lia|]. congruence. }
    cbn [andb orb]. destruct (N.ltb_spec max size) as [Hlt|Hge].
    + assert (Es : size = max + 1) by lia. cbn [rbind].
      destruct (bytes_quote h st (N.to_nat max) None (firstn (N.to_nat size) m ++ skipn (N.to_nat size) old)) as (body & E & U); auto.
      { apply Forall_app; split; [apply bytes_firstn|apply bytes_skipn]; auto. }
      { rewrite app_length, firstn_length. lia. }
      rewrite E. cbn [rbind]. eexists. split; [reflexivity|].
      rewrite firstn_app_le in U by (rewrite firstn_length; lia). rewrite firstn_firstn, Nat.min_l in U by lia.
      cbn [shows]. exists body, (firstn (N.to_nat max) m), (skipn (N.to_nat max) m).
      rewrite firstn_length. split; [reflexivity|]. split; [exact U|]. split; [symmetry; apply firstn_skipn|].
      split; [lia|]. split; [lia|]. unfold shown_completely. rewrite Q. rewrite firstn_length.
      replace (len =? 0) with false by lia. replace (max <? len) with true by lia. cbn [negb andb].
      split; [split; [discriminate|lia]|]. intros _. left. lia.
    + assert (Es : size = len) by lia. rewrite Es in *.
      rewrite upd_app_past by (rewrite firstn_length; lia). rewrite firstn_length, Nat.min_l, Nat.sub_diag by lia.
      destruct (skipn (N.to_nat len) old) as [|x ot] eqn:ES.
      { exfalso. apply (f_equal (@length N)) in ES. rewrite skipn_length in ES. cbn in ES. lia. }
      cbn [upd oob rbind].
      destruct (bytes_quote h st (N.to_nat len) None (firstn (N.to_nat len) m ++ 255 :: ot)) as (body & E & U); auto.
      { apply Forall_app; split; [apply bytes_firstn; auto|]. constructor; [unfold is_byte; lia|].
        assert (bytes_ok (x :: ot)) by (rewrite <- ES; apply bytes_skipn; auto). inversion H; auto. }
      { rewrite app_length, firstn_length. lia. }
      rewrite E. cbn [rbind]. eexists. split; [reflexivity|].
      rewrite firstn_app_le in U by (rewrite firstn_length; lia). rewrite firstn_firstn, Nat.min_l in U by lia.
      cbn [shows]. exists body, (firstn (N.to_nat len) m), (skipn (N.to_nat len) m).
      rewrite firstn_length. split; [reflexivity|]. split; [exact U|]. split; [symmetry; apply firstn_skipn|].
      split; [lia|]. split; [lia|]. unfold shown_completely. rewrite Q. rewrite firstn_length.
      replace (max <? len) with false by lia. rewrite andb_false_r.
      split; [split; [lia|reflexivity]|discriminate].
Qed.

Lemma printpath_shows h xf m n old :
  bytes_ok m -> bytes_ok old -> N.of_nat (length old) = PATH_MAX ->
  (h = Two \/ xf <> HEXSTR_NON_ASCII_CHARS) -> 1 <= n ->
  exists p, printpathn xf false m n old = Ok p /\ shows_path h (N.min n PATH_MAX) m p.
Proof.
  intros HM HO HL HR Hn. unfold printpathn.
  set (st := {| q0term := true; omit_quotes := false; omit0 := false; expect0 := false;
        comment := false; xstyle := xf |}).
  replace (if PATH_MAX <? n then PATH_MAX else n) with (N.min n PATH_MAX)
    by (destruct (N.ltb_spec PATH_MAX n); lia).
  set (n' := N.min n PATH_MAX). assert (Hn' : 1 <= n' <= 4096) by (unfold n', PATH_MAX; lia).
  assert (Hn2 : n' <= PATH_MAX) by (unfold PATH_MAX; lia).
  pose proof (fetch_str_spec m (N.to_nat n') old ltac:(lia)) as F.
  assert (AL : forall k, k <= 4096 -> exists a, quote_alloc_size k st = Some a).
  { intros k Hk. unfold quote_alloc_size, u32. rewrite (N.mod_small (4 * k)) by lia.
    replace (4 * k / 4) with k by (rewrite N.mul_comm, N.div_mul; lia). rewrite N.eqb_refl. cbn [negb]. eauto. }
  assert (HRS : rule_ok h st) by exact HR.
  destruct (fetch_str m (N.to_nat n') old) as [[b r]|].
  2:{ exists PAddr. split; [reflexivity|]. cbn. split; [lia|]. tauto. }
  destruct r as [|k]; unfold print_quoted_cstring, print_quoted_string_ex; fold st; cbn [Nat.eqb].
  - destruct F as (F1 & F2 & ->).
    replace (n' =? 0) with false by lia. cbn [q0term st negb andb].
    destruct (AL (n' - 1) ltac:(lia)) as [a Ha]. rewrite Ha.
    destruct (cstr_unterminated h st (N.to_nat (n' - 1)) None (firstn (N.to_nat n') m ++ skipn (N.to_nat n') old)) as (body & E & U); auto.
    { apply Forall_app; split; [apply bytes_firstn|apply bytes_skipn]; auto. }
    { rewrite firstn_app_le by (rewrite firstn_length; lia). rewrite firstn_firstn, Nat.min_l by lia.
      replace (S (N.to_nat (n' - 1))) with (N.to_nat n') by lia. auto. }
    { rewrite app_length, firstn_length. lia. }
    rewrite E. cbn [rbind expect0 st andb orb]. eexists. split; [reflexivity|].
    rewrite firstn_app_le in U by (rewrite firstn_length; lia). rewrite firstn_firstn, Nat.min_l in U by lia.
    cbn [shows_path]. exists body, (firstn (N.to_nat (n' - 1)) m), (skipn (N.to_nat (n' - 1)) m).
    rewrite firstn_length. split; [reflexivity|]. split; [exact U|]. split; [symmetry; apply firstn_skipn|].
    split; [lia|]. split; [|intros _; lia]. split; [discriminate|]. intros [rest Hm]. exfalso. apply F2. rewrite Hm, firstn_app.
    apply in_or_app. right. rewrite firstn_length.
    replace (N.to_nat n' - Init.Nat.min (N.to_nat (n' - 1)) (length m))%nat with 1%nat by lia. left; reflexivity.
  - destruct F as (F1 & bb & rest & F2 & F3 & Hm & ->).
    replace (N.of_nat (S k) =? 0) with false by lia. cbn [q0term st negb andb].
    destruct (AL (N.of_nat (S k) - 1) ltac:(lia)) as [a Ha]. rewrite Ha.
    assert (HBb : bytes_ok bb) by (rewrite Hm in HM; apply Forall_app in HM; tauto).
    destruct (cstr_terminated h st (N.to_nat (N.of_nat (S k) - 1)) None bb (skipn (S k) old)) as (body & E & U); auto; try lia.
    { apply Forall_app; split; auto. constructor; [unfold is_byte; lia|apply bytes_skipn; auto]. }
    rewrite E. cbn [rbind expect0 st andb orb]. eexists. split; [reflexivity|].
    cbn [shows_path]. exists body, bb, (0 :: rest). split; [reflexivity|]. split; [exact U|]. split; [exact Hm|].
    split; [lia|]. split; [|discriminate]. split; [intros _; eauto|reflexivity].
Qed.

(** ---- the static buffers of printstr_ex ---- *)
Lemma fetch_str_bytes m size old b r : bytes_ok m -> bytes_ok old -> fetch_str m size old = Some (b, r) -> bytes_ok b.
Proof.
  revert m old b r; induction size as [|size IH]; intros m old b r HM HO H; cbn [fetch_str] in H.
  - inversion H; subst; auto.
  - destruct m as [|c m]; [discriminate|]. inversion HM; subst.
    assert (HT : bytes_ok (tl old)) by (destruct old; [constructor|inversion HO; auto]).
    destruct (c =? 0); [inversion H; subst; constructor; auto|].
    destruct (fetch_str m size (tl old)) as [[b1 r1]|] eqn:E; inversion H; subst. constructor; [assumption|].
    refine (IH m (tl old) b1 r1 _ HT E). assumption.
Qed.
Lemma printstr_fits max m len st old out e :
  bytes_ok m -> bytes_ok old -> comment st = false ->
  printstr_ex max false m len st old = Ok (PText out e) -> N.of_nat (length out) + 1 <= 4 * max + 3.
Proof.
  intros HM HO HC H. unfold printstr_ex in H.
  set (size := if len <? max + 1 then len else max + 1) in *.
  assert (HS : size <= max + 1) by (subst size; destruct (len <? max + 1) eqn:E; lia).
  destruct (if q0term st then _ else _) as [str|] eqn:EF; [|discriminate].
  assert (HB : bytes_ok str).
  { destruct (q0term st).
    - destruct (fetch_str m (N.to_nat size) old) as [[b r]|] eqn:E; cbn [option_map fst] in EF; [|discriminate].
      injection EF as <-. exact (fetch_str_bytes _ _ _ _ _ HM HO E).
    - unfold fetch in EF. destruct (Nat.leb _ _); inversion EF; subst.
      apply Forall_app; split; [apply bytes_firstn|apply bytes_skipn]; auto. }
  destruct (if max <? size then _ else _) as [[size1 str1]| |] eqn:E1; try discriminate. cbn [rbind] in H.
  assert (H1 : size1 <= max /\ bytes_ok str1).
  { destruct (N.ltb_spec max size).
    - inversion E1; subst. split; [lia|auto].
    - destruct (upd str (N.to_nat size) 255) eqn:EU; cbn in E1; inversion E1; subst. split; [lia|].
      eapply upd_bytes; [exact HB| |exact EU]. lia. }
  destruct H1 as [H1 HB1].
  set (size2 := if q0term st && expect0 st && (size1 =? len) && negb (size1 =? 0) then size1 - 1 else size1) in *.
  assert (H2 : size2 <= max) by (subst size2; destruct (q0term st && expect0 st && (size1 =? len) && negb (size1 =? 0)); lia).
  destruct (string_quote str1 (N.to_nat size2) st None) as [[o rc]| |] eqn:EQ; try discriminate.
  cbn [rbind] in H. inversion H; subst.
  destruct (string_quote_wrap _ _ _ _ _ _ HB1 EQ) as (body & -> & _ & HL).
  rewrite wrap_length, HC. destruct (omit_quotes st); lia.
Qed.

(** ---- character constants ---- *)
Definition all_bytes : list N := map N.of_nat (seq 0 256).
Lemma all_bytes_in c : c < 256 -> In c all_bytes.
Proof. intros H. unfold all_bytes. apply in_map_iff. exists (N.to_nat c). split; [lia|]. apply in_seq. lia. Qed.
Lemma forallb_bytes f : forallb f all_bytes = true -> forall c, c < 256 -> f c = true.
Proof. intros H c Hc. rewrite forallb_forall in H. apply H, all_bytes_in, Hc. Qed.

(** reading a character constant's inside *)
Lemma sprint_char_dec q w c : c < 256 ->
  unquote_char (sprint_char q w c) = Some c /\ (length (sprint_char q w c) <= 6)%nat /\ Forall printable_ascii (sprint_char q w c).
Proof.
  intros H.
  assert (C : forall q w, forallb (fun c => match unquote_char (sprint_char q w c) with Some d => d =? c | None => false end
     && Nat.leb (length (sprint_char q w c)) 6 && forallb (fun x => (32 <=? x) && (x <=? 126)) (sprint_char q w c)) all_bytes = true).
  { intros [] []; vm_compute; reflexivity. }
  pose proof (forallb_bytes _ (C q w) c H) as E. cbv beta in E.
  apply andb_true_iff in E as [E E3]. apply andb_true_iff in E as [E1 E2].
  destruct (unquote_char _) as [d|]; [|discriminate]. apply N.eqb_eq in E1. subst d. split; [reflexivity|].
  split; [apply Nat.leb_le; auto|]. apply Forall_forall. intros x Hx. rewrite forallb_forall in E3.
  specialize (E3 x Hx). unfold printable_ascii. lia.
Qed.
