From Verif Require Import Base QuoteModel QuoteSpec QuoteProofs QuoteHexSpec.
Local Open Scope N_scope.

Lemma hex_form_byte c : c < 256 -> hex_form c ([92; 120] ++ sprint_byte_hex c).
Proof.
  intros H. assert (c / 16 < 16) by (apply N.div_lt_upper_bound; lia).
  assert (c mod 16 < 16) by (apply N.mod_lt; lia).
  exists (hex_char (c / 16)), (hex_char (c mod 16)), (c / 16), (c mod 16).
  split; [reflexivity|]. rewrite !hex_val_char by auto. repeat split; auto.
  apply N.div_mod. lia.
Qed.
Lemma oct_form_byte c nx : c < 256 -> oct_form c (92 :: sprint_byte_oct c nx).
Proof.
  intros H. destruct (oct_parts c H) as (E & H1 & H2 & H3).
  exists (sprint_byte_oct c nx). split; [reflexivity|]. unfold sprint_byte_oct, oct_value.
  assert (D : forall x, x < 8 -> 48 + x - 48 = x) by (intros; lia).
  destruct nx; [|destruct (negb (c / 8 =? 0)) eqn:E8; [destruct (negb (c / 64 =? 0)) eqn:E64|]];
    cbn [app length fold_left]; rewrite ?D by auto;
    (split; [lia|]; split; [repeat constructor; apply is_oct_digit; auto|]).
  - lia.
  - lia.
  - assert (c / 64 = 0) by lia. lia.
  - assert (c / 8 = 0) by lia. pose proof (N.div_mod c 8 ltac:(lia)). lia.
Qed.

Definition num_form (st : qstyle) : N -> list N -> Prop :=
  match xstyle st with HEXSTR_NON_ASCII_CHARS => hex_form | _ => oct_form end.

Lemma asked_iff esc c : asked esc c <-> match esc with Some l => existsb (N.eqb c) l | None => false end = true.
Proof.
  unfold asked. destruct esc as [l|].
  - rewrite existsb_exists. split.
    + intros (l' & E & I). injection E as <-. exists c. split; [auto|apply N.eqb_refl].
    + intros (x & I & E). apply N.eqb_eq in E. subst x. eauto.
  - split; [intros (l & E & _); discriminate|discriminate].
Qed.

Lemma quote_char_form st esc c nx : c < 256 -> default_form (num_form st) esc c (quote_char st esc c nx).
Proof.
  intros H. unfold quote_char.
  destruct ((c =? 34) || (c =? 92)) eqn:E1.
  { apply (short _ _ _ _ c); auto; [|lia]. assert (c = 34 \/ c = 92) as [->| ->] by lia; reflexivity. }
  destruct (N.eqb_spec c 12) as [->|]; [apply (short _ _ _ _ 102); auto; lia|].
  destruct (N.eqb_spec c 10) as [->|]; [apply (short _ _ _ _ 110); auto; lia|].
  destruct (N.eqb_spec c 13) as [->|]; [apply (short _ _ _ _ 114); auto; lia|].
  destruct (N.eqb_spec c 9) as [->|]; [apply (short _ _ _ _ 116); auto; lia|].
  destruct (N.eqb_spec c 11) as [->|]; [apply (short _ _ _ _ 118); auto; lia|].
  destruct (is_print c && _) eqn:EP.
  - apply andb_true_iff in EP as [EP EA]. unfold is_print in EP.
    apply itself; auto; try lia. rewrite asked_iff. destruct (match esc with Some _ => _ | None => _ end); [discriminate|congruence].
  - apply number; try lia.
    + apply andb_false_iff in EP as [EP|EP].
      * left. unfold is_print, ascii_text in *. lia.
      * right. apply asked_iff. destruct (match esc with Some _ => _ | None => _ end); [auto|discriminate].
    + unfold num_form. destruct (xstyle st); try apply oct_form_byte; auto. apply hex_form_byte; auto.
Qed.

Lemma quote_loop_form st esc n s o e : bytes_ok s -> quote_loop st esc n s = Ok (o, e) ->
  exists b, shown_as (default_form (num_form st) esc) b o /\ ended st (omit0 st) n s b e.
Proof.
  revert s o e; induction n as [|n IH]; intros s o e HB H; cbn [quote_loop] in H.
  - inversion H; subst. exists []. split; [exists []; split; [reflexivity|constructor]|]. cbn. repeat split; auto; lia.
  - destruct s as [|c s]; [discriminate|]. inversion HB as [|? ? HC HB']; subst.
    destruct (q0term st && (c =? 0)) eqn:E0.
    { inversion H; subst. exists []. split; [exists []; split; [reflexivity|constructor]|]. apply andb_true_iff in E0 as [E0 E1].
      unfold ended. rewrite E0. apply N.eqb_eq in E1; subst c. exists (firstn n s). cbn. auto. }
    destruct (Nat.eqb n 0 && omit0 st && (c =? 0)) eqn:E1.
    { inversion H; subst. exists []. split; [exists []; split; [reflexivity|constructor]|].
      apply andb_true_iff in E1 as [E1 E2]. apply andb_true_iff in E1 as [E1 E3].
      apply Nat.eqb_eq in E1. apply N.eqb_eq in E2. subst. unfold ended.
      destruct (q0term st); [discriminate|]. split; [auto|reflexivity]. }
    destruct (next_is_octal n s) as [nx| |] eqn:EN; try discriminate. cbn [rbind] in H.
    destruct (quote_loop st esc n s) as [[o1 e1]| |] eqn:EL; try discriminate. cbn [rbind] in H.
    inversion H; subst o e. destruct (IH s o1 e1 HB' EL) as (b & (ts & Ht & Hf) & He).
    exists (c :: b). split.
    + exists (quote_char st esc c nx :: ts). split; [cbn; congruence|].
      constructor; auto. apply quote_char_form. exact HC.
    + unfold ended in *. destruct e1 as [|rest].
      * destruct (q0term st) eqn:EQ.
        -- destruct He as (r & He & Hn). exists r. cbn [firstn app]. rewrite He. split; [reflexivity|].
           intros [->|]; [discriminate E0|auto].
        -- destruct He as [He1 He2]. split; [auto|]. cbn [firstn app]. rewrite He2. reflexivity.
      * destruct He as (He1 & He2 & He3 & He4). cbn [firstn skipn length]. repeat split; auto; try lia.
        -- rewrite He1. reflexivity.
        -- intros EQ [->|Hi]; [rewrite EQ in E0; discriminate E0|exact (He4 EQ Hi)].
Qed.
Lemma hex_loop_form st n s o e : bytes_ok s -> hex_loop (q0term st) n s = Ok (o, e) ->
  exists b, shown_as hex_form b o /\ ended st false n s b e.
Proof.
  revert s o e; induction n as [|n IH]; intros s o e HB H; cbn [hex_loop] in H.
  - inversion H; subst. exists []. split; [exists []; split; [reflexivity|constructor]|]. cbn. repeat split; auto; lia.
  - destruct s as [|c s]; [discriminate|]. inversion HB as [|? ? HC HB']; subst.
    destruct (q0term st && (c =? 0)) eqn:E0.
    { inversion H; subst. exists []. split; [exists []; split; [reflexivity|constructor]|]. apply andb_true_iff in E0 as [E0 E1].
      unfold ended. rewrite E0. apply N.eqb_eq in E1; subst c. exists (firstn n s). cbn. auto. }
    destruct (hex_loop (q0term st) n s) as [[o1 e1]| |] eqn:EL; try discriminate. cbn [rbind] in H.
    inversion H; subst o e. destruct (IH s o1 e1 HB' EL) as (b & (ts & Ht & Hf) & He).
    exists (c :: b). split.
    + exists (([92; 120] ++ sprint_byte_hex c) :: ts). split; [rewrite Ht; reflexivity|].
      constructor; auto. apply hex_form_byte. exact HC.
    + unfold ended in *. destruct e1 as [|rest].
      * destruct (q0term st) eqn:EQ.
        -- destruct He as (r & He & Hn). exists r. cbn [firstn app]. rewrite He. split; [reflexivity|].
           intros [->|]; [discriminate E0|auto].
        -- destruct He as [He1 He2]. discriminate.
      * destruct He as (He1 & He2 & He3 & He4). cbn [firstn skipn length]. repeat split; auto; try lia.
        -- rewrite He1. reflexivity.
        -- intros EQ [->|Hi]; [rewrite EQ in E0; discriminate E0|exact (He4 EQ Hi)].
Qed.

Lemma scan_hex_spec st n s r : bytes_ok s -> scan_hex (q0term st) n s = Ok r ->
  if r then Exists (fun d => ~ ascii_text d) (subject st n s) else Forall ascii_text (subject st n s).
Proof.
  unfold subject. revert s; induction n as [|n IH]; intros s HB H; cbn [scan_hex] in H.
  - injection H as <-. destruct (q0term st); constructor.
  - destruct s as [|c s]; [discriminate|]. inversion HB as [|? ? HC HB']; subst.
    unfold is_byte in HC. cbn [firstn before_nul].
    destruct (q0term st && (c =? 0)) eqn:E0.
    { apply andb_true_iff in E0 as [E0 E1]. rewrite E0, E1. injection H as <-. constructor. }
    assert (HS : (if q0term st then if c =? 0 then [] else c :: before_nul (firstn n s) else c :: firstn n s)
                 = c :: (if q0term st then before_nul (firstn n s) else firstn n s)).
    { destruct (q0term st); [|reflexivity]. cbn in E0. rewrite E0. reflexivity. }
    rewrite HS. clear HS.
    destruct (126 <? c) eqn:E1; [injection H as <-; constructor; unfold ascii_text; lia|].
    destruct ((c <? 32) && _) eqn:E2.
    { injection H as <-. constructor. apply andb_true_iff in E2 as [E2 E3]. unfold ascii_text.
      intros [A|A]; [lia|]. unfold u32 in E3. replace (c + 2 ^ 32 - 9) with (c - 9 + 1 * 2 ^ 32) in E3 by lia.
      rewrite N.mod_add, N.mod_small in E3 by lia. lia. }
    assert (HA : ascii_text c).
    { unfold ascii_text. apply andb_false_iff in E2 as [E2|E2]; [lia|].
      destruct (N.ltb_spec c 9) as [L|L]; [|].
      - unfold u32 in E2. rewrite N.mod_small in E2 by lia. lia.
      - unfold u32 in E2. replace (c + 2 ^ 32 - 9) with (c - 9 + 1 * 2 ^ 32) in E2 by lia.
        rewrite N.mod_add, N.mod_small in E2 by lia. lia. }
    specialize (IH s HB' H). destruct r.
    + apply Exists_cons_tl. exact IH.
    + constructor; auto.
Qed.

Lemma shown_as_mono (f g : N -> list N -> Prop) b o : (forall c t, f c t -> g c t) -> shown_as f b o -> shown_as g b o.
Proof.
  intros H (ts & E & F). exists ts. split; auto. clear E. induction F; constructor; auto.
Qed.
Lemma Exists_not_Forall (P : N -> Prop) l : Exists (fun d => ~ P d) l -> Forall P l -> False.
Proof. intros E F. induction E; inversion F; auto. Qed.

Lemma string_quote_form s size st esc out rc :
  bytes_ok s -> string_quote s size st esc = Ok (out, rc) ->
  exists body b, out = wrap st body /\ shown_as (wanted_form (xstyle st) esc (subject st size s)) b body /\
    (b = subject st size s \/
     (q0term st = false /\ omit0 st = true /\ subject st size s = b ++ [0])).
Proof.
  intros HB H. unfold string_quote in H.
  destruct (usehex st size s) as [hx| |] eqn:EU; try discriminate. cbn [rbind] in H.
  destruct (if hx then _ else _) as [[o e]| |] eqn:EL; try discriminate. cbn [rbind] in H.
  exists o.
  assert (HO : out = wrap st o).
  { destruct e as [|rest]; [inversion H; reflexivity|].
    destruct (q0term st); [destruct rest; [discriminate|]|]; inversion H; reflexivity. }
  assert (HF : exists b, shown_as (if hx then hex_form else default_form (num_form st) esc) b o /\ ended st (omit0 st) size s b e).
  { destruct hx; [|apply quote_loop_form; auto].
    destruct (hex_loop_form _ _ _ _ _ HB EL) as (b & F & E). exists b. split; [auto|].
    unfold ended in *. destruct e, (q0term st); auto. destruct E; discriminate. }
  destruct HF as (b & F & E). exists b. split; [auto|]. split.
  - revert F. apply shown_as_mono. intros c t. unfold wanted_form, num_form. unfold usehex in EU.
    destruct (xstyle st).
    + injection EU as <-. auto.
    + pose proof (scan_hex_spec st size s hx HB EU) as S1. destruct hx; intros F; split; auto; intros X;
        exfalso; eapply Exists_not_Forall; eauto.
    + injection EU as <-. auto.
    + injection EU as <-. auto.
  - unfold ended in E. unfold subject. destruct e as [|rest]; destruct (q0term st) eqn:EQ.
    + destruct E as (r & E & N0). left. rewrite E. symmetry. apply before_nul_app. auto.
    + destruct E as [E1 E2]. right. auto.
    + destruct E as (E & _ & _ & N0). left. rewrite before_nul_no; [auto|]. rewrite <- E. auto.
    + left. apply E.
Qed.
