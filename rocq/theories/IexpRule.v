From Verif Require Import Base TimeModel NumSetModel NumSetProofs StrtouModel StrtouSpec StrtouProofs QualModel QualSpec QualProofs InjectModel InjectSpec InjectProofs FtsModel FtsSpec FtsText IexpModel IexpSpec IexpProofs IexpParse IexpFold.
Local Open Scope N_scope.

Lemma rule_sound E f str r : env_ok (qe E) -> Forall (fun t => N.of_nat (length t) <= 65536) (tables (qe E)) -> hex_pokes str ->
  inject_rule E f str = Ok r -> exists k body base l, inject_denotes E f str k body base l.
Proof.
  intros EO TB HX H. unfold inject_rule in H. destruct (parse_inject_expression E f str _) as [[[name o]|]| |] eqn:P; try discriminate. cbn [rbind] in H. cbv zeta in H.
  destruct (qualify_syscall_tokens (qe E) name _) as [set| |] eqn:Q; try discriminate. cbn [rbind] in H.
  destruct (bang_decompose name) as (k & body & -> & NL).
  pose proof (qualify_syscall_tokens_spec (qe E) k body (alloc_number_set_array (length (tables (qe E)))) EO ltac:(apply repeat_length) NL) as QS.
  destruct (syscalls_denote (qe E) body) as [base|] eqn:SD; [|congruence]. clear QS.
  unfold parse_inject_expression in P. destruct str as [|c s].
  { injection P as B _. destruct k; cbn [repeat app] in B; [|discriminate]. subst body. discriminate. }
  destruct (c =? 58) eqn:C.
  { injection P as B _. destruct k; cbn [repeat app] in B; [|discriminate]. subst body. discriminate. }
  rewrite colon_spec in P. destruct (colon_tokens (c :: s)) as [|nm toks] eqn:CT; [discriminate|].
  destruct (token_fold E f toks _) as [[o1|]| |] eqn:TF; try discriminate. cbn [rbind obind] in P. injection P as -> <-.
  change {| first := 1; last := INJECT_LAST_INF; step := 1; odata := idata0 |} with (opts_said []) in TF.
  apply fold_iff in TF; [|exact TB|]. 2:{ apply Forall_forall. intros t I v p a h D I2 X. eapply HX; [rewrite CT; right; exact I|exact D|exact I2|exact X]. }
  destruct TF as (l & F & A). apply (apply_all_said l [] o1) in A as [ND ->]; [|constructor]. cbn [app] in *.
  exists k, body, base, l. split; [intros d r0 E0; injection E0 as <- _; lia|]. exists toks. repeat (split; [auto; fail|]).
  unfold opts_said in H. destruct (when_said l) as [[a1 b1] c1]. cbn [odata] in H. rewrite acts_said in H. destruct (acts l); [auto|]. destruct f; [auto|discriminate].
Qed.
Lemma rule_complete E f str k body base l : env_ok (qe E) -> Forall (fun t => N.of_nat (length t) <= 65536) (tables (qe E)) -> hex_pokes str ->
  inject_denotes E f str k body base l ->
  exists set, inject_rule E f str = Ok {| r_set := set; r_opts := per_personality (length (tables (qe E))) (if acts l then opts_said l else with_data (opts_said l) (set_rval (says l) (true, enosys E))) |} /\
    forall p n, (p < length (tables (qe E)))%nat -> is_number_in_set_array n (Some set) p = Some (xorb (Nat.odd k) (base p n)).
Proof.
  intros EO TB HX (NC & toks & CT & NL & SD & F & ND & AC).
  pose proof (qualify_syscall_tokens_spec (qe E) k body (alloc_number_set_array (length (tables (qe E)))) EO ltac:(apply repeat_length) NL) as QS. rewrite SD in QS. destruct QS as (set & Q & M).
  exists set. split; [|exact M]. unfold inject_rule, parse_inject_expression. destruct str as [|c s]; [discriminate|]. replace (c =? 58) with false by (specialize (NC c s eq_refl); lia).
  rewrite colon_spec, CT. change {| first := 1; last := INJECT_LAST_INF; step := 1; odata := idata0 |} with (opts_said []).
  assert (TF : token_fold E f toks (opts_said []) = Ok (Some (opts_said l))).
  { apply fold_iff; [exact TB| |exists l; split; [exact F|]].
    - apply Forall_forall. intros t I v p a h D I2 X. eapply HX; [rewrite CT; right; exact I|exact D|exact I2|exact X].
    - apply (apply_all_said l [] _); [constructor|]. auto. }
  rewrite TF. cbn [rbind obind]. cbv zeta. rewrite Q. cbn [rbind].
  assert (OD : odata (opts_said l) = says l) by (unfold opts_said; destruct (when_said l) as [[a1 b1] c1]; reflexivity).
  rewrite OD, acts_said. destruct (acts l); [reflexivity|]. destruct AC as [->|AC]; [reflexivity|discriminate].
Qed.

Lemma said_pick E f toks l {A} (g : item -> option A) x : Forall2 (item_denotes E f) toks l -> pick g l = Some x -> exists i tok, g i = Some x /\ item_denotes E f tok i.
Proof. intros F. induction F as [|t i toks l D F IH]; [discriminate|]. cbn [pick]. destruct (g i) eqn:G; [intros H; injection H as <-; eauto|exact IH]. Qed.
Lemma said_when E f toks l a b c : Forall2 (item_denotes E f) toks l -> (a, b, c) = when_said l -> 1 <= a <= b /\ b <= 65535 /\ c <= 65535.
Proof.
  intros F H. unfold when_said in H. destruct (pick _ (rev l)) as [[[a1 b1] c1]|] eqn:P; injection H as -> -> ->; [|lia].
  assert (FR : Forall2 (item_denotes E f) (rev toks) (rev l)) by (clear -F; induction F; cbn [rev]; [constructor|apply Forall2_app; auto]).
  eapply said_pick in P as (i & tok & X & Y); [|exact FR]. destruct i; try discriminate. injection X as -> -> ->. destruct Y as (v & _ & r & _ & R & [[-> ST]|(s2 & r2 & _ & _ & R2 & ST)]); change INJECT_LAST_INF with 65535 in *;
  destruct ST as [[_ ->]|[[_ ->]|(s & _ & _ & _ & ST)]]; lia.
Qed.
Lemma error_range E v n : N.of_nat (length (errnames E)) <= 4096 -> error_denotes E v n -> 1 <= n <= 4095.
Proof.
  intros L [[_ H]|(_ & (H1 & (e & NE & _) & _))]; [exact H|]. assert (LT : (N.to_nat n < length (errnames E))%nat) by (apply nth_error_Some; congruence). lia.
Qed.
Lemma int_text_range t v : int_text t v -> v < 2^64.
Proof. intros (b & sg & pre & ds & base & vs & _ & _ & _ & _ & _ & L & [[_ ->]|[_ ->]]); [exact L|]. apply N.mod_lt. lia. Qed.
Lemma hex_pairs_bytes d : forall h, hex_pairs h d -> Forall (fun b => b < 256) d.
Proof. induction d as [|b d IH]; intros h H; [constructor|]. destruct h as [|x [|y h]]; try contradiction. destruct H as [(u & w & U & W & ->) H]. constructor; [unfold dval in U, W; lia|exact (IH _ H)]. Qed.
Lemma pokes_range v l : pokes_denote v l -> NoDup (map fst (rev l)) /\ Forall (fun p => 1 <= fst p <= 7 /\ (1 <= length (snd p) <= 1024)%nat /\ Forall (fun b => b < 256) (snd p)) (rev l).
Proof.
  intros (_ & F & ND). split; [rewrite map_rev; apply NoDup_rev, ND|]. apply Forall_rev. clear ND. induction F as [|t p ts l (h & _ & R & HP & LN) F IH]; constructor; [|exact IH]. split; [exact R|]. split; [exact LN|]. eapply hex_pairs_bytes, HP.
Qed.
