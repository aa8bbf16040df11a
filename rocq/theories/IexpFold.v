From Verif Require Import Base TimeModel NumSetModel NumSetProofs StrtouModel StrtouSpec StrtouProofs QualModel QualSpec QualProofs InjectModel InjectSpec InjectProofs FtsModel FtsSpec FtsText IexpModel IexpSpec IexpProofs IexpParse.
Local Open Scope N_scope.

Definition put {A} (old : option A) (o : iopts) (d : idata) : option iopts := if present old then None else Some (with_data o d).
Definition apply_item (i : item) (o : iopts) : option iopts :=
  let d := odata o in
  match i with
  | IWhen f l s => Some {| first := f; last := l; step := s; odata := d |}
  | ISyscall k => put (scnos d) o (set_scnos d k)
  | IError n => put (rval d) o (set_rval d (true, n))
  | IRetval n => put (rval d) o (set_rval d (false, n))
  | ISignal n => put (signal d) o (set_signal d n)
  | IPoke b l => put (if b then poke_enter d else poke_exit d) o (set_poke d b (rev l))
  | IDelay b t => put (if b then delay_enter d else delay_exit d) o (set_delay d b t)
  end.
Definition hex_token (tok : list N) : Prop :=
  forall v p a h, (tok = bs "poke_enter=" ++ v \/ tok = bs "poke_exit=" ++ v) -> In p (comma_tokens v) ->
    p = bs "@arg" ++ [a] ++ bs "=" ++ h -> Forall (fun c => exists x, dval 16 c x) h.

Lemma poke_iff v o b o' : (forall tok a h, In tok (comma_tokens v) -> tok = bs "@arg" ++ [a] ++ bs "=" ++ h -> Forall (fun c => exists x, dval 16 c x) h) ->
  parse_poke_token v o b = Some o' <-> exists l, pokes_denote v l /\ apply_item (IPoke b l) o = Some o'.
Proof.
  intros HX. unfold parse_poke_token, apply_item, put. cbv zeta. destruct (present _).
  - split; [discriminate|intros (l & _ & X); discriminate].
  - split.
    + intros H. assert (NE : v <> []) by (destruct v; discriminate). destruct v as [|c v]; [contradiction|]. destruct (poke_loop [] (strtok_all 44 (c :: v))) as [l'|] eqn:E; [|discriminate]. cbn [obind] in H. injection H as <-.
      destruct (proj1 (pokes_iff (c :: v) l' HX) (conj NE E)) as (l & D & ->). eauto.
    + intros (l & D & X). destruct (proj2 (pokes_iff v (rev l) HX) ltac:(eauto)) as [NE E]. destruct v as [|c v]; [contradiction|]. rewrite E. exact X.
Qed.
Ltac strips := repeat match goal with |- context[strip ?p (?q ++ ?v)] => first [change (strip p (q ++ v)) with (@None (list N)) | rewrite (strip_app p v)] end.
Lemma token_iff E f tok o o' : Forall (fun t => N.of_nat (length t) <= 65536) (tables (qe E)) -> hex_token tok ->
  parse_inject_token E f tok o = Ok (Some o') <-> exists i, item_denotes E f tok i /\ apply_item i o = Some o'.
Proof.
  intros TB HX. split.
  - unfold parse_inject_token. cbv zeta. intros H.
    destruct (strip (bs "when=") tok) as [v|] eqn:S1.
    { apply strip_iff in S1. destruct (parse_when v) as [[[a b] c]|] eqn:W; [|discriminate]. injection H as <-. apply parse_when_iff in W. exists (IWhen a b c). split; [exists v; auto|reflexivity]. }
    destruct (strip (bs "syscall=") tok) as [v|] eqn:S2.
    { apply strip_iff in S2. destruct (present (scnos (odata o))) eqn:P; [discriminate|]. destruct (pure_numbers v _) as [k|] eqn:W; [|discriminate]. injection H as <-. apply pure_numbers_iff in W; [|exact TB]. exists (ISyscall k). split; [exists v; auto|]. unfold apply_item, put. rewrite P. reflexivity. }
    destruct (strip (bs "error=") tok) as [v|] eqn:S3.
    { apply strip_iff in S3. destruct (present (rval (odata o))) eqn:P; [discriminate|]. destruct (match string_to_uint_upto v MAX_ERRNO_VALUE with Some m => Some m | None => find_errno_by_name E v end) as [n|] eqn:W; [|discriminate].
      destruct (n <? 1) eqn:L; [discriminate|]. apply N.ltb_ge in L. injection H as <-. exists (IError n). split; [exists v; split; [exact S3|apply error_iff; auto]|]. unfold apply_item, put. rewrite P. reflexivity. }
    destruct f; [discriminate|].
    destruct (strip (bs "retval=") tok) as [v|] eqn:S4.
    { apply strip_iff in S4. destruct (present (rval (odata o))) eqn:P; [discriminate|]. destruct (strtoull0 v) as [n|] eqn:W; [|discriminate]. injection H as <-. apply strtoull_iff in W. exists (IRetval n). split; [split; [reflexivity|]; exists v; auto|]. unfold apply_item, put. rewrite P. reflexivity. }
    destruct (strip (bs "signal=") tok) as [v|] eqn:S5.
    { apply strip_iff in S5. destruct (present (signal (odata o))) eqn:P; [discriminate|]. destruct (sigstr_to_uint (signames E) v) as [n|] eqn:W; [|discriminate]. destruct ((n <? 1) || (64 <? n)) eqn:L; [discriminate|]. injection H as <-. exists (ISignal n).
      split; [split; [reflexivity|]; exists v; split; [exact S5|apply signal_iff; split; [exact W|lia]]|]. unfold apply_item, put. rewrite P. reflexivity. }
    destruct (strip (bs "poke_enter=") tok) as [v|] eqn:S6.
    { apply strip_iff in S6. injection H as H. apply poke_iff in H as (l & D & A); [|intros p a h I X; eapply HX; [left; exact S6|exact I|exact X]]. exists (IPoke true l). split; [split; [reflexivity|]; exists v; auto|exact A]. }
    destruct (strip (bs "poke_exit=") tok) as [v|] eqn:S7.
    { apply strip_iff in S7. injection H as H. apply poke_iff in H as (l & D & A); [|intros p a h I X; eapply HX; [right; exact S7|exact I|exact X]]. exists (IPoke false l). split; [split; [reflexivity|]; exists v; auto|exact A]. }
    destruct (strip (bs "delay_enter=") tok) as [v|] eqn:S8.
    { apply strip_iff in S8. unfold parse_delay_token in H. cbv zeta in H. destruct (present _) eqn:P in H; [discriminate|]. destruct (parse_ts_full (fpunit E) v) as [[t|]| |] eqn:W; try discriminate. cbn [rbind] in H. injection H as <-. exists (IDelay true t). split; [split; [reflexivity|]; exists v; auto|]. unfold apply_item, put. rewrite P. reflexivity. }
    destruct (strip (bs "delay_exit=") tok) as [v|] eqn:S9; [|discriminate].
    { apply strip_iff in S9. unfold parse_delay_token in H. cbv zeta in H. destruct (present _) eqn:P in H; [discriminate|]. destruct (parse_ts_full (fpunit E) v) as [[t|]| |] eqn:W; try discriminate. cbn [rbind] in H. injection H as <-. exists (IDelay false t). split; [split; [reflexivity|]; exists v; auto|]. unfold apply_item, put. rewrite P. reflexivity. }
  - intros (i & D & A). destruct i as [a b c|k|n|n|n|b l|b t]; cbn [item_denotes] in D.
    + destruct D as (v & -> & D). unfold parse_inject_token. cbv zeta. strips. apply parse_when_iff in D. rewrite D. injection A as <-. reflexivity.
    + destruct D as (v & -> & D). unfold parse_inject_token. cbv zeta. strips. apply pure_numbers_iff in D; [|exact TB]. unfold apply_item, put in A. destruct (present (scnos (odata o))); [discriminate|]. rewrite D. injection A as <-. reflexivity.
    + destruct D as (v & -> & D). unfold parse_inject_token. cbv zeta. strips. apply error_iff in D as [D L]. unfold apply_item, put in A. destruct (present (rval (odata o))); [discriminate|]. rewrite D. replace (n <? 1) with false by lia. injection A as <-. reflexivity.
    + destruct D as (-> & v & -> & D). unfold parse_inject_token. cbv zeta. strips. apply strtoull_iff in D. unfold apply_item, put in A. destruct (present (rval (odata o))); [discriminate|]. rewrite D. injection A as <-. reflexivity.
    + destruct D as (-> & v & -> & D). unfold parse_inject_token. cbv zeta. strips. apply signal_iff in D as [D L]. unfold apply_item, put in A. destruct (present (signal (odata o))); [discriminate|]. rewrite D. replace ((n <? 1) || (64 <? n)) with false by lia. injection A as <-. reflexivity.
    + destruct D as (-> & v & -> & D). destruct b; unfold parse_inject_token; cbv zeta; strips; f_equal; (apply poke_iff; [intros p x h I X; eapply HX; [eauto|exact I|exact X]|exists l; split; assumption]).
    + destruct D as (-> & v & -> & D). destruct b; unfold parse_inject_token; cbv zeta; strips; unfold parse_delay_token; cbv zeta; unfold apply_item, put in A; (destruct (present _); [discriminate|]); rewrite D; injection A as <-; reflexivity.
Qed.
Fixpoint apply_all (l : list item) (o : iopts) : option iopts :=
  match l with [] => Some o | i :: r => olet o' := apply_item i o in apply_all r o' end.
Lemma fold_iff E f toks : Forall (fun t => N.of_nat (length t) <= 65536) (tables (qe E)) -> Forall hex_token toks -> forall o o',
  token_fold E f toks o = Ok (Some o') <-> exists l, Forall2 (item_denotes E f) toks l /\ apply_all l o = Some o'.
Proof.
  intros TB FX. induction FX as [|t toks HX FX IH]; intros o o'; cbn [token_fold].
  - split; [intros H; injection H as <-; exists []; split; [constructor|reflexivity]|]. intros (l & F & A). inversion F; subst. injection A as <-. reflexivity.
  - split.
    + intros H. destruct (parse_inject_token E f t o) as [[o1|]| |] eqn:P; try discriminate. cbn [rbind] in H. apply token_iff in P as (i & D & A); [|exact TB|exact HX]. apply IH in H as (l & F & B). exists (i :: l). split; [constructor; assumption|]. cbn [apply_all]. rewrite A. exact B.
    + intros (l & F & A). inversion F as [|? i ? l' D F']; subst. cbn [apply_all] in A. destruct (apply_item i o) as [o1|] eqn:A1; [|discriminate]. rewrite (proj2 (token_iff E f t o o1 TB HX) ltac:(eauto)). cbn [rbind]. apply IH. eauto.
Qed.

(** ---- what the items say ---- *)
Lemma pick_app {A} (f : item -> option A) a b : pick f (a ++ b) = match pick f a with Some x => Some x | None => pick f b end.
Proof. induction a as [|i a IH]; cbn [app pick]; [reflexivity|]. destruct (f i); [reflexivity|exact IH]. Qed.
Definition opts_said (l : list item) : iopts := let '(a, b, c) := when_said l in {| first := a; last := b; step := c; odata := says l |}.
Definition has_kind (k : N) (l : list item) : bool := existsb (N.eqb k) (kinds l).
Lemma kinds_app a b : kinds (a ++ b) = kinds a ++ kinds b. Proof. apply flat_map_app. Qed.
Lemma present_pick {A} (f : item -> option A) k l : (forall i, present (f i) = match kind i with Some j => k =? j | None => false end) -> present (pick f l) = has_kind k l.
Proof.
  intros H. unfold has_kind. induction l as [|i l IH]; cbn [pick kinds flat_map]; [reflexivity|]. fold (kinds l). rewrite existsb_app. specialize (H i). destruct (f i) as [x|]; cbn [present] in *.
  - destruct (kind i); [|discriminate]. cbn [existsb]. rewrite <- H. reflexivity.
  - rewrite IH. destruct (kind i); cbn [existsb orb]; [rewrite <- H|]; reflexivity.
Qed.
Lemma apply_snoc l i : apply_item i (opts_said l) = if match kind i with Some k => has_kind k l | None => false end then None else Some (opts_said (l ++ [i])).
Proof.
  assert (WS : forall j, kind j <> None -> when_said (l ++ [j]) = when_said l) by (intros j J; unfold when_said; rewrite rev_app_distr; cbn [rev app pick]; destruct j; try reflexivity; exfalso; apply J; reflexivity).
  assert (PP : forall A (f : item -> option A), f i = None -> pick f (l ++ [i]) = pick f l) by (intros A f F; rewrite pick_app; cbn [pick]; rewrite F; destruct (pick f l); reflexivity).
  assert (PN : forall A (f : item -> option A) x, pick f l = None -> f i = Some x -> pick f (l ++ [i]) = Some x) by (intros A f x N0 F; rewrite pick_app, N0; cbn [pick]; rewrite F; reflexivity).
  assert (NP : forall A (x : option A), present x = false -> x = None) by (intros A [x|] X; [discriminate|reflexivity]).
  unfold opts_said. destruct i as [a b c|k|n|n|n|[|] p|[|] t]; cbn [kind].
  { unfold apply_item. destruct (when_said l) as [[a1 b1] c1]. cbn [odata]. assert (W2 : when_said (l ++ [IWhen a b c]) = (a, b, c)) by (unfold when_said; rewrite rev_app_distr; reflexivity). rewrite W2. do 2 f_equal. unfold says. rewrite !PP by reflexivity. reflexivity. }
  all: rewrite WS by discriminate; destruct (when_said l) as [[a1 b1] c1]; unfold apply_item, put; cbn [odata says signal rval delay_enter delay_exit poke_enter poke_exit scnos].
  - rewrite (present_pick _ 1) by (intros [| | | | |[|]|[|]]; reflexivity). destruct (has_kind 1 l) eqn:K; [reflexivity|]. rewrite <- (present_pick (fun i => match i with ISyscall k => Some k | _ => None end)) in K by (intros [| | | | |[|]|[|]]; reflexivity). apply NP in K.
    do 2 f_equal. unfold says, set_scnos. cbn [signal rval delay_enter delay_exit poke_enter poke_exit scnos]. rewrite (PN _ (fun i => match i with ISyscall k => Some k | _ => None end) k K eq_refl). rewrite !PP by reflexivity. reflexivity.
  - rewrite (present_pick _ 2) by (intros [| | | | |[|]|[|]]; reflexivity). destruct (has_kind 2 l) eqn:K; [reflexivity|]. rewrite <- (present_pick (fun i => match i with IError n => Some (true, n) | IRetval n => Some (false, n) | _ => None end)) in K by (intros [| | | | |[|]|[|]]; reflexivity). apply NP in K.
    do 2 f_equal. unfold says, set_rval. cbn [signal rval delay_enter delay_exit poke_enter poke_exit scnos]. rewrite (PN _ (fun i => match i with IError n => Some (true, n) | IRetval n => Some (false, n) | _ => None end) (true, n) K eq_refl). rewrite !PP by reflexivity. reflexivity.
  - rewrite (present_pick _ 2) by (intros [| | | | |[|]|[|]]; reflexivity). destruct (has_kind 2 l) eqn:K; [reflexivity|]. rewrite <- (present_pick (fun i => match i with IError n => Some (true, n) | IRetval n => Some (false, n) | _ => None end)) in K by (intros [| | | | |[|]|[|]]; reflexivity). apply NP in K.
    do 2 f_equal. unfold says, set_rval. cbn [signal rval delay_enter delay_exit poke_enter poke_exit scnos]. rewrite (PN _ (fun i => match i with IError n => Some (true, n) | IRetval n => Some (false, n) | _ => None end) (false, n) K eq_refl). rewrite !PP by reflexivity. reflexivity.
  - rewrite (present_pick _ 3) by (intros [| | | | |[|]|[|]]; reflexivity). destruct (has_kind 3 l) eqn:K; [reflexivity|]. rewrite <- (present_pick (fun i => match i with ISignal n => Some n | _ => None end)) in K by (intros [| | | | |[|]|[|]]; reflexivity). apply NP in K.
    do 2 f_equal. unfold says, set_signal. cbn [signal rval delay_enter delay_exit poke_enter poke_exit scnos]. rewrite (PN _ (fun i => match i with ISignal n => Some n | _ => None end) n K eq_refl). rewrite !PP by reflexivity. reflexivity.
  - rewrite (present_pick _ 4) by (intros [| | | | |[|]|[|]]; reflexivity). destruct (has_kind 4 l) eqn:K; [reflexivity|]. rewrite <- (present_pick (fun i => match i with IPoke true p => Some (rev p) | _ => None end)) in K by (intros [| | | | |[|]|[|]]; reflexivity). apply NP in K.
    do 2 f_equal. unfold says, set_poke. cbn [signal rval delay_enter delay_exit poke_enter poke_exit scnos]. rewrite (PN _ (fun i => match i with IPoke true p => Some (rev p) | _ => None end) (rev p) K eq_refl). rewrite !PP by reflexivity. reflexivity.
  - rewrite (present_pick _ 5) by (intros [| | | | |[|]|[|]]; reflexivity). destruct (has_kind 5 l) eqn:K; [reflexivity|]. rewrite <- (present_pick (fun i => match i with IPoke false p => Some (rev p) | _ => None end)) in K by (intros [| | | | |[|]|[|]]; reflexivity). apply NP in K.
    do 2 f_equal. unfold says, set_poke. cbn [signal rval delay_enter delay_exit poke_enter poke_exit scnos]. rewrite (PN _ (fun i => match i with IPoke false p => Some (rev p) | _ => None end) (rev p) K eq_refl). rewrite !PP by reflexivity. reflexivity.
  - rewrite (present_pick _ 6) by (intros [| | | | |[|]|[|]]; reflexivity). destruct (has_kind 6 l) eqn:K; [reflexivity|]. rewrite <- (present_pick (fun i => match i with IDelay true t => Some t | _ => None end)) in K by (intros [| | | | |[|]|[|]]; reflexivity). apply NP in K.
    do 2 f_equal. unfold says, set_delay. cbn [signal rval delay_enter delay_exit poke_enter poke_exit scnos]. rewrite (PN _ (fun i => match i with IDelay true t => Some t | _ => None end) t K eq_refl). rewrite !PP by reflexivity. reflexivity.
  - rewrite (present_pick _ 7) by (intros [| | | | |[|]|[|]]; reflexivity). destruct (has_kind 7 l) eqn:K; [reflexivity|]. rewrite <- (present_pick (fun i => match i with IDelay false t => Some t | _ => None end)) in K by (intros [| | | | |[|]|[|]]; reflexivity). apply NP in K.
    do 2 f_equal. unfold says, set_delay. cbn [signal rval delay_enter delay_exit poke_enter poke_exit scnos]. rewrite (PN _ (fun i => match i with IDelay false t => Some t | _ => None end) t K eq_refl). rewrite !PP by reflexivity. reflexivity.
Qed.
Lemma apply_all_said l : forall l0 o, NoDup (kinds l0) -> apply_all l (opts_said l0) = Some o <-> NoDup (kinds (l0 ++ l)) /\ o = opts_said (l0 ++ l).
Proof.
  induction l as [|i l IH]; intros l0 o ND; cbn [apply_all].
  - rewrite app_nil_r. split; [intros H; injection H as <-; auto|]. intros [_ ->]. reflexivity.
  - rewrite apply_snoc. assert (A : l0 ++ i :: l = (l0 ++ [i]) ++ l) by (rewrite <- app_assoc; reflexivity).
    destruct (match kind i with Some k => has_kind k l0 | None => false end) eqn:K; cbn [obind].
    + split; [discriminate|]. intros [N2 _]. exfalso. rewrite kinds_app in N2. destruct (kind i) as [k|] eqn:KI; [|discriminate]. unfold has_kind in K. apply existsb_exists in K as (k' & I & E). apply N.eqb_eq in E. subst k'. cbn [kinds flat_map] in N2. rewrite KI in N2. cbn [app] in N2. apply NoDup_remove_2 in N2. apply N2, in_or_app. auto.
    + rewrite A. apply IH. rewrite kinds_app. cbn [kinds flat_map]. destruct (kind i) as [k|] eqn:KI; rewrite ?app_nil_r; [|exact ND]. cbn [app]. apply NoDup_Add with (a := k) (l := kinds l0); [|split; [exact ND|]].
      * rewrite <- (app_nil_r (kinds l0)) at 1. apply Add_app.
      * intros I. unfold has_kind in K. assert (X : existsb (N.eqb k) (kinds l0) = true) by (apply existsb_exists; exists k; split; [exact I|apply N.eqb_refl]). congruence.
Qed.
Lemma acts_said l : has_action (says l) = acts l.
Proof.
  unfold has_action. cbn [says signal rval delay_enter delay_exit poke_enter poke_exit].
  rewrite (present_pick _ 3), (present_pick _ 2), (present_pick _ 6), (present_pick _ 7), (present_pick _ 4), (present_pick _ 5) by (intros [| | | | |[|]|[|]]; reflexivity).
  unfold has_kind, acts. induction l as [|i l IH]; [reflexivity|]. cbn [kinds flat_map existsb]. fold (kinds l). rewrite <- IH. rewrite !existsb_app. destruct i as [| | | | |[|]|[|]]; cbn [kind existsb N.eqb Pos.eqb orb]; rewrite ?orb_true_r; reflexivity.
Qed.
