(** Proofs about -e status=SET. *)
From Coq Require Import Relations.
From Verif Require Import Base TimeModel WaitModel TcbModel TcbProofs LogModel LoopModel LoopSpec LoopFrame LoopSig StatusSpec StatusLog StatusLoop.
Local Open Scope N_scope.

Lemma dest_refl d : dest_eqb d d = true. Proof. destruct d; [reflexivity|apply N.eqb_refl]. Qed.
Section Dest.
Variable dst : dest.   (* where the tracee's log goes *)
(** ** Turns in which a tcb is not concerned *)
Definition all_tcbs (_ : nat) : bool := true.
Lemma all_calm s : calm all_tcbs s. Proof. constructor; [intros j; discriminate|intros j; discriminate]. Qed.
Lemma all_cur l : curK all_tcbs l. Proof. intros j _. reflexivity. Qed.
Lemma dispatch_disp c s w e b s' : dispatch_event c s w e = Ok (b, s') -> disp (qu s') = disp (qu s).
Proof.
  destruct w as [wd|]; [|intros E; inversion E; reflexivity]. intros E. apply (dispatch_step all_tcbs) in E; [apply (sf_disp _ _ _ E)|apply all_calm|apply all_cur|]. intros _ i _ j Hj. discriminate Hj.
Qed.
Lemma turn_disp c s ne b s' : turn c s ne = Ok (b, s') -> exists D, disp (qu s') = disp (qu s) ++ D.
Proof.
  unfold turn. intros E. apply rbind_ok in E as ([w s1] & E1 & E2). apply dispatch_disp in E2. apply next_hands in E1 as [H _]. rewrite E2. destruct H as [[H _]|(i & wd & _ & _ & H)]; rewrite H; eauto. exists []. rewrite app_nil_r. reflexivity.
Qed.
Lemma turns_disp c l : forall s b s', turns c s l = Ok (b, s') -> exists D, disp (qu s') = disp (qu s) ++ D.
Proof.
  induction l as [|ne l IH]; intros s b s' E; cbn in E; [inversion E; exists []; rewrite app_nil_r; reflexivity|]. apply rbind_ok in E as ([go s1] & E1 & E2). apply turn_disp in E1 as [D1 E1]. destruct go; [|inversion E2; subst; eauto].
  destruct (IH _ _ _ E2) as [D2 E3]. exists (D1 ++ D2). rewrite E3, E1, app_assoc. reflexivity.
Qed.
Lemma turn_step c s ne i g s' : calm (Kn i) s -> gen (lg s) i = g -> turn c s ne = Ok (true, s') -> undisturbed g (P s i) s s' -> step0 (Kn i) s s'.
Proof.
  intros CM G E (D & HD & U). unfold turn in E. apply rbind_ok in E as ([w s1] & E1 & E2). pose proof (next_hands _ _ _ _ _ E1) as [H _]. pose proof (dispatch_disp _ _ _ _ _ _ E2) as DD.
  destruct w as [wd|]; [|discriminate E2]. pose proof (next_step (Kn i) _ _ _ _ _ CM E1) as [A W]. assert (Ki : Kn i i = false) by (unfold Kn; rewrite Nat.eqb_refl; reflexivity).
  destruct W as [T|(k & Ck & Wk)]; [unfold dispatch_event in E2; rewrite T in E2; inversion E2; subst; exact A|]. destruct (busy wd) eqn:B.
  - destruct H as [[_ [H|(wd' & H1 & H2)]]|(k' & wd' & H1 & H2 & H3)]; [discriminate|inversion H1; subst wd'; congruence|]. inversion H1; subst wd'. rewrite Ck in H2. inversion H2; subst k'. rewrite <- DD, HD in H3. apply app_inv_head in H3. subst D.
    destruct (U _ _ (or_introl eq_refl)) as [U1 U2]. assert (N : k <> i) by (intros ->; apply U1; rewrite (sp_gen _ _ _ (lops_spared _ _ _ _ Ki (s0_log _ _ _ A))); exact G).
    eapply step0_trans; [exact A|]. apply step_0. eapply dispatch_step; [eapply calm_step0; eassumption| | |exact E2].
    + intros j Cj. rewrite Ck in Cj. injection Cj as <-. unfold Kn. destruct (Nat.eqb_spec k i); [contradiction|reflexivity].
    + intros T j Cj. rewrite Ck in Cj. injection Cj as <-. intros x Kj. unfold Kn in Kj. destruct (Nat.eqb_spec x i) as [Hx|]; [subst x|discriminate]. rewrite <- Wk. rewrite (sm_pid _ _ _ (s0_same _ _ _ A i Ki)). apply U2. exact T.
  - unfold busy in B. unfold dispatch_event in E2. destruct (te wd); try discriminate; inversion E2; subst; exact A.
Qed.
Lemma step0_refl K s : step0 K s s. Proof. apply step_0, step_refl. Qed.
Lemma turns_step c i g l : forall s s', calm (Kn i) s -> gen (lg s) i = g -> turns c s l = Ok (true, s') -> undisturbed g (P s i) s s' -> step0 (Kn i) s s'.
Proof.
  induction l as [|ne l IH]; intros s s' CM G E U; cbn in E; [inversion E; apply step0_refl|]. apply rbind_ok in E as ([go s1] & E1 & E2). destruct go; [|discriminate]. destruct U as (D & HD & U).
  destruct (turn_disp _ _ _ _ _ E1) as [D1 H1]. destruct (turns_disp _ _ _ _ _ E2) as [D2 H2]. assert (X : D = D1 ++ D2) by (apply (app_inv_head (disp (qu s))); rewrite <- HD, H2, H1, app_assoc; reflexivity). subst D.
  assert (A : step0 (Kn i) s s1) by (eapply turn_step; [exact CM|exact G|exact E1|]; exists D1; split; [exact H1|intros; apply U, in_app_iff; auto]).
  assert (Ki : Kn i i = false) by (unfold Kn; rewrite Nat.eqb_refl; reflexivity). eapply step0_trans; [exact A|]. apply IH; [eapply calm_step0; eassumption|rewrite (sp_gen _ _ _ (lops_spared _ _ _ _ Ki (s0_log _ _ _ A))); exact G|exact E2|].
  rewrite (sm_pid _ _ _ (s0_same _ _ _ A i Ki)). exists D2. split; [exact H2|intros; apply U, in_app_iff; auto].
Qed.

(** ** Writing to a stream of one's own *)
Definition fpart (f : fd) (xs : list item) : list item := match f with FReal d => if dest_eqb dst d then xs else [] | _ => [] end.
Definition mpart (f : fd) (n : nat) (xs : list item) : list item := match f with FMem m => if Nat.eqb n m then xs else [] | _ => [] end.
Record ws (f : fd) (l l' : log) (xs : list item) : Prop := {
  ws_out : outf l' = outf l; ws_staged : staged l' = staged l; ws_gen : gen l' = gen l; ws_ngen : ngen l' = ngen l; ws_cur : current l' = current l;
  ws_len : length (mems l') = length (mems l); ws_mem : forall n, nth n (mems l') [] = nth n (mems l) [] ++ mpart f n xs;
  ws_file : files l' dst = files l dst ++ fpart f xs }.
Lemma ws_nil f l : ws f l l []. Proof. constructor; auto; [intros n; unfold mpart; destruct f; [|destruct (Nat.eqb n m)]; rewrite app_nil_r; reflexivity|destruct f; cbn; [destruct (dest_eqb dst d)|]; rewrite app_nil_r; reflexivity]. Qed.
Lemma ws_trans f a b c xs ys : ws f a b xs -> ws f b c ys -> ws f a c (xs ++ ys).
Proof.
  intros [] []. constructor; try congruence.
  - intros n. rewrite ws_mem1, ws_mem0, <- app_assoc. f_equal. unfold mpart. destruct f; [reflexivity|]. destruct (Nat.eqb n m); reflexivity.
  - rewrite ws_file1, ws_file0, <- app_assoc. f_equal. destruct f; cbn; [destruct (dest_eqb dst d)|]; reflexivity.
Qed.
Lemma ws_same f l l' xs l'' : ws f l l' xs -> outf l'' = outf l' -> staged l'' = staged l' -> gen l'' = gen l' -> ngen l'' = ngen l' -> current l'' = current l' -> mems l'' = mems l' -> files l'' = files l' -> ws f l l'' xs.
Proof. intros [] A B C D E F G. constructor; rewrite ?A, ?B, ?C, ?D, ?E, ?F, ?G; auto. Qed.
Lemma write_ws f l xs : (forall m, f = FMem m -> (m < length (mems l))%nat) -> ws f l (write l f xs) xs.
Proof.
  intros H. destruct f as [d|m].
  - constructor; try reflexivity; [intros n; cbn; rewrite app_nil_r; reflexivity|]. cbn. destruct (dest_eqb dst d); [reflexivity|rewrite app_nil_r; reflexivity].
  - specialize (H m eq_refl). constructor; try reflexivity.
    + apply length_upd. exact H.
    + intros n. cbn [write mems set_mems]. rewrite nth_upd by exact H. cbn. destruct (Nat.eqb_spec n m) as [->|]; [reflexivity|rewrite app_nil_r; reflexivity].
    + cbn. rewrite app_nil_r. reflexivity.
Qed.
Definition by_ (w : who) (xs : list tok) : list item := map (pair w) xs.
Lemma tprints_ws Q i f xs : forall l l', current l = Some i -> outf l i = Some f -> (forall m, f = FMem m -> (m < length (mems l))%nat) -> tprints Q l xs = Ok l' -> ws f l l' (by_ {| w_gen := gen l i; w_pid := Q i |} xs).
Proof.
  induction xs as [|x xs IH]; intros l l' C O L E; cbn in E; [inversion E; apply ws_nil|]. apply rbind_ok in E as (l1 & E1 & E2). unfold tprint in E1. rewrite C in E1. apply rbind_ok in E1 as (l2 & E1 & E3). inversion E3; subst l1; clear E3. unfold put in E1. rewrite O in E1. inversion E1; subst l2; clear E1.
  set (l1 := set_col _ i _) in E2. assert (A : ws f l l1 [(author Q l i, x)]) by (eapply ws_same; [apply write_ws; exact L|reflexivity..]). clearbody l1.
  change (by_ {| w_gen := gen l i; w_pid := Q i |} (x :: xs)) with ([(author Q l i, x)] ++ by_ {| w_gen := gen l i; w_pid := Q i |} xs). eapply ws_trans; [exact A|]. destruct A. rewrite <- ws_gen0. apply IH; [congruence|congruence| |exact E2]. intros m Hm. rewrite ws_len0. auto.
Qed.

Lemma by_app w a b : by_ w (a ++ b) = by_ w a ++ by_ w b. Proof. apply map_app. Qed.
Lemma mine_none g xs : Forall (fun x => w_gen (fst x) <> g) xs -> mine g xs = [].
Proof. unfold mine. induction 1 as [|x xs H _ IH]; [reflexivity|]. cbn. destruct (Nat.eqb_spec (w_gen (fst x)) g); [contradiction|exact IH]. Qed.

(** ** A tcb that keeps nothing back *)
Lemma Kn_self i : Kn i i = false. Proof. unfold Kn. rewrite Nat.eqb_refl. reflexivity. Qed.
Lemma Kn_only i j : Kn i j = false -> j = i. Proof. unfold Kn. destruct (Nat.eqb_spec j i); [auto|discriminate]. Qed.
Lemma idle_priv i g s : idle dst i g s -> priv i g None (lg s).
Proof. intros []. constructor; auto; [discriminate|]. intros k Hk. destruct (id_others k Hk) as [A B]. split; [exact A|]. intros m Hm. destruct (B m Hm). repeat split; auto; discriminate. Qed.
Lemma idle_calm i g s : idle dst i g s -> calm (Kn i) s.
Proof. intros []. constructor; intros j Hj; apply Kn_only in Hj; subst j; auto. Qed.
Lemma idle_intro i g M s : priv i g M (lg s) -> P s i <> 0 -> outf (lg s) i = Some (FReal dst) -> staged (lg s) i = None -> col (lg s) i = 0 -> fl s i REPRINT = false -> idle dst i g s.
Proof. intros [] A B C D E. constructor; auto. intros k Hk. destruct (pv_oth k Hk) as [F G]. split; [exact F|]. intros m Hm. destruct (G m Hm) as (X & Y & _). auto. Qed.
Lemma idle_step i g s s' : idle dst i g s -> step0 (Kn i) s s' -> idle dst i g s' /\ exists X, files (lg s') dst = files (lg s) dst ++ X /\ mine g X = [].
Proof.
  intros I [A B]. pose proof (idle_priv _ _ _ I) as Pv. destruct (lops_priv dst _ _ _ _ _ A Pv) as [Pv' La]. pose proof (lops_spared _ _ _ _ (Kn_self i) A) as Sp. specialize (B i (Kn_self i)). split; [|apply La].
  destruct I. eapply idle_intro; [exact Pv'|rewrite (sm_pid _ _ _ B); auto|rewrite (sp_out _ _ _ Sp); auto|rewrite (sp_staged _ _ _ Sp); auto| |rewrite (sm_fl _ _ _ B) by reflexivity; auto].
  destruct (sp_col _ _ _ Sp); congruence.
Qed.
(** ** A tcb whose call is kept back *)
Record holds (i g : nat) (d : bool) (m : nat) (txt : list item) (s : st) : Prop := {
  h_pid : P s i <> 0; h_in : fl s i INSYSCALL = true; h_filt : fl s i FILTERED = false; h_rep : fl s i REPRINT = false; h_hide : fl s i HIDE_LOG = false; h_dec : dec s i = d;
  h_out : outf (lg s) i = Some (FMem m); h_staged : staged (lg s) i = Some (m, Some (FReal dst)); h_txt : nth m (mems (lg s)) [] = txt; h_priv : priv i g (Some m) (lg s) }.
Lemma holds_calm i g d m txt s : holds i g d m txt s -> calm (Kn i) s.
Proof. intros []. constructor; intros j Hj; apply Kn_only in Hj; subst j; auto. right. congruence. Qed.
Lemma holds_step i g d m txt s s' : holds i g d m txt s -> step0 (Kn i) s s' -> holds i g d m txt s' /\ exists X, files (lg s') dst = files (lg s) dst ++ X /\ mine g X = [].
Proof.
  intros [] [A B]. destruct (lops_priv dst _ _ _ _ _ A h_priv0) as [Pv' La]. pose proof (lops_spared _ _ _ _ (Kn_self i) A) as Sp. specialize (B i (Kn_self i)). split; [|apply La].
  destruct Sp, B, La. constructor; rewrite ?sp_out, ?sp_staged, ?sm_pid, ?sm_dec, ?sm_fl by reflexivity; auto. rewrite la_mem by reflexivity. exact h_txt0.
Qed.

(** ** Entering a call *)
Lemma ws_priv i g m l l' xs : priv i g (Some m) l -> ws (FMem m) l l' xs -> priv i g (Some m) l'.
Proof.
  intros [A B C D] []. constructor; rewrite ?ws_gen0, ?ws_ngen0, ?ws_len0; auto. intros k Hk. destruct (D k Hk) as [D1 D2]. split; [exact D1|]. intros n Hn. unfold mentions in Hn. rewrite ws_out0, ws_staged0 in Hn. destruct (D2 n Hn) as (D3 & D4 & D5).
  rewrite ws_mem0. cbn [mpart]. split; [exact D3|]. split; [|exact D5]. destruct (Nat.eqb_spec n m) as [->|]; [congruence|]. rewrite app_nil_r. exact D4.
Qed.
(** the leader of a line that goes to memory; another tracee's line may be cut for it *)
Lemma leader_at Q c np l i g M f l' : col l i = 0 -> outf l i = Some f -> (forall m, f = FMem m -> M = Some m) -> priv i g M l -> printleader Q c np l i = Ok l' ->
  exists l1 sh, lops (Kn i) l l1 /\ ws f l1 l' (by_ {| w_gen := g; w_pid := Q i |} [Lead sh]) /\ current l' = Some i.
Proof.
  intros CI O SN Pv E. unfold printleader in E. cbv zeta in E. set (l0 := if c_ff c then set_printing l (Some i) else l) in E. assert (A0 : lops (Kn i) l l0 /\ col l0 i = 0) by (unfold l0; destruct (c_ff c); [split; [apply lops_one, lo_printing|exact CI]|split; [apply lops_refl|exact CI]]). clearbody l0. destruct A0 as [A0 C0]. apply rbind_ok in E as (l1 & E1 & E2). assert (A : lops (Kn i) l l1).
  { eapply lops_trans; [exact A0|]. destruct (printing l0) as [j|]; [|inversion E1; apply lops_refl]. destruct (negb (col l0 j =? 0) && _) eqn:B; [|inversion E1; apply lops_refl]. apply andb_true_iff in B as [B1 _]. apply negb_true_iff, N.eqb_neq in B1. assert (Kj : Kn i j = true) by (unfold Kn; destruct (Nat.eqb_spec j i) as [->|]; [contradiction|reflexivity]).
    apply rbind_ok in E1 as (l2 & E3 & E4). inversion E4; subst l1. apply (tprints_steps (Kn i)) in E3 as [S1 S2]; [|intros k X; cbn in X; congruence]. eapply lops_snoc; [eapply lops_trans; [apply lops_one, lo_cur|exact S1]|apply lo_col0]. }
  set (l2 := set_col (set_current (set_printing l1 (Some i)) (Some i)) i 0) in E2. set (sh := c_pfx c || _) in E2. exists l2, sh.
  assert (A2 : lops (Kn i) l l2) by (eapply lops_snoc; [eapply lops_snoc; [eapply lops_snoc; [exact A|apply lo_printing]|apply lo_cur]|apply lo_col0]). split; [exact A2|].
  assert (C2 : current l2 = Some i) by reflexivity. clearbody l2. destruct (lops_priv dst _ _ _ _ _ A2 Pv) as [Pv1 _]. pose proof (lops_spared _ _ _ _ (Kn_self i) A2) as [S1 S2 S3 S4 S5].
  assert (E3 : tprints Q l2 [Lead sh] = Ok l') by (cbn [tprints]; rewrite E2; reflexivity).
  apply (tprints_ws Q i f) in E3; [|exact C2|congruence|intros x Hx; apply (pv_own _ _ _ _ Pv1), SN, Hx].
  rewrite (pv_gen _ _ _ _ Pv1) in E3. split; [exact E3|]. rewrite (ws_cur _ _ _ _ E3). exact C2.
Qed.
Lemma leader_held Q c np l i g m l' : col l i = 0 -> outf l i = Some (FMem m) -> staged l i <> None -> priv i g (Some m) l -> printleader Q c np l i = Ok l' ->
  exists l1 sh, lops (Kn i) l l1 /\ ws (FMem m) l1 l' (by_ {| w_gen := g; w_pid := Q i |} [Lead sh]) /\ current l' = Some i.
Proof. intros A B _. apply leader_at; auto. intros x Hx. injection Hx as <-. reflexivity. Qed.
(** opening a stream in memory *)
Lemma open_priv i g l : priv i g None l -> outf l i = Some (FReal dst) -> staged l i = None -> let l' := open_memstream l i in let m := length (mems l) in
  priv i g (Some m) l' /\ outf l' i = Some (FMem m) /\ staged l' i = Some (m, Some (FReal dst)) /\ nth m (mems l') [] = [].
Proof.
  intros [A B C D] O SG. cbv zeta. assert (L : length (mems (open_memstream l i)) = S (length (mems l))) by (cbn; rewrite app_length; cbn; lia). split; [|split; [cbn; rewrite Nat.eqb_refl; reflexivity|split; [cbn; rewrite Nat.eqb_refl, O; reflexivity|cbn; rewrite app_nth2, Nat.sub_diag by lia; reflexivity]]].
  constructor; auto; [intros m Hm; inversion Hm; rewrite L; lia|]. intros k Hk. destruct (D k Hk) as [D1 D2]. split; [exact D1|]. intros m Hm. unfold mentions in Hm. cbn [open_memstream set_out outf staged] in Hm. destruct (Nat.eqb_spec k i) as [|N]; [contradiction|]. destruct (D2 m Hm) as (X & Y & _). rewrite L. split; [lia|]. split; [cbn; rewrite app_nth1 by exact X; exact Y|]. intros Z. inversion Z. lia.
Qed.

Lemma entering_trace_held c s i g rec e d sg s' : c_all (lc c) = false -> c_stats c = false -> idle dst i g s -> e_traced e = true -> fl s i HIDE_LOG = false \/ e_exec e = true ->
  syscall_entering_trace c s i rec e = Ok (d, sg, s') ->
  d = e_dec e /\ exists m sh X, P s' i = P s i /\ fl s' i FILTERED = false /\ fl s' i REPRINT = false /\ fl s' i HIDE_LOG = false /\
  outf (lg s') i = Some (FMem m) /\ staged (lg s') i = Some (m, Some (FReal dst)) /\
  nth m (mems (lg s')) [] = by_ {| w_gen := g; w_pid := P s i |} [Lead sh; Entry (sname s i); Txt (e_text e)] /\ priv i g (Some m) (lg s') /\
  files (lg s') dst = files (lg s) dst ++ X /\ mine g X = [].
Proof.
  intros NA NS I TR HI E. unfold syscall_entering_trace in E. cbv zeta in E.
  set (s1 := if fl s i HIDE_LOG && e_exec e then _ else s) in E.
  assert (A1 : lg s1 = lg s /\ tb s1 = tb s /\ sname s1 = sname s /\ fl s1 i HIDE_LOG = false /\ fl s1 i REPRINT = false).
  { unfold s1. pose proof (id_reprint _ _ _ _ I) as R. destruct (fl s i HIDE_LOG) eqn:H; [destruct HI as [|HI]; [discriminate|]; rewrite HI; cbn [andb]|cbn [andb]; auto]. repeat (split; [try reflexivity|]); cbn; rewrite ?Nat.eqb_refl; cbn; auto. }
  clearbody s1. destruct A1 as (L1 & T1 & N1 & H1 & R1). rewrite H1, TR in E. cbn [orb negb] in E.
  match type of E with context [if ?b then (if e_xdelay e then _ else _) else _] => set (inj := b) in E end. set (s2 := if inj then _ else setf s1 i FILTERED false) in E.
  assert (A2 : lg s2 = lg s /\ tb s2 = tb s /\ sname s2 = sname s /\ fl s2 i HIDE_LOG = false /\ fl s2 i REPRINT = false /\ fl s2 i FILTERED = false).
  { assert (A0 : lg (setf s1 i FILTERED false) = lg s /\ tb (setf s1 i FILTERED false) = tb s /\ sname (setf s1 i FILTERED false) = sname s /\ fl (setf s1 i FILTERED false) i HIDE_LOG = false /\ fl (setf s1 i FILTERED false) i REPRINT = false /\ fl (setf s1 i FILTERED false) i FILTERED = false) by (cbn; rewrite Nat.eqb_refl; cbn; auto 10).
    unfold s2. destruct inj; [|exact A0]. set (s3 := setf s1 i FILTERED false) in *. clearbody s3. set (s4 := match e_delay e with Some _ => _ | None => _ end).
    assert (A4 : lg s4 = lg s3 /\ tb s4 = tb s3 /\ sname s4 = sname s3 /\ (forall f, rel f = true -> fl s4 i f = fl s3 i f)).
    { unfold s4. destruct (e_delay e) as [[[x y] z]|]; [|auto]. split; [apply delay_cur|]. unfold delay_tcb. cbv zeta. match goal with |- context [if ?b then _ else _] => destruct b end; (split; [reflexivity|split; [reflexivity|intros f Hf; apply (setf_rel s3 i DELAYED true i f); auto]]). }
    clearbody s4. destruct A4 as (X1 & X2 & X3 & X4). destruct A0 as (Y1 & Y2 & Y3 & Y4 & Y5 & Y6). destruct (e_xdelay e); cbn [lg tb sname setf with_fl].
    - repeat split; try congruence; change (fl (setf s4 i INJECT_DELAY_EXIT true) i) with (fun g => fl (setf s4 i INJECT_DELAY_EXIT true) i g); cbv beta; rewrite setf_rel, X4 by reflexivity; assumption.
    - repeat split; try congruence; rewrite X4 by reflexivity; assumption. }
  clearbody s2. destruct A2 as (L2 & T2 & N2 & H2 & R2 & F2). clear s1 L1 T1 N1 H1 R1. rewrite NS, NA in E. apply rbind_ok in E as (s4 & E1 & E). apply rbind_ok in E as (s5 & E2 & E3). injection E3 as <- <- <-. split; [reflexivity|].
  destruct (open_priv i g (lg s) (idle_priv _ _ _ I) (id_out _ _ _ _ I) (id_staged _ _ _ _ I)) as (Pv & O & SG & TX). rewrite L2 in E1. set (l3 := open_memstream (lg s) i) in *. set (m := length (mems (lg s))) in *.
  assert (C3 : col l3 i = 0) by (apply (id_col _ _ _ _ I)). assert (F3 : files l3 = files (lg s)) by reflexivity. clearbody l3 m.
  unfold leader, pr in E1. apply rbind_ok in E1 as (l4 & E1 & E4). injection E4 as <-. cbn [lg with_lg] in E1. apply (leader_held _ _ _ _ i g m) in E1 as (l5 & sh & A & W1 & C4); [|exact C3|exact O|congruence|exact Pv].
  destruct (lops_priv dst _ _ _ _ _ A Pv) as [Pv5 [La1 La2 (X & La3 & La4)]]. pose proof (lops_spared _ _ _ _ (Kn_self i) A) as Sp. pose proof (ws_priv _ _ _ _ _ _ Pv5 W1) as Pv4.
  unfold tpr, pr in E2. apply rbind_ok in E2 as (l6 & E2 & E4). injection E4 as <-. cbn [lg with_lg] in E2.
  apply (tprints_ws _ i (FMem m)) in E2; [|exact C4|rewrite (ws_out _ _ _ _ W1), (sp_out _ _ _ Sp); exact O|intros x Hx; injection Hx as <-; apply (pv_own _ _ _ _ Pv4); reflexivity].
  pose proof (ws_priv _ _ _ _ _ _ Pv4 E2) as Pv6. exists m, sh, X. cbn [lg with_lg fl]. change (P (with_lg (with_lg (with_lg s2 l3) l4) l6) i) with (P s2 i).
  assert (PE : forall k, P s2 k = P s k) by (intros k; unfold P; rewrite T2; reflexivity). split; [apply PE|]. split; [exact F2|]. split; [exact R2|]. split; [exact H2|].
  destruct Sp. split; [rewrite (ws_out _ _ _ _ E2), (ws_out _ _ _ _ W1); congruence|]. split; [rewrite (ws_staged _ _ _ _ E2), (ws_staged _ _ _ _ W1); congruence|]. split.
  - rewrite (ws_mem _ _ _ _ E2), (ws_mem _ _ _ _ W1), La1, TX by reflexivity. cbn [mpart]. rewrite Nat.eqb_refl. rewrite (pv_gen _ _ _ _ Pv4). cbn [app by_ map]. change (P (with_lg s2 l3) i) with (P s2 i). change (P (with_lg (with_lg s2 l3) l4) i) with (P s2 i). change (sname (with_lg (with_lg s2 l3) l4)) with (sname s2). rewrite PE, N2. reflexivity.
  - split; [exact Pv6|]. split; [|exact La4]. rewrite (ws_file _ _ _ _ E2), (ws_file _ _ _ _ W1), La3, F3. cbn. rewrite !app_nil_r. reflexivity.
Qed.

(** a stop at which a system call is looked at *)
Lemma dispatch_syscall c s i wd e b s' : current (lg s) = Some i -> syscall_stop c s i wd -> dispatch_event c s (Some wd) e = Ok (b, s') ->
  exists r sig s1, trace_syscall c s i false e = Ok (r, sig, s1) /\ ((r < 0)%Z /\ b = true /\ s' = s1 \/ exists o, resume s1 i wd o sig e = Ok (b, s')).
Proof.
  intros C H E. unfold dispatch_event in E. rewrite C in E. assert (X : exists o, (rlet (r, sig, s) := trace_syscall c s i false e in if (r <? 0)%Z then Ok (true, s) else resume s i wd (if fl s i SECCOMP_FILTER then if fl s i INSYSCALL then OP_SYSCALL else OP_CONT else o) sig e) = Ok (b, s')).
  { destruct H as [T|(T & F & B)]; rewrite T in E; [eexists; exact E|]. rewrite F, B in E. cbn [negb] in E. eexists. exact E. }
  destruct X as [o X]. apply rbind_ok in X as ([[r sig] s1] & X1 & X2). exists r, sig, s1. split; [exact X1|]. destruct (Z.ltb_spec r 0); [left; inversion X2; auto|right; eauto].
Qed.
Lemma enter_held c s i g wd e s' : c_all (lc c) = false -> c_stats c = false -> idle dst i g s -> current (lg s) = Some i -> enters_call c s i wd e ->
  dispatch_event c s (Some wd) e = Ok (true, s') ->
  P s' i = P s i /\ exists m sh, holds i g (e_dec e) m (by_ {| w_gen := g; w_pid := P s i |} [Lead sh; Entry (e_name e); Txt (e_text e)]) s' /\ exists X, files (lg s') dst = files (lg s) dst ++ X /\ mine g X = [].
Proof.
  intros NA NS I C (ST & IN & SC & AR & TR & HI) E. destruct (dispatch_syscall _ _ _ _ _ _ _ C ST E) as (r & sig & s1 & E1 & E2). unfold trace_syscall in E1. rewrite IN in E1. cbn [negb] in E1. apply rbind_ok in E1 as ([r1 s2] & E1 & E3).
  unfold syscall_entering_decode in E1. rewrite SC, AR in E1. cbn in E1. injection E1 as <- <-. cbn [Z.eqb Pos.eqb] in E3. apply rbind_ok in E3 as ([[d sg] s2] & E1 & E3). injection E3 as <- <- <-.
  destruct E2 as [(X & _)|(o & E2)]; [lia|]. apply resume_go in E2 as (R1 & R2 & R3 & R4 & _).
  assert (I' : idle dst i g (with_name s i (e_name e))) by (destruct I; constructor; assumption). apply (entering_trace_held c _ i g) in E1; auto. destruct E1 as (-> & m & sh & X & B1 & B2 & B3 & B4 & B5 & B6 & B7 & B8 & B9 & B10).
  split; [unfold P; rewrite R2; exact B1|]. exists m, sh. cbn [sname with_name] in B7. rewrite Nat.eqb_refl in B7. change (P (with_name s i (e_name e)) i) with (P s i) in B1, B7. split; [|exists X; rewrite R1; auto].
  constructor; rewrite ?R1, ?R3, ?R4; cbn [lg fl dec syscall_entering_finish called with_dec setf with_fl]; rewrite ?Nat.eqb_refl; cbn [andb flag_eqb]; auto.
  unfold P. rewrite R2. change (P s2 i <> 0). rewrite B1. apply (id_pid _ _ _ _ I).
Qed.

(** ** Leaving a call *)
Lemma close_held l i g m txt b l' : outf l i = Some (FMem m) -> staged l i = Some (m, Some (FReal dst)) -> nth m (mems l) [] = txt -> priv i g (Some m) l -> close_memstream l i b = Ok l' ->
  priv i g (Some m) l' /\ outf l' i = Some (FReal dst) /\ staged l' i = None /\ current l' = current l /\ printing l' = printing l /\ files l' dst = files l dst ++ (if b then txt else []).
Proof.
  intros O SG TX Pv E. unfold close_memstream in E. rewrite SG, TX in E.
  assert (Pv1 : priv i g (Some m) (set_out l i (Some (FReal dst)) None)) by (apply (priv_same _ _ _ l); auto; intros k n Hk; unfold mentions; cbn; destruct (Nat.eqb_spec k i) as [|]; [contradiction|]; intros H; exists k; auto).
  destruct b; inversion E; subst l'; clear E.
  - split; [apply (priv_same _ _ _ (set_out l i (Some (FReal dst)) None)); auto; intros k n Hk H; exists k; auto|]. cbn. rewrite Nat.eqb_refl, dest_refl. auto.
  - split; [exact Pv1|]. cbn. rewrite Nat.eqb_refl, app_nil_r. auto.
Qed.
Lemma line_ended_facts l i : current l = Some i -> let l' := line_ended l in outf l' = outf l /\ staged l' = staged l /\ gen l' = gen l /\ ngen l' = ngen l /\ mems l' = mems l /\ files l' = files l /\ current l' = current l /\ col l' i = 0.
Proof.
  intros C. cbv zeta. unfold line_ended. rewrite C. cbn [printing set_col]. destruct (printing l) as [j|]; cbn; rewrite Nat.eqb_refl; repeat split; auto. destruct (Nat.eqb i j); reflexivity.
Qed.
Lemma priv_ended i g M l j : current l = Some j -> priv i g M l -> priv i g M (line_ended l).
Proof. intros C Pv. destruct (line_ended_facts l j C) as (A & B & D & E & F & G & H & _). apply (priv_same _ _ _ l); auto. intros k n Hk. unfold mentions. rewrite A, B. intros X. exists k. auto. Qed.
(** a line of a tcb that keeps nothing back, at its end *)
Record ended_at (i g : nat) (l l' : log) (xs : list item) : Prop := {
  en_priv : exists M, priv i g M l'; en_out : outf l' i = Some (FReal dst); en_staged : staged l' i = None; en_col : col l' i = 0; en_cur : current l' = Some i; en_file : files l' dst = files l dst ++ xs }.
Lemma publish_tail Q l i g M xs l' : current l = Some i -> outf l i = Some (FReal dst) -> staged l i = None -> priv i g M l -> tprints Q l xs = Ok l' -> ended_at i g l (line_ended l') (by_ {| w_gen := g; w_pid := Q i |} xs).
Proof.
  intros C O SG Pv E. apply (tprints_ws Q i (FReal dst)) in E; [|exact C|exact O|discriminate]. assert (C' : current l' = Some i) by (rewrite (ws_cur _ _ _ _ E); exact C). rewrite (pv_gen _ _ _ _ Pv) in E. destruct (line_ended_facts l' i C') as (X1 & X2 & X3 & X4 & X5 & X6 & X7 & X8). destruct E. constructor.
  - exists M. apply (priv_ended _ _ _ _ i); auto. destruct Pv as [A B D F]. constructor; rewrite ?ws_gen0, ?ws_ngen0, ?ws_len0; auto. intros k Hk. destruct (F k Hk) as [F1 F2]. split; [exact F1|]. intros n Hn. unfold mentions in Hn. rewrite ws_out0, ws_staged0 in Hn. specialize (F2 n Hn). specialize (ws_mem0 n). cbn [mpart] in ws_mem0. rewrite app_nil_r in ws_mem0. rewrite ws_mem0. exact F2.
  - rewrite X1. congruence.
  - rewrite X2. congruence.
  - exact X8.
  - congruence.
  - rewrite X6. rewrite ws_file0; cbn [fpart]; rewrite dest_refl; reflexivity.
Qed.
Lemma close_tail l i g m txt b l' : current l = Some i -> outf l i = Some (FMem m) -> staged l i = Some (m, Some (FReal dst)) -> nth m (mems l) [] = txt -> priv i g (Some m) l -> close_memstream l i b = Ok l' -> ended_at i g l (line_ended l') (if b then txt else []).
Proof.
  intros C O SG TX Pv E. destruct (close_held _ _ _ _ _ _ _ O SG TX Pv E) as (A1 & A2 & A3 & A4 & A5 & A6). assert (C' : current l' = Some i) by congruence. destruct (line_ended_facts l' i C') as (X1 & X2 & X3 & X4 & X5 & X6 & X7 & X8).
  constructor; [exists (Some m); eapply priv_ended; eassumption|congruence|congruence|exact X8|congruence|congruence].
Qed.
Lemma resume_none Q c np l i n : staged l i <> None -> print_syscall_resume Q c np l i false n = Ok (false, set_printing l (Some i)).
Proof. intros SN. unfold print_syscall_resume. destruct (staged l i); [|contradiction]. rewrite andb_false_r. cbn. reflexivity. Qed.
Lemma priv_printing i g M l x : priv i g M l -> priv i g M (set_printing l x).
Proof. intros Pv. apply (priv_same _ _ _ l); auto. intros k n Hk H. exists k. auto. Qed.

Definition outcome_of (rc : Z) (e : denv) : outcome := if (rc =? 1)%Z then Done (x_err e) (x_text e) (x_ret e) (x_extra e) else Unavailable.
Lemma exiting_trace_held c s9 s i g d m w pre rc e r s' : c_all (lc c) = false -> c_stats c = false -> current (lg s9) = Some i -> w = {| w_gen := g; w_pid := P s9 i |} -> holds i g d m (by_ w pre) s9 -> lg s = lg s9 -> tb s = tb s9 -> dec s = dec s9 -> fl s i REPRINT = fl s9 i REPRINT ->
  syscall_exiting_trace c s i rc e = Ok (r, s') ->
  ended_at i g (lg s) (lg s') (if selected (lc c) (outcome_of rc e) then by_ w (pre ++ match outcome_of rc e with Done _ t r x => (if d then [] else [Txt t]) ++ [Ret r; Nl x] | Unavailable => [Ret (bs "? <unavailable>"); Nl []] | Unfinished => [] end) else []) /\
  tb s' = tb s /\ fl s' i REPRINT = false.
Proof.
  intros NA NS C -> [] LS TS DS RS E. unfold P in *. rewrite <- LS, <- TS, <- DS, <- RS in *. fold (P s i) in *. clear LS TS DS RS. unfold syscall_exiting_trace in E. cbv zeta in E.
  set (s1 := if fl s i INJECT_DELAY_EXIT then _ else s) in E. assert (A1 : lg s1 = lg s /\ tb s1 = tb s /\ dec s1 = dec s /\ (forall f, rel f = true -> fl s1 i f = fl s i f)).
  { unfold s1. destruct (fl s i INJECT_DELAY_EXIT); [|auto]. destruct (x_delay e) as [[x y] z]. split; [apply delay_cur|]. unfold delay_tcb. cbv zeta. match goal with |- context [if ?b then _ else _] => destruct b end; (split; [reflexivity|split; [reflexivity|intros f Hf; apply (setf_rel s i DELAYED true i f); auto]]). }
  clearbody s1. destruct A1 as (L1 & T1 & D1 & F1). apply rbind_ok in E as (s2 & E1 & E). rewrite NS in E1. rewrite (F1 REPRINT eq_refl), h_rep0 in E1. rewrite resume_none in E1; [|rewrite L1; congruence]. cbn [rbind] in E1. injection E1 as <-. rewrite L1 in E.
  set (l2 := set_printing (lg s) (Some i)) in E. pose proof (priv_printing _ _ _ _ (Some i) h_priv0) as Pv. fold l2 in Pv. assert (C2 : current l2 = Some i) by exact C. assert (O2 : outf l2 i = Some (FMem m)) by exact h_out0. assert (S2 : staged l2 i = Some (m, Some (FReal dst))) by exact h_staged0. assert (TX2 : nth m (mems l2) [] = by_ {| w_gen := g; w_pid := P s i |} pre) by exact h_txt0. assert (F2 : files l2 = files (lg s)) by reflexivity. clearbody l2.
  assert (PE : forall k, P (with_lg s1 l2) k = P s k) by (intros k; unfold P; cbn [tb with_lg]; rewrite T1; reflexivity).
  assert (TP : forall xs s3, tpr (with_lg s1 l2) xs = Ok s3 -> exists l3, s3 = with_lg s1 l3 /\ current l3 = Some i /\ outf l3 i = Some (FMem m) /\ staged l3 i = Some (m, Some (FReal dst)) /\ priv i g (Some m) l3 /\ nth m (mems l3) [] = by_ {| w_gen := g; w_pid := P s i |} (pre ++ xs) /\ files l3 dst = files (lg s) dst).
  { intros xs s3 X. unfold tpr, pr in X. apply rbind_ok in X as (l3 & X & Y). injection Y as <-. cbn [lg with_lg] in X. apply (tprints_ws _ i (FMem m)) in X; [|exact C2|exact O2|intros y Hy; injection Hy as <-; apply (pv_own _ _ _ _ Pv); reflexivity].
    pose proof (ws_priv _ _ _ _ _ _ Pv X) as Pv3. exists l3. split; [reflexivity|]. rewrite PE, (pv_gen _ _ _ _ Pv) in X. destruct X. split; [congruence|]. split; [congruence|]. split; [congruence|]. split; [exact Pv3|]. split; [|rewrite ws_file0, F2; cbn; apply app_nil_r].
    rewrite ws_mem0, TX2. cbn [mpart]. rewrite Nat.eqb_refl, by_app. reflexivity. }
  unfold outcome_of. destruct (rc =? 1)%Z; cbn [negb] in E.
  - apply rbind_ok in E as (s3 & E1 & E).
    assert (X : exists l3, s3 = with_lg s1 l3 /\ current l3 = Some i /\ outf l3 i = Some (FMem m) /\ staged l3 i = Some (m, Some (FReal dst)) /\ priv i g (Some m) l3 /\ nth m (mems l3) [] = by_ {| w_gen := g; w_pid := P s i |} (pre ++ (if d then [] else [Txt (x_text e)])) /\ files l3 dst = files (lg s) dst).
    { rewrite NS in E1. cbn [orb dec with_lg] in E1. rewrite D1, h_dec0 in E1. destruct d; [|apply TP; exact E1]. injection E1 as <-. exists l2. rewrite app_nil_r. rewrite <- F2. auto 10. }
    destruct X as (l3 & -> & C3 & O3 & S3 & Pv3 & TX3 & F3). rewrite NA, NS in E. cbn [orb] in E. apply rbind_ok in E as (s4 & E2 & E). unfold pr in E2. apply rbind_ok in E2 as (l4 & E2 & E3). injection E3 as <-. cbn [lg with_lg] in E2.
    set (pub := if x_err e then c_failed (lc c) else c_succ (lc c)) in *. cbn [selected]. fold pub. destruct pub eqn:PB; cbn [negb] in E.
    + destruct (close_held _ _ _ _ _ _ _ O3 S3 TX3 Pv3 E2) as (X1 & X2 & X3 & X4 & X5 & X6). set (s5 := if (limit (with_lg (with_lg s1 l3) l4) =? -1)%Z then _ else _) in E. assert (L5 : lg s5 = l4 /\ tb s5 = tb s1 /\ fl s5 = fl s1) by (unfold s5; destruct (_ =? -1)%Z; repeat split). clearbody s5. destruct L5 as (L5 & T5 & F5).
      apply rbind_ok in E as (s6 & E1' & E). injection E as <- <-. unfold tpr, pr in E1'. apply rbind_ok in E1' as (l6 & E6 & E7). injection E7 as <-. rewrite L5 in E6. eapply publish_tail in E6; [|rewrite X4; exact C3|exact X2|exact X3|exact X1]. cbn [end_line with_lg lg tb fl].
      split; [|split; [congruence|rewrite F5, (F1 REPRINT eq_refl); exact h_rep0]]. destruct E6. constructor; auto. rewrite en_file0, X6, F3, <- app_assoc. f_equal. replace (P s5 i) with (P s i) by (unfold P; rewrite T5, T1; reflexivity). rewrite <- by_app, <- app_assoc. reflexivity.
    + injection E as <- <-. cbn [end_line with_lg lg tb fl]. split; [|split; [exact T1|rewrite (F1 REPRINT eq_refl); exact h_rep0]]. eapply close_tail in E2; [|exact C3|exact O3|exact S3|exact TX3|exact Pv3]. destruct E2. constructor; auto. rewrite en_file0, F3. reflexivity.
  - rewrite NS, NA in E. apply rbind_ok in E as (s3 & E1 & E). apply TP in E1 as (l3 & -> & C3 & O3 & S3 & Pv3 & TX3 & F3). apply rbind_ok in E as (s4 & E2 & E). injection E as <- <-. unfold pr in E2. apply rbind_ok in E2 as (l4 & E2 & E3). injection E3 as <-. cbn [lg with_lg end_line tb fl] in *.
    split; [|split; [exact T1|rewrite (F1 REPRINT eq_refl); exact h_rep0]]. eapply close_tail in E2; [|exact C3|exact O3|exact S3|exact TX3|exact Pv3]. cbn [selected]. destruct E2. constructor; auto. rewrite en_file0, F3. reflexivity.
Qed.
Lemma exit_print_held Q c np l i g m w pre d n b l' : c_all c = false -> current l = Some i -> w = {| w_gen := g; w_pid := Q i |} -> outf l i = Some (FMem m) -> staged l i = Some (m, Some (FReal dst)) -> nth m (mems l) [] = by_ w pre -> priv i g (Some m) l ->
  print_event_exit Q c np l i false d n = Ok (b, l') ->
  b = false /\ exists l1 X, files l1 dst = files l dst ++ X /\ mine g X = [] /\ ended_at i g l1 l' (if c_unfin c then by_ w (pre ++ (if d then [] else [Unfin]) ++ [RetUnknown; Nl []]) else []).
Proof.
  intros NA C -> O SG TX Pv E. unfold print_event_exit in E. apply rbind_ok in E as (l1 & E1 & E). assert (A : lops (Kn i) l l1 /\ current l1 = Some i).
  { destruct (printing l) as [j|]; [|inversion E1; split; [apply lops_refl|congruence]]. destruct (_ && _) eqn:B; [|inversion E1; split; [apply lops_refl|congruence]]. apply andb_true_iff in B as [B _]. apply andb_true_iff in B as [B _]. apply andb_true_iff in B as [_ B]. assert (Kj : Kn i j = true) by exact B.
    apply rbind_ok in E1 as (l2 & E3 & E4). inversion E4; subst l1. apply (tprints_steps (Kn i)) in E3 as [S1 S2]; [|intros k X; cbn in X; congruence]. split; [|reflexivity]. eapply lops_snoc; [eapply lops_snoc; [eapply lops_trans; [apply lops_one, lo_cur|exact S1]|apply lo_col0]|apply lo_cur]. }
  destruct A as [A1 C1]. clear E1. destruct (lops_priv dst _ _ _ _ _ A1 Pv) as [Pv1 La]. pose proof (lops_spared _ _ _ _ (Kn_self i) A1) as Sp. assert (O1 : outf l1 i = Some (FMem m)) by (rewrite (sp_out _ _ _ Sp); exact O). assert (S1 : staged l1 i = Some (m, Some (FReal dst))) by (rewrite (sp_staged _ _ _ Sp); exact SG).
  assert (TX1 : nth m (mems l1) [] = by_ {| w_gen := g; w_pid := Q i |} pre) by (rewrite (la_mem _ _ _ _ _ La) by reflexivity; exact TX). destruct (la_file _ _ _ _ _ La) as (X & FX & MX). clear La Sp A1.
  rewrite resume_none in E; [|congruence]. cbn [rbind] in E. set (l2 := set_printing l1 (Some i)) in E. apply (priv_printing _ _ _ _ (Some i)) in Pv1. fold l2 in Pv1. assert (C2 : current l2 = Some i) by exact C1. assert (O2 : outf l2 i = Some (FMem m)) by exact O1. assert (S2 : staged l2 i = Some (m, Some (FReal dst))) by exact S1. assert (TX2 : nth m (mems l2) [] = by_ {| w_gen := g; w_pid := Q i |} pre) by exact TX1. assert (F2 : files l2 = files l1) by reflexivity. clearbody l2.
  apply rbind_ok in E as (l3 & E3 & E). apply rbind_ok in E as (l4 & E4 & E). rewrite NA in E. apply rbind_ok in E as (l5 & E5 & E). injection E as <- <-. split; [reflexivity|]. exists l1, X. split; [exact FX|]. split; [exact MX|].
  assert (W : ws (FMem m) l2 l4 (by_ {| w_gen := g; w_pid := Q i |} ((if d then [] else [Unfin]) ++ [RetUnknown; Nl []]))).
  { assert (E6 : tprints Q l2 ((if d then [] else [Unfin]) ++ [RetUnknown; Nl []]) = Ok l4). { destruct d; [injection E3 as <-; exact E4|]. cbn [app tprints]. rewrite E3. exact E4. }
    apply (tprints_ws Q i (FMem m)) in E6; [|exact C2|exact O2|intros y Hy; injection Hy as <-; apply (pv_own _ _ _ _ Pv1); reflexivity]. rewrite (pv_gen _ _ _ _ Pv1) in E6. exact E6. }
  pose proof (ws_priv _ _ _ _ _ _ Pv1 W) as Pv4. destruct W. eapply close_tail in E5; [|rewrite ws_cur0; exact C2|rewrite ws_out0; exact O2|rewrite ws_staged0; exact S2| |exact Pv4].
  2:{ rewrite ws_mem0, TX2. cbn [mpart]. rewrite Nat.eqb_refl, <- by_app. reflexivity. }
  destruct E5. constructor; auto. rewrite en_file0, ws_file0. cbn [fpart]. rewrite app_nil_r, F2. reflexivity.
Qed.
(** a tracee whose line is ended is let go without a word *)
Lemma resume_quiet s i wd o sig e b s' : current (lg s) = Some i -> col (lg s) i = 0 -> resume s i wd o sig e = Ok (b, s') -> lg s' = lg s /\ tb s' = tb s /\ fl s' = fl s.
Proof.
  intros C Z E. unfold resume in E. cbv zeta in E. set (s1 := if e_intr e =? 0 then s else set_intr s (e_intr e)) in E. assert (A : lg s1 = lg s /\ tb s1 = tb s /\ fl s1 = fl s) by (unfold s1; destruct (_ =? 0); repeat split). clearbody s1.
  destruct (negb _); [injection E as <- <-; exact A|]. destruct (fl s1 i DELAYED); [injection E as <- <-; exact A|]. apply rbind_ok in E as ([ok s2] & E1 & E2). assert (B : lg s2 = lg s1 /\ tb s2 = tb s1 /\ fl s2 = fl s1).
  { unfold ptrace_restart in E1. cbv zeta in E1. destruct (_ || _); [injection E1 as <- <-; repeat split|]. destruct A as [A _]. change (lg (ask s1 i o sig)) with (lg s1) in E1. rewrite A, C, Z in E1. cbn in E1. injection E1 as <- <-. repeat split. }
  destruct A as (A1 & A2 & A3), B as (B1 & B2 & B3). destruct ok; injection E2 as <- <-; cbn; repeat split; congruence.
Qed.
Definition rest_of (d : bool) (o : outcome) : list tok :=
  match o with Done _ t r x => (if d then [] else [Txt t]) ++ [Ret r; Nl x] | Unavailable => [Ret (bs "? <unavailable>"); Nl []] | Unfinished => (if d then [] else [Unfin]) ++ [RetUnknown; Nl []] end.
Lemma ended_idle i g s l xs : P s i <> 0 -> fl s i REPRINT = false -> ended_at i g l (lg s) xs -> idle dst i g s.
Proof. intros PI R []. destruct en_priv0 as [M Pv]. eapply idle_intro; eauto. Qed.
Lemma end_held c s i g d m w pre wd e o b s' : c_all (lc c) = false -> c_stats c = false -> current (lg s) = Some i -> w = {| w_gen := g; w_pid := P s i |} -> holds i g d m (by_ w pre) s -> ends_call c s i wd e o ->
  dispatch_event c s (Some wd) e = Ok (b, s') ->
  idle dst i g s' /\ P s' i = P s i /\ exists X, mine g X = [] /\ files (lg s') dst = files (lg s) dst ++ X ++ (if selected (lc c) o then by_ w (pre ++ rest_of d o) else []).
Proof.
  intros NA NS C W H EC E.
  assert (SC : syscall_stop c s i wd -> x_res e <> 0%Z -> idle dst i g s' /\ P s' i = P s i /\ exists X, mine g X = [] /\ files (lg s') dst = files (lg s) dst ++ X ++ (if selected (lc c) (outcome_of (x_res e) e) then by_ w (pre ++ rest_of d (outcome_of (x_res e) e)) else [])).
  { intros ST NZ. destruct (dispatch_syscall _ _ _ _ _ _ _ C ST E) as (r & sig & s1 & E1 & E2). unfold trace_syscall in E1. rewrite (h_in _ _ _ _ _ _ H) in E1. cbn [negb] in E1. unfold syscall_exiting_decode in E1. rewrite (h_filt _ _ _ _ _ _ H) in E1. apply Z.eqb_neq in NZ. rewrite NZ in E1. apply rbind_ok in E1 as ([r1 s2] & E1 & E3). injection E3 as _ _ <-.
    set (s0 := if fl s i CHECK_EXEC_SYSCALL then _ else s) in E1.
    assert (A : lg s0 = lg s /\ tb s0 = tb s /\ dec s0 = dec s /\ fl s0 i REPRINT = fl s i REPRINT) by (unfold s0; destruct (fl s i CHECK_EXEC_SYSCALL); repeat split; cbn; rewrite ?Nat.eqb_refl; reflexivity).
    clearbody s0. destruct A as (L0 & T0 & D0 & R0). eapply (exiting_trace_held c s s0 i g d m w pre) in E1; auto. destruct E1 as (E1 & T2 & R2).
    assert (I : forall s3, lg s3 = lg s2 -> tb s3 = tb s2 -> fl s3 i REPRINT = fl s2 i REPRINT -> idle dst i g s3 /\ P s3 i = P s i /\ exists X, mine g X = [] /\ files (lg s3) dst = files (lg s) dst ++ X ++ (if selected (lc c) (outcome_of (x_res e) e) then by_ w (pre ++ rest_of d (outcome_of (x_res e) e)) else [])).
    { intros s3 A B D. assert (PE : P s3 i = P s i) by (unfold P; rewrite B, T2, T0; reflexivity). split; [|split; [exact PE|]].
      - eapply ended_idle; [rewrite PE; apply (h_pid _ _ _ _ _ _ H)|rewrite D; exact R2|rewrite A; exact E1].
      - exists []. split; [reflexivity|]. rewrite A, (en_file _ _ _ _ _ E1), L0. cbn [app]. do 2 f_equal. unfold outcome_of. destruct (_ =? 1)%Z; reflexivity. }
    destruct E2 as [(_ & _ & ->)|(op & E2)]; [apply I; cbn; rewrite ?Nat.eqb_refl; reflexivity|].
    apply resume_quiet in E2 as (B1 & B2 & B3); [|exact (en_cur _ _ _ _ _ E1)|exact (en_col _ _ _ _ _ E1)]. apply I; rewrite ?B1, ?B2, ?B3; cbn; rewrite ?Nat.eqb_refl; reflexivity. }
  destruct o as [failed t r x| |]; cbn [ends_call] in EC.
  - destruct EC as (ST & X & -> & -> & -> & ->). specialize (SC ST). unfold outcome_of in SC. rewrite X in SC. apply SC. lia.
  - destruct EC as (ST & X & Y). specialize (SC ST Y). unfold outcome_of in SC. apply Z.eqb_neq in X. rewrite X in SC. exact SC.
  - unfold dispatch_event in E. rewrite C, EC in E. apply rbind_ok in E as (s1 & E1 & E). unfold exit_event in E1. destruct H. rewrite h_in0, h_filt0, h_hide0, NS, h_rep0, h_dec0 in E1. cbn [negb orb] in E1. apply rbind_ok in E1 as ([r l] & E1 & E2). subst w.
    eapply exit_print_held in E1; [|exact NA|exact C|reflexivity|exact h_out0|exact h_staged0|exact h_txt0|exact h_priv0]. destruct E1 as (-> & l1 & X & F & MX & EA). cbv zeta in E2. injection E2 as <-.
    apply resume_quiet in E as (B1 & B2 & B3); [|exact (en_cur _ _ _ _ _ EA)|exact (en_col _ _ _ _ _ EA)]. assert (PE : P s' i = P s i) by (unfold P; rewrite B2; reflexivity). split; [|split; [exact PE|]].
    + eapply ended_idle; [rewrite PE; exact h_pid0|rewrite B3; exact h_rep0|rewrite B1; exact EA].
    + exists X. split; [exact MX|]. rewrite B1. cbn [lg with_lg]. rewrite (en_file _ _ _ _ _ EA), F, <- app_assoc. reflexivity.
Qed.

(** ** Stops and calls that leave nothing kept back *)
Lemma ended_stay i g l l' l1 xs X : ended_at i g l1 l' xs -> files l1 dst = files l dst ++ X -> files l' dst = files l dst ++ X ++ xs.
Proof. intros [] H. rewrite en_file0, H, app_assoc. reflexivity. Qed.
Lemma message_idle c s i g t x s' : idle dst i g s -> message c s i t x = Ok s' ->
  idle dst i g s' /\ P s' i = P s i /\ current (lg s') = Some i /\ exists X sh, mine g X = [] /\ files (lg s') dst = files (lg s) dst ++ X ++ by_ {| w_gen := g; w_pid := P s i |} [Lead sh; Msg t; Nl x].
Proof.
  intros I E. pose proof (idle_priv _ _ _ I) as Pv. unfold message, pr in E. apply rbind_ok in E as (l' & E & E1). injection E1 as <-. unfold msg_line in E. apply rbind_ok in E as (l2 & E1 & E). apply rbind_ok in E as (l3 & E2 & E). injection E as <-.
  destruct I. apply (leader_at _ _ _ _ _ g None (FReal dst)) in E1; auto; [|discriminate]. destruct E1 as (l1 & sh & A1 & W & C2). destruct (lops_priv dst _ _ _ _ _ A1 Pv) as [Pv1 La]. destruct (la_file _ _ _ _ _ La) as (X & FX & MX). pose proof (lops_spared _ _ _ _ (Kn_self i) A1) as [].
  assert (Pv2 : priv i g None l2). { destruct W, Pv1. constructor; rewrite ?ws_gen0, ?ws_ngen0, ?ws_len0; auto. intros k Hk. destruct (pv_oth k Hk) as [F1 F2]. split; [exact F1|]. intros n Hn. unfold mentions in Hn. rewrite ws_out0, ws_staged0 in Hn. specialize (F2 n Hn). specialize (ws_mem0 n). cbn [mpart] in ws_mem0. rewrite app_nil_r in ws_mem0. rewrite ws_mem0. exact F2. }
  destruct W. eapply publish_tail in E2; [|exact C2|rewrite ws_out0, sp_out; exact id_out|rewrite ws_staged0, sp_staged; exact id_staged|exact Pv2]. split; [|split; [reflexivity|split; [exact (en_cur _ _ _ _ _ E2)|]]].
  - eapply ended_idle; [exact id_pid|exact id_reprint|exact E2].
  - exists X, sh. split; [exact MX|]. cbn [lg with_lg]. rewrite (en_file _ _ _ _ _ E2), ws_file0, FX. cbn [fpart]. rewrite dest_refl, <- !app_assoc, <- by_app. reflexivity.
Qed.
Lemma idle_same i g s s' : lg s' = lg s -> tb s' = tb s -> fl s' i REPRINT = fl s i REPRINT -> idle dst i g s -> idle dst i g s'.
Proof. intros A B C []. constructor; unfold P in *; rewrite ?A, ?B, ?C; auto. Qed.
Lemma stopped_idle c s i g sig e s' : idle dst i g s -> current (lg s) = Some i -> print_stopped c s i sig e = Ok s' ->
  idle dst i g s' /\ P s' i = P s i /\ current (lg s') = Some i /\ exists X Y, mine g X = [] /\ files (lg s') dst = files (lg s) dst ++ X ++ by_ {| w_gen := g; w_pid := P s i |} Y /\ (Y = [] \/ exists sh, Y = [Lead sh; Msg (e_stopmsg e); Nl (x_extra e)]).
Proof.
  intros I C E. unfold print_stopped in E. destruct (_ && _).
  - apply message_idle with (g := g) in E; auto. destruct E as (A & B & C' & X & sh & MX & F). repeat (split; [assumption|]). exists X, [Lead sh; Msg (e_stopmsg e); Nl (x_extra e)]. eauto.
  - injection E as <-. repeat (split; [auto; fail|]). exists [], []. rewrite app_nil_r. auto.
Qed.
(** the stops that are not about a call *)
Lemma stop_idle c s i g wd e b s' : idle dst i g s -> current (lg s) = Some i -> other_stop c s i wd -> dispatch_event c s (Some wd) e = Ok (b, s') ->
  idle dst i g s' /\ P s' i = P s i /\ exists X Y, mine g X = [] /\ files (lg s') dst = files (lg s) dst ++ X ++ by_ {| w_gen := g; w_pid := P s i |} Y /\ (Y = [] \/ exists sh, Y = [Lead sh; Msg (e_stopmsg e); Nl (x_extra e)]).
Proof.
  intros I C O E. assert (N : exists X Y, mine g X = [] /\ files (lg s) dst = files (lg s) dst ++ X ++ by_ {| w_gen := g; w_pid := P s i |} Y /\ (Y = [] \/ exists sh, Y = [Lead sh; Msg (e_stopmsg e); Nl (x_extra e)])) by (exists [], []; rewrite app_nil_r; auto).
  assert (R : forall s1 o sig, resume s1 i wd o sig e = Ok (b, s') -> idle dst i g s1 -> current (lg s1) = Some i -> lg s' = lg s1 /\ idle dst i g s' /\ P s' i = P s1 i).
  { intros s1 o sig E1 I1 C1. apply resume_quiet in E1 as (A1 & A2 & A3); [|exact C1|apply I1]. split; [exact A1|]. split; [apply (idle_same _ _ s1); auto; rewrite A3; reflexivity|unfold P; rewrite A2; reflexivity]. }
  unfold dispatch_event in E. rewrite C in E. destruct O as [[T|T]|[T|(T & O)]]; rewrite T in E.
  - apply rbind_ok in E as (s1 & E1 & E). destruct (stopped_idle _ _ _ _ _ _ _ I C E1) as (A1 & A2 & A3 & F). destruct (R _ _ _ E A1 A3) as (B1 & B2 & B3). split; [exact B2|]. split; [congruence|]. rewrite B1. exact F.
  - apply rbind_ok in E as (s1 & E1 & E). destruct (stopped_idle _ _ _ _ _ _ _ I C E1) as (A1 & A2 & A3 & F). assert (E' : exists o sig, resume s1 i wd o sig e = Ok (b, s')) by (destruct (c_seize c); eauto). destruct E' as (o & sig & E'). destruct (R _ _ _ E' A1 A3) as (B1 & B2 & B3). split; [exact B2|]. split; [congruence|]. rewrite B1. exact F.
  - destruct (R _ _ _ E I C) as (B1 & B2 & B3). split; [exact B2|]. split; [exact B3|]. rewrite B1. exact N.
  - destruct (fl s i SECCOMP_FILTER) eqn:SF; cbn [negb] in E.
    + destruct O as [O|O]; [discriminate|]. rewrite O in E. destruct (R _ _ _ E I C) as (B1 & B2 & B3). split; [exact B2|]. split; [exact B3|]. rewrite B1. exact N.
    + destruct (R _ _ _ E) as (B1 & B2 & B3); [apply (idle_same _ _ s); auto; cbn; rewrite Nat.eqb_refl; reflexivity|exact C|]. split; [exact B2|]. split; [exact B3|]. rewrite B1. exact N.
Qed.
(** a call that is not traced *)
Lemma untraced_idle c s i g wd e b s' : idle dst i g s -> current (lg s) = Some i -> skips_call c s i wd e -> dispatch_event c s (Some wd) e = Ok (b, s') ->
  idle dst i g s' /\ P s' i = P s i /\ files (lg s') dst = files (lg s) dst.
Proof.
  intros I C (ST & H) E. destruct (dispatch_syscall _ _ _ _ _ _ _ C ST E) as (r & sig & s1 & E1 & E2).
  assert (A : lg s1 = lg s /\ tb s1 = tb s /\ fl s1 i REPRINT = fl s i REPRINT).
  { unfold trace_syscall in E1. destruct H as [(IN & F)|(IN & SC & AR & TR)]; rewrite IN in E1; cbn [negb] in E1.
    - unfold syscall_exiting_decode in E1. rewrite F in E1. cbn in E1. injection E1 as _ _ <-. cbn. rewrite Nat.eqb_refl. repeat split.
    - apply rbind_ok in E1 as ([r1 s2] & E1 & E3). unfold syscall_entering_decode in E1. rewrite SC, AR in E1. cbn in E1. injection E1 as <- <-. cbn [Z.eqb Pos.eqb] in E3. apply rbind_ok in E3 as ([[d sg] s2] & E1 & E3). injection E3 as _ _ <-.
      unfold syscall_entering_trace in E1. cbv zeta in E1. rewrite TR in E1. cbn [negb] in E1. rewrite orb_true_r in E1. injection E1 as _ _ <-. destruct (_ && _); cbn; rewrite Nat.eqb_refl; repeat split. }
  destruct A as (A1 & A2 & A3). assert (I1 : idle dst i g s1) by (eapply idle_same; eassumption). destruct E2 as [(_ & _ & ->)|(o & E2)]; [split; [exact I1|]; split; [unfold P; rewrite A2; reflexivity|rewrite A1; reflexivity]|].
  apply resume_quiet in E2 as (B1 & B2 & B3); [|rewrite A1; exact C|rewrite A1; apply I]. split; [eapply idle_same; [exact B1|exact B2|rewrite B3; reflexivity|exact I1]|]. split; [unfold P; rewrite B2, A2; reflexivity|rewrite B1, A1; reflexivity].
Qed.
End Dest.

(** ** Lives *)
Lemma write_known l f xs : known l -> (forall m, f = FMem m -> (m < length (mems l))%nat) -> (forall x, In x xs -> (w_gen (fst x) < ngen l)%nat) -> known (write l f xs).
Proof.
  intros [A B C] F X. destruct f as [d|m]; [constructor; assumption|]. specialize (F m eq_refl). constructor; cbn [write set_mems gen ngen mems].
  - exact A.
  - intros k n H. rewrite length_upd by exact F. apply (B k n). exact H.
  - intros n x. rewrite nth_upd by exact F. destruct (Nat.eqb_spec n m) as [->|]; [|apply C]. rewrite in_app_iff. intros [H|H]; [eapply C; exact H|auto].
Qed.
Lemma lop_known K l l' : lop K l l' -> known l -> known l'.
Proof.
  intros H Kn. pose proof Kn as [A B C]. destruct H as [l k w x f Hk Ho Hw|l x|l x|l k n Hk|l k|l k Hk|l k b l' Hk E|l k Hk|l a b Ha Hb|l k d Hk|l k Hk].
  - apply write_known; auto; [intros m ->; apply (B k); left; exact Ho|]. intros y [<-|[]]. cbn. rewrite Hw. apply A.
  - constructor; assumption.
  - constructor; assumption.
  - constructor; assumption.
  - constructor; assumption.
  - constructor; cbn [open_memstream set_out set_mems gen ngen mems]; [exact A| |].
    + intros j m. unfold mentions. cbn. rewrite app_length. cbn [length]. destruct (Nat.eqb_spec j k) as [->|].
      * intros [H|[[r H]|[a H]]]; [injection H as <-; lia|injection H as <- _; lia|]. injection H as _ H. assert (m < length (mems l))%nat by (apply (B k); left; exact H). lia.
      * intros H. assert (m < length (mems l))%nat by (apply (B j); exact H). lia.
    + intros m x H. destruct (Nat.lt_ge_cases m (length (mems l))) as [L|L]; [rewrite app_nth1 in H by exact L; eapply C; exact H|]. rewrite app_nth2 in H by exact L. destruct (m - length (mems l))%nat as [|[]]; contradiction.
  - unfold close_memstream in E. destruct (staged l k) as [[m r]|] eqn:SG; [|injection E as <-; exact Kn].
    assert (X : known (set_out l k r None)). { constructor; cbn [set_out gen ngen mems]; auto. intros j n. unfold mentions. cbn. destruct (Nat.eqb_spec j k) as [->|]; [|apply B]. intros [H|[[? H]|[? H]]]; try discriminate. subst r. apply (B k). right. right. eauto. }
    destruct b; [|injection E as <-; exact X]. destruct r as [f|]; [|discriminate]. injection E as <-. apply write_known; auto; [intros n ->; apply (B k); right; right; eauto|]. intros x H. eapply C. exact H.
  - constructor; cbn [set_out gen ngen mems]; auto. intros j n. unfold mentions. cbn. destruct (Nat.eqb_spec j k); [|apply B]. intros [H|[[? H]|[? H]]]; discriminate.
  - constructor; cbn [swap set_out gen ngen mems]; auto. intros j n. unfold mentions. cbn. destruct (Nat.eqb_spec j a) as [->|]; [apply B|]. destruct (Nat.eqb_spec j b) as [->|]; apply B.
  - constructor; cbn [set_out gen ngen mems]; auto. intros j n. unfold mentions. cbn. destruct (Nat.eqb_spec j k) as [->|]; [|apply B]. intros [H|H]; [discriminate|apply (B k); right; exact H].
  - constructor; cbn [alloc_log set_gen set_out set_col gen ngen mems].
    + intros j. destruct (Nat.eqb_spec j k); [lia|]. specialize (A j). lia.
    + intros j n. unfold mentions. cbn. destruct (Nat.eqb_spec j k); [|apply B]. intros [H|[[? H]|[? H]]]; discriminate.
    + intros n x H. specialize (C n x H). lia.
Qed.
Lemma lops_known K l l' : lops K l l' -> known l -> known l'.
Proof. intros H. induction H as [|x y z H _ IH]; [auto|]. intros Kn. apply IH. eapply lop_known; eassumption. Qed.
Lemma known0 : known log0.
Proof. constructor; cbn; [lia|intros k m [H|[[? H]|[? H]]]; discriminate|]. intros [|m] x []. Qed.
Notation all_step := (step all_tcbs).
Lemma new_known s p i s' : known (lg s) -> new_tcb s p = Ok (i, s') -> known (lg s').
Proof. intros H E. apply (new_step all_tcbs) in E as [E _]; [|apply all_calm]. eapply lops_known; [apply (sf_log _ _ _ E)|exact H]. Qed.
Lemma attached_known c s i fs : known (lg s) -> known (lg (attached c s i fs)).
Proof. intros H. eapply lops_known; [apply (sf_log _ _ _ (attached_step all_tcbs c s i fs eq_refl))|exact H]. Qed.
Lemma alloc_pids_known ps : forall s s', known (lg s) -> alloc_pids s ps = Ok s' -> known (lg s').
Proof. induction ps as [|p ps IH]; intros s s' H E; cbn in E; [injection E as <-; exact H|]. apply rbind_ok in E as ([i s1] & E1 & E). eapply IH; [|exact E]. eapply new_known; eassumption. Qed.
Lemma fold_bad {A B} (f : A -> B -> res B) (l : list A) : fold_left (fun r a => rbind r (f a)) l Die = Die /\ fold_left (fun r a => rbind r (f a)) l Undef = Undef.
Proof. induction l; [split; reflexivity|exact IHl]. Qed.
Lemma attach_tcb_known c s i ok tids s' : known (lg s) -> attach_tcb c s i ok tids = Ok s' -> known (lg s').
Proof.
  unfold attach_tcb. cbv zeta. intros H E. destruct ok; cbn [negb] in E.
  - revert E. match goal with |- fold_left _ _ (Ok ?x) = _ -> _ => assert (Kn : known (lg x)) by (apply attached_known; exact H); generalize dependent x end. clear H. induction tids as [|t r IH]; intros x Kn E; cbn in E; [injection E as <-; exact Kn|].
    destruct (new_tcb x t) as [[j s1]| |] eqn:E1; cbn in E; [|rewrite (proj1 (fold_bad _ _)) in E; discriminate|rewrite (proj2 (fold_bad _ _)) in E; discriminate]. eapply IH; [|exact E]. apply attached_known. eapply new_known; eassumption.
  - apply (drop_step all_tcbs) in E; [|reflexivity]. eapply lops_known; [apply (sf_log _ _ _ E)|exact H].
Qed.

Lemma attach_from_known c ans is : forall s s', known (lg s) -> attach_from c s is ans = Ok s' -> known (lg s').
Proof.
  induction is as [|i is IH]; intros s s' H E; cbn in E; [injection E as <-; exact H|]. apply rbind_ok in E as (s1 & E1 & E). eapply IH; [|exact E]. destruct (_ || _); [injection E1 as <-; exact H|eapply attach_tcb_known; eassumption].
Qed.
Lemma startup_known c ch po li ps cmd ans s : startup c (st0 ch po li) ps cmd ans = Ok s -> known (lg s).
Proof.
  unfold startup. intros E. apply rbind_ok in E as (s1 & E1 & E). apply alloc_pids_known in E1; [|exact known0]. apply rbind_ok in E as (s2 & E2 & E). eapply attach_from_known; [|exact E]. destruct cmd as [[p sec]|]; [|injection E2 as <-; exact E1].
  unfold startup_child in E2. cbv zeta in E2. apply rbind_ok in E2 as ([i s3] & E2 & E3). apply new_known in E2; [|exact E1]. injection E3 as <-. destruct sec; [change (known (lg (attached c s3 i (SKIP_DETACH_ON_FIRST_EXEC :: HIDE_LOG :: (if c_seize c then [] else [IGNORE_ONE_SIGSTOP])))))|]; apply attached_known; exact E2.
Qed.
Lemma turns_known c l : forall s s', known (lg s) -> turns c s l = Ok (true, s') -> known (lg s').
Proof.
  induction l as [|ne l IH]; intros s s' H E; cbn in E; [injection E as <-; exact H|]. apply rbind_ok in E as ([go s1] & E1 & E). destruct go; [|discriminate]. eapply IH; [|exact E]. unfold turn in E1. apply rbind_ok in E1 as ([w s2] & E1 & E2). destruct w as [wd|]; [|discriminate].
  apply (next_step all_tcbs) in E1 as [E1 _]; [|apply all_calm]. apply (dispatch_step all_tcbs) in E2; [|apply all_calm|apply all_cur|intros _ k _ j Hj; discriminate Hj]. eapply lops_known; [apply (sf_log _ _ _ E2)|]. eapply lops_known; [apply (s0_log _ _ _ E1)|exact H].
Qed.
Lemma fold_setf_facts i fs : forall s, let s' := fold_left (fun s f => setf s i f true) fs s in lg s' = lg s /\ tb s' = tb s /\ (~ In REPRINT fs -> fl s' i REPRINT = fl s i REPRINT).
Proof.
  induction fs as [|f fs IH]; intros s; cbn; [auto|]. destruct (IH (setf s i f true)) as (A & B & C). split; [exact A|]. split; [exact B|]. intros N. rewrite C by tauto. cbn. rewrite Nat.eqb_refl. destruct f; cbn; try reflexivity. exfalso. apply N. left. reflexivity.
Qed.
Lemma start_idle c s p i s1 fs : known (lg s) -> p <> 0 -> new_tcb s p = Ok (i, s1) -> ~ In REPRINT fs -> idle (if c_ff (lc c) then Own p else Shared) i (ngen (lg s)) (attached c s1 i fs).
Proof.
  intros Kn Np E NR. assert (P1 : P s1 i = p). { unfold new_tcb in E. apply rbind_ok in E as ([t j] & E1 & E). injection E as E0 <-. subst j. change (pidof t i = p). unfold alloctcb in E1. apply rbind_ok in E1 as (t1 & _ & E1). destruct (find_pid (pids t1) 0) as [j|] eqn:F; [|discriminate]. injection E1 as <- <-. apply find_pid_some in F as [F1 _]. unfold pidof. cbn [pids]. rewrite nth_set by exact F1. rewrite Nat.eqb_refl. reflexivity. }
  assert (Kn1 := new_known _ _ _ _ Kn E). assert (L1 : lg s1 = alloc_log (lg s) i /\ fl s1 i REPRINT = false). { unfold new_tcb in E. apply rbind_ok in E as ([t j] & E1 & E). injection E as E0 <-. subst j. cbn. rewrite Nat.eqb_refl. auto. } destruct L1 as [L1 R1].
  unfold attached. cbv zeta. set (s2 := setf (setf s1 i ATTACHED true) i STARTUP true). assert (A2 : lg s2 = lg s1 /\ tb s2 = tb s1 /\ fl s2 i REPRINT = fl s1 i REPRINT) by (cbn; rewrite Nat.eqb_refl; repeat split). clearbody s2. destruct (fold_setf_facts i fs s2) as (A & B & C). specialize (C NR). set (s3 := fold_left _ fs s2) in *. clearbody s3. destruct A2 as (A2 & B2 & C2).
  assert (P3 : P s3 i = p) by (unfold P; rewrite B, B2; exact P1). assert (L3 : lg s3 = alloc_log (lg s) i) by congruence. destruct Kn as [K1 K2 K3].
  constructor; cbn [lg with_lg tb fl]; rewrite ?L3.
  - change (P s3 i <> 0). rewrite P3. exact Np.
  - cbn. rewrite Nat.eqb_refl. reflexivity.
  - cbn. lia.
  - cbn. rewrite Nat.eqb_refl, P3. reflexivity.
  - cbn. rewrite !Nat.eqb_refl. reflexivity.
  - cbn. rewrite Nat.eqb_refl. reflexivity.
  - congruence.
  - intros k Hk. split; [cbn; destruct (Nat.eqb_spec k i); [contradiction|]; specialize (K1 k); lia|]. intros m Hm. unfold mentions in Hm. cbn in Hm. destruct (Nat.eqb_spec k i); [contradiction|]. cbn. split; [apply (K2 k); exact Hm|]. apply mine_none. apply Forall_forall. intros x Hx. specialize (K3 m x Hx). lia.
Qed.
