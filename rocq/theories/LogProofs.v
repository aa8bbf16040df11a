From Verif Require Import Base Printf LogModel LogSpec.
Local Open Scope N_scope.

Lemma who_eqb_refl w : who_eqb w w = true.
Proof. unfold who_eqb. rewrite Nat.eqb_refl, N.eqb_refl. reflexivity. Qed.
Lemma who_eqb_eq a b : who_eqb a b = true -> a = b.
Proof. destruct a, b. unfold who_eqb. cbn. intros H. apply andb_true_iff in H as [H1 H2]. apply Nat.eqb_eq in H1. apply N.eqb_eq in H2. congruence. Qed.
Lemma read_app l1 : forall s l2, read s (l1 ++ l2) = match read s l1 with Some s' => read s' l2 | None => None end.
Proof. induction l1 as [|x l1 IH]; intros s l2; cbn; [reflexivity|]. destruct (read1 s x); [apply IH|reflexivity]. Qed.

(** the simpler view *)
Definition line_who (l : line) : option who := match l with Start => None | Fresh w | InCall w _ | Unfinished w _ | Ended w => Some w end.
Lemma read_one_author l : forall s s', read s l = Some s' -> one_author (line_who (ln s)) l = Some (line_who (ln s')).
Proof.
  induction l as [|[w x] l IH]; intros s s' H; cbn [read] in H; [inversion H; reflexivity|].
  destruct (read1 s (w, x)) as [s1|] eqn:E; [|discriminate]. specialize (IH _ _ H). cbn [one_author].
  unfold read1 in E. cbn [fst snd] in E. destruct s as [[|w'|w' n|w' n|w'] u]; cbn [ln unf line_who] in *; destruct x; try discriminate;
    try (destruct (who_eqb w w') eqn:W; [|discriminate]); try (apply who_eqb_eq in W; subst w'); try (inversion E; subst; exact IH).
  - destruct (u (w_gen w)); [|discriminate]. destruct (beqs _ _); [|discriminate]. inversion E; subst. exact IH.
Qed.

(** ** What does not change *)
Definition frame (l l' : log) : Prop := outf l' = outf l /\ staged l' = staged l /\ gen l' = gen l /\ ngen l' = ngen l.
Lemma frame_refl l : frame l l. Proof. repeat split. Qed.
Lemma frame_trans a b c : frame a b -> frame b c -> frame a c.
Proof. unfold frame. intuition congruence. Qed.

Lemma write_frame l f x : frame l (write l f x).
Proof. destruct f; repeat split. Qed.
Lemma write_same l f x : printing (write l f x) = printing l /\ current (write l f x) = current l /\ col (write l f x) = col l.
Proof. destruct f; repeat split. Qed.

Section Shared.
Variable c : lcfg.
Hypothesis NOFF : c_ff c = false.
Variable P : nat -> N.

(** the parts of the invariant on the streams *)
Record base (l : log) (a : reader) : Prop := {
  b_staged : forall i, staged l i = None;
  b_outf : forall i, outf l i = None \/ outf l i = Some (FReal Shared);
  b_read : read reader0 (files l Shared) = Some a }.
Definition live (l : log) (i : nat) : Prop := outf l i = Some (FReal Shared).
(** [i] is writing a line *)
Record writing (l : log) (i : nat) (a : reader) : Prop := {
  wr_base : base l a; wr_live : live l i; wr_printing : printing l = Some i; wr_current : current l = Some i;
  wr_col : forall j, j <> i -> col l j = 0 }.
Record quiet (l : log) (a : reader) : Prop := { q_base : base l a; q_ln : ln a = Start; q_col : forall i, col l i = 0 }.
Record in_call (l : log) (i : nat) (n : list N) (a : reader) : Prop := {
  k_base : base l a; k_live : live l i; k_ln : ln a = InCall (author P l i) n; k_printing : printing l = Some i;
  k_col : col l i <> 0; k_cols : forall j, j <> i -> col l j = 0 }.
Definition linv (l : log) (a : reader) : Prop := quiet l a \/ exists i n, in_call l i n a.

Lemma tprint_writing l i a x a' : writing l i a -> read1 a (author P l i, x) = Some a' ->
  exists l', tprint P l x = Ok l' /\ writing l' i a' /\ frame l l' /\ col l' i = col l i + N.of_nat (length (render_tok (author P l i) x)).
Proof.
  intros W R. destruct W as [[B1 B2 B3] L Pr C Co]. unfold tprint. rewrite C. unfold put. rewrite L. cbn [rbind]. eexists. split; [reflexivity|]. split; [|split].
  - constructor; [constructor| | | |]; cbn; auto.
    + rewrite read_app, B3. cbn [read]. rewrite R. reflexivity.
    + intros j Hj. destruct (Nat.eqb_spec j i); [contradiction|]. apply Co. exact Hj.
  - repeat split.
  - cbn. rewrite Nat.eqb_refl. reflexivity.
Qed.
Lemma author_frame l l' i : frame l l' -> author P l' i = author P l i.
Proof. intros (_ & _ & H & _). unfold author. rewrite H. reflexivity. Qed.
Lemma tprints_writing xs : forall l i a a', writing l i a -> read a (map (fun x => (author P l i, x)) xs) = Some a' ->
  exists l', tprints P l xs = Ok l' /\ writing l' i a' /\ frame l l' /\
    col l' i = col l i + N.of_nat (length (render (map (fun x => (author P l i, x)) xs))).
Proof.
  induction xs as [|x xs IH]; intros l i a a' W R.
  - cbn in R. inversion R; subst. exists l. split; [reflexivity|]. split; [exact W|]. split; [apply frame_refl|]. cbn. lia.
  - cbn [map read] in R. destruct (read1 a (author P l i, x)) as [a1|] eqn:E; [|discriminate].
    destruct (tprint_writing l i a x a1 W E) as (l1 & E1 & W1 & F1 & C1). cbn [tprints]. rewrite E1. cbn [rbind].
    destruct (IH l1 i a1 a' W1) as (l2 & E2 & W2 & F2 & C2); [rewrite (author_frame l l1 i F1); exact R|].
    exists l2. split; [exact E2|]. split; [exact W2|]. split; [eapply frame_trans; eassumption|].
    rewrite C2, C1, (author_frame l l1 i F1). unfold render. cbn [map concat fst snd]. rewrite app_length. lia.
Qed.

Definition no_resume (a : reader) (w : who) : reader := {| ln := ln a; unf := set_unf (unf a) w None |}.
(** what printleader leaves behind *)
Definition after_lead (a : reader) (w : who) : reader :=
  {| ln := Fresh w; unf := match ln a with InCall w' n => set_unf (unf a) w' (Some n) | _ => unf a end |}.

Lemma close_line l j n a : in_call l j n a ->
  exists l', tprints P (set_current l (Some j)) [Unfin; Nl []] = Ok l' /\ frame l l' /\ base l' {| ln := Start; unf := set_unf (unf a) (author P l j) (Some n) |} /\
    printing l' = Some j /\ current l' = Some j /\ forall k, k <> j -> col l' k = 0.
Proof.
  intros [B L K Pr Co Cs].
  assert (W : writing (set_current l (Some j)) j a) by (constructor; cbn; auto; destruct B; constructor; auto).
  destruct (tprints_writing [Unfin; Nl []] _ j a {| ln := Start; unf := set_unf (unf a) (author P l j) (Some n) |} W) as (l' & E & [W1 W2 W3 W4 W5] & F & _).
  { cbn [map read]. change (author P (set_current l (Some j)) j) with (author P l j). unfold read1. rewrite K. cbn [fst snd].
    rewrite who_eqb_refl. cbn [ln unf fst snd]. rewrite who_eqb_refl. reflexivity. }
  exists l'. split; [exact E|]. split; [exact F|]. auto.
Qed.

Lemma printleader_ok np l i a : linv l a -> live l i ->
  exists l', printleader P c np l i = Ok l' /\ writing l' i (after_lead a (author P l i)) /\ frame l l'.
Proof.
  intros I L. unfold printleader. rewrite NOFF.
  (* first: a possibly open line is ended *)
  assert (X : exists l1, match printing l with
            | Some j =>
                if negb (col l j =? 0) && (Nat.eqb j i || (negb false && match staged l j with None => true | Some _ => false end))
                then rlet l := tprints P (set_current l (Some j)) [Unfin; Nl []] in Ok (set_col l j 0)
                else Ok l
            | None => Ok l
            end = Ok l1 /\ frame l l1 /\ (forall k, col l1 k = 0) /\
            base l1 {| ln := Start; unf := match ln a with InCall w' n => set_unf (unf a) w' (Some n) | _ => unf a end |}).
  { destruct I as [[B K Co]|(j & n & I)].
    - exists l. split; [destruct (printing l) as [j|]; [rewrite Co|]; reflexivity|]. split; [apply frame_refl|]. split; [exact Co|]. rewrite K. destruct B as [B1 B2 B3]. constructor; auto. rewrite B3. destruct a; cbn in *. subst; reflexivity.
    - pose proof I as [B L' K Pr Co Cs]. rewrite Pr. replace (col l j =? 0) with false by (symmetry; apply N.eqb_neq; exact Co).
      destruct B as [B1 B2 B3]. rewrite B1. rewrite orb_true_r. cbn [negb andb].
      destruct (close_line l j n a I) as (l' & E & F & B' & Pr' & Cu' & Cs'). rewrite E. cbn [rbind]. eexists. split; [reflexivity|]. split; [exact F|]. split.
      + intros k. cbn. destruct (Nat.eqb_spec k j) as [->|Hk]; [reflexivity|]. apply Cs'. exact Hk.
      + rewrite K. destruct B' as [X1 X2 X3]. constructor; cbn; auto. }
  destruct X as (l1 & E & F & Co & B). rewrite E. cbn [rbind].
  assert (W : writing (set_col (set_current (set_printing l1 (Some i)) (Some i)) i 0) i {| ln := Start; unf := match ln a with InCall w' n => set_unf (unf a) w' (Some n) | _ => unf a end |}).
  { destruct B as [X1 X2 X3]. constructor; cbn; auto.
    - constructor; cbn; auto.
    - unfold live in *. destruct F as (F1 & _). cbn. rewrite F1. exact L.
    - intros j Hj. destruct (Nat.eqb j i); auto. }
  destruct (tprint_writing _ i _ (Lead (c_pfx c || ((1 <? np) && negb (c_named c)))) (after_lead a (author P l i)) W) as (l2 & E2 & W2 & F2 & _).
  { cbn. f_equal. unfold after_lead. f_equal. f_equal. unfold author. cbn. destruct F as (_ & _ & -> & _). reflexivity. }
  exists l2. split; [exact E2|]. split; [exact W2|]. eapply frame_trans; [exact F|]. exact F2.
Qed.

Lemma line_ended_quiet l i a : writing l i a -> ln a = Start -> quiet (line_ended l) a /\ frame l (line_ended l) /\ current (line_ended l) = Some i /\ printing (line_ended l) = None.
Proof.
  intros [[B1 B2 B3] L Pr C Co] K. unfold line_ended. rewrite C. cbn. rewrite Pr. split; [|split; [repeat split|split; [cbn; exact C|reflexivity]]].
  constructor; cbn; auto; [constructor; cbn; auto|]. intros j. destruct (Nat.eqb_spec j i); [reflexivity|]. auto.
Qed.
Lemma writing_in_call l i n a : writing l i a -> ln a = InCall (author P l i) n -> col l i <> 0 -> in_call l i n a.
Proof. intros [B L Pr C Co] K X. constructor; auto. Qed.
Lemma in_call_writing l i n a : in_call l i n a -> current l = Some i -> writing l i a.
Proof. intros [B L K Pr Co Cs] X. constructor; auto. Qed.

(** [n] is the call that the log shows [k] to be in *)
Definition has (l : log) (a : reader) (k : nat) (n : list N) : Prop :=
  in_call l k n a \/ ((forall m, ~ in_call l k m a) /\ unf a (gen l k) = Some n).
Definition gens_ok (l : log) : Prop := forall k j, live l k -> live l j -> gen l k = gen l j -> k = j.
(** the calls of other tracees than [i] are left unfinished, if they are not already *)
Definition keeps (l : log) (a : reader) (i : nat) (a' : reader) : Prop :=
  forall k n, k <> i -> live l k -> has l a k n -> unf a' (gen l k) = Some n.

Lemma in_call_unique l j m k n a : in_call l j m a -> in_call l k n a -> j = k /\ m = n.
Proof. intros K K'. pose proof (k_printing _ _ _ _ K). pose proof (k_printing _ _ _ _ K'). pose proof (k_ln _ _ _ _ K). pose proof (k_ln _ _ _ _ K'). split; congruence. Qed.
Lemma in_call_dec l a i : linv l a -> (exists m, in_call l i m a) \/ (forall m, ~ in_call l i m a).
Proof.
  intros [[? X ?]|(j & m & K)]; [right; intros m [? ? Y ? ? ?]; congruence|]. destruct (Nat.eq_dec j i) as [->|NE]; [left; eauto|]. right. intros m' K'. apply NE. apply (in_call_unique _ _ _ _ _ _ K K').
Qed.
Lemma after_lead_has l a w k n : gens_ok l -> linv l a -> live l k -> has l a k n -> unf (after_lead a w) (gen l k) = Some n.
Proof.
  intros G I L [K|[NI U]]; unfold after_lead; cbn [unf].
  - rewrite (k_ln _ _ _ _ K). unfold set_unf. cbn. rewrite Nat.eqb_refl. reflexivity.
  - destruct I as [Q|(j & m & K)]; [rewrite (q_ln _ _ Q); exact U|]. rewrite (k_ln _ _ _ _ K). unfold set_unf. cbn. destruct (Nat.eqb_spec (gen l k) (gen l j)) as [E|NE]; [|exact U].
    apply (G _ _ L (k_live _ _ _ _ K)) in E. subst j. destruct (NI _ K).
Qed.
Lemma set_unf_other f w v g : g <> w_gen w -> set_unf f w v g = f g.
Proof. intros H. unfold set_unf. apply Nat.eqb_neq in H as ->. reflexivity. Qed.
Lemma keeps_lead l a i : gens_ok l -> linv l a -> keeps l a i (after_lead a (author P l i)).
Proof. intros G I k n NE L H. apply after_lead_has; assumption. Qed.
Lemma keeps_set l a i f v x : gens_ok l -> live l i -> keeps l a i {| ln := x; unf := f |} -> forall y, keeps l a i {| ln := y; unf := set_unf f (author P l i) v |}.
Proof. intros G L K y k n NE Lk H. cbn [unf]. rewrite set_unf_other; [exact (K k n NE Lk H)|]. cbn. intros E. apply NE. apply G; assumption. Qed.
Lemma keeps_ln l a i f x y : keeps l a i {| ln := x; unf := f |} -> keeps l a i {| ln := y; unf := f |}.
Proof. intros K k n NE Lk H. exact (K k n NE Lk H). Qed.

(** a message line *)
Lemma msg_line_ok np l i a s x : gens_ok l -> linv l a -> live l i ->
  exists l' a', msg_line P c np l i s x = Ok l' /\ quiet l' a' /\ frame l l' /\ current l' = Some i /\ printing l' = None /\ keeps l a i a' /\ (forall n, has l a i n -> unf a' (gen l i) = Some n).
Proof.
  intros G I L. destruct (printleader_ok np l i a I L) as (l1 & E1 & W1 & F1). unfold msg_line. rewrite E1. cbn [rbind].
  destruct (tprints_writing [Msg s; Nl x] l1 i _ {| ln := Start; unf := unf (after_lead a (author P l i)) |} W1) as (l2 & E2 & W2 & F2 & _).
  { rewrite (author_frame l l1 i F1). cbn [map read read1 after_lead fst snd ln unf]. rewrite who_eqb_refl. cbn [ln]. unfold read1. cbn [fst snd ln unf]. rewrite who_eqb_refl. reflexivity. }
  rewrite E2. cbn [rbind]. destruct (line_ended_quiet l2 i _ W2 eq_refl) as (Q & F3 & C & PN). do 2 eexists. split; [reflexivity|]. split; [exact Q|]. split; [|split; [exact C|split; [exact PN|split]]].
  - eapply frame_trans; [|exact F3]. eapply frame_trans; eassumption.
  - exact (keeps_lead l a i G I).
  - intros n H. apply (after_lead_has l a (author P l i) i n G I L H).
Qed.
(** the entry of a call *)
Lemma entry_ok np l i a n ts : gens_ok l -> linv l a -> live l i -> (ts = [] \/ exists s, ts = [Txt s]) ->
  exists l' a', (rlet l := printleader P c np l i in tprints P l (Entry n :: ts)) = Ok l' /\ frame l l' /\ current l' = Some i /\ in_call l' i n a' /\ keeps l a i a'.
Proof.
  intros G I L T. destruct (printleader_ok np l i a I L) as (l1 & E1 & W1 & F1). rewrite E1. cbn [rbind].
  destruct (tprints_writing (Entry n :: ts) l1 i _ {| ln := InCall (author P l i) n; unf := set_unf (unf (after_lead a (author P l i))) (author P l i) None |} W1) as (l2 & E2 & W2 & F2 & C2).
  { rewrite (author_frame l l1 i F1). cbn [map read read1 after_lead fst snd ln unf]. rewrite who_eqb_refl. destruct T as [->|[s ->]]; cbn [map read]; [reflexivity|].
    unfold read1. cbn [fst snd ln unf]. rewrite who_eqb_refl. reflexivity. }
  exists l2. eexists. split; [exact E2|]. assert (F : frame l l2) by (eapply frame_trans; eassumption). split; [exact F|]. split; [exact (wr_current _ _ _ W2)|]. split.
  - apply writing_in_call; [exact W2|cbn; rewrite (author_frame l l2 i F); reflexivity|].
    rewrite C2. unfold render. cbn [map concat fst snd render_tok]. rewrite !app_length. change (length (bs "(")) with 1%nat. clear. lia.
  - apply (keeps_set _ _ _ _ _ (Fresh (author P l i)) G L). exact (keeps_lead l a i G I).
Qed.

(** print_syscall_resume: continue the line or start one with "resumed" *)
Lemma resume_line np l i a n : linv l a -> live l i -> unf (after_lead a (author P l i)) (gen l i) = Some n ->
  exists l', (rlet l := printleader P c np l i in tprint P l (Resumed n)) = Ok l' /\ frame l l' /\ col l' i <> 0 /\
    writing l' i {| ln := InCall (author P l i) n; unf := set_unf (unf (after_lead a (author P l i))) (author P l i) None |}.
Proof.
  intros I L HU. destruct (printleader_ok np l i a I L) as (l1 & E1 & W1 & F1). rewrite E1. cbn [rbind].
  destruct (tprint_writing l1 i _ (Resumed n) {| ln := InCall (author P l i) n; unf := set_unf (unf (after_lead a (author P l i))) (author P l i) None |} W1) as (l2 & E2 & W2 & F2 & C2).
  { rewrite (author_frame l l1 i F1). unfold read1. cbn [fst snd]. change (ln (after_lead a (author P l i))) with (Fresh (author P l i)). cbv iota. rewrite who_eqb_refl.
    change (w_gen (author P l i)) with (gen l i). rewrite HU, beqs_refl. reflexivity. }
  exists l2. split; [exact E2|]. split; [eapply frame_trans; eassumption|]. split; [|exact W2]. rewrite C2. cbn [render_tok]. rewrite app_length. change (length (bs "<... ")) with 5%nat. clear. lia.
Qed.
Lemma writing_printing l i a : writing l i a -> writing (set_printing l (Some i)) i a.
Proof. intros [[X1 X2 X3] X4 X5 X6 X7]. constructor; cbn; auto. constructor; auto. Qed.
Lemma resume_ok np l i a rp n : gens_ok l -> linv l a -> live l i -> current l = Some i -> has l a i n -> (ln a = Start -> printing l = Some i -> rp = true) ->
  exists r l' a', print_syscall_resume P c np l i rp n = Ok (r, l') /\ frame l l' /\ writing l' i a' /\ ln a' = InCall (author P l i) n /\ keeps l a i a'.
Proof.
  intros G I L C H RP. unfold print_syscall_resume. rewrite NOFF.
  assert (ST : staged l i = None) by (destruct I as [[B ? ?]|(? & ? & [B ? ? ? ? ?])]; apply (b_staged _ _ B)). rewrite ST.
  destruct (resume_line np l i a n I L (after_lead_has l a _ i n G I L H)) as (l1 & E & F & K & W).
  assert (RES : exists r l' a', (rlet l := (rlet l := printleader P c np l i in tprint P l (Resumed n)) in Ok (true, set_printing l (Some i))) = Ok (r, l') /\
     frame l l' /\ writing l' i a' /\ ln a' = InCall (author P l i) n /\ keeps l a i a').
  { rewrite E. cbn [rbind]. do 3 eexists. split; [reflexivity|]. split; [exact F|]. split; [apply writing_printing; exact W|]. split; [reflexivity|].
    apply (keeps_set _ _ _ _ _ (Fresh (author P l i)) G L). exact (keeps_lead l a i G I). }
  destruct H as [K0|[NI U]].
  - pose proof K0 as [B L' Kn Pr Co Cs]. rewrite Pr, Nat.eqb_refl. cbn [negb andb orb]. destruct rp; [exact RES|].
    cbn [rbind]. do 3 eexists. split; [reflexivity|]. split; [repeat split|]. split; [apply writing_printing, (in_call_writing _ _ _ _ K0 C)|]. split; [exact Kn|].
    intros k m NE Lk [K1|[NI U]]; [|exact U]. destruct (in_call_unique _ _ _ _ _ _ K0 K1) as [-> ->]. congruence.
  - destruct rp; [rewrite orb_true_r; exact RES|].
    assert (X : match printing l with Some j => Nat.eqb j i | None => false end = false).
    { destruct I as [[? Y ?]|(j & m & K0)].
      - specialize (RP Y). destruct (printing l) as [j|]; [|reflexivity]. apply Nat.eqb_neq. intros ->. specialize (RP eq_refl). discriminate.
      - rewrite (k_printing _ _ _ _ K0). apply Nat.eqb_neq. intros ->. exact (NI _ K0). }
    rewrite X. cbn [negb andb orb]. exact RES.
Qed.

(** the end of a call *)
Lemma ret_ok l i a n ts s x : writing l i a -> ln a = InCall (author P l i) n -> (ts = [] \/ exists t, ts = [Txt t]) ->
  exists l', tprints P l (ts ++ [Ret s; Nl x]) = Ok l' /\ frame l l' /\ quiet (line_ended l') {| ln := Start; unf := unf a |} /\ current (line_ended l') = Some i /\ printing (line_ended l') = None.
Proof.
  intros W K T. destruct (tprints_writing (ts ++ [Ret s; Nl x]) l i a {| ln := Start; unf := unf a |} W) as (l1 & E1 & W1 & F1 & _).
  { rewrite map_app, read_app. assert (R : read a (map (fun t => (author P l i, t)) ts) = Some {| ln := InCall (author P l i) n; unf := unf a |}).
    { destruct T as [->|[t ->]]; cbn [map read].
      - destruct a; cbn in *; subst; reflexivity.
      - unfold read1. rewrite K. cbn [fst snd]. rewrite who_eqb_refl. reflexivity. }
    rewrite R. cbn [map read]. unfold read1. cbn [fst snd ln unf]. rewrite who_eqb_refl. cbn [ln unf fst snd]. rewrite who_eqb_refl. reflexivity. }
  exists l1. split; [exact E1|]. split; [exact F1|]. destruct (line_ended_quiet l1 i _ W1 eq_refl) as (X1 & _ & X2 & X3). auto.
Qed.
(** "Cannot restart" on the open line of [i] *)
Lemma norestart_ok l i a n s : gens_ok l -> in_call l i n a -> current l = Some i ->
  exists l' a', tprints P l [NoRestart s; Nl []] = Ok l' /\ frame l l' /\ quiet (line_ended l') a' /\ current (line_ended l') = Some i /\ printing (line_ended l') = None /\ keeps l a i a' /\ unf a' (gen l i) = Some n.
Proof.
  intros G K C. pose proof (in_call_writing _ _ _ _ K C) as W. destruct (tprints_writing [NoRestart s; Nl []] l i a {| ln := Start; unf := set_unf (unf a) (author P l i) (Some n) |} W) as (l1 & E1 & W1 & F1 & _).
  { cbn [map read]. unfold read1. rewrite (k_ln _ _ _ _ K). cbn [fst snd ln unf]. rewrite who_eqb_refl. cbn [ln unf fst snd]. rewrite who_eqb_refl. reflexivity. }
  exists l1. eexists. split; [exact E1|]. split; [exact F1|]. destruct (line_ended_quiet l1 i _ W1 eq_refl) as (X1 & _ & X2 & X3). split; [exact X1|]. split; [exact X2|]. split; [exact X3|]. split.
  - apply (keeps_set _ _ _ _ _ (ln a) G (k_live _ _ _ _ K)). intros k m NE Lk [K1|[NI U]]; [|exact U]. destruct (in_call_unique _ _ _ _ _ _ K K1) as [-> ->]. congruence.
  - cbn [unf]. unfold set_unf. cbn. rewrite Nat.eqb_refl. reflexivity.
Qed.

(** the exit of a tracee in a call *)
Lemma print_event_exit_ok np l i a rp d n : c_all c = true -> gens_ok l -> linv l a -> live l i -> current l = Some i -> has l a i n -> (ln a = Start -> printing l = Some i -> rp = true) ->
  exists r l' a', print_event_exit P c np l i rp d n = Ok (r, l') /\ frame l l' /\ quiet l' a' /\ current l' = Some i /\ printing l' = None /\ keeps l a i a' /\ unf a' (gen l i) = Some n.
Proof.
  intros ALL G I L C H RP. unfold print_event_exit. rewrite NOFF, ALL. cbn [negb andb].
  (* the rest, once the call is on the current line *)
  assert (REST : forall l1 a1 (r : bool), frame l l1 -> writing l1 i a1 -> ln a1 = InCall (author P l i) n -> keeps l a i a1 ->
     exists r' l' a', (rlet l := (if d then Ok l1 else tprint P l1 Unfin) in rlet l := tprints P l [RetUnknown; Nl []] in rlet l := Ok l in Ok (r, line_ended l)) = Ok (r', l') /\
       frame l l' /\ quiet l' a' /\ current l' = Some i /\ printing l' = None /\ keeps l a i a' /\ unf a' (gen l i) = Some n).
  { intros l1 a1 r F W K Ke.
    assert (Y : exists l2 a2, (if d then Ok l1 else tprint P l1 Unfin) = Ok l2 /\ frame l1 l2 /\ writing l2 i a2 /\ (ln a2 = InCall (author P l i) n \/ ln a2 = Unfinished (author P l i) n) /\ unf a2 = unf a1).
    { destruct d; [exists l1, a1; split; [reflexivity|]; split; [apply frame_refl|]; split; [exact W|]; split; [left; exact K|reflexivity]|].
      destruct (tprint_writing l1 i _ Unfin {| ln := Unfinished (author P l i) n; unf := unf a1 |} W) as (l2 & E2 & W2 & F2 & _).
      { rewrite (author_frame l l1 i F). unfold read1. rewrite K. cbn [fst snd ln unf]. rewrite who_eqb_refl. reflexivity. }
      exists l2. eexists. split; [exact E2|]. split; [exact F2|]. split; [exact W2|]. split; [right; reflexivity|reflexivity]. }
    destruct Y as (l2 & a2 & E2 & F2 & W2 & K2 & U2). rewrite E2. cbn [rbind].
    destruct (tprints_writing [RetUnknown; Nl []] l2 i a2 {| ln := Start; unf := set_unf (unf a1) (author P l i) (Some n) |} W2) as (l3 & E3 & W3 & F3 & _).
    { rewrite (author_frame l1 l2 i F2), (author_frame l l1 i F). cbn [map read]. unfold read1. destruct K2 as [->| ->]; cbn [fst snd ln unf]; rewrite who_eqb_refl; cbn [ln unf fst snd]; rewrite who_eqb_refl, U2; reflexivity. }
    rewrite E3. cbn [rbind]. destruct (line_ended_quiet l3 i _ W3 eq_refl) as (Q & F4 & C4 & P4). do 3 eexists. split; [reflexivity|]. split; [|split; [exact Q|split; [exact C4|split; [exact P4|split]]]].
    - eapply frame_trans; [exact F|]. eapply frame_trans; [exact F2|]. eapply frame_trans; eassumption.
    - apply (keeps_set _ _ _ _ _ (ln a1) G L). destruct a1; exact Ke.
    - cbn [unf]. unfold set_unf. cbn. rewrite Nat.eqb_refl. reflexivity. }
  assert (DIRECT : exists r' l' a', (rlet (r, l0) := print_syscall_resume P c np l i rp n in rlet l1 := (if d then Ok l0 else tprint P l0 Unfin) in rlet l2 := tprints P l1 [RetUnknown; Nl []] in rlet l3 := Ok l2 in Ok (r, line_ended l3)) = Ok (r', l') /\
       frame l l' /\ quiet l' a' /\ current l' = Some i /\ printing l' = None /\ keeps l a i a' /\ unf a' (gen l i) = Some n).
  { destruct (resume_ok np l i a rp n G I L C H RP) as (r & l1 & a1 & E1 & F1 & W1 & K1 & Ke). rewrite E1. cbn [rbind]. exact (REST l1 a1 r F1 W1 K1 Ke). }
  destruct I as [Q|(j & m & K)].
  - assert (X : match printing l with Some j => if negb (Nat.eqb j i) && negb (col l j =? 0) && match staged l j with None => true | Some _ => false end then rlet l := tprints P (set_current l (Some j)) [Unfin; Nl []] in Ok (set_current (set_col l j 0) (Some i)) else Ok l | None => Ok l end = Ok l).
    { destruct (printing l) as [j|]; [|reflexivity]. rewrite (q_col _ _ Q), andb_false_r. reflexivity. }
    rewrite X. exact DIRECT.
  - rewrite (k_printing _ _ _ _ K). destruct (Nat.eqb_spec j i) as [->|NE]; [exact DIRECT|].
    cbn [negb andb]. replace (col l j =? 0) with false by (symmetry; apply N.eqb_neq, (k_col _ _ _ _ K)). rewrite (b_staged _ _ (k_base _ _ _ _ K) j). cbn [negb andb].
    destruct (close_line l j m a K) as (l0 & E0 & F0 & B0 & Pr0 & Cu0 & Co0). rewrite E0. cbn [rbind].
    set (l1 := set_current (set_col l0 j 0) (Some i)). set (a1 := {| ln := Start; unf := set_unf (unf a) (author P l j) (Some m) |}) in *.
    assert (Q1 : quiet l1 a1).
    { constructor; [destruct B0; constructor; auto|reflexivity|]. intros k. cbn. destruct (Nat.eqb_spec k j); [reflexivity|]. apply Co0. assumption. }
    assert (F1 : frame l l1) by exact F0.
    assert (I : linv l a) by (right; eauto).
    assert (A1 : forall w, unf (after_lead a1 w) = unf (after_lead a w)) by (intros w; unfold after_lead; cbn [unf ln a1]; rewrite (k_ln _ _ _ _ K); reflexivity).
    unfold print_syscall_resume. rewrite NOFF.
    replace (match printing l1 with Some j0 => Nat.eqb j0 i | None => false end) with false by (cbn; rewrite Pr0; symmetry; apply Nat.eqb_neq; exact NE).
    replace (staged l1 i) with (@None (nat * option fd)) by (symmetry; cbn; destruct F0 as (_ & -> & _); apply (b_staged _ _ (k_base _ _ _ _ K))). cbn [negb andb orb].
    destruct (resume_line np l1 i a1 n (or_introl Q1)) as (l2 & E2 & F2 & _ & W2).
    { unfold live. destruct F1 as (-> & _). exact L. }
    { rewrite A1, (author_frame l l1 i F1). destruct F1 as (_ & _ & -> & _). apply after_lead_has; assumption. }
    rewrite E2. cbn [rbind]. rewrite (author_frame l l1 i F1) in W2. apply writing_printing in W2.
    assert (F12 : frame l (set_printing l2 (Some i))) by exact (frame_trans _ _ _ F1 F2).
    apply (REST _ _ true F12 W2); [reflexivity|]. apply (keeps_set _ _ _ _ _ (ln a1) G L). rewrite A1. exact (keeps_lead l a i G I).
Qed.

(** droptcb: the open line of the tracee is ended *)
Lemma drop_log_ok l i a : c_all c = true -> gens_ok l -> linv l a -> live l i \/ outf l i = None ->
  exists l' a', drop_log P c l i = Ok l' /\ linv l' a' /\ (forall k, outf l' k = if Nat.eqb k i then None else outf l k) /\ gen l' = gen l /\ ngen l' = ngen l /\
    current l' = (match current l with Some j => if Nat.eqb j i then None else current l | None => None end) /\
    printing l' = (match printing l with Some j => if Nat.eqb j i then None else printing l | None => None end) /\ (forall m, ~ in_call l' i m a') /\
    (ln a' = Start -> ln a = Start \/ printing l' = None) /\ (forall k m, in_call l' k m a' -> in_call l k m a) /\
    (forall k n, k <> i -> has l a k n -> has l' a' k n).
Proof.
  intros ALL G I L. unfold drop_log. rewrite ALL, NOFF. cbn [rbind andb orb].
  assert (DEAD : outf l i = None -> forall m, ~ in_call l i m a) by (intros O m [? X ? ? ? ?]; unfold live in X; congruence).
  (* nothing of [i] is open *)
  assert (NONE : (forall m, ~ in_call l i m a) -> exists l' a', Ok (set_out (set_col (match printing (match current l with Some j => if Nat.eqb j i then set_current l None else l | None => l end) with Some j => if Nat.eqb j i then set_printing (match current l with Some j => if Nat.eqb j i then set_current l None else l | None => l end) None else (match current l with Some j => if Nat.eqb j i then set_current l None else l | None => l end) | None => (match current l with Some j => if Nat.eqb j i then set_current l None else l | None => l end) end) i 0) i None None) = Ok l' /\
    linv l' a' /\ (forall k, outf l' k = if Nat.eqb k i then None else outf l k) /\ gen l' = gen l /\ ngen l' = ngen l /\
    current l' = (match current l with Some j => if Nat.eqb j i then None else current l | None => None end) /\
    printing l' = (match printing l with Some j => if Nat.eqb j i then None else printing l | None => None end) /\ (forall m, ~ in_call l' i m a') /\
    (ln a' = Start -> ln a = Start \/ printing l' = None) /\ (forall k m, in_call l' k m a' -> in_call l k m a) /\
    (forall k n, k <> i -> has l a k n -> has l' a' k n)).
  { intros NI. set (lc := match current l with Some j => if Nat.eqb j i then set_current l None else l | None => l end).
    assert (LC : printing lc = printing l /\ col lc = col l /\ outf lc = outf l /\ staged lc = staged l /\ files lc = files l /\ gen lc = gen l /\ ngen lc = ngen l /\ current lc = (match current l with Some j => if Nat.eqb j i then None else current l | None => None end)).
    { unfold lc. destruct (current l) as [j|] eqn:E; [destruct (Nat.eqb j i)|]; repeat split; auto. }
    destruct LC as (P1 & P2 & P3 & P4 & P5 & P6 & P7 & P8). clearbody lc. rewrite P1.
    set (lp := match printing l with Some j => if Nat.eqb j i then set_printing lc None else lc | None => lc end).
    assert (LP : col lp = col l /\ outf lp = outf l /\ staged lp = staged l /\ files lp = files l /\ gen lp = gen l /\ ngen lp = ngen l /\ current lp = current lc /\
      printing lp = (match printing l with Some j => if Nat.eqb j i then None else printing l | None => None end)).
    { unfold lp. destruct (printing l) as [j|] eqn:E; [destruct (Nat.eqb j i)|]; repeat split; auto. }
    clearbody lp. destruct LP as (R2 & R3 & R4 & R5 & R6 & R7 & R8 & R1). rewrite P8 in R8. clear P1 P2 P3 P4 P5 P6 P7 P8 lc.
    rename R2 into P2, R3 into P3, R4 into P4, R5 into P5, R6 into P6, R7 into P7, R8 into P8, R1 into P1, lp into lc.
    do 2 eexists. split; [reflexivity|].
    assert (B : base (set_out (set_col lc i 0) i None None) a).
    { assert (B0 : base l a) by (destruct I as [[B ? ?]|(? & ? & [B ? ? ? ? ?])]; exact B). destruct B0 as [X1 X2 X3]. constructor; cbn; intros.
      - rewrite P4. destruct (Nat.eqb i0 i); auto.
      - rewrite P3. destruct (Nat.eqb i0 i); auto.
      - rewrite P5. exact X3. }
    assert (CK : forall k m, k <> i -> in_call l k m a -> in_call (set_out (set_col lc i 0) i None None) k m a).
    { intros k m NE [X1 X2 X3 X4 X5 X6]. constructor; [exact B| | | | |]; unfold live in *; cbn; try rewrite P3; try rewrite P2; try rewrite P1; auto.
      - destruct (Nat.eqb_spec k i); [contradiction|exact X2].
      - rewrite X3. unfold author. cbn. rewrite P6. reflexivity.
      - rewrite X4. destruct (Nat.eqb_spec k i); [contradiction|reflexivity].
      - destruct (Nat.eqb_spec k i); [contradiction|exact X5].
      - intros j Hj. destruct (Nat.eqb j i); auto. }
    assert (CK' : forall k m, in_call (set_out (set_col lc i 0) i None None) k m a -> k <> i /\ in_call l k m a).
    { intros k m [X1 X2 X3 X4 X5 X6]. assert (NE : k <> i) by (intros ->; unfold live in X2; cbn in X2; rewrite Nat.eqb_refl in X2; discriminate). split; [exact NE|].
      unfold live in X2. cbn in *. rewrite P1 in X4. rewrite P2, P3 in *. replace (Nat.eqb k i) with false in * by (symmetry; apply Nat.eqb_neq; exact NE). constructor; auto.
      - destruct I as [[B0 ? ?]|(? & ? & [B0 ? ? ? ? ?])]; exact B0.
      - rewrite X3. unfold author. cbn. rewrite P6. reflexivity.
      - destruct (printing l) as [j|]; [destruct (Nat.eqb j i)|]; congruence.
      - intros j Hj. destruct I as [Q|(j' & m' & K)]; [apply (q_col _ _ Q)|]. apply (k_cols _ _ _ _ K). intros ->. rewrite (k_printing _ _ _ _ K) in X4. destruct (Nat.eqb j' i); congruence. }
    split; [|split; [|split; [|split; [|split; [|split; [|split; [|split; [|split]]]]]]]].
    - destruct I as [[X1 X2 X4]|(j & m & K)].
      + left. constructor; [exact B|exact X2|]. intros k. cbn. rewrite P2. destruct (Nat.eqb k i); auto.
      + right. exists j, m. apply CK; [intros ->; exact (NI _ K)|exact K].
    - cbn. intros k. rewrite P3. reflexivity.
    - exact P6.
    - exact P7.
    - exact P8.
    - exact P1.
    - intros m K. destruct (CK' _ _ K). congruence.
    - intros X. left. exact X.
    - intros k m K. apply (CK' _ _ K).
    - intros k n NE [K|[NK U]]; [left; apply CK; assumption|]. right. split; [intros m K; apply (NK m), (CK' _ _ K)|]. cbn. rewrite P6. exact U. }
  destruct (in_call_dec l a i I) as [[m K]|NI].
  - (* the open line *)
    pose proof K as [[X1 X2 X3] KL KN KP KC KO]. rewrite KL. unfold live in KL. replace (col l i =? 0) with false by (symmetry; apply N.eqb_neq; exact KC). rewrite KP, Nat.eqb_refl. cbn [negb andb orb rbind].
    unfold put at 1. rewrite KL. cbn [rbind]. unfold put. cbn [write outf]. rewrite KL. cbn [rbind].
    do 2 eexists. split; [reflexivity|].
    set (lc := write _ _ _).
    assert (LC : printing lc = Some i /\ col lc = col l /\ outf lc = outf l /\ staged lc = staged l /\ gen lc = gen l /\ ngen lc = ngen l /\ current lc = current l).
    { repeat split; exact KP. }
    assert (RD : read reader0 (files lc Shared) = Some {| ln := Start; unf := unf a |}).
    { cbn. rewrite !read_app, X3. cbn [read]. unfold read1. rewrite KN. cbn [fst snd ln unf]. change (author P (write l (FReal Shared) [(author P l i, Detached)]) i) with (author P l i). rewrite who_eqb_refl. cbn [ln unf fst snd read]. rewrite who_eqb_refl. reflexivity. }
    destruct LC as (P1 & P2 & P3 & P4 & P6 & P7 & P8). clearbody lc.
    set (lcc := match current lc with Some j => if Nat.eqb j i then set_current lc None else lc | None => lc end).
    assert (LCC : printing lcc = Some i /\ col lcc = col l /\ outf lcc = outf l /\ staged lcc = staged l /\ gen lcc = gen l /\ ngen lcc = ngen l /\ files lcc = files lc /\ current lcc = (match current l with Some j => if Nat.eqb j i then None else current l | None => None end)).
    { unfold lcc. rewrite P8. destruct (current l) as [j|] eqn:E; [destruct (Nat.eqb j i)|]; repeat split; auto. }
    destruct LCC as (Q1 & Q2 & Q3 & Q4 & Q6 & Q7 & Q8 & Q9). clearbody lcc. rewrite Q1, Nat.eqb_refl.
    assert (QQ : quiet (set_out (set_col (set_printing lcc None) i 0) i None None) {| ln := Start; unf := unf a |}).
    { constructor; cbn; auto.
      - constructor; cbn; intros; [rewrite Q4; destruct (Nat.eqb i0 i); auto|rewrite Q3; destruct (Nat.eqb i0 i); auto|rewrite Q8; exact RD].
      - intros k. rewrite Q2. destruct (Nat.eqb_spec k i); [reflexivity|]. auto. }
    split; [left; exact QQ|]. split; [intros k; cbn; rewrite Q3; reflexivity|]. split; [exact Q6|]. split; [exact Q7|]. split; [exact Q9|]. split; [reflexivity|]. split.
    + intros m' [? ? X ? ? ?]. cbn in X. discriminate.
    + split; [intros _; right; reflexivity|]. split; [intros k m' [? ? X ? ? ?]; cbn in X; discriminate|].
      intros k n NE [K'|[NK U]]; [destruct (in_call_unique _ _ _ _ _ _ K K'); congruence|]. right. split; [intros m' [? ? X ? ? ?]; cbn in X; discriminate|]. cbn. rewrite Q6. exact U.
  - destruct (outf l i) as [f|] eqn:O.
    + assert (Z : negb (col l i =? 0) && match printing l with Some j => Nat.eqb j i | None => false end = false).
      { destruct I as [Q|(j & m & K)]; [rewrite (q_col _ _ Q); reflexivity|]. rewrite (k_printing _ _ _ _ K). destruct (Nat.eqb_spec j i) as [->|]; [destruct (NI _ K)|apply andb_false_r]. }
      rewrite Z. cbn [rbind]. exact (NONE NI).
    + cbn [rbind]. exact (NONE NI).
Qed.

(** logs that agree entry by entry *)
Definition same_log (l l' : log) : Prop := (forall k, outf l' k = outf l k) /\ (forall k, staged l' k = staged l k) /\ (forall k, col l' k = col l k) /\
  files l' = files l /\ gen l' = gen l /\ printing l' = printing l.
Lemma base_same l l' a : same_log l l' -> base l a -> base l' a.
Proof. intros (A & B & _ & D & _ & _) [X1 X2 X3]. constructor; intros; [rewrite B|rewrite A|rewrite D]; auto. Qed.
Lemma in_call_same l l' k n a : same_log l l' -> in_call l k n a -> in_call l' k n a.
Proof.
  intros S0. pose proof S0 as (A & B & C & D & E & F). intros [X1 X2 X3 X4 X5 X6]. constructor.
  - eapply base_same; eassumption.
  - unfold live in *. rewrite A. exact X2.
  - rewrite X3. unfold author. rewrite E. reflexivity.
  - rewrite F. exact X4.
  - rewrite C. exact X5.
  - intros j Hj. rewrite C. auto.
Qed.
Lemma same_sym l l' : same_log l l' -> same_log l' l.
Proof. intros (A & B & C & D & E & F). repeat split; intros; symmetry; auto. Qed.
Lemma linv_same l l' a : same_log l l' -> linv l a -> linv l' a.
Proof.
  intros S0 [[X1 X2 X3]|(i & n & K)].
  - left. constructor; [eapply base_same; eassumption|exact X2|]. intros i. destruct S0 as (_ & _ & C & _). rewrite C. apply X3.
  - right. exists i, n. eapply in_call_same; eassumption.
Qed.
Lemma has_same l l' a k n : same_log l l' -> has l a k n -> has l' a k n.
Proof.
  intros S0 [K|[NK U]]; [left; eapply in_call_same; eassumption|]. right. split.
  - intros m K. apply (NK m). eapply in_call_same; [apply same_sym; exact S0|exact K].
  - destruct S0 as (_ & _ & _ & _ & -> & _). exact U.
Qed.

Lemma switch_files_ok l i j pid a : linv l a -> live l i -> live l j -> i <> j -> col l i = 0 ->
  gens_ok l ->
  exists l' a', switch_files P l i j pid = Ok l' /\ linv l' a' /\ (forall k, outf l' k = outf l k) /\ gen l' = gen l /\ ngen l' = ngen l /\ current l' = current l /\ printing l' = printing l /\
    (forall m, ~ in_call l' i m a') /\ (forall m, ~ in_call l' j m a') /\
    (ln a' = Start -> ln a = Start \/ printing l = Some j) /\
    (forall k n, live l k -> has l a k n -> has l' a' k n).
Proof.
  intros I Li Lj NE Ci G. unfold switch_files.
  destruct (in_call_dec l a j I) as [[m K]|NI].
  - pose proof K as [[X1 X2 X3] KL KN KP KC KO]. replace (col l j =? 0) with false by (symmetry; apply N.eqb_neq; exact KC).
    unfold put at 1. rewrite KL. cbn [rbind]. unfold put. cbn [write outf]. rewrite KL. cbn [rbind].
    set (lw := write _ _ _).
    assert (RD : read reader0 (files lw Shared) = Some {| ln := Start; unf := set_unf (unf a) (author P l j) (Some m) |}).
    { cbn. rewrite !read_app, X3. cbn [read]. unfold read1. rewrite KN. cbn [fst snd ln unf]. rewrite who_eqb_refl. cbn [ln unf fst snd read].
      match goal with |- context [author P ?x j] => change (author P x j) with (author P l j) end. rewrite who_eqb_refl. reflexivity. }
    assert (LW : outf lw = outf l /\ staged lw = staged l /\ col lw = col l /\ gen lw = gen l /\ ngen lw = ngen l /\ printing lw = printing l /\ current lw = current l) by (repeat split).
    clearbody lw. destruct LW as (E1 & E2 & E3 & E4 & E5 & E6 & E7).
    do 2 eexists. split; [reflexivity|].
    match goal with |- linv ?x _ /\ _ => set (l' := x) end.
    assert (O : forall k, outf l' k = outf l k).
    { intros k. cbn. rewrite E1. destruct (Nat.eqb_spec k i) as [->|]; [congruence|]. destruct (Nat.eqb_spec k j) as [->|]; congruence. }
    assert (Q : quiet l' {| ln := Start; unf := set_unf (unf a) (author P l j) (Some m) |}).
    { constructor; [constructor| |].
      - intros k. cbn. rewrite E2. destruct (Nat.eqb k i); [apply X1|]. destruct (Nat.eqb k j); apply X1.
      - intros k. rewrite O. apply X2.
      - exact RD.
      - reflexivity.
      - intros k. cbn. rewrite E3. destruct (Nat.eqb_spec k i); [reflexivity|]. destruct (Nat.eqb_spec k j); [exact Ci|]. apply KO. assumption. }
    assert (NI : forall k m', ~ in_call l' k m' {| ln := Start; unf := set_unf (unf a) (author P l j) (Some m) |}) by (intros k m' [? ? X ? ? ?]; cbn in X; discriminate).
    split; [left; exact Q|]. split; [exact O|]. split; [exact E4|]. split; [exact E5|]. split; [exact E7|]. split; [exact E6|]. split; [apply NI|]. split; [apply NI|]. split; [intros _; right; exact KP|].
    intros k n Lk H. right. split; [apply NI|]. replace (gen l' k) with (gen l k) by (cbn; rewrite E4; reflexivity). cbn [unf]. unfold set_unf. cbn [w_gen author]. destruct H as [K'|[NK U]].
    + destruct (in_call_unique _ _ _ _ _ _ K K') as [-> ->]. rewrite Nat.eqb_refl. reflexivity.
    + destruct (Nat.eqb_spec (gen l k) (gen l j)) as [Eg|]; [|exact U]. apply (G _ _ Lk Lj) in Eg. subst k. destruct (NK _ K).
  - assert (Cj : col l j = 0).
    { destruct I as [Q|(k & m & K)]; [apply (q_col _ _ Q)|]. apply (k_cols _ _ _ _ K). intros ->. exact (NI _ K). }
    rewrite Cj. cbn [N.eqb rbind]. do 2 eexists. split; [reflexivity|].
    match goal with |- linv ?x _ /\ _ => set (l' := x) end.
    assert (B : base l a) by (destruct I as [[B ? ?]|(? & ? & [B ? ? ? ? ?])]; exact B).
    assert (SL : same_log l l').
    { repeat split; cbn; intros k.
      - destruct (Nat.eqb_spec k i) as [->|]; [congruence|]. destruct (Nat.eqb_spec k j) as [->|]; congruence.
      - rewrite !(b_staged _ _ B). destruct (Nat.eqb k i), (Nat.eqb k j); reflexivity.
      - destruct (Nat.eqb_spec k i) as [->|]; [congruence|]. destruct (Nat.eqb_spec k j) as [->|]; congruence. }
    pose proof (same_sym _ _ SL) as SL'.
    assert (NIi : forall m, ~ in_call l i m a) by (intros m [? ? ? ? X ?]; congruence).
    split; [eapply linv_same; eassumption|]. split; [apply SL|]. split; [reflexivity|]. split; [reflexivity|]. split; [reflexivity|]. split; [reflexivity|].
    split; [intros m K; apply (NIi m); eapply in_call_same; eassumption|]. split; [intros m K; apply (NI m); eapply in_call_same; eassumption|]. split; [intros X; left; exact X|].
    intros k n _ H. eapply has_same; eassumption.
Qed.
End Shared.

(** ** Renaming *)
Lemma in_call_ext P P' l k n a : in_call P l k n a -> P' k = P k -> in_call P' l k n a.
Proof. intros [X1 X2 X3 X4 X5 X6] E. constructor; auto. rewrite X3. unfold author. rewrite E. reflexivity. Qed.
Lemma linv_ext P P' l a : (forall k n, in_call P l k n a -> P' k = P k) -> linv P l a -> linv P' l a.
Proof. intros E [Q|(i & n & K)]; [left; exact Q|]. right. exists i, n. eapply in_call_ext; [exact K|]. eapply E. exact K. Qed.
Lemma in_call_back P P' l k n a : (exists m, in_call P l k m a) -> in_call P' l k n a -> in_call P l k n a.
Proof. intros [m K] K'. pose proof (k_ln _ _ _ _ _ K) as X. pose proof (k_ln _ _ _ _ _ K') as X'. rewrite X in X'. inversion X'. subst. exact K. Qed.
(** whose line is open does not depend on the pids *)
Lemma in_call_who P P' l a k n k' n' : in_call P l k n a -> in_call P' l k' n' a -> k = k' /\ n = n'.
Proof. intros K K'. pose proof (k_printing _ _ _ _ _ K). pose proof (k_printing _ _ _ _ _ K'). pose proof (k_ln _ _ _ _ _ K) as X. pose proof (k_ln _ _ _ _ _ K') as X'. split; congruence. Qed.
Lemma has_ext P P' l a : linv P l a -> (forall k n, in_call P l k n a -> P' k = P k) -> forall k n, has P l a k n -> has P' l a k n.
Proof.
  intros I E k n [K|[NK U]]; [left; eapply in_call_ext; [exact K|eapply E; exact K]|]. right. split; [|exact U]. intros m K. destruct I as [Q|(j & m' & K0)].
  - pose proof (k_ln _ _ _ _ _ K). pose proof (q_ln _ _ Q). congruence.
  - destruct (in_call_who _ _ _ _ _ _ _ _ K0 K) as [-> ->]. exact (NK _ K0).
Qed.
