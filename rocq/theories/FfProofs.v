(** Every piece of text goes to the place of its author. *)
From Verif Require Import Base AllocModel TimeModel WaitModel TcbModel TcbProofs LogModel LoopModel LoopFrame FfSpec.
Local Open Scope N_scope.

Section WithCfg.
Variable c : cfg.
Notation D := (place c).
Definition okf (own : nat -> dest) (n : nat) (p : N) (f : fd) : Prop :=
  match f with FReal d => d = D p | FMem m => (m < n)%nat /\ own m = D p end.
(** [own]: the place for which a memory stream is meant; [O]: whose files a tcb has *)
Record linv2 (own : nat -> dest) (O : nat -> N) (fi : dest -> list item) (me : list (list item)) (ou : nat -> option fd) (sg : nat -> option (nat * option fd)) : Prop := {
  v_file : forall d x, In x (fi d) -> d = D (w_pid (fst x));
  v_mem : forall m x, In x (nth m me []) -> own m = D (w_pid (fst x));
  v_out : forall i f, ou i = Some f -> okf own (length me) (O i) f;
  v_st : forall i m r, sg i = Some (m, r) -> okf own (length me) (O i) (FMem m) /\ forall f, r = Some f -> okf own (length me) (O i) f }.
Definition linv1 (own : nat -> dest) (O : nat -> N) (l : log) : Prop := linv2 own O (files l) (mems l) (outf l) (staged l).
Definition linv (O : nat -> N) (l : log) : Prop := exists own, linv1 own O l.

Lemma okf_same own n p q f : D p = D q -> okf own n p f -> okf own n q f.
Proof. destruct f; cbn; intros E; rewrite <- E; auto. Qed.
Lemma dest_eqb_eq a b : dest_eqb a b = true <-> a = b.
Proof. destruct a, b; cbn; split; intros H; try discriminate; auto; [apply N.eqb_eq in H; congruence|inversion H; apply N.eqb_refl]. Qed.
Lemma write_ff own O l f p xs : linv1 own O l -> okf own (length (mems l)) p f -> (forall x, In x xs -> D (w_pid (fst x)) = D p) -> linv1 own O (write l f xs).
Proof.
  intros [F M U V] K X. destruct f as [d|m]; cbn [okf] in K.
  - constructor; cbn [write files mems outf staged]; auto. intros d' x. destruct (dest_eqb d' d) eqn:Q; [|apply F]. apply dest_eqb_eq in Q as ->. intros I. apply in_app_iff in I as [I|I]; [apply F; exact I|]. rewrite (X _ I). exact K.
  - destruct K as [K1 K2]. cbn [write].
    assert (L : length (mems (set_mems l (firstn m (mems l) ++ (nth m (mems l) [] ++ xs) :: skipn (S m) (mems l)))) = length (mems l)) by (cbn [set_mems mems]; rewrite app_length; cbn [length]; rewrite firstn_length, skipn_length; lia).
    constructor; rewrite ?L; cbn [set_mems files outf staged]; auto. cbn [set_mems mems]. intros k x. destruct (Nat.lt_trichotomy k m) as [Q|[->|Q]].
    + rewrite app_nth1 by (rewrite firstn_length; lia). replace (nth k (firstn m (mems l)) []) with (nth k (mems l) []); [apply M|]. rewrite <- (firstn_skipn m (mems l)) at 1. rewrite app_nth1 by (rewrite firstn_length; lia). reflexivity.
    + rewrite app_nth2 by (rewrite firstn_length; lia). rewrite firstn_length, Nat.min_l by lia. rewrite Nat.sub_diag. cbn [nth]. intros I. apply in_app_iff in I as [I|I]; [apply M; exact I|]. rewrite (X _ I). exact K2.
    + rewrite app_nth2 by (rewrite firstn_length; lia). rewrite firstn_length, Nat.min_l by lia. replace (k - m)%nat with (S (k - S m)) by lia. cbn [nth]. replace (nth (k - S m) (skipn (S m) (mems l)) []) with (nth k (mems l) []); [apply M|].
      rewrite <- (firstn_skipn (S m) (mems l)) at 1. rewrite app_nth2 by (rewrite firstn_length; lia). rewrite firstn_length, Nat.min_l by lia. reflexivity.
Qed.
Lemma linv_ext O O' l : (forall k, O k = O' k \/ (outf l k = None /\ staged l k = None)) -> linv O l -> linv O' l.
Proof.
  intros E [own [F M U V]]. exists own. constructor; auto.
  - intros i f H. destruct (E i) as [Q|[Q _]]; [rewrite <- Q; apply U; exact H|congruence].
  - intros i m r H. destruct (E i) as [Q|[_ Q]]; [rewrite <- Q; apply V; exact H|congruence].
Qed.
Lemma set_out_ff own O l i o st p : linv1 own O l -> (forall f, o = Some f -> okf own (length (mems l)) p f) ->
  (forall m r, st = Some (m, r) -> okf own (length (mems l)) p (FMem m) /\ forall f, r = Some f -> okf own (length (mems l)) p f) ->
  linv1 own (fun k => if Nat.eqb k i then p else O k) (set_out l i o st).
Proof.
  intros [F M U V] A B. constructor; cbn [set_out files mems outf staged]; auto.
  - intros k f. destruct (Nat.eqb k i); auto.
  - intros k m r. destruct (Nat.eqb k i); auto.
Qed.
Lemma set_out_same own O l i o st : linv1 own O l -> (forall f, o = Some f -> okf own (length (mems l)) (O i) f) ->
  (forall m r, st = Some (m, r) -> okf own (length (mems l)) (O i) (FMem m) /\ forall f, r = Some f -> okf own (length (mems l)) (O i) f) ->
  linv1 own O (set_out l i o st).
Proof.
  intros [F M U V] A B. constructor; cbn [set_out files mems outf staged]; auto.
  - intros k f. destruct (Nat.eqb_spec k i) as [->|]; auto.
  - intros k m r. destruct (Nat.eqb_spec k i) as [->|]; auto.
Qed.

(** ** Writing *)
Lemma put_ff Q O l i x l' : put Q l i x = Ok l' -> O i = Q i -> linv O l -> linv O l'.
Proof.
  unfold put. destruct (outf l i) as [f|] eqn:E; intros H EQ [own I]; inv_ok H. exists own. apply (write_ff _ _ _ _ (O i)); [exact I|apply (v_out _ _ _ _ _ _ I _ _ E)|].
  intros y [<-|[]]. cbn. rewrite EQ. reflexivity.
Qed.
Lemma tprint_ff Q l x l' : tprint Q l x = Ok l' -> linv Q l -> linv Q l'.
Proof. unfold tprint. destruct (current l) as [i|]; intros H I; [|inv_ok H; exact I]. apply rbind_ok in H as (l1 & H1 & H). inv_ok H. apply (put_ff _ _ _ _ _ _ H1 eq_refl I). Qed.
Lemma tprints_ff Q xs : forall l l', tprints Q l xs = Ok l' -> linv Q l -> linv Q l'.
Proof. induction xs as [|x r IH]; intros l l' H I; cbn [tprints] in H; [inv_ok H; exact I|]. apply rbind_ok in H as (l1 & H1 & H). eapply IH; [exact H|]. eapply tprint_ff; eauto. Qed.
Lemma line_ended_ff O l : linv O l -> linv O (line_ended l).
Proof. unfold line_ended. destruct (current l); cbn [set_col printing]; destruct (printing l); intros I; exact I. Qed.
Lemma printleader_ff Q lc0 np l i l' : printleader Q lc0 np l i = Ok l' -> linv Q l -> linv Q l'.
Proof.
  unfold printleader. cbv zeta. set (l1 := if c_ff lc0 then _ else l). intros E I. assert (I1 : linv Q l1) by (unfold l1; destruct (c_ff lc0); exact I). clearbody l1. clear I l.
  apply rbind_ok in E as (l2 & E1 & E). assert (I2 : linv Q l2).
  { destruct (printing l1) as [j|]; [|inv_ok E1; exact I1]. destruct (_ && _); [|inv_ok E1; exact I1]. apply rbind_ok in E1 as (l3 & E1 & E2). inv_ok E2. apply tprints_ff in E1; [exact E1|exact I1]. }
  apply tprint_ff in E; [exact E|exact I2].
Qed.
Lemma msg_line_ff Q lc0 np l i t x l' : msg_line Q lc0 np l i t x = Ok l' -> linv Q l -> linv Q l'.
Proof. unfold msg_line. intros E I. apply rbind_ok in E as (l1 & E1 & E). apply rbind_ok in E as (l2 & E2 & E). inv_ok E. apply line_ended_ff. eapply tprints_ff; [exact E2|]. eapply printleader_ff; eauto. Qed.
Lemma open_ff O l i : linv O l -> linv O (open_memstream l i).
Proof.
  intros [own [F M U V]]. exists (fun m => if Nat.eqb m (length (mems l)) then D (O i) else own m).
  assert (K : forall p f, okf own (length (mems l)) p f -> okf (fun m => if Nat.eqb m (length (mems l)) then D (O i) else own m) (length (mems (open_memstream l i))) p f).
  { intros p f. unfold open_memstream. cbn [set_out set_mems mems]. rewrite app_length. cbn [length]. destruct f as [d|m]; cbn [okf]; [auto|]. intros [A B]. destruct (Nat.eqb_spec m (length (mems l))); [lia|]. split; [lia|exact B]. }
  assert (L : okf (fun m => if Nat.eqb m (length (mems l)) then D (O i) else own m) (length (mems (open_memstream l i))) (O i) (FMem (length (mems l)))).
  { unfold open_memstream. cbn [set_out set_mems mems]. rewrite app_length. cbn [okf length]. rewrite Nat.eqb_refl. split; [lia|reflexivity]. }
  constructor.
  - cbn. auto.
  - intros m x. unfold open_memstream. cbn [set_out set_mems mems]. destruct (Nat.lt_trichotomy m (length (mems l))) as [Q|[->|Q]].
    + rewrite app_nth1 by exact Q. destruct (Nat.eqb_spec m (length (mems l))); [lia|]. apply M.
    + rewrite app_nth2 by lia. rewrite Nat.sub_diag. intros [].
    + rewrite nth_overflow by (rewrite app_length; cbn; lia). intros [].
  - intros k f. cbn [open_memstream set_out outf]. destruct (Nat.eqb_spec k i) as [->|]; intros H; [|apply K, U; exact H]. injection H as <-. exact L.
  - intros k m r. cbn [open_memstream set_out staged]. destruct (Nat.eqb_spec k i) as [->|]; intros H; [|destruct (V _ _ _ H) as [A B]; split; [apply K; exact A|intros f Hf; apply K, B, Hf]].
    injection H as <- <-. split; [exact L|]. intros f Hf. apply K, U. exact Hf.
Qed.
Lemma close_ff O l i b l' : close_memstream l i b = Ok l' -> linv O l -> linv O l' /\ col l' = col l.
Proof.
  unfold close_memstream. destruct (staged l i) as [[m r]|] eqn:E; intros H [own I]; [|inv_ok H; split; [exists own; exact I|reflexivity]]. destruct (v_st _ _ _ _ _ _ I _ _ _ E) as [A B].
  assert (I1 : linv1 own O (set_out l i r None)) by (apply set_out_same; [exact I|exact B|discriminate]).
  destruct b; [|inv_ok H; split; [exists own; exact I1|reflexivity]]. destruct r as [f|]; [|discriminate]. inv_ok H. split; [|destruct f; reflexivity]. exists own. apply (write_ff _ _ _ _ (O i)); [exact I1|apply (B _ eq_refl)|].
  intros x Ix. apply (v_mem _ _ _ _ _ _ I) in Ix. cbn [okf] in A. destruct A as [_ A]. congruence.
Qed.
Lemma psr_ff Q lc0 np l i rp n b l' : print_syscall_resume Q lc0 np l i rp n = Ok (b, l') -> linv Q l -> linv Q l'.
Proof.
  unfold print_syscall_resume. cbv zeta. intros E I. apply rbind_ok in E as (l1 & E1 & E). assert (I1 : linv Q l1); [|inv_ok E; exact I1].
  destruct (_ || _); [|inv_ok E1; exact I]. apply rbind_ok in E1 as (l2 & E1 & E2). eapply tprint_ff; [exact E2|]. eapply printleader_ff; eauto.
Qed.
Lemma pee_ff Q lc0 np l i rp d n b l' : print_event_exit Q lc0 np l i rp d n = Ok (b, l') -> linv Q l -> linv Q l'.
Proof.
  unfold print_event_exit. intros E I. apply rbind_ok in E as (l1 & E1 & E). assert (I1 : linv Q l1).
  { destruct (printing l) as [j|]; [|inv_ok E1; exact I]. destruct (_ && _); [|inv_ok E1; exact I]. apply rbind_ok in E1 as (l3 & E1 & E2). inv_ok E2. apply tprints_ff in E1; [exact E1|exact I]. }
  apply rbind_ok in E as ([r l2] & E2 & E). apply rbind_ok in E as (l3 & E3 & E). apply rbind_ok in E as (l4 & E4 & E). apply rbind_ok in E as (l5 & E5 & E). inv_ok E. apply line_ended_ff.
  assert (I4 : linv Q l4). { eapply tprints_ff; [exact E4|]. apply psr_ff in E2; [|exact I1]. destruct d; [inv_ok E3; exact E2|]. eapply tprint_ff; eauto. }
  destruct (c_all lc0); [inv_ok E5; exact I4|]. eapply close_ff; eauto.
Qed.
Lemma drop_ff Q O lc0 l i l' : drop_log Q lc0 l i = Ok l' -> O i = Q i \/ col l i = 0 -> linv O l -> linv O l' /\ outf l' i = None /\ staged l' i = None.
Proof.
  unfold drop_log. cbv zeta. intros E W I. apply rbind_ok in E as (l1 & E1 & E). assert (I1 : linv O l1).
  { destruct (outf l i); [|inv_ok E1; exact I]. apply rbind_ok in E1 as (l2 & E1 & E2). assert (K : linv O l2 /\ col l2 = col l) by (destruct (c_all lc0); [inv_ok E1; auto|]; eapply close_ff; eauto). destruct K as [K1 K2]. rewrite K2 in E2.
    destruct (_ && negb (col l i =? 0) && _) eqn:Z; [|inv_ok E2; exact K1]. destruct W as [W|W]; [|rewrite W in Z; cbn in Z; rewrite andb_false_r in Z; discriminate Z].
    apply rbind_ok in E2 as (l3 & E2 & E3). eapply put_ff; [exact E3|exact W|]. eapply put_ff; eauto. }
  clear E1 I W. set (l2 := match current l1 with Some j => _ | None => l1 end) in E. assert (I2 : linv O l2) by (unfold l2; destruct (current l1) as [j|]; [destruct (Nat.eqb j i)|]; exact I1). clearbody l2.
  set (l3 := match printing l2 with Some j => _ | None => l2 end) in E. assert (I3 : linv O l3) by (unfold l3; destruct (printing l2) as [j|]; [destruct (Nat.eqb j i)|]; exact I2). clearbody l3. inv_ok E.
  split; [|split; cbn; rewrite Nat.eqb_refl; reflexivity]. destruct I3 as [own I3]. exists own. apply set_out_same; [exact I3|discriminate|discriminate].
Qed.
Lemma put_col Q l i x l' : put Q l i x = Ok l' -> col l' = col l. Proof. unfold put. destruct (outf l i) as [[]|]; intros H; inv_ok H; reflexivity. Qed.
Lemma switch_ff Q l i j pid l' : i <> j -> switch_files Q l i j pid = Ok l' -> linv Q l -> linv (fun k => if Nat.eqb k i then Q j else if Nat.eqb k j then Q i else Q k) l' /\ col l' i = 0.
Proof.
  unfold switch_files. cbv zeta. intros N E I. apply rbind_ok in E as (l1 & E1 & E). assert (I1 : linv Q l1).
  { destruct (col l j =? 0); [inv_ok E1; exact I|]. apply rbind_ok in E1 as (l2 & E1 & E2). eapply put_ff; [exact E2|reflexivity|]. eapply put_ff; eauto. }
  inv_ok E. destruct I1 as [own I1]. split; [|cbn; rewrite Nat.eqb_refl; reflexivity]. exists own.
  apply (set_out_ff own (fun k => if Nat.eqb k j then Q i else Q k) (set_out l1 j (outf l1 i) (staged l1 i)) i (outf l1 j) (staged l1 j) (Q j)).
  - apply set_out_ff; [exact I1|intros f; apply (v_out _ _ _ _ _ _ I1)|intros m r; apply (v_st _ _ _ _ _ _ I1)].
  - intros f. apply (v_out _ _ _ _ _ _ I1).
  - intros m r. apply (v_st _ _ _ _ _ _ I1).
Qed.
Lemma attach_ff Q l i : linv Q l -> linv Q (attach_log Q (lc c) l i).
Proof.
  intros [own I]. exists own. unfold attach_log. apply set_out_same; [exact I| |intros m r; apply (v_st _ _ _ _ _ _ I)]. intros f H. injection H as <-. reflexivity.
Qed.
Lemma alloc_ff O O' l i : (forall k, k <> i -> O k = O' k) -> linv O l -> linv O' (alloc_log l i).
Proof.
  intros E [own I]. unfold alloc_log. apply (linv_ext O).
  - intros k. destruct (Nat.eqb_spec k i) as [->|Q]; [right; cbn; rewrite Nat.eqb_refl; auto|left; auto].
  - exists own. apply (set_out_same own O (set_col l i 0) i None None); [exact I|discriminate|discriminate].
Qed.

(** ** The table of tracees *)
Lemma alloctcb_pid t p t' i : alloctcb t p = Ok (t', i) -> forall k, k <> i -> pidof t k = pidof t' k.
Proof.
  unfold alloctcb. intros E k K. apply rbind_ok in E as (t1 & E1 & E). assert (A : pidof t k = pidof t1 k).
  { destruct (_ =? _); [|inv_ok E1; reflexivity]. unfold expand_tcbtab in E1. cbv zeta in E1. apply rbind_ok in E1 as (r & _ & E1). inv_ok E1. unfold pidof. cbn [pids]. destruct (Nat.lt_ge_cases k (length (pids t))) as [Q|Q].
    - rewrite app_nth1 by exact Q. reflexivity.
    - rewrite app_nth2 by exact Q. rewrite nth_overflow by exact Q. symmetry. apply nth_repeat. }
  destruct (find_pid (pids t1) 0) as [m|] eqn:F; inv_ok E. apply find_pid_some in F as [F _]. rewrite A. unfold pidof. cbn [pids]. rewrite nth_set by exact F. destruct (Nat.eqb_spec k i); [contradiction|reflexivity].
Qed.
Lemma drop_slot_pid t i k : k <> i -> pidof t k = pidof (drop_slot t i) k.
Proof.
  unfold drop_slot. intros K. destruct (pidof t i =? 0) eqn:Q; [reflexivity|]. apply N.eqb_neq, pidof_lt in Q. unfold pidof. cbn [pids]. rewrite nth_set by exact Q. destruct (Nat.eqb_spec k i); [contradiction|reflexivity].
Qed.
Lemma rename_pid t j p k : pidof t j <> 0 -> pidof (rename t j p) k = if Nat.eqb k j then p else pidof t k.
Proof. intros Q. apply pidof_lt in Q. unfold pidof, rename. cbn [pids]. apply nth_set. exact Q. Qed.
Lemma pid2tcb_found t z t' j : pid2tcb t z = (t', Some j) -> (0 < z)%Z /\ pidof t j = Z.to_N z.
Proof.
  unfold pid2tcb. destruct (z <=? 0)%Z eqn:Z0; [discriminate|]. cbv zeta. intros E. split; [lia|].
  assert (F : forall k, find_pid (pids t) (Z.to_N z) = Some k -> pidof t k = Z.to_N z) by (intros k H; apply find_pid_some in H as [_ H]; exact H).
  destruct (cache t _) as [k|].
  - destruct (pidof t k =? Z.to_N z) eqn:Q; [inversion E; subst; apply N.eqb_eq; exact Q|]. destruct (find_pid _ _) eqn:G; inversion E; subst. apply F. reflexivity.
  - destruct (find_pid _ _) eqn:G; inversion E; subst. apply F. reflexivity.
Qed.
Lemma pid2tcb_pids t z t' r : pid2tcb t z = (t', r) -> pids t' = pids t.
Proof. intros E. pose proof (pid2tcb_same t z) as [A _]. rewrite E in A. exact A. Qed.

(** ** Through the state *)
Definition oinv (s : st) : Prop := linv (P s) (lg s).
Lemma oinv_tb s t : pids t = pids (tb s) -> oinv s -> oinv (with_tb s t).
Proof. intros E I. unfold oinv, P, pidof in *. cbn [with_tb tb lg]. rewrite E. exact I. Qed.
Lemma tpr_o s xs s' : tpr s xs = Ok s' -> oinv s -> oinv s'.
Proof. unfold tpr, pr. intros E I. apply rbind_ok in E as (l & E1 & E). inv_ok E. eapply tprints_ff; eauto. Qed.
Lemma leader_o s i s' : leader c s i = Ok s' -> oinv s -> oinv s'.
Proof. unfold leader, pr. intros E I. apply rbind_ok in E as (l & E1 & E). inv_ok E. eapply printleader_ff; eauto. Qed.
Lemma message_o s i t x s' : message c s i t x = Ok s' -> oinv s -> oinv s'.
Proof. unfold message, pr. intros E I. apply rbind_ok in E as (l & E1 & E). inv_ok E. eapply msg_line_ff; eauto. Qed.
Lemma close_o s i b s' : pr s (fun l => close_memstream l i b) = Ok s' -> oinv s -> oinv s'.
Proof. unfold pr. intros E I. apply rbind_ok in E as (l & E1 & E). inv_ok E. eapply (close_ff (P s)); eauto. Qed.
Lemma open_o s i : oinv s -> oinv (with_lg s (open_memstream (lg s) i)). Proof. apply (open_ff (P s)). Qed.
Lemma end_line_o s : oinv s -> oinv (end_line s). Proof. apply (line_ended_ff (P s)). Qed.
Lemma ptrace_restart_o o s i sig err b s' : ptrace_restart o s i sig err = Ok (b, s') -> oinv s -> oinv s'.
Proof.
  unfold ptrace_restart. cbv zeta. intros E I. destruct (_ || _); [inv_ok E; exact I|]. apply rbind_ok in E as (s1 & E1 & E). inv_ok E. destruct (current _) as [j|]; [|inv_ok E1; exact I].
  destruct (_ =? 0); [inv_ok E1; exact I|]. apply rbind_ok in E1 as (s2 & E1 & E2). inv_ok E2. apply end_line_o. eapply tpr_o; [exact E1|exact I].
Qed.
Lemma new_tcb_o s p i s' : new_tcb s p = Ok (i, s') -> oinv s -> oinv s'.
Proof. unfold new_tcb. cbv zeta. intros E I. apply rbind_ok in E as ([t j] & E1 & E). inv_ok E. apply (alloc_ff (P s)); [|exact I]. intros k K. exact (alloctcb_pid _ _ _ _ E1 k K). Qed.
Lemma attached_o s i fs : oinv s -> oinv (attached c s i fs).
Proof.
  unfold attached. cbv zeta. intros I. set (s1 := fold_left _ fs _). assert (I1 : oinv s1).
  { unfold s1. clear s1. assert (G : forall s, oinv s -> oinv (fold_left (fun s f => setf s i f true) fs s)) by (induction fs as [|f r IH]; intros s0 H; [exact H|]; cbn [fold_left]; apply IH; exact H). apply G. exact I. }
  clearbody s1. apply (attach_ff (P s1)). exact I1.
Qed.
Lemma droptcb_o O s i s' : droptcb c s i = Ok s' -> P s i <> 0 -> O i = P s i \/ col (lg s) i = 0 -> linv O (lg s) -> linv O (lg s') /\ outf (lg s') i = None /\ staged (lg s') i = None /\ (forall k, k <> i -> P s' k = P s k).
Proof.
  unfold droptcb. intros E PZ W I. destruct (P s i =? 0) eqn:Q; [apply N.eqb_eq in Q; contradiction|]. unfold pr in E. apply rbind_ok in E as (s1 & E1 & E). apply rbind_ok in E1 as (l & E1 & E2). inv_ok E2. inv_ok E.
  destruct (drop_ff _ O _ _ _ _ E1 W I) as (A & B & C). split; [exact A|]. split; [exact B|]. split; [exact C|]. intros k K. symmetry. exact (drop_slot_pid (tb s) i k K).
Qed.
Lemma drop_o s i s' : droptcb c s i = Ok s' -> oinv s -> oinv s'.
Proof.
  intros E I. destruct (N.eq_dec (P s i) 0) as [Z|Z]; [unfold droptcb in E; rewrite Z in E; inv_ok E; exact I|]. destruct (droptcb_o (P s) _ _ _ E Z (or_introl eq_refl) I) as (A & B & C & G).
  apply (linv_ext (P s)); [|exact A]. intros k. destruct (Nat.eq_dec k i) as [->|K]; [right; auto|left; symmetry; apply G; exact K].
Qed.
Lemma dois_o s i a b s' : detach_or_interrupt_or_stop c s i a = (b, s') -> oinv s -> oinv s'.
Proof. unfold detach_or_interrupt_or_stop. cbv zeta. intros E I. repeat match type of E with (if ?x then _ else _) = _ => destruct x end; inversion E; subst; exact I. Qed.
Lemma dios_o s i st1 err b s' : detach_interrupted_or_stopped c s i st1 err = Ok (b, s') -> oinv s -> oinv s'.
Proof.
  unfold detach_interrupted_or_stopped. cbv zeta. intros E I. destruct (negb _); [inv_ok E; exact I|]. destruct (c_seize c); [|destruct (_ =? SIGSTOP)]; apply rbind_ok in E as ([k s1] & E1 & E); inv_ok E; eapply ptrace_restart_o; eauto.
Qed.
Lemma detach_wait_o ws : forall s i s', detach_wait c s i ws = Ok s' -> oinv s -> oinv s'.
Proof.
  induction ws as [|w r IH]; intros s i s' E I; cbn [detach_wait] in E; [inv_ok E; exact I|]. destruct w as [[]|]; [eapply IH; eauto|inv_ok E; exact I|].
  apply rbind_ok in E as ([d s1] & E1 & E). apply dios_o in E1; [|exact I]. destruct d; [inv_ok E; exact E1|]. eapply IH; eauto.
Qed.
Lemma detach_o s i a ws s' : detach c s i a ws = Ok s' -> oinv s -> oinv s'.
Proof.
  unfold detach. destruct (detach_or_interrupt_or_stop c s i a) as [w s1] eqn:E0. intros E I. apply dois_o in E0; [|exact I]. apply rbind_ok in E as (s2 & E1 & E). apply (drop_o _ _ _ E).
  destruct w; [eapply detach_wait_o; eauto|inv_ok E1; exact E0].
Qed.
Lemma delay_o s i d n n' : oinv s -> oinv (delay_tcb s i d n n').
Proof. unfold delay_tcb, arm_delay_timer. intros I. destruct (_ && _); exact I. Qed.
Lemma entering_decode_o s i e r s' : syscall_entering_decode c s i e = Ok (r, s') -> oinv s -> oinv s'.
Proof.
  unfold syscall_entering_decode. cbv zeta. intros E I. destruct (e_scno e =? 0)%Z; [inv_ok E; exact I|]. destruct (_ =? 1)%Z; [inv_ok E; exact I|]. apply rbind_ok in E as (s1 & E1 & E). apply rbind_ok in E as (s2 & E2 & E). inv_ok E.
  eapply tpr_o; [exact E2|]. eapply leader_o; [exact E1|exact I].
Qed.
Lemma entering_trace_o s i rec e d sg s' : syscall_entering_trace c s i rec e = Ok (d, sg, s') -> oinv s -> oinv s'.
Proof.
  unfold syscall_entering_trace. cbv zeta. intros E I. set (s1 := if fl s i HIDE_LOG && e_exec e then _ else s) in E. assert (K : oinv s1) by (unfold s1; destruct (_ && _); exact I). clearbody s1.
  destruct (_ || _) in E; [inv_ok E; exact K|]. set (s2 := setf s1 i FILTERED false) in E. assert (K2 : oinv s2) by exact K. clearbody s2. set (s3 := if negb (fl s i HIDE_LOG) && negb rec then _ else s2) in E.
  assert (K3 : oinv s3). { unfold s3. destruct (_ && _); [|exact K2]. destruct (e_delay e) as [[[x y] z]|]; destruct (e_xdelay e); try exact K2; apply (delay_o _ i x y z) in K2; exact K2. }
  clearbody s3. destruct (c_stats c); [inv_ok E; exact K3|]. apply rbind_ok in E as (s4 & E1 & E). apply rbind_ok in E as (s5 & E2 & E). inv_ok E. eapply tpr_o; [exact E2|]. eapply leader_o; [exact E1|]. destruct (c_all (lc c)); [exact K3|apply open_o; exact K3].
Qed.
Lemma exiting_trace_o s i rc e r s' : syscall_exiting_trace c s i rc e = Ok (r, s') -> oinv s -> oinv s'.
Proof.
  unfold syscall_exiting_trace. cbv zeta. intros E I. set (s1 := if fl s i INJECT_DELAY_EXIT then _ else s) in E.
  assert (K : oinv s1) by (unfold s1; destruct (fl s i INJECT_DELAY_EXIT); [destruct (x_delay e) as [[x y] z]; apply delay_o|]; exact I). clearbody s1.
  apply rbind_ok in E as (s2 & E1 & E). assert (K2 : oinv s2). { destruct (c_stats c); [inv_ok E1; exact K|]. apply rbind_ok in E1 as ([rr l] & E0 & E1). apply psr_ff in E0; [|exact K]. destruct rr; inv_ok E1; exact E0. } clear E1 K s1.
  destruct (negb _).
  - destruct (c_stats c); [inv_ok E; exact K2|]. apply rbind_ok in E as (s3 & E1 & E). apply tpr_o in E1; [|exact K2]. apply rbind_ok in E as (s4 & E2 & E). inv_ok E. apply end_line_o. destruct (c_all (lc c)); [inv_ok E2; exact E1|]. eapply close_o; eauto.
  - apply rbind_ok in E as (s3 & E1 & E). assert (K3 : oinv s3) by (destruct (_ || _); [inv_ok E1; exact K2|eapply tpr_o; eauto]). clear E1 K2. apply rbind_ok in E as (s4 & E1 & E).
    assert (K4 : oinv s4) by (destruct (_ || _) in E1; [inv_ok E1; exact K3|eapply close_o; eauto]). clear E1 K3. destruct (negb _) in E.
    + destruct (c_stats c); inv_ok E; [exact K4|apply end_line_o; exact K4].
    + set (s5 := if (limit s4 =? -1)%Z then s4 else _) in E. assert (K5 : oinv s5) by (unfold s5; destruct (_ =? _)%Z; exact K4). clearbody s5. destruct (c_stats c); [inv_ok E; exact K5|]. apply rbind_ok in E as (s6 & E6 & E). inv_ok E. apply end_line_o. eapply tpr_o; eauto.
Qed.
Lemma trace_o s i rec e r sg s' : trace_syscall c s i rec e = Ok (r, sg, s') -> oinv s -> oinv s'.
Proof.
  unfold trace_syscall. intros E I. destruct (negb (fl s i INSYSCALL)).
  - apply rbind_ok in E as ([r1 s1] & E1 & E). apply entering_decode_o in E1; [|exact I]. destruct (r1 =? 0)%Z; [inv_ok E; exact E1|]. destruct (r1 =? 1)%Z; [|inv_ok E; exact E1].
    apply rbind_ok in E as ([[d sg1] s2] & E2 & E). apply entering_trace_o in E2; [|exact E1]. inv_ok E. exact E2.
  - unfold syscall_exiting_decode in E. assert (K : forall r1 s1, oinv s1 -> (rlet (r, s) := (if (r1 =? 0)%Z then Ok (0%Z, s1) else syscall_exiting_trace c s1 i r1 e) in Ok (r, 0, syscall_exiting_finish s i)) = Ok (r, sg, s') -> oinv s').
    { clear E. intros r1 s1 K E. apply rbind_ok in E as ([r2 s2] & E1 & E). inv_ok E. destruct (r1 =? 0)%Z; [inv_ok E1; exact K|]. apply exiting_trace_o in E1; [exact E1|exact K]. }
    destruct (fl s i FILTERED); [apply (K 0%Z s I E)|]. apply (K (x_res e) (if fl s i CHECK_EXEC_SYSCALL then setf s i HIDE_LOG true else s)) in E; [exact E|]. destruct (fl s i CHECK_EXEC_SYSCALL); exact I.
Qed.

(** ** Events *)
Lemma switch_o s i r s' : P s i <> 0 -> maybe_switch_tcbs c s i = Ok (r, s') -> oinv s -> oinv s'.
Proof.
  intros PZ. unfold maybe_switch_tcbs. cbv zeta. destruct (negb (c_os3 c)); [intros E I; inv_ok E; exact I|]. set (old := wmsg _). destruct (_ || _) eqn:Q; [intros E I; inv_ok E; exact I|]. destruct (_ <? _)%Z eqn:Q1; [intros E I; inv_ok E; exact I|].
  set (arg := if (2147483648 <=? old)%Z then _ else old). destruct (pid2tcb (tb s) arg) as [t r0] eqn:F. intros E I. pose proof (pid2tcb_pids _ _ _ _ F) as TS. assert (I1 : oinv (with_tb s t)) by (apply oinv_tb; auto).
  assert (PE : forall k, P (with_tb s t) k = P s k) by (intros k; unfold P, pidof; cbn [with_tb tb]; rewrite TS; reflexivity).
  destruct r0 as [j|]; [|inv_ok E; exact I1]. apply pid2tcb_found in F as [F1 F2]. change (pidof (tb s) j) with (P s j) in F2.
  assert (NE : i <> j). { intros <-. apply orb_false_iff in Q as [Q2 Q3]. unfold arg in *. destruct (2147483648 <=? old)%Z eqn:Q4; lia. }
  assert (PJ : P s j <> 0) by lia.
  apply rbind_ok in E as (s1 & E1 & E). unfold pr in E1. apply rbind_ok in E1 as (l & E1 & E0). inv_ok E0. apply switch_ff in E1; [|exact NE|exact I1]. destruct E1 as [I2 C0].
  apply rbind_ok in E as (s2 & E2 & E). apply (droptcb_o (fun k => if Nat.eqb k i then P (with_tb s t) j else if Nat.eqb k j then P (with_tb s t) i else P (with_tb s t) k)) in E2; [|change (P (with_tb s t) i <> 0); rewrite PE; exact PZ|right; exact C0|exact I2].
  destruct E2 as (I3 & O3 & S3 & P3). change (P (with_lg (with_tb s t) l)) with (P (with_tb s t)) in P3. apply rbind_ok in E as (s3 & E3 & E). inv_ok E.
  assert (I4 : oinv (with_tb s2 (rename (tb s2) j (P s i)))).
  { apply (linv_ext (fun k => if Nat.eqb k i then P (with_tb s t) j else if Nat.eqb k j then P (with_tb s t) i else P (with_tb s t) k)); [|exact I3]. intros k. destruct (Nat.eqb_spec k i) as [->|K]; [right; auto|]. left.
    change (P (with_tb s2 (rename (tb s2) j (P s i))) k) with (pidof (rename (tb s2) j (P s i)) k). rewrite rename_pid; [|change (pidof (tb s2) j) with (P s2 j); rewrite P3, PE by congruence; exact PJ].
    destruct (Nat.eqb k j); [apply PE|]. symmetry. apply P3. exact K. }
  destruct (c_stats c); [inv_ok E3; exact I4|]. apply rbind_ok in E3 as (s4 & E4 & E3). assert (I5 : oinv s4) by (destruct (c_qthread c); [inv_ok E4; exact I4|]; eapply message_o; [exact E4|exact I4]).
  inv_ok E3. destruct (c_all (lc c)); [exact I5|]. apply (open_ff (P s4)). exact I5.
Qed.
Lemma switch_current_o s i r s' : P s i <> 0 -> maybe_switch_current_tcp c s i = Ok (r, s') -> oinv s -> oinv s'.
Proof. unfold maybe_switch_current_tcp. intros PZ E I. apply rbind_ok in E as ([r1 s1] & E1 & E). apply switch_o in E1; [|exact PZ|exact I]. destruct r1; inv_ok E; exact E1. Qed.
Lemma signalled_o s i st1 s' : print_signalled c s i st1 = Ok s' -> oinv s -> oinv s'.
Proof. unfold print_signalled. cbv zeta. intros E I. destruct (P s i =? child s); (destruct (_ && _); [eapply message_o; [exact E|exact I]|inv_ok E; exact I]). Qed.
Lemma exited_o s i st1 s' : print_exited c s i st1 = Ok s' -> oinv s -> oinv s'.
Proof. unfold print_exited. cbv zeta. intros E I. destruct (P s i =? child s); (destruct (_ && _); [eapply message_o; [exact E|exact I]|inv_ok E; exact I]). Qed.
Lemma stopped_o s i g e s' : print_stopped c s i g e = Ok s' -> oinv s -> oinv s'.
Proof. unfold print_stopped. intros E I. destruct (_ && _); [eapply message_o; [exact E|exact I]|inv_ok E; exact I]. Qed.
Lemma exit_event_o s i s' : exit_event c s i = Ok s' -> oinv s -> oinv s'.
Proof. unfold exit_event. cbv zeta. intros E I. destruct (_ || _); [inv_ok E; exact I|]. apply rbind_ok in E as ([r l] & E0 & E). apply pee_ff in E0; [|exact I]. destruct r; inv_ok E; exact E0. Qed.
Lemma resume_o s i wd o g e b s' : resume s i wd o g e = Ok (b, s') -> oinv s -> oinv s'.
Proof.
  unfold resume. cbv zeta. set (s1 := if e_intr e =? 0 then s else _). intros E I. assert (K : oinv s1) by (unfold s1; destruct (_ =? _); exact I). clearbody s1.
  destruct (negb _); [inv_ok E; exact K|]. destruct (fl s1 i DELAYED); [inv_ok E; exact K|]. apply rbind_ok in E as ([ok s2] & E1 & E). apply ptrace_restart_o in E1; [|exact K]. destruct ok; inv_ok E; exact E1.
Qed.
Lemma dispatch_o s wd e b s' : (te wd = TE_STOP_BEFORE_EXECVE -> forall i, current (lg s) = Some i -> P s i <> 0) -> dispatch_event c s (Some wd) e = Ok (b, s') -> oinv s -> oinv s'.
Proof.
  unfold dispatch_event. intros PZ E I.
  assert (SYS : forall i op1, rbind (trace_syscall c s i false e) (fun '(r, sig, s1) => if (r <? 0)%Z then Ok (true, s1) else resume s1 i wd (if fl s1 i SECCOMP_FILTER then if fl s1 i INSYSCALL then OP_SYSCALL else OP_CONT else op1) sig e) = Ok (b, s') -> oinv s').
  { clear E. intros i op1 E. apply rbind_ok in E as ([[r sg] s1] & E1 & E). apply trace_o in E1; [|exact I]. destruct (r <? 0)%Z; [inv_ok E; exact E1|]. eapply resume_o; eauto. }
  destruct (te wd) eqn:T. 1, 2: solve [inv_ok E; exact I]. all: destruct (current (lg s)) as [i|] eqn:CU; [|discriminate E]. all: cbv zeta in E.
  all: try solve [eapply resume_o; [exact E|exact I]].
  all: try solve [apply (SYS _ _ E)].
  all: try solve [apply rbind_ok in E as (s1 & E1 & E); apply stopped_o in E1; [|exact I]; eapply resume_o; eauto].
  all: try solve [apply rbind_ok in E as (s1 & E1 & E); (first [apply signalled_o in E1|apply exited_o in E1]); [|exact I]; apply rbind_ok in E as (s2 & E2 & E); apply drop_o in E2; [|exact E1]; inv_ok E; exact E2].
  all: try solve [apply rbind_ok in E as (s1 & E1 & E); apply exit_event_o in E1; [|exact I]; eapply resume_o; eauto].
  all: try solve [apply rbind_ok in E as (s1 & E1 & E); apply stopped_o in E1; [|exact I]; destruct (c_seize c); eapply resume_o; eauto].
  - apply rbind_ok in E as ([sw s1] & E1 & E). apply switch_current_o in E1; [|exact (PZ eq_refl i eq_refl)|exact I]. destruct (current (lg s1)) as [j|]; [|discriminate E].
    apply rbind_ok in E as ([[bad sg] s2] & E2 & E). assert (K : oinv s2).
    { destruct (match sw with None => _ | Some _ => _ end) eqn:Q; [|inversion E2; subst; exact E1]. apply rbind_ok in E2 as ([[r sg1] s3] & E2 & E3). apply trace_o in E2; [|exact E1]. inversion E3; subst. exact E2. }
    destruct bad; [inv_ok E; exact K|]. destruct (c_detexec c); [|eapply resume_o; eauto]. destruct (fl s2 j SKIP_DETACH_ON_FIRST_EXEC); [eapply resume_o; [exact E|exact K]|].
    apply rbind_ok in E as (s3 & E3 & E). apply detach_o in E3; [|exact K]. inversion E; subst. exact E3.
  - destruct (fl s i SECCOMP_FILTER); cbn [negb andb] in *; [|eapply resume_o; [exact E|exact I]]. destruct (c_secbefore c); cbn [negb andb]; [eapply resume_o; [exact E|exact I]|]. apply (SYS _ _ E).
Qed.

(** ** The next event *)
Lemma restart_delayed_o now es is : forall s next b s', restart_delayed_from c s now is next es = Ok (b, s') -> oinv s -> oinv s'.
Proof.
  induction is as [|i r IH]; intros s next b s' E I; cbn [restart_delayed_from] in E; [destruct next; inv_ok E; exact I|]. destruct (_ && _); [|eapply IH; eauto].
  destruct (0 <? _)%Z; [|eapply IH; eauto]. apply rbind_ok in E as ([ok s1] & E1 & E). assert (K : oinv s1).
  { unfold restart_delayed_tcb in E1. cbv zeta in E1. apply rbind_ok in E1 as ([ok1 s2] & E1 & E2). apply dispatch_o in E1; [|discriminate|exact I]. inversion E2; subst; exact E1. }
  destruct ok; [eapply IH; eauto|inv_ok E; exact K].
Qed.
Lemma timer_o s now es s' : timer_sighandler c s now es = Ok s' -> oinv s -> oinv s'.
Proof. unfold timer_sighandler, restart_delayed_tcbs. cbv zeta. intros E I. destruct (rfail _); [inv_ok E; exact I|]. apply rbind_ok in E as ([ok s1] & E1 & E). apply restart_delayed_o in E1; [|exact I]. destruct ok; inv_ok E; exact E1. Qed.
Lemma allocate_o s pid st1 r s' : maybe_allocate_tcb c s pid st1 = Ok (r, s') -> oinv s -> oinv s'.
Proof. unfold maybe_allocate_tcb. intros E I. destruct (negb _); [destruct (_ && _); inv_ok E; exact I|]. destruct (c_follow c); [|inv_ok E; exact I]. apply rbind_ok in E as ([i s1] & E1 & E). apply new_tcb_o in E1; [|exact I]. inv_ok E. apply attached_o. exact E1. Qed.
Lemma collect_o ws : forall s nh pos r s', collect c s nh pos ws = Ok (r, s') -> oinv s -> oinv s'.
Proof.
  induction ws as [|w rest IH]; intros s nh pos r s' E I; cbn [collect] in E; [inv_ok E; exact I|]. destruct w as [errno|pid status siok msg].
  - repeat match type of E with (if ?x then _ else _) = _ => destruct x end; try discriminate E; inversion E; subst; exact I.
  - destruct (pid =? 0); [inv_ok E; exact I|]. destruct (pid =? popen s); [destruct (WIFSTOPPED status); inv_ok E; exact I|]. destruct (pid2tcb _ _) as [t found] eqn:F. cbv zeta in E. apply rbind_ok in E as ([f s1] & E1 & E).
    apply pid2tcb_pids in F. assert (I0 : oinv (with_tb s t)) by (apply oinv_tb; auto).
    assert (K : oinv s1) by (destruct found; [inv_ok E1; exact I0|]; eapply allocate_o; [exact E1|exact I0]). clear E1. destruct f as [i|]; [|eapply IH; eauto].
    destruct (classify _ _ _ _ _) as [wd clr]. set (s2 := enqueue _ _ _ _) in E. assert (K2 : oinv s2) by (unfold s2, enqueue; destruct clr; exact K). clearbody s2. destruct (extra (qu s2)); [inv_ok E; exact K2|]. eapply IH; eauto.
Qed.
Lemma event_exit_o s i oe gn w s' : event_exit c s i oe gn = Ok (w, s') -> oinv s -> oinv s'.
Proof.
  unfold event_exit. cbv zeta. intros E I. apply rbind_ok in E as (s1 & E1 & E). assert (K : oinv s1); [|inv_ok E; exact K]. destruct (fl s i STARTUP); [|inv_ok E1; exact I]. unfold startup_tcb in E1. cbv zeta in E1.
  destruct (_ && _); [discriminate E1|]. destruct (fl (setf s i STARTUP false) i GRABBED); inversion E1; exact I.
Qed.
Lemma get_tcp_o s oe gn w s' : get_tcp c s oe gn = Ok (w, s') -> oinv s -> oinv s'.
Proof. unfold get_tcp. cbv zeta. intros E I. destruct (pending (qu s)); [inv_ok E; exact I|]. eapply event_exit_o; [exact E|exact I]. Qed.
Lemma next_event_o s n w s' : next_event c s n = Ok (w, s') -> oinv s -> oinv s'.
Proof.
  unfold next_event. cbv zeta. set (s1 := if n_intr n =? 0 then s else _). intros E I. assert (K : oinv s1) by (unfold s1; destruct (_ =? _); exact I). clearbody s1.
  destruct (negb _); [inv_ok E; exact K|]. destruct (limit s1 =? 0)%Z; [inv_ok E; exact K|]. destruct (pending (qu s1)); [|eapply get_tcp_o; eauto].
  destruct (extra (qu s1)) as [[i idx]|]; [eapply event_exit_o; [exact E|exact K]|]. destruct (_ && _); [inv_ok E; exact K|]. apply rbind_ok in E as ([stop s2] & E1 & E).
  assert (K2 : oinv s2). { destruct (armed (dl s1)); [|inv_ok E1; exact K]. apply rbind_ok in E1 as (s3 & E1 & E2). inversion E2; subst. destruct (n_timer n) as [[now es]|]; [eapply timer_o; eauto|inversion E1; subst; exact K]. }
  destruct stop; [inv_ok E; exact K2|]. apply rbind_ok in E as ([r s3] & E3 & E). apply collect_o in E3; [|exact K2]. destruct r; [eapply get_tcp_o; eauto|inv_ok E; exact E3].
Qed.

(** ** Start and end *)
Lemma alloc_pids_o ps : forall s s', alloc_pids s ps = Ok s' -> oinv s -> oinv s'.
Proof. induction ps as [|p r IH]; intros s s' E I; cbn [alloc_pids] in E; [inv_ok E; exact I|]. apply rbind_ok in E as ([i s1] & E1 & E). apply new_tcb_o in E1; [|exact I]. eapply IH; eauto. Qed.
Lemma attach_tcb_o s i ok tids s' : attach_tcb c s i ok tids = Ok s' -> oinv s -> oinv s'.
Proof.
  unfold attach_tcb. cbv zeta. intros E I. destruct (negb ok); [eapply drop_o; eauto|]. set (fs := GRABBED :: _) in E. clearbody fs. revert E. apply (attached_o _ i fs) in I. revert I. generalize (attached c s i fs). clear s.
  induction tids as [|t r IH]; intros s I E; cbn [fold_left] in E; [inv_ok E; exact I|]. cbn [rbind] in E. destruct (new_tcb s t) as [[j s1]| |] eqn:N.
  - apply new_tcb_o in N; [|exact I]. cbn [rbind] in E. eapply IH; [|exact E]. apply attached_o. exact N.
  - exfalso. clear -E. cbn [rbind] in E. induction r as [|x r IH]; cbn [fold_left] in E; [discriminate E|]. apply IH. exact E.
  - exfalso. clear -E. cbn [rbind] in E. induction r as [|x r IH]; cbn [fold_left] in E; [discriminate E|]. apply IH. exact E.
Qed.
Lemma attach_from_o ans is : forall s s', attach_from c s is ans = Ok s' -> oinv s -> oinv s'.
Proof.
  induction is as [|i r IH]; intros s s' E I; cbn [attach_from] in E; [inv_ok E; exact I|]. apply rbind_ok in E as (s1 & E1 & E). eapply IH; [exact E|]. destruct (_ || _); [inv_ok E1; exact I|]. eapply attach_tcb_o; eauto.
Qed.
Lemma startup_o ch po li ps cmd ans s : startup c (st0 ch po li) ps cmd ans = Ok s -> oinv s.
Proof.
  unfold startup. intros E. apply rbind_ok in E as (s1 & E1 & E). apply rbind_ok in E as (s2 & E2 & E). unfold startup_attach in E. apply (attach_from_o _ _ _ _ E). apply alloc_pids_o in E1.
  - destruct cmd as [[p sec]|]; [|inv_ok E2; exact E1]. unfold startup_child in E2. cbv zeta in E2. apply rbind_ok in E2 as ([i s3] & E3 & E2). apply new_tcb_o in E3; [|exact E1]. inv_ok E2. apply (attached_o _ i (SKIP_DETACH_ON_FIRST_EXEC :: HIDE_LOG :: (if c_seize c then [] else [IGNORE_ONE_SIGSTOP]))) in E3. destruct sec; exact E3.
  - exists (fun _ => Shared). constructor; cbn; try discriminate; [intros d x []|]. intros [|m] x [].
Qed.
Lemma cleanup_all_o as_ is : forall s n m s', cleanup_all c s is as_ n = Ok (m, s') -> oinv s -> oinv s'.
Proof.
  induction is as [|i r IH]; intros s n m s' E I; cbn [cleanup_all] in E; [inv_ok E; exact I|]. destruct (P s i =? 0); [eapply IH; eauto|]. destruct (detach_or_interrupt_or_stop c s i (as_ i)) as [w s1] eqn:E0. apply dois_o in E0; [|exact I].
  destruct w; [eapply IH; eauto|]. apply rbind_ok in E as (s2 & E1 & E). apply drop_o in E1; [|exact E0]. eapply IH; eauto.
Qed.
Lemma cleanup_wait_o ws : forall s n s', cleanup_wait c s n ws = Ok s' -> oinv s -> oinv s'.
Proof.
  induction ws as [|w r IH]; intros s n s' E I; [destruct n; inv_ok E; exact I|]. destruct n; cbn [cleanup_wait] in E; [inv_ok E; exact I|]. destruct w as [[]|pid status err]; [eapply IH; eauto|inv_ok E; exact I|].
  destruct (pid =? popen s); [destruct (WIFSTOPPED status); (eapply IH; [exact E|exact I])|]. destruct (pid2tcb _ _) as [t found] eqn:F. apply pid2tcb_pids in F. assert (I0 : oinv (with_tb s t)) by (apply oinv_tb; auto). cbv zeta in E.
  destruct found as [i|]; [|eapply IH; [exact E|exact I0]]. apply rbind_ok in E as ([d s1] & E1 & E). apply dios_o in E1; [|exact I0]. destruct d; [|eapply IH; eauto]. apply rbind_ok in E as (s2 & E2 & E). apply drop_o in E2; [|exact E1]. eapply IH; eauto.
Qed.
Lemma cleanup_o s ek as_ ws s' : cleanup c s ek as_ ws = Ok s' -> oinv s -> oinv s'.
Proof. unfold cleanup. intros E I. destruct ek; [inv_ok E; exact I|]. apply rbind_ok in E as ([n s1] & E1 & E). apply cleanup_all_o in E1; [|exact I]. eapply cleanup_wait_o; eauto. Qed.
Lemma oinv_file s d x : oinv s -> In x (files (lg s) d) -> d = D (w_pid (fst x)).
Proof. intros [own I]. apply (v_file _ _ _ _ _ _ I). Qed.
End WithCfg.
