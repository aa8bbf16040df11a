(** The steps of which writing to the log is made, and what they leave alone. *)
From Coq Require Import Relations.
From Verif Require Import Base TcbModel LogModel LoopModel LoopFrame StatusSpec.
Local Open Scope N_scope.

Definition swap (l : log) (i j : nat) : log := set_out (set_out l j (outf l i) (staged l i)) i (outf l j) (staged l j).
Lemma nth_upd {A} (d v : A) (m n : nat) (l : list A) : (m < length l)%nat -> nth n (firstn m l ++ v :: skipn (S m) l) d = if Nat.eqb n m then v else nth n l d.
Proof.
  revert n l. induction m as [|m IH]; intros n l H; destruct l as [|x l]; cbn in H; try lia.
  - destruct n; reflexivity.
  - destruct n as [|n]; [reflexivity|]. cbn [firstn skipn app nth Nat.eqb]. apply IH. lia.
Qed.
Lemma length_upd {A} (v : A) (m : nat) (l : list A) : (m < length l)%nat -> length (firstn m l ++ v :: skipn (S m) l) = length l.
Proof. intros H. rewrite app_length, firstn_length. cbn [length]. rewrite skipn_length. lia. Qed.

Section K.
Variable K : nat -> bool.   (* the tcbs that are concerned *)
Inductive lop : log -> log -> Prop :=
| lo_put l k w x f : K k = true -> outf l k = Some f -> w_gen w = gen l k -> lop l (write l f [(w, x)])
| lo_cur l x : lop l (set_current l x)
| lo_printing l x : lop l (set_printing l x)
| lo_col l k n : K k = true -> lop l (set_col l k n)
| lo_col0 l k : lop l (set_col l k 0)
| lo_open l k : K k = true -> lop l (open_memstream l k)
| lo_close l k b l' : K k = true -> close_memstream l k b = Ok l' -> lop l l'
| lo_out l k : K k = true -> lop l (set_out l k None None)
| lo_swap l a b : K a = true -> K b = true -> lop l (swap l a b)
| lo_attach l k d : K k = true -> lop l (set_out l k (Some (FReal d)) (staged l k))
| lo_new l k : K k = true -> lop l (alloc_log l k).
Definition lops := clos_refl_trans_1n log lop.
Lemma lops_refl l : lops l l. Proof. constructor. Qed.
Lemma lops_one l l' : lop l l' -> lops l l'. Proof. intros H. econstructor; [exact H|constructor]. Qed.
Lemma lops_trans a b c : lops a b -> lops b c -> lops a c.
Proof. intros H1 H2. induction H1 as [|x y z H1 H3 IH]; [exact H2|]. econstructor; [exact H1|apply IH; exact H2]. Qed.
Lemma lops_snoc a b c : lops a b -> lop b c -> lops a c.
Proof. intros H1 H2. eapply lops_trans; [exact H1|apply lops_one, H2]. Qed.

(** a tcb that is not concerned has no line that another one would cut *)
Definition whole (l : log) : Prop := forall j, K j = false -> col l j = 0 \/ staged l j <> None.
Definition curK (l : log) : Prop := forall j, current l = Some j -> K j = true.

Lemma put_steps Q l k x l' : K k = true -> put Q l k x = Ok l' -> lops l l'.
Proof. unfold put. destruct (outf l k) as [f|] eqn:F; [|discriminate]. intros H E. inv_ok E. apply lops_one. eapply lo_put; eauto. Qed.
Lemma put_cur Q l k x l' : put Q l k x = Ok l' -> current l' = current l.
Proof. unfold put. destruct (outf l k) as [[]|]; [| |discriminate]; intros E; inv_ok E; reflexivity. Qed.
Lemma tprint_steps Q l x l' : curK l -> tprint Q l x = Ok l' -> lops l l' /\ current l' = current l.
Proof.
  unfold tprint. destruct (current l) as [i|] eqn:C; [|intros _ E; inv_ok E; split; [apply lops_refl|exact C]].
  intros H E. apply rbind_ok in E as (l1 & E1 & E2). inv_ok E2. split; [|cbn; rewrite (put_cur _ _ _ _ _ E1); exact C].
  eapply lops_snoc; [eapply put_steps; [apply H; exact C|exact E1]|apply lo_col, H, C].
Qed.
Lemma curK_eq l l' : current l' = current l -> curK l -> curK l'. Proof. unfold curK. intros ->. auto. Qed.
Lemma tprints_steps Q xs : forall l l', curK l -> tprints Q l xs = Ok l' -> lops l l' /\ current l' = current l.
Proof.
  induction xs as [|x xs IH]; intros l l' H E; cbn in E; [inv_ok E; split; [apply lops_refl|reflexivity]|]. apply rbind_ok in E as (l1 & E1 & E2).
  destruct (tprint_steps _ _ _ _ H E1) as [A1 A2]. destruct (IH _ _ (curK_eq _ _ A2 H) E2) as [B1 B2]. split; [eapply lops_trans; eassumption|congruence].
Qed.
Lemma line_ended_steps l : lops l (line_ended l) /\ current (line_ended l) = current l.
Proof.
  unfold line_ended. set (l1 := match current l with Some i => set_col l i 0 | None => l end). assert (A : lops l l1 /\ current l1 = current l).
  { unfold l1. destruct (current l) eqn:C; [split; [apply lops_one, lo_col0|exact C]|split; [apply lops_refl|exact C]]. }
  clearbody l1. destruct A as [A1 A2]. destruct (printing l1); [|split; assumption]. split; [|exact A2].
  eapply lops_snoc; [eapply lops_snoc; [exact A1|apply lo_col0]|apply lo_printing].
Qed.
Lemma printleader_steps Q c np l i l' : whole l -> K i = true -> printleader Q c np l i = Ok l' -> lops l l' /\ current l' = Some i.
Proof.
  unfold printleader. cbv zeta. intros W Ki E. set (l0 := if c_ff c then set_printing l (Some i) else l) in *.
  assert (A : lops l l0 /\ whole l0). { unfold l0. destruct (c_ff c); [|split; [apply lops_refl|exact W]]. split; [apply lops_one, lo_printing|exact W]. }
  clearbody l0. destruct A as [A0 W0]. apply rbind_ok in E as (l1 & E1 & E2). assert (A1 : lops l0 l1).
  { destruct (printing l0) as [j|]; [|inv_ok E1; apply lops_refl]. destruct (negb (col l0 j =? 0) && _) eqn:B; [|inv_ok E1; apply lops_refl].
    apply andb_true_iff in B as [B1 B2]. apply negb_true_iff, N.eqb_neq in B1.
    assert (Kj : K j = true). { destruct (K j) eqn:KJ; [reflexivity|exfalso]. destruct (W0 j KJ) as [X|X]; [contradiction|]. destruct (Nat.eqb_spec j i) as [->|]; [congruence|]. cbn in B2. destruct (staged l0 j); [|contradiction]. rewrite andb_false_r in B2. discriminate. }
    apply rbind_ok in E1 as (l2 & E3 & E4). inv_ok E4. apply tprints_steps in E3 as [S1 S2]; [|intros k X; cbn in X; congruence].
    eapply lops_snoc; [eapply lops_trans; [apply lops_one, lo_cur|exact S1]|apply lo_col0]. }
  apply tprint_steps in E2 as [S1 S2]; [|intros k X; cbn in X; congruence]. split; [|exact S2].
  eapply lops_trans; [exact A0|]. eapply lops_trans; [exact A1|]. eapply lops_trans; [|exact S1].
  eapply lops_snoc; [eapply lops_snoc; [apply lops_one, lo_printing|apply lo_cur]|apply lo_col0].
Qed.
Lemma msg_line_steps Q c np l i t x l' : whole l -> K i = true -> msg_line Q c np l i t x = Ok l' -> lops l l' /\ current l' = Some i.
Proof.
  unfold msg_line. intros W Ki E. apply rbind_ok in E as (l1 & E1 & E). apply rbind_ok in E as (l2 & E2 & E3). inv_ok E3.
  apply printleader_steps in E1 as [A1 A2]; auto. apply tprints_steps in E2 as [B1 B2]; [|intros k X; congruence]. destruct (line_ended_steps l2) as [C1 C2].
  split; [eapply lops_trans; [exact A1|]; eapply lops_trans; eassumption|congruence].
Qed.
Lemma close_steps l i b l' : K i = true -> close_memstream l i b = Ok l' -> lops l l' /\ current l' = current l.
Proof.
  intros Ki E. split; [apply lops_one; eapply lo_close; eassumption|]. unfold close_memstream in E. destruct (staged l i) as [[m r]|]; [|inv_ok E; reflexivity].
  destruct b; [|inv_ok E; reflexivity]. destruct r as [[]|]; [| |discriminate]; inv_ok E; reflexivity.
Qed.

(** ** What no step does *)
(** a tcb that is not concerned keeps its streams; its column is kept or set to 0 *)
Record spared (i : nat) (l l' : log) : Prop := {
  sp_out : outf l' i = outf l i; sp_staged : staged l' i = staged l i; sp_gen : gen l' i = gen l i; sp_ngen : (ngen l <= ngen l')%nat;
  sp_col : col l' i = col l i \/ col l' i = 0 }.
Lemma spared_refl i l : spared i l l. Proof. constructor; auto. Qed.
Lemma spared_trans i a b c : spared i a b -> spared i b c -> spared i a c.
Proof. intros [] []. constructor; try congruence; [lia|]. destruct sp_col1; [|auto]. destruct sp_col0; [left|right]; congruence. Qed.
Lemma write_streams l f xs : outf (write l f xs) = outf l /\ staged (write l f xs) = staged l /\ gen (write l f xs) = gen l /\ ngen (write l f xs) = ngen l /\ col (write l f xs) = col l.
Proof. destruct f; repeat split. Qed.
Ltac neq i k := destruct (Nat.eqb_spec i k) as [?|?]; [congruence|].
Lemma lop_spared i l l' : K i = false -> lop l l' -> spared i l l'.
Proof.
  intros Ki H. destruct H.
  - destruct (write_streams l f [(w, x)]) as (A & B & C & D & E). constructor; rewrite ?A, ?B, ?C, ?D, ?E; auto.
  - constructor; cbn; auto.
  - constructor; cbn; auto.
  - constructor; cbn; auto. neq i k. auto.
  - constructor; cbn; auto. destruct (Nat.eqb_spec i k); auto.
  - constructor; cbn; auto; neq i k; auto.
  - unfold close_memstream in H0. destruct (staged l k) as [[m r]|]; [|inv_ok H0; apply spared_refl].
    assert (X : spared i l (set_out l k r None)) by (constructor; cbn; auto; neq i k; auto).
    destruct b; [|inv_ok H0; exact X]. destruct r as [f|]; [|discriminate]. inv_ok H0. eapply spared_trans; [exact X|].
    match goal with |- spared i ?a (write ?a f ?xs) => destruct (write_streams a f xs) as (A & B & C & D & E) end. constructor; rewrite ?A, ?B, ?C, ?D, ?E; auto.
  - constructor; cbn; auto; neq i k; auto.
  - constructor; cbn; auto; neq i a; neq i b; auto.
  - constructor; cbn; auto; neq i k; auto.
  - constructor; cbn; auto; neq i k; auto.
Qed.
Lemma lops_spared i l l' : K i = false -> lops l l' -> spared i l l'.
Proof. intros Ki H. induction H; [apply spared_refl|]. eapply spared_trans; [eapply lop_spared; eassumption|exact IHclos_refl_trans_1n]. Qed.
Lemma whole_lops l l' : whole l -> lops l l' -> whole l'.
Proof. intros W H j Kj. destruct (lops_spared j _ _ Kj H) as [A B C D E]. rewrite B. destruct (W j Kj); [|auto]. destruct E; [left; congruence|auto]. Qed.
End K.

(** ** What a tracee keeps back is its own *)
Section Private.
Variables (dst : dest) (i g : nat) (M : option nat).   (* the tcb, its life, its stream in memory *)
Record priv (l : log) : Prop := {
  pv_gen : gen l i = g; pv_new : (g < ngen l)%nat;
  pv_own : forall m, M = Some m -> (m < length (mems l))%nat;
  pv_oth : forall k, k <> i -> gen l k <> g /\ forall m, mentions l k m -> (m < length (mems l))%nat /\ mine g (nth m (mems l) []) = [] /\ M <> Some m }.
(** the rest of the world goes on *)
Record later (l l' : log) : Prop := {
  la_mem : forall m, M = Some m -> nth m (mems l') [] = nth m (mems l) [];
  la_len : (length (mems l) <= length (mems l'))%nat;
  la_file : exists X, files l' dst = files l dst ++ X /\ mine g X = [] }.
Lemma later_refl l : later l l. Proof. constructor; auto. exists []. rewrite app_nil_r. auto. Qed.
Lemma mine_app a b : mine g (a ++ b) = mine g a ++ mine g b. Proof. apply filter_app. Qed.
Lemma later_trans a b c : later a b -> later b c -> later a c.
Proof.
  intros [A1 A2 (X & A3 & A4)] [B1 B2 (Y & B3 & B4)]. constructor; [|lia|].
  - intros m Hm. rewrite B1, A1 by exact Hm. reflexivity.
  - exists (X ++ Y). rewrite B3, A3, <- app_assoc, mine_app, A4, B4. auto.
Qed.
Lemma later_same l l' : mems l' = mems l -> files l' = files l -> later l l'.
Proof. intros A B. constructor; rewrite ?A, ?B; auto. exists []. rewrite app_nil_r. auto. Qed.
(** changing other streams *)
Lemma priv_same l l' : priv l -> mems l' = mems l -> gen l' = gen l -> ngen l' = ngen l ->
  (forall k m, k <> i -> mentions l' k m -> exists k', k' <> i /\ mentions l k' m) -> priv l'.
Proof.
  intros [A B C D] E1 E2 E3 H. constructor; rewrite ?E1, ?E2, ?E3; auto. intros k Hk. split; [apply (D k Hk)|]. intros m Hm. destruct (H k m Hk Hm) as (k' & Hk' & Hm'). apply (D k' Hk'). exact Hm'.
Qed.
(** writing what the tracee did not write *)
Lemma write_priv l f xs : priv l -> mine g xs = [] -> (forall m, f = FMem m -> (m < length (mems l))%nat /\ mine g (nth m (mems l) []) = [] /\ M <> Some m) -> priv (write l f xs) /\ later l (write l f xs).
Proof.
  intros Pv Hx H. destruct f as [d|m].
  - split.
    + apply (priv_same l); auto. intros k m Hk Hm. exists k. auto.
    + constructor; cbn; auto. destruct (dest_eqb dst d); [exists xs; auto|exists []; rewrite app_nil_r; auto].
  - destruct (H m eq_refl) as (H1 & H2 & H3). destruct Pv as [A B C D]. set (l' := write l (FMem m) xs).
    assert (L : length (mems l') = length (mems l)) by (apply length_upd; exact H1). assert (Nm : forall n, nth n (mems l') [] = if Nat.eqb n m then nth m (mems l) [] ++ xs else nth n (mems l) []) by (intros n; apply nth_upd; exact H1).
    split.
    + constructor; rewrite ?L; auto. intros k Hk. destruct (D k Hk) as [D1 D2]. split; [exact D1|]. intros m' Hm'. destruct (D2 m' Hm') as (D3 & D4 & D5). rewrite Nm. split; [exact D3|]. split; [|exact D5]. destruct (Nat.eqb_spec m' m) as [->|]; [rewrite mine_app, H2, Hx; reflexivity|exact D4].
    + constructor; [|lia|exists []; rewrite app_nil_r; auto]. intros n Hn. rewrite Nm. destruct (Nat.eqb_spec n m) as [->|]; [contradiction|reflexivity].
Qed.
Lemma set_out_priv l k o st_ : k <> i -> priv l -> (forall m, o = Some (FMem m) \/ (exists r, st_ = Some (m, r)) \/ (exists a, st_ = Some (a, Some (FMem m))) -> exists k', k' <> i /\ mentions l k' m) -> priv (set_out l k o st_).
Proof.
  intros Hk Pv H. apply (priv_same l); auto. intros j m Hj. unfold mentions. cbn. destruct (Nat.eqb_spec j k) as [->|]; [apply H|]. intros Hm. exists j. auto.
Qed.
Definition Kn (j : nat) : bool := negb (Nat.eqb j i).
Lemma Kn_ne j : Kn j = true -> j <> i. Proof. unfold Kn. destruct (Nat.eqb_spec j i); [discriminate|auto]. Qed.
Lemma lop_priv l l' : lop Kn l l' -> priv l -> priv l' /\ later l l'.
Proof.
  intros H Pv. pose proof Pv as Pv0. destruct Pv0 as [A B C D]. destruct H as [l k w x f Hk Ho Hw|l x|l x|l k n Hk|l k|l k Hk|l k b l' Hk E|l k Hk|l a b Ha Hb|l k d Hk|l k Hk].
  - apply Kn_ne in Hk. destruct (D k Hk) as [D1 D2]. apply write_priv; auto.
    + unfold mine. cbn. rewrite Hw. destruct (Nat.eqb_spec (gen l k) g); [contradiction|reflexivity].
    + intros m ->. apply D2. left. exact Ho.
  - split; [|apply later_same; reflexivity]. apply (priv_same l); auto. intros j m Hj Hm. exists j. auto.
  - split; [|apply later_same; reflexivity]. apply (priv_same l); auto. intros j m Hj Hm. exists j. auto.
  - split; [|apply later_same; reflexivity]. apply (priv_same l); auto. intros j m Hj Hm. exists j. auto.
  - split; [|apply later_same; reflexivity]. apply (priv_same l); auto. intros j m Hj Hm. exists j. auto.
  - apply Kn_ne in Hk. set (n := length (mems l)). assert (L : length (mems (open_memstream l k)) = S n) by (cbn; rewrite app_length; cbn; unfold n; lia).
    assert (Nm : forall m, (m < n)%nat -> nth m (mems (open_memstream l k)) [] = nth m (mems l) []) by (intros m Hm; cbn; apply app_nth1; exact Hm).
    split.
    + constructor; auto; [intros m Hm; specialize (C m Hm); rewrite L; unfold n; lia|]. intros j Hj. split; [apply (D j Hj)|]. intros m Hm.
      assert (X : m = n \/ mentions l j m \/ mentions l k m).
      { unfold mentions, open_memstream in Hm. cbn in Hm. destruct (Nat.eqb_spec j k) as [->|]; [|auto]. destruct Hm as [Hm|[[r Hm]|[a Hm]]]; [inversion Hm; auto|inversion Hm; auto|]. inversion Hm. right. left. left. assumption. }
      destruct X as [->|X].
      * rewrite L. split; [lia|]. split; [cbn; rewrite app_nth2 by (unfold n; lia); replace (n - length (mems l))%nat with O by (unfold n; lia); reflexivity|]. intros Y. specialize (C n Y). unfold n in C. lia.
      * assert (Y : (m < n)%nat /\ mine g (nth m (mems l) []) = [] /\ M <> Some m) by (destruct X as [X|X]; [apply (D j Hj); exact X|apply (D k Hk); exact X]). destruct Y as (Y1 & Y2 & Y3). rewrite L, Nm by exact Y1. repeat split; auto; lia.
    + constructor; [|rewrite L; unfold n; lia|exists []; rewrite app_nil_r; auto]. intros m Hm. apply Nm. apply C. exact Hm.
  - apply Kn_ne in Hk. unfold close_memstream in E. destruct (staged l k) as [[m r]|] eqn:Sk; [|inv_ok E; split; [exact Pv|apply later_refl]].
    assert (Dm : mentions l k m) by (right; left; eauto).
    assert (X : priv (set_out l k r None) /\ later l (set_out l k r None)).
    { split; [|apply later_same; reflexivity]. apply set_out_priv; auto. intros m' [->|[[? Hm]|[? Hm]]]; try discriminate. exists k. split; [exact Hk|]. right. right. eauto. }
    destruct b; [|inv_ok E; exact X]. destruct r as [f|]; [|discriminate]. inv_ok E. destruct X as [X1 X2].
    destruct (write_priv _ f (nth m (mems l) []) X1) as [Y1 Y2].
    + apply (D k Hk). exact Dm.
    + intros m' ->. cbn [mems set_out]. apply (D k Hk). right. right. eauto.
    + split; [exact Y1|eapply later_trans; eassumption].
  - apply Kn_ne in Hk. split; [|apply later_same; reflexivity]. apply set_out_priv; auto. intros m [Hm|[[? Hm]|[? Hm]]]; discriminate.
  - apply Kn_ne in Ha, Hb. split; [|apply later_same; reflexivity]. apply (priv_same l); auto. intros j m Hj. unfold mentions, swap. cbn.
    destruct (Nat.eqb j a); [intros Hm; exists b; auto|]. destruct (Nat.eqb j b); [intros Hm; exists a; auto|]. intros Hm. exists j. auto.
  - apply Kn_ne in Hk. split; [|apply later_same; reflexivity]. apply set_out_priv; auto. intros m [Hm|Hm]; [discriminate|]. exists k. split; [exact Hk|]. right. exact Hm.
  - apply Kn_ne in Hk. split; [|apply later_same; reflexivity]. constructor; cbn; auto.
    + destruct (Nat.eqb_spec i k); [congruence|exact A].
    + intros j Hj. split; [destruct (Nat.eqb_spec j k); [lia|apply (D j Hj)]|]. intros m Hm. unfold mentions in Hm. cbn in Hm.
      destruct (Nat.eqb_spec j k) as [->|]; [destruct Hm as [Hm|[[? Hm]|[? Hm]]]; discriminate|]. apply (D j Hj). exact Hm.
Qed.
Lemma lops_priv l l' : lops Kn l l' -> priv l -> priv l' /\ later l l'.
Proof.
  intros H. induction H as [|x y z H _ IH]; intros Pv; [split; [exact Pv|apply later_refl]|]. destruct (lop_priv _ _ H Pv) as [A B]. destruct (IH A) as [C D]. split; [exact C|eapply later_trans; eassumption].
Qed.
End Private.
