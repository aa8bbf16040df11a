From Verif Require Import Base ListModel ListSpec.
From Coq Require Import Permutation.
Local Open Scope N_scope.

Lemma chain_app h l : forall a x r b, chain h a (l ++ x :: r) b <-> chain h a l x /\ chain h x r b.
Proof. induction l as [|y l IH]; intros a x r b; cbn [app chain]; [tauto|]. rewrite IH. tauto. Qed.
Lemma chain_frame h h' l : forall a b, (forall x, In x (a :: l) -> next h' x = next h x) -> (forall x, In x (l ++ [b]) -> prev h' x = prev h x) -> chain h a l b -> chain h' a l b.
Proof.
  induction l as [|y l IH]; intros a b N P; cbn [chain app] in *.
  - rewrite N, P by (left; reflexivity). auto.
  - intros (A & B & C). rewrite N by (left; reflexivity). rewrite P by (left; reflexivity). split; [exact A|]. split; [exact B|]. apply IH; [| |exact C]; intros x I; [apply N|apply P]; right; exact I.
Qed.
Lemma ring_frame h h' l : (forall x, In x l -> next h' x = next h x /\ prev h' x = prev h x) -> ring h l -> ring h' l.
Proof.
  destruct l as [|a l]; [auto|]. intros F. apply chain_frame; intros x I; apply F; [exact I|]. apply in_app_iff in I as [I|[<-|[]]]; [right; exact I|left; reflexivity].
Qed.
Lemma ring_rot h l1 x l2 : ring h (l1 ++ x :: l2) -> ring h (x :: l2 ++ l1).
Proof.
  destruct l1 as [|a l1]; cbn [app ring]; [rewrite app_nil_r; auto|]. rewrite !chain_app. tauto.
Qed.
Lemma around_spec x l : forall b t, around x l b = Some t -> exists l1 l2, l = l1 ++ x :: l2 /\ t = l2 ++ rev b ++ l1.
Proof.
  induction l as [|y l IH]; intros b t E; [discriminate|]. cbn in E. destruct (N.eqb_spec y x) as [->|].
  - inversion E; subst. exists [], l. rewrite app_nil_r. auto.
  - apply IH in E as (l1 & l2 & -> & ->). exists (y :: l1), l2. split; [reflexivity|]. cbn [rev]. rewrite <- app_assoc. reflexivity.
Qed.
Lemma around_none x l : forall b, around x l b = None -> ~ In x l.
Proof. induction l as [|y l IH]; intros b E; [auto|]. cbn in E. destruct (N.eqb_spec y x); [discriminate|]. intros [?|?]; [auto|]. eapply IH; eauto. Qed.
Lemma take_none x R : take x R = None -> ~ In x (concat R).
Proof.
  induction R as [|r R IH]; intros E; [auto|]. cbn in *. destruct (around x r []) eqn:A; [discriminate|]. apply around_none in A. destruct (take x R) as [[? ?]|]; [discriminate|]. rewrite in_app_iff. intros [?|?]; [auto|]. apply IH; auto.
Qed.
Lemma take_spec x R : forall t R', take x R = Some (t, R') -> Permutation (concat R) (x :: t ++ concat R') /\ (forall h, Forall (ring h) R -> ring h (x :: t) /\ Forall (ring h) R').
Proof.
  induction R as [|r R IH]; intros t R' E; [discriminate|]. cbn in E. destruct (around x r []) as [t0|] eqn:A.
  - inversion E; subst. apply around_spec in A as (l1 & l2 & -> & ->). cbn [rev app]. split.
    + cbn [concat]. rewrite <- app_assoc. cbn [app]. rewrite <- Permutation_middle. rewrite app_assoc. apply perm_skip, Permutation_app_tail, Permutation_app_comm.
    + intros h F. inversion F; subst. split; [apply ring_rot|]; assumption.
  - destruct (take x R) as [[t0 R0]|]; [|discriminate]. inversion E; subst. destruct (IH _ _ eq_refl) as [P Q]. split.
    + cbn [concat]. rewrite P. rewrite <- Permutation_middle. apply perm_skip. rewrite !app_assoc. apply Permutation_app_tail, Permutation_app_comm.
    + intros h F. inversion F; subst. destruct (Q h) as [Q1 Q2]; auto.
Qed.
Lemma rings_take h x R t R' : rings h R -> take x R = Some (t, R') -> rings h ((x :: t) :: R').
Proof.
  intros (ND & NZ & F) T. destruct (take_spec _ _ _ _ T) as [P Q]. split; [|split].
  - cbn [concat]. rewrite <- app_comm_cons. eapply Permutation_NoDup; eauto.
  - cbn [concat]. rewrite <- app_comm_cons. intros I. apply NZ. eapply Permutation_in; [symmetry; exact P|exact I].
  - destruct (Q h F). constructor; assumption.
Qed.
Lemma rings_free h x R R' : rings h R -> free x R = Some R' -> rings h R' /\ ~ In x (concat R') /\ incl (concat R') (concat R).
Proof.
  intros Rg E. unfold free in E. destruct (take x R) as [[t0 R0]|] eqn:T.
  - destruct t0; [|discriminate]. inversion E; subst. pose proof (rings_take _ _ _ _ _ Rg T) as (ND & NZ & F). cbn [concat app] in *. inversion ND; subst. inversion F; subst. split; [split; [assumption|]; split; [intros I; apply NZ; right; exact I|assumption]|]. split; [assumption|].
    destruct (take_spec _ _ _ _ T) as [P _]. intros y I. eapply Permutation_in; [symmetry; exact P|]. right. exact I.
  - inversion E; subst. apply take_none in T. split; [exact Rg|]. split; [exact T|]. intros y I; exact I.
Qed.
(** the rings that are not concerned stay *)
Lemma others_frame h h' L R : (forall x, ~ In x L -> next h' x = next h x /\ prev h' x = prev h x) -> (forall x, In x (concat R) -> ~ In x L) -> Forall (ring h) R -> Forall (ring h') R.
Proof.
  intros D I F. rewrite Forall_forall in *. intros r Ir. apply ring_frame with h; [|apply F; exact Ir]. intros x Ix. apply D, I. apply in_concat. eauto.
Qed.
Lemma snoc_case {A} (l : list A) : l = [] \/ exists t z, l = t ++ [z].
Proof. destruct l as [|a l] using rev_ind; [left; reflexivity|right; eauto]. Qed.
Lemma put_same f p v : put f p v p = v. Proof. unfold put. rewrite N.eqb_refl. reflexivity. Qed.
Lemma put_other f p v q : q <> p -> put f p v q = f q. Proof. intros H. unfold put. destruct (N.eqb_spec q p); [contradiction|reflexivity]. Qed.
Ltac nz p := rewrite (proj2 (N.eqb_neq p 0)) by (assumption || congruence).

(** ** Each operation on the ring of its head *)
Definition same_but (L : list N) (h h' : heap) : Prop := forall x, ~ In x L -> next h' x = next h x /\ prev h' x = prev h x.

Lemma init_ok h x : x <> 0 -> exists h', list_init h x = Ok h' /\ ring h' [x] /\ same_but [x] h h'.
Proof.
  intros X. unfold list_init, set_prev. nz x. cbn [rbind]. unfold set_next. nz x. eexists. split; [reflexivity|]. cbn [ring chain next prev]. rewrite !put_same. split; [auto|]. intros y I. cbn [next prev]. cbn in I. rewrite !put_other by (let K := fresh in intros K; apply I; rewrite K; cbn; tauto). auto.
Qed.
(** inserting [x] between [a] and the next one *)
Lemma link_ok h a x t : a <> 0 -> x <> 0 -> x <> a -> NoDup (a :: t) -> ~ In x t -> ~ In 0 t -> ring h (a :: t) ->
  exists h', list_insert h a x = Ok h' /\ ring h' (a :: x :: t) /\ same_but (a :: x :: t) h h'.
Proof.
  intros A X XA ND XT ZT Rg. cbn [ring] in Rg. inversion ND as [|? ? AT NDT]; subst. unfold list_insert, get_next, set_next, set_prev. nz a. cbn [rbind]. nz x. cbn [rbind next prev]. rewrite (put_other _ x _ a) by congruence. destruct t as [|y t].
  - destruct Rg as [E1 E2]. rewrite E1. nz a. cbn [rbind next prev]. eexists. split; [reflexivity|]. cbn [ring chain next prev]. split.
    + rewrite put_same. rewrite (put_other _ a _ x) by exact XA. rewrite put_same. rewrite (put_other _ a _ x) by exact XA. rewrite !put_same. auto.
    + intros z I. cbn in I. cbn [next prev]. rewrite !put_other by (let K := fresh in intros K; apply I; rewrite K; cbn; tauto). auto.
  - destruct Rg as (E1 & E2 & C). rewrite E1. assert (y <> 0) by (intros ->; apply ZT; left; reflexivity). nz y. cbn [rbind next prev]. eexists. split; [reflexivity|]. cbn [ring chain next prev]. assert (x <> y) by (intros ->; apply XT; left; reflexivity). assert (a <> y) by (intros ->; apply AT; left; reflexivity). inversion NDT as [|? ? YT NDT']; subst. split.
    + rewrite put_same. rewrite (put_other _ (next h a) _ x) by assumption. rewrite put_same. rewrite (put_other _ a _ x) by assumption. rewrite !put_same. split; [reflexivity|]. split; [reflexivity|]. split; [reflexivity|]. split; [reflexivity|].
      eapply chain_frame; [| |exact C]; cbn [next prev].
      * intros z I. assert (z <> a) by (intros ->; contradiction). assert (z <> x) by (intros ->; contradiction). rewrite !put_other by assumption. reflexivity.
      * intros z I. assert (z <> next h a) by (intros ->; apply in_app_iff in I as [I|[I|[]]]; [contradiction|congruence]). assert (z <> x) by (intros ->; apply in_app_iff in I as [I|[I|[]]]; [apply XT; right; exact I|congruence]). rewrite !put_other by assumption. reflexivity.
    + intros z I. cbn in I. cbn [next prev]. rewrite !put_other by (let K := fresh in intros K; apply I; rewrite K; cbn; tauto). auto.
Qed.
Ltac inn := cbn [In app] in *; repeat (rewrite in_app_iff in * || cbn [In] in * ); tauto.
Ltac nin := let K := fresh in intros K; first [ congruence | match goal with H : ~ In _ _ |- _ => apply H; first [ rewrite K; inn | rewrite <- K; inn ] end | match goal with H : In _ _ |- _ => first [rewrite K in H | rewrite <- K in H]; inn end ].
Ltac dis := let K := fresh in intros K; subst; cbn [In app] in *; repeat (rewrite in_app_iff in * || cbn [In] in * ); repeat match goal with H : _ \/ _ |- _ => destruct H end; first [ contradiction | congruence | (exfalso; tauto) ].
Lemma append_ok h a x t : a <> 0 -> x <> 0 -> x <> a -> NoDup (a :: t) -> ~ In x t -> ~ In 0 t -> ring h (a :: t) ->
  exists h', list_append h a x = Ok h' /\ ring h' (a :: t ++ [x]) /\ same_but (a :: x :: t) h h'.
Proof.
  intros A X XA ND XT ZT Rg. cbn [ring] in Rg. inversion ND as [|? ? AT NDT]; subst. unfold list_append, get_prev, set_next, set_prev. nz x. cbn [rbind next prev]. nz a. cbn [rbind]. cbn [next prev]. rewrite (put_other _ x _ a) by congruence. destruct (snoc_case t) as [->|(t' & z & ->)].
  - destruct Rg as [E1 E2]. rewrite E2. nz a. cbn [rbind next prev]. eexists. split; [reflexivity|]. cbn [app ring chain next prev]. split.
    + rewrite put_same. rewrite (put_other _ a _ x) by exact XA. rewrite put_same. rewrite (put_other _ a _ x) by exact XA. rewrite !put_same. auto.
    + intros z I. cbn in I. cbn [next prev]. rewrite !put_other by (let K := fresh in intros K; apply I; rewrite K; cbn; tauto). auto.
  - apply chain_app in Rg as [C [E1 E2]]. rewrite E2. assert (ZZ : z <> 0) by nin. assert (XZ : x <> z) by nin. assert (AZ : a <> z) by nin. nz z. cbn [rbind next prev]. eexists. split; [reflexivity|].
    assert (ZT' : ~ In z t') by (apply NoDup_remove_2 in NDT; rewrite app_nil_r in NDT; exact NDT). split.
    + cbn [ring]. rewrite <- app_assoc. cbn [app]. apply chain_app. split.
      * eapply chain_frame; [| |exact C]; cbn [next prev]; intros q I.
        -- assert (q <> x) by dis. assert (q <> z) by dis. rewrite !put_other by assumption. reflexivity.
        -- assert (q <> x) by dis. assert (q <> a) by dis. rewrite !put_other by assumption. reflexivity.
      * cbn [chain next prev]. rewrite put_same. rewrite (put_other _ a _ x) by exact XA. rewrite put_same. rewrite (put_other _ z _ x) by exact XZ. rewrite !put_same. auto.
    + intros q I. cbn [next prev]. rewrite !put_other by (let K := fresh in intros K; apply I; rewrite K; cbn; rewrite ?in_app_iff; cbn; tauto). auto.
Qed.
Lemma empty_ok h a t : a <> 0 -> ~ In a t -> ~ In 0 t -> ring h (a :: t) -> list_is_empty h a = Ok (match t with [] => true | _ => false end).
Proof.
  intros A AT ZT Rg. unfold list_is_empty, get_next, get_prev. nz a. cbn [rbind ring] in *. f_equal. destruct t as [|y t].
  - destruct Rg as [-> ->]. rewrite N.eqb_refl. reflexivity.
  - destruct Rg as (-> & _). assert (y <> a) by nin. assert (y <> 0) by nin. destruct (N.eqb_spec y a); [contradiction|]. destruct (N.eqb_spec y 0); [contradiction|]. reflexivity.
Qed.
Lemma remove_ok h x t : x <> 0 -> NoDup (x :: t) -> ~ In 0 t -> t <> [] -> ring h (x :: t) ->
  exists h', list_remove h x = Ok (h', true) /\ ring h' t /\ ring h' [x] /\ same_but (x :: t) h h'.
Proof.
  intros X ND ZT TN Rg. inversion ND as [|? ? XT NDT]; subst. unfold list_remove. rewrite (empty_ok h x t) by assumption. unfold get_next, get_prev. nz x. cbn [rbind]. cbn [ring] in Rg. destruct t as [|y t]; [congruence|]. destruct Rg as (E1 & E2 & C). assert (Y0 : y <> 0) by nin. assert (XY : x <> y) by nin. inversion NDT as [|? ? YT NDT']; subst.
  assert (P0 : prev h x <> 0).
  { destruct (snoc_case t) as [->|(t' & z & ->)]; [destruct C as [_ C]; rewrite C; exact Y0|]. apply chain_app in C as [_ [_ C]]. rewrite C. nin. }
  nz (prev h x). nz (next h x). cbn [orb]. unfold set_next, set_prev. nz (prev h x). cbn [rbind next prev].
  assert (PX : prev h x <> x). { destruct (snoc_case t) as [->|(t' & z & ->)]; [destruct C as [_ C]; congruence|]. apply chain_app in C as [_ [_ C]]. rewrite C. nin. }
  rewrite (put_other _ (prev h x) _ x) by congruence. nz (next h x). cbn [rbind next prev]. nz x. cbn [rbind next prev]. eexists. split; [reflexivity|]. cbn [ring chain next prev]. rewrite !put_same. split; [|split; [auto|]].
  - destruct (snoc_case t) as [->|(t' & z & ->)].
    + destruct C as [C1 C2]. cbn [chain next prev]. rewrite C2. rewrite (put_other _ x _ (next h x)) by congruence. rewrite put_same. rewrite (put_other _ x _ (next h x)) by congruence. rewrite put_same. auto.
    + apply chain_app in C as [C [C1 C2]]. rewrite C2. assert (XZ : x <> z) by nin. assert (ZT' : ~ In z t') by (apply NoDup_remove_2 in NDT'; rewrite app_nil_r in NDT'; exact NDT').
      assert (YZ : z <> next h x) by nin. apply chain_app. split.
      * eapply chain_frame; [| |exact C]; cbn [next prev]; intros q I.
        -- assert (q <> x) by dis. assert (q <> z) by dis. rewrite !put_other by assumption. reflexivity.
        -- assert (q <> x) by dis. assert (q <> next h x) by dis. rewrite !put_other by assumption. reflexivity.
      * cbn [chain next prev]. rewrite (put_other _ x _ z) by congruence. rewrite put_same. rewrite (put_other _ x _ (next h x)) by congruence. rewrite put_same. auto.
  - intros q I. cbn [next prev]. assert (q <> x) by dis. assert (q <> next h x) by (intros K; apply I; rewrite K; right; left; reflexivity). assert (q <> prev h x).
    { intros K. apply I. rewrite K. destruct (snoc_case t) as [->|(t' & z & ->)]; [destruct C as [_ ->]; right; left; reflexivity|]. apply chain_app in C as [_ [_ ->]]. right. right. apply in_app_iff. right. left. reflexivity. }
    rewrite !put_other by assumption. auto.
Qed.
Lemma remove_single h x : x <> 0 -> ring h [x] -> list_remove h x = Ok (h, false).
Proof. intros X Rg. unfold list_remove. rewrite (empty_ok h x []) by (auto; intros []). unfold get_next, get_prev. nz x. cbn [rbind]. rewrite orb_true_r. reflexivity. Qed.
Lemma replace_ok h a x t : a <> 0 -> x <> 0 -> x <> a -> NoDup (a :: t) -> ~ In x t -> ~ In 0 t -> t <> [] -> ring h (a :: t) ->
  exists h', list_replace h a x = Ok (h', true) /\ ring h' (x :: t) /\ ring h' [a] /\ same_but (a :: x :: t) h h'.
Proof.
  intros A X XA ND XT ZT TN Rg. inversion ND as [|? ? AT NDT]; subst. unfold list_replace. rewrite (empty_ok h a t) by assumption. unfold get_next, get_prev. nz a. cbn [rbind]. cbn [ring] in Rg. destruct t as [|y t]; [congruence|]. destruct Rg as (E1 & E2 & C). assert (Y0 : y <> 0) by nin. assert (AY : a <> y) by nin. assert (XY : x <> y) by nin. inversion NDT as [|? ? YT NDT']; subst.
  assert (PC : exists z, prev h a = z /\ In z (next h a :: t)).
  { destruct (snoc_case t) as [->|(t' & z & ->)]; [destruct C as [_ C]; exists (next h a); split; [exact C|left; reflexivity]|]. apply chain_app in C as [_ [_ C]]. exists z. split; [exact C|right; apply in_app_iff; right; left; reflexivity]. }
  destruct PC as (z & PZ & IZ). assert (P0 : z <> 0) by (intros ->; contradiction). assert (ZA : z <> a) by (intros ->; contradiction). assert (ZX : z <> x) by (intros ->; contradiction). rewrite !PZ. nz z. nz (next h a). cbn [orb]. unfold set_next, set_prev. nz x. cbn [rbind next prev].
  rewrite PZ. cbn [rbind next prev]. rewrite (put_other _ x _ a) by congruence. rewrite PZ. nz z. cbn [rbind next prev]. rewrite (put_other _ z _ a) by congruence. rewrite (put_other _ x _ a) by congruence. nz (next h a). cbn [rbind next prev]. nz a. cbn [rbind next prev]. eexists. split; [reflexivity|]. cbn [ring chain next prev]. rewrite !put_same. split; [|split; [auto|]].
  - rewrite (put_other _ a _ x) by exact XA. rewrite (put_other _ z _ x) by congruence. rewrite put_same. rewrite (put_other _ a _ (next h a)) by congruence. rewrite put_same. split; [reflexivity|]. split; [reflexivity|].
    destruct (snoc_case t) as [->|(t' & z' & ->)].
    + destruct C as [C1 C2]. cbn [chain next prev]. assert (z = next h a) by congruence. subst z. rewrite (put_other _ a _ (next h a)) by congruence. rewrite H. rewrite put_same. rewrite (put_other _ a _ x) by exact XA. rewrite (put_other _ (next h a) _ x) by congruence. rewrite put_same. auto.
    + apply chain_app in C as [C [C1 C2]]. assert (z' = z) as -> by congruence. assert (ZT' : ~ In z t') by (apply NoDup_remove_2 in NDT'; rewrite app_nil_r in NDT'; exact NDT').
      assert (YZ : z <> next h a) by nin. apply chain_app. split.
      * eapply chain_frame; [| |exact C]; cbn [next prev]; intros q I.
        -- assert (q <> a) by dis. assert (q <> z) by dis. assert (q <> x) by dis. rewrite !put_other by assumption. reflexivity.
        -- assert (q <> a) by dis. assert (q <> next h a) by dis. assert (q <> x) by dis. rewrite !put_other by assumption. reflexivity.
      * cbn [chain next prev]. rewrite (put_other _ a _ z) by congruence. rewrite put_same. rewrite (put_other _ a _ x) by congruence. rewrite (put_other _ (next h a) _ x) by congruence. rewrite put_same. auto.
  - intros q I. cbn [next prev]. assert (q <> a) by dis. assert (q <> x) by dis. assert (q <> next h a) by (intros K; apply I; rewrite K; right; right; left; reflexivity). assert (q <> z) by (intros ->; apply I; right; right; exact IZ).
    rewrite !put_other by assumption. auto.
Qed.
(** what the rings of a set of items say of one of them *)
Lemma rings_head h a t R : rings h ((a :: t) :: R) -> a <> 0 /\ NoDup (a :: t) /\ ~ In 0 t /\ ring h (a :: t) /\ Forall (ring h) R /\ NoDup (concat R) /\ ~ In 0 (concat R) /\ (forall x, In x (a :: t) -> ~ In x (concat R)).
Proof.
  intros (ND & NZ & F). cbn [concat] in *. inversion F; subst. assert (D : NoDup (a :: t) /\ NoDup (concat R) /\ forall x, In x (a :: t) -> ~ In x (concat R)).
  { clear - ND. revert ND. generalize (a :: t) as l. induction l as [|y l IH]; intros ND; cbn in *; [split; [constructor|]; split; [exact ND|intros ? []]|]. inversion ND as [|? ? NI ND']; subst. destruct (IH ND') as (A & B & C). rewrite in_app_iff in NI. split; [constructor; tauto|]. split; [exact B|]. intros x [<-|I]; [tauto|apply C; exact I]. }
  destruct D as (D1 & D2 & D3). split; [intros ->; apply NZ; left; reflexivity|]. split; [exact D1|]. split; [intros I; apply NZ; right; apply in_app_iff; left; exact I|]. split; [assumption|]. split; [assumption|]. split; [exact D2|]. split; [|exact D3]. intros I. apply NZ. right. apply in_app_iff. right. exact I.
Qed.
Lemma nodup_app {A} (l r : list A) : NoDup l -> NoDup r -> (forall x, In x l -> ~ In x r) -> NoDup (l ++ r).
Proof. induction l as [|a l IH]; intros L R D; [exact R|]. inversion L; subst. cbn. constructor; [rewrite in_app_iff; intros [?|?]; [auto|eapply D; [left; reflexivity|assumption]]|]. apply IH; auto. intros x I. apply D. right. exact I. Qed.
(** rings from one ring, others and an item *)
Lemma rings_intro h L R : NoDup (concat L) -> ~ In 0 (concat L) -> NoDup (concat R) -> ~ In 0 (concat R) -> (forall x, In x (concat L) -> ~ In x (concat R)) -> Forall (ring h) L -> Forall (ring h) R -> rings h (L ++ R).
Proof.
  intros. split; [|split].
  - rewrite concat_app. apply nodup_app; assumption.
  - rewrite concat_app, in_app_iff. tauto.
  - apply Forall_app; auto.
Qed.
Lemma removelast_app1 {A} (l : list A) z : removelast (l ++ [z]) = l. Proof. apply removelast_last. Qed.

Lemma free_take h a x R R1 t R2 : x <> 0 -> x <> a -> rings h R -> free x R = Some R1 -> take a R1 = Some (t, R2) ->
  rings h ((a :: t) :: R2) /\ ~ In x (a :: t) /\ ~ In x (concat R2).
Proof.
  intros X XA Rg F T. destruct (rings_free _ _ _ _ Rg F) as (Rg1 & NI & _). split; [eapply rings_take; eauto|]. destruct (take_spec _ _ _ _ T) as [P _]. assert (Y : ~ In x (a :: t ++ concat R2)) by (intros I; apply NI; eapply Permutation_in; [symmetry; exact P|exact I]). cbn in Y. rewrite in_app_iff in Y. cbn. tauto.
Qed.
Lemma nodup_cons {A} {a : A} {l} : NoDup (a :: l) -> ~ In a l /\ NoDup l. Proof. intros N. inversion N; auto. Qed.
Lemma nodup_rot {A} (a x : A) t : NoDup (a :: t) -> ~ In x (a :: t) -> NoDup (a :: x :: t).
Proof. intros N I. inversion N; subst. cbn in I. constructor; [cbn; intuition congruence|]. constructor; tauto. Qed.
Lemma nodup_snoc {A} (l : list A) x : NoDup l -> ~ In x l -> NoDup (l ++ [x]).
Proof. intros N I. apply nodup_app; [exact N|constructor; [intros []|constructor]|]. intros y Y [<-|[]]. contradiction. Qed.
Lemma step_ok h R o R' v : rings h R -> abstract_op R o = Some (R', v) -> exists h', heap_op h o = Ok (h', v) /\ rings h' R'.
Proof.
  intros Rg E. destruct o as [x|a x|a x|x|a|a|a x]; cbn [abstract_op heap_op] in *.
  - destruct (N.eqb_spec x 0) as [|X]; [discriminate|]. destruct (free x R) as [R1|] eqn:F; [|discriminate]. inversion E; subst. destruct (rings_free _ _ _ _ Rg F) as ((D1 & D2 & D3) & NI & _). destruct (init_ok h x X) as (h' & -> & RX & SB). exists h'. split; [reflexivity|]. apply (rings_intro h' [[x]] R1); cbn; auto.
    + constructor; [intros []|constructor].
    + intros [?|[]]; auto.
    + intros y [<-|[]]; exact NI.
    + eapply others_frame; [exact SB| |exact D3]. intros y I [<-|[]]; auto.
  - destruct ((x =? 0) || (x =? a)) eqn:B; [discriminate|]. apply orb_false_iff in B as [X XA]. apply N.eqb_neq in X, XA. destruct (free x R) as [R1|] eqn:F; [|discriminate]. destruct (take a R1) as [[t R2]|] eqn:T; [|discriminate]. inversion E; subst.
    destruct (free_take _ _ _ _ _ _ _ X XA Rg F T) as (Rg1 & NX & NR). destruct (rings_head _ _ _ _ Rg1) as (A & ND & ZT & RA & FR & NDR & ZR & DJ). destruct (link_ok h a x t A X XA ND ltac:(cbn in NX; tauto) ZT RA) as (h' & -> & RX & SB). exists h'. split; [reflexivity|].
    apply (rings_intro h' [a :: x :: t] R2); cbn [concat]; rewrite ?app_nil_r; auto.
    + apply nodup_rot; assumption.
    + cbn. tauto.
    + intros y [<-|[<-|I]]; [apply DJ; left; reflexivity|exact NR|apply DJ; right; exact I].
    + eapply others_frame; [exact SB| |exact FR]. intros y I [<-|[<-|J]]; [eapply DJ; [left; reflexivity|exact I]|contradiction|eapply DJ; [right; exact J|exact I]].
  - destruct ((x =? 0) || (x =? a)) eqn:B; [discriminate|]. apply orb_false_iff in B as [X XA]. apply N.eqb_neq in X, XA. destruct (free x R) as [R1|] eqn:F; [|discriminate]. destruct (take a R1) as [[t R2]|] eqn:T; [|discriminate]. inversion E; subst.
    destruct (free_take _ _ _ _ _ _ _ X XA Rg F T) as (Rg1 & NX & NR). destruct (rings_head _ _ _ _ Rg1) as (A & ND & ZT & RA & FR & NDR & ZR & DJ). destruct (append_ok h a x t A X XA ND ltac:(cbn in NX; tauto) ZT RA) as (h' & -> & RX & SB). exists h'. split; [reflexivity|].
    apply (rings_intro h' [a :: t ++ [x]] R2); cbn [concat]; rewrite ?app_nil_r; auto.
    + apply (nodup_snoc (a :: t)); assumption.
    + cbn. rewrite in_app_iff. cbn. tauto.
    + intros y. cbn [In]. rewrite in_app_iff. cbn [In]. intros [<-|[I|[<-|[]]]]; [apply DJ; left; reflexivity|apply DJ; right; exact I|exact NR].
    + eapply others_frame; [exact SB| |exact FR]. intros y I [<-|[<-|J]]; [eapply DJ; [left; reflexivity|exact I]|contradiction|eapply DJ; [right; exact J|exact I]].
  - destruct (take x R) as [[t R1]|] eqn:T; [|discriminate]. pose proof (rings_take _ _ _ _ _ Rg T) as Rg1. destruct (rings_head _ _ _ _ Rg1) as (A & ND & ZT & RA & FR & NDR & ZR & DJ). destruct t as [|y t].
    + inversion E; subst. rewrite remove_single by assumption. exists h. split; [reflexivity|exact Rg1].
    + inversion E; subst. destruct (remove_ok h x (y :: t) A ND ZT ltac:(discriminate) RA) as (h' & -> & R1' & R2' & SB). exists h'. split; [reflexivity|]. apply (rings_intro h' [y :: t; [x]] R1); cbn [concat]; rewrite ?app_nil_r; auto.
      * inversion ND; subst. apply (nodup_snoc (y :: t)); assumption.
      * rewrite in_app_iff. cbn [In] in *. intros [?|[?|[]]]; tauto.
      * intros z. rewrite in_app_iff. intros [I|[<-|[]]]; apply DJ; [right; exact I|left; reflexivity].
      * eapply others_frame; [exact SB| |exact FR]. intros z I J. eapply DJ; eauto.
  - destruct (take a R) as [[t R1]|] eqn:T; [|discriminate]. pose proof (rings_take _ _ _ _ _ Rg T) as Rg1. destruct (rings_head _ _ _ _ Rg1) as (A & ND & ZT & RA & FR & NDR & ZR & DJ). unfold list_remove_head. destruct (nodup_cons ND) as [AT NDT]. rewrite (empty_ok h a t) by assumption. cbn [rbind]. destruct t as [|x t].
    + inversion E; subst. cbn [rbind]. exists h. split; [reflexivity|exact Rg1].
    + inversion E; subst v R'. assert (X : x <> 0) by nin. unfold get_next. nz a. cbn [rbind]. pose proof RA as RA'. cbn [ring chain] in RA'. destruct RA' as (E1 & _). rewrite E1. nz x.
      assert (RX : ring h (x :: t ++ [a])) by (apply (ring_rot h [a] x t); exact RA). destruct (nodup_cons NDT) as [XT NDT']. destruct (remove_ok h x (t ++ [a])) as (h' & -> & R1' & R2' & SB); [exact X| |rewrite in_app_iff; cbn in *; tauto|destruct t; discriminate|exact RX|].
      { apply (nodup_snoc (x :: t)); assumption. }
      cbn [rbind]. exists h'. split; [reflexivity|]. apply (rings_intro h' [a :: t; [x]] R1); cbn [concat]; rewrite ?app_nil_r; auto.
      * apply (nodup_snoc (a :: t)); [constructor; [cbn in AT; tauto|assumption]|]. cbn in *. intuition congruence.
      * cbn in *. rewrite in_app_iff. cbn. tauto.
      * intros z. rewrite in_app_iff. cbn [In]. intros [[<-|I]|[<-|[]]]; apply DJ; cbn; tauto.
      * constructor; [|constructor; [exact R2'|constructor]]. pose proof (ring_rot h' t a [] R1') as Q. exact Q.
      * eapply others_frame; [exact SB| |exact FR]. intros z I J. eapply DJ; [|exact I]. cbn in J. rewrite in_app_iff in J. cbn in *. tauto.
  - destruct (take a R) as [[t R1]|] eqn:T; [|discriminate]. pose proof (rings_take _ _ _ _ _ Rg T) as Rg1. destruct (rings_head _ _ _ _ Rg1) as (A & ND & ZT & RA & FR & NDR & ZR & DJ). unfold list_remove_tail. destruct (nodup_cons ND) as [AT NDT]. rewrite (empty_ok h a t) by assumption. cbn [rbind]. destruct (snoc_case t) as [->|(t' & x & ->)].
    + inversion E; subst. cbn [rbind]. exists h. split; [reflexivity|exact Rg1].
    + assert (E' : Some ((a :: t') :: [x] :: R1, x) = Some (R', v)). { rewrite <- E. rewrite removelast_last, last_last. destruct t'; reflexivity. } clear E. inversion E'; subst v R'. clear E'. assert (X : x <> 0) by nin. unfold get_prev. nz a. cbn [rbind]. pose proof RA as RA'. cbn [ring] in RA'. apply chain_app in RA' as (_ & _ & E1). rewrite E1.
      replace (match t' ++ [x] with [] => true | _ => false end) with false by (destruct t'; reflexivity). cbn [rbind]. nz x. pose proof NDT as NDT2. apply NoDup_remove in NDT2 as [NDT' XT]. rewrite app_nil_r in NDT', XT.
      assert (RX : ring h (x :: a :: t')) by (apply (ring_rot h (a :: t') x []); exact RA). destruct (remove_ok h x (a :: t')) as (h' & -> & R1' & R2' & SB); [exact X| | |discriminate|exact RX|].
      { constructor; [cbn; intros [->|?]; [apply AT; apply in_app_iff; right; left; reflexivity|contradiction]|]. constructor; [intros I; apply AT; apply in_app_iff; left; exact I|exact NDT']. }
      { cbn. intros [?|I]; [congruence|]. apply ZT. apply in_app_iff. left. exact I. }
      cbn [rbind]. exists h'. split; [reflexivity|]. apply (rings_intro h' [a :: t'; [x]] R1); cbn [concat]; rewrite ?app_nil_r; auto.
      * cbn in *. rewrite in_app_iff in *. cbn in *. tauto.
      * eapply others_frame; [exact SB| |exact FR]. intros z I J. eapply DJ; [|exact I]. cbn in J. cbn. rewrite in_app_iff. cbn. tauto.
  - destruct ((x =? 0) || (x =? a)) eqn:B; [discriminate|]. apply orb_false_iff in B as [X XA]. apply N.eqb_neq in X, XA. destruct (take a R) as [[t0 R0]|] eqn:T0; [|discriminate]. destruct t0 as [|y0 t0].
    + inversion E; subst. pose proof (rings_take _ _ _ _ _ Rg T0) as Rg1. destruct (rings_head _ _ _ _ Rg1) as (A & ND & ZT & RA & _). unfold list_replace. rewrite (empty_ok h a []) by (auto; intros []). unfold get_next, get_prev. nz a. cbn [rbind]. rewrite orb_true_r. cbn [rbind b2n]. exists h. split; [reflexivity|exact Rg1].
    + destruct (free x R) as [R1|] eqn:F; [|discriminate]. destruct (take a R1) as [[t R2]|] eqn:T; [|discriminate]. inversion E; subst v R'. destruct (free_take _ _ _ _ _ _ _ X XA Rg F T) as (Rg1 & NX & NR). destruct (rings_head _ _ _ _ Rg1) as (A & ND & ZT & RA & FR & NDR & ZR & DJ).
      assert (TN : t <> []).
      { intros ->. pose proof (rings_take _ _ _ _ _ Rg T0) as Rg0. destruct (rings_head _ _ _ _ Rg0) as (_ & ND0 & _ & RA0 & _). cbn [ring chain] in RA, RA0. destruct RA as [C1 _]. destruct RA0 as (C2 & _). inversion ND0 as [|? ? NA _]; subst. apply NA. left. congruence. }
      destruct (replace_ok h a x t A X XA ND ltac:(cbn in NX; tauto) ZT TN RA) as (h' & -> & RX & RA' & SB). exists h'. split; [reflexivity|]. apply (rings_intro h' [x :: t; [a]] R2); cbn [concat]; rewrite ?app_nil_r; auto.
      * inversion ND; subst. apply (nodup_snoc (x :: t)); [constructor; [cbn in NX; tauto|assumption]|]. cbn. intros [?|?]; [congruence|contradiction].
      * cbn. rewrite in_app_iff. cbn. tauto.
      * intros z. rewrite in_app_iff. cbn [In]. intros [[<-|I]|[<-|[]]]; [exact NR|apply DJ; right; exact I|apply DJ; left; reflexivity].
      * eapply others_frame; [exact SB| |exact FR]. intros z I [<-|[<-|J]]; [eapply DJ; [left; reflexivity|exact I]|contradiction|eapply DJ; [right; exact J|exact I]].
Qed.
Lemma run_ok os : forall h R R' vs, rings h R -> abstract_run R os = Some (R', vs) -> exists h', heap_run h os = Ok (h', vs) /\ rings h' R'.
Proof.
  induction os as [|o os IH]; intros h R R' vs Rg E; cbn [abstract_run heap_run] in *; [inversion E; subst; eauto|]. destruct (abstract_op R o) as [[R1 v]|] eqn:E1; [|discriminate]. destruct (step_ok _ _ _ _ _ Rg E1) as (h1 & -> & Rg1). cbn [rbind]. destruct (abstract_run R1 os) as [[R2 vs2]|] eqn:E2; [|discriminate]. inversion E; subst. destruct (IH _ _ _ _ Rg1 E2) as (h2 & -> & Rg2). cbn [rbind]. eauto.
Qed.
(** iteration *)
Lemma foreach_ok h head t : forall fuel v acc, (length t < fuel)%nat -> v <> 0 -> v <> head -> ~ In head t -> ~ In 0 t -> chain h v t head -> foreach_from fuel h head v acc = Ok (acc ++ v :: t).
Proof.
  induction t as [|x t IH]; intros fuel v acc LF V VH NH NZ C; (destruct fuel as [|fuel]; [lia|]); cbn [foreach_from]; (destruct (N.eqb_spec v head); [contradiction|]); unfold get_next; nz v; cbn [rbind chain] in *.
  - destruct C as [-> _]. destruct fuel; cbn [foreach_from]; rewrite N.eqb_refl; reflexivity.
  - destruct C as (-> & _ & C). rewrite IH; [rewrite <- app_assoc; reflexivity|cbn in LF; lia| | | | |exact C]; cbn in *; intuition congruence.
Qed.
Lemma foreach_ring h head t fuel : head <> 0 -> NoDup (head :: t) -> ~ In 0 t -> ring h (head :: t) -> (length t <= fuel)%nat -> list_foreach fuel h head = Ok t.
Proof.
  intros H0 ND NZ Rg LF. destruct (nodup_cons ND) as [NH NDT]. unfold list_foreach, get_next. nz head. cbn [rbind ring] in *. destruct t as [|x t]; cbn [chain] in Rg.
  - destruct Rg as [-> _]. destruct fuel; cbn [foreach_from]; rewrite N.eqb_refl; reflexivity.
  - destruct Rg as (-> & _ & C). apply (foreach_ok h head t fuel x []); [cbn in LF; lia| | | | |exact C]; cbn in *; intuition congruence.
Qed.
(** iteration that removes items: all are visited, and those to be kept stay in order.  [k]: the kept ones so far *)
Lemma foreach_safe_ok head P t : forall fuel h k v acc, (length t < fuel)%nat -> NoDup (head :: k ++ v :: t) -> ~ In 0 (head :: k ++ v :: t) -> ring h (head :: k ++ v :: t) ->
  exists h', foreach_safe_from fuel h head v (next h v) P acc = Ok (h', acc ++ v :: t) /\ ring h' (head :: k ++ filter (fun x => negb (P x)) (v :: t)) /\ Forall (fun x => P x = true -> ring h' [x]) (v :: t) /\ same_but (head :: k ++ v :: t) h h'.
Proof.
  induction t as [|x t IH]; intros fuel h k v acc LF ND NZ Rg; (destruct fuel as [|fuel]; [cbn in LF; lia|]); cbn [foreach_safe_from].
  - assert (VH : v <> head) by (destruct (nodup_cons ND) as [X _]; intros ->; apply X; apply in_app_iff; right; left; reflexivity). destruct (N.eqb_spec v head); [contradiction|]. assert (H0 : head <> 0) by (intros ->; apply NZ; left; reflexivity). cbn [ring] in Rg. pose proof Rg as RA. apply chain_app in RA as (RA1 & RA2 & RA3). rewrite RA2. destruct (P v) eqn:PV.
    + assert (RV : ring h (v :: head :: k)) by (apply (ring_rot h (head :: k) v []); exact Rg). destruct (remove_ok h v (head :: k)) as (h' & E & R1 & R2 & SB); [intros ->; apply NZ; right; apply in_app_iff; right; left; reflexivity| | |discriminate|exact RV|].
      { destruct (nodup_cons ND) as [NH NDT]. apply NoDup_remove in NDT as [NDK VK]. rewrite app_nil_r in NDK, VK, NH || idtac. constructor; [cbn; rewrite app_nil_r in VK; intuition congruence|]. constructor; [intros I; apply NH; apply in_app_iff; left; exact I|]. rewrite app_nil_r in NDK. exact NDK. }
      { cbn. intros [?|I]; [congruence|]. apply NZ. right. apply in_app_iff. left. exact I. }
      rewrite E. cbn [rbind]. unfold get_next. nz head. cbn [rbind]. exists h'. split; [destruct fuel; cbn [foreach_safe_from]; rewrite N.eqb_refl; reflexivity|]. cbn [filter]. rewrite PV. cbn [negb]. rewrite app_nil_r. split; [exact R1|]. split; [constructor; [intros _; exact R2|constructor]|]. intros q I. apply SB. intros J. apply I. cbn in *. rewrite in_app_iff. cbn. tauto.
    + cbn [rbind]. unfold get_next. nz head. cbn [rbind]. exists h. split; [destruct fuel; cbn [foreach_safe_from]; rewrite N.eqb_refl; reflexivity|]. cbn [filter]. rewrite PV. cbn [negb]. split; [exact Rg|]. split; [constructor; [congruence|constructor]|]. intros q _. auto.
  - assert (VH : v <> head) by (destruct (nodup_cons ND) as [X _]; intros ->; apply X; apply in_app_iff; right; left; reflexivity). destruct (N.eqb_spec v head); [contradiction|]. cbn [ring] in Rg. pose proof Rg as RA. apply chain_app in RA as (RA1 & RA2 & RA3 & RA4). rewrite RA2. assert (X0 : x <> 0) by (intros ->; apply NZ; right; apply in_app_iff; right; right; left; reflexivity). cbn [length] in LF. destruct (nodup_cons ND) as [NH NDT]. destruct (P v) eqn:PV.
    + assert (RV : ring h (v :: x :: t ++ head :: k)) by (apply (ring_rot h (head :: k) v (x :: t)); exact Rg). assert (PM : Permutation (v :: x :: t ++ head :: k) (head :: k ++ v :: x :: t)) by (change (v :: x :: t ++ head :: k) with ((v :: x :: t) ++ head :: k); rewrite Permutation_app_comm; reflexivity).
      assert (ND2 : NoDup (v :: x :: t ++ head :: k)) by (eapply Permutation_NoDup; [symmetry; exact PM|exact ND]). assert (NZ2 : ~ In 0 (v :: x :: t ++ head :: k)) by (intros I; apply NZ; eapply Permutation_in; [exact PM|exact I]).
      destruct (remove_ok h v (x :: t ++ head :: k)) as (h1 & E & R1 & R2 & SB); [intros ->; apply NZ2; left; reflexivity|exact ND2|intros I; apply NZ2; right; exact I|discriminate|exact RV|].
      rewrite E. cbn [rbind]. unfold get_next at 1. nz x. cbn [rbind]. destruct (nodup_cons ND2) as [NV _].
      assert (R1' : ring h1 (head :: k ++ x :: t)) by (apply (ring_rot h1 (x :: t) head k); exact R1).
      destruct (IH fuel h1 k x (acc ++ [v])) as (h' & E' & Rg' & F' & SB'); [lia| | |exact R1'|].
      { constructor; [intros I; apply NH; apply in_app_iff in I; apply in_app_iff; cbn in *; tauto|]. apply NoDup_remove in NDT as [NDT _]. exact NDT. }
      { intros I. apply NZ. cbn in *. rewrite in_app_iff in *. cbn in *. tauto. }
      exists h'. split; [rewrite E', <- app_assoc; reflexivity|]. cbn [filter] in *. rewrite PV. cbn [negb]. split; [exact Rg'|]. split.
      * constructor; [|exact F']. intros _. apply ring_frame with h1; [|exact R2]. intros q [<-|[]]. apply SB'. intros I. apply NV. cbn in *. rewrite in_app_iff in *. cbn in *. tauto.
      * intros q I. destruct (SB' q) as [S1 S2]; [intros J; apply I; cbn in *; rewrite in_app_iff in *; cbn in *; tauto|]. rewrite S1, S2. apply SB. intros J. apply I. eapply Permutation_in; [exact PM|exact J].
    + cbn [rbind]. unfold get_next at 1. nz x. cbn [rbind]. destruct (IH fuel h (k ++ [v]) x (acc ++ [v])) as (h' & E' & Rg' & F' & SB'); [lia|rewrite <- app_assoc; exact ND|rewrite <- app_assoc; exact NZ|rewrite <- app_assoc; exact Rg|].
      exists h'. split; [rewrite E', <- app_assoc; reflexivity|]. cbn [filter] in *. rewrite PV. cbn [negb]. rewrite <- !app_assoc in *. split; [exact Rg'|]. split; [constructor; [congruence|exact F']|]. exact SB'.
Qed.
