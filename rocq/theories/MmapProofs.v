From Verif Require Import Base MmapModel MmapSpec.
From Coq Require Import Sorted.
Import ListNotations.
Open Scope N_scope.

(** Building. *)

Definition rbefore (b a : entry) : Prop := before a b.

Lemma before_trans a b c : before a b -> before b c ->
  e_start b <= e_end b -> before a c.
Proof. unfold before. lia. Qed.

Lemma strong_snoc {A} (R : A -> A -> Prop) l x :
  StronglySorted R l -> Forall (fun y => R y x) l ->
  StronglySorted R (l ++ [x]).
Proof.
  induction l as [|y l IH]; intros HS HF; cbn.
  - repeat constructor.
  - apply StronglySorted_inv in HS as (HS & HY).
    pose proof (Forall_inv HF) as Hy. apply Forall_inv_tail in HF.
    constructor; [auto|].
    apply Forall_app. split; [exact HY|]. repeat constructor. exact Hy.
Qed.

Definition good (acc : list entry) : Prop := ascending (rev acc).

Lemma good_nil : good [].
Proof. split; constructor. Qed.

Lemma good_push acc l : good acc -> l_start l <= l_end l ->
  (match acc with
   | e :: _ => e_start e < l_start l /\ e_end e <= l_start l
   | [] => True end) ->
  good (entry_of l :: acc).
Proof.
  intros (HF & HS) Hl Hh. unfold good. cbn [rev]. split.
  - apply Forall_app. split; [exact HF|]. repeat constructor. exact Hl.
  - apply strong_snoc; [exact HS|].
    destruct acc as [|e acc]; [constructor|].
    cbn [rev] in *.
    assert (Hlast : before e (entry_of l)) by (unfold before; cbn; lia).
    apply Forall_app. split; [|constructor; [exact Hlast|constructor]].
    apply Forall_app in HF as (HF & HFe).
    pose proof (Forall_inv HFe) as He.
    clear HFe Hh.
    induction (rev acc) as [|y ys IH]; [constructor|].
    cbn in HS. apply StronglySorted_inv in HS as (HS & HY).
    apply Forall_app in HY as (_ & HYe). pose proof (Forall_inv HYe) as Hye.
    constructor.
    + eapply before_trans; eauto.
    + apply Forall_inv_tail in HF. apply IH; auto.
Qed.

Lemma build_loop_good ls : forall acc, good acc -> good (build_loop ls acc).
Proof.
  induction ls as [|[l|] ls IH]; intros acc H; cbn [build_loop]; auto.
  destruct (known_prot l); cbn [negb]; auto.
  destruct (N.ltb_spec (l_end l) (l_start l)); auto.
  destruct acc as [|e acc].
  - apply IH, good_push; auto. 
  - destruct (_ && _); auto.
    destruct (N.leb_spec (l_start l) (e_start e)); cbn [orb]; auto.
    destruct (N.ltb_spec (l_start l) (e_end e)); auto.
    apply IH, good_push; auto.
Qed.

Lemma build_good ls : ascending (build ls).
Proof. apply (build_loop_good ls [] good_nil). Qed.

Lemma entry_shows l : shows l (entry_of l).
Proof.
  unfold shows, entry_of; cbn [e_start e_end e_off e_prot e_major e_minor e_path].
  do 6 (split; [reflexivity|]).
  change (ch "r") with chr_r. change (ch "w") with chr_w. change (ch "x") with chr_x. change (ch "s") with chr_s.
  destruct (l_r l =? chr_r), (l_w l =? chr_w), (l_x l =? chr_x),
    (l_s l =? chr_s); cbn; auto.
Qed.

Lemma build_loop_in ls : forall acc e, In e (build_loop ls acc) ->
  In e acc \/ exists l, In l (named ls) /\ shows l e.
Proof.
  induction ls as [|[l|] ls IH]; intros acc e H; cbn [build_loop named] in *; auto.
  assert (X : forall acc', (acc' = acc \/ acc' = entry_of l :: acc) ->
            In e (build_loop ls acc') ->
            In e acc \/ exists l0, In l0 (l :: named ls) /\ shows l0 e).
  { intros acc' [->| ->] HI; apply IH in HI as [HI|(l0 & HI & HS)];
    try solve [right; exists l0; split; [right; exact HI|exact HS]]; auto.
    destruct HI as [<-|HI]; auto.
    right. exists l. split; [left; reflexivity|apply entry_shows]. }
  destruct (known_prot l); cbn [negb] in *; eauto.
  destruct (l_end l <? l_start l); eauto.
  destruct acc as [|e0 acc]; eauto.
  destruct (_ && _); eauto.
  destruct (_ || _); eauto.
Qed.

Lemma build_in ls e : In e (build ls) ->
  exists l, In l (named ls) /\ shows l e.
Proof.
  unfold build. intros H. apply in_rev in H.
  apply build_loop_in in H as [[]|H]. exact H.
Qed.

Lemma prot_known l : prot_ok l -> known_prot l = true.
Proof.
  unfold prot_ok, known_prot. intros (H1 & H2 & H3 & H4).
  rewrite !andb_true_iff, !orb_true_iff, !N.eqb_eq. auto.
Qed.

Lemma build_loop_kernel ls : forall acc, kernel_maps ls ->
  (match acc with
   | e :: _ => e_start e < e_end e /\
               Forall (fun l => e_end e <= l_start l) (named ls)
   | [] => True end) ->
  build_loop ls acc = rev (map entry_of (named ls)) ++ acc.
Proof.
  induction ls as [|[l|] ls IH]; intros acc (HF & HS) Ha;
    cbn [build_loop named map rev] in *; auto.
  2:{ apply IH; [split; assumption|exact Ha]. }
  pose proof (Forall_inv HF) as (Hp & Hlt). apply Forall_inv_tail in HF.
  apply StronglySorted_inv in HS as (HS & HL).
  rewrite (prot_known _ Hp). cbn [negb].
  destruct (N.ltb_spec (l_end l) (l_start l)); [lia|].
  assert (X : build_loop ls (entry_of l :: acc) =
     (rev (map entry_of (named ls)) ++ [entry_of l]) ++ acc).
  { rewrite IH; [rewrite <- app_assoc; reflexivity|split; assumption|].
    cbn. split; [exact Hlt|exact HL]. }
  destruct acc as [|e acc]; [exact X|].
  destruct Ha as (He & Ha). pose proof (Forall_inv Ha) as Hel. cbn beta in Hel.
  replace ((e_start e =? l_start l) && (e_end e =? l_end l)) with false
    by (symmetry; rewrite andb_false_iff, !N.eqb_neq; lia).
  replace ((l_start l <=? e_start e) || (l_start l <? e_end e)) with false
    by (symmetry; rewrite orb_false_iff, N.leb_gt, N.ltb_ge; lia).
  exact X.
Qed.

Lemma build_kernel ls : kernel_maps ls ->
  build ls = map entry_of (named ls).
Proof.
  intros H. unfold build. rewrite build_loop_kernel; auto.
  rewrite app_nil_r. apply rev_involutive.
Qed.

(** Searching. *)

Lemma sorted_nth es : ascending es -> forall i j a b, (i < j)%nat ->
  nth_error es i = Some a -> nth_error es j = Some b -> before a b.
Proof.
  intros (_ & HS). induction HS as [|x l HS IH HX]; intros i j a b Hij Ha Hb.
  - destruct i; discriminate.
  - destruct j as [|j]; [lia|]. destruct i as [|i]; cbn in Ha, Hb.
    + injection Ha as ->. rewrite Forall_forall in HX. apply HX.
      eapply nth_error_In; eauto.
    + apply (IH i j a b); [lia|exact Ha|exact Hb].
Qed.

Lemma search_ok es ip : ascending es -> (Z.of_nat (length es) <= 1073741824)%Z ->
  forall fuel lower upper,
  (0 <= lower)%Z -> (upper < Z.of_nat (length es))%Z -> (lower <= upper + 1)%Z ->
  (upper - lower + 1 < Z.of_nat fuel)%Z ->
  (forall i e, nth_error es i = Some e -> contains e ip ->
     (lower <= Z.of_nat i <= upper)%Z) ->
  exists r, search_loop fuel es ip lower upper = Ok r /\ attributed es ip r.
Proof.
  intros HA HL. induction fuel as [|fuel IH];
    intros lower upper H0 H1 H2 Hf Hin; [lia|].
  cbn [search_loop].
  destruct (Z.leb_spec lower upper) as [Hle|Hgt].
  2:{ exists None. split; [reflexivity|]. intros e HI HC.
      apply In_nth_error in HI as (i & Hi). specialize (Hin _ _ Hi HC). lia. }
  unfold INT_MAX. destruct (Z.ltb_spec 2147483647 (upper + lower)); [lia|].
  rewrite Z.quot_div_nonneg by lia.
  set (mid := ((upper + lower) / 2)%Z).
  assert (Hm : (lower <= mid <= upper)%Z) by (unfold mid; clear -Hle; split;
    [apply Z.div_le_lower_bound|apply Z.div_le_upper_bound]; lia).
  clearbody mid.
  destruct (Z.ltb_spec mid 0); [lia|].
  destruct (nth_error es (Z.to_nat mid)) as [e|] eqn:En.
  2:{ apply nth_error_None in En. lia. }
  destruct (N.leb_spec (e_start e) ip); cbn [andb].
  - destruct (N.ltb_spec ip (e_end e)).
    + exists (Some e). split; [reflexivity|]. split.
      * eapply nth_error_In; eauto.
      * unfold contains; lia.
    + destruct (N.ltb_spec ip (e_start e)); [lia|].
      apply IH; try lia. intros i e' Hi HC. pose proof (Hin _ _ Hi HC).
      split; [|lia].
      destruct (Z.le_gt_cases (mid + 1) (Z.of_nat i)) as [|Hlt]; [assumption|].
      assert (Hc : i = Z.to_nat mid \/ (i < Z.to_nat mid)%nat) by lia.
      destruct Hc as [->|Hc].
      * rewrite En in Hi. injection Hi as ->. unfold contains in HC. lia.
      * pose proof (sorted_nth es HA _ _ _ _ Hc Hi En) as (B1 & B2).
        unfold contains in HC. lia.
  - destruct (N.ltb_spec ip (e_start e)); [|lia].
    apply IH; try lia. intros i e' Hi HC. pose proof (Hin _ _ Hi HC).
    split; [lia|].
    destruct (Z.le_gt_cases (Z.of_nat i) (mid - 1)) as [|Hlt]; [assumption|].
    assert (Hc : i = Z.to_nat mid \/ (Z.to_nat mid < i)%nat) by lia.
    destruct Hc as [->|Hc].
    + rewrite En in Hi. injection Hi as ->. unfold contains in HC. lia.
    + pose proof (sorted_nth es HA _ _ _ _ Hc En Hi) as (B1 & B2).
      unfold contains in HC. lia.
Qed.

Lemma attributed_unique es ip e r : ascending es -> In e es -> contains e ip ->
  attributed es ip r -> r = Some e.
Proof.
  intros HA HI HC HR. destruct r as [e'|]; [|exfalso; exact (HR e HI HC)].
  destruct HR as (HI' & HC').
  apply In_nth_error in HI as (i & Hi). apply In_nth_error in HI' as (j & Hj).
  destruct (Nat.lt_total i j) as [Hl|[->|Hl]].
  - pose proof (sorted_nth es HA _ _ _ _ Hl Hi Hj) as (B1 & B2).
    unfold contains in *. lia.
  - rewrite Hi in Hj. injection Hj as ->. reflexivity.
  - pose proof (sorted_nth es HA _ _ _ _ Hl Hj Hi) as (B1 & B2).
    unfold contains in *. lia.
Qed.

(** Freshness. *)

Lemma cached_set s t c t' : caches (set_cache s t c) t' =
  if t' =? t then c else caches s t'.
Proof. reflexivity. Qed.

Lemma rebuild_spec s t : let (s', r) := rebuild_if_invalid s t in
  gen s' = gen s /\ use_cache s' = use_cache s /\ clients s' = clients s /\
  files s' = files s /\
  (forall t', t' <> t -> caches s' t' = caches s t') /\
  (match caches s t with
   | Some (g, es) =>
       if g =? gen s then r = READY /\ caches s' t = Some (g, es)
       else r <> READY /\
            caches s' t = option_map (pair (gen s)) (content (files s t))
   | None => r <> READY /\
             caches s' t = option_map (pair (gen s)) (content (files s t))
   end) /\
  (r = NOCACHE <-> caches s' t = None).
Proof.
  unfold rebuild_if_invalid, delete_mmap_cache.
  destruct (caches s t) as [[g es]|] eqn:Ec.
  - destruct (N.eqb_spec g (gen s)) as [E|E].
    + rewrite Ec. repeat split; auto; try discriminate. rewrite Ec. discriminate.
    + rewrite cached_set, N.eqb_refl. cbn [files set_cache gen use_cache clients].
      unfold content. destruct (files s t) as [ls|] eqn:Ef.
      * destruct (build ls) as [|e es'] eqn:Eb.
        -- cbn [gen use_cache clients files set_cache caches].
           repeat split; auto; try discriminate.
           ++ intros t' Ht. cbn. destruct (N.eqb_spec t' t); congruence.
           ++ cbn. rewrite N.eqb_refl. reflexivity.
           ++ cbn. rewrite N.eqb_refl. reflexivity.
        -- repeat split; auto; try discriminate.
           ++ intros t' Ht. rewrite !cached_set. destruct (N.eqb_spec t' t); congruence.
           ++ rewrite cached_set, N.eqb_refl. reflexivity.
           ++ rewrite cached_set, N.eqb_refl. discriminate.
      * repeat split; auto; try discriminate.
        -- intros t' Ht. cbn. destruct (N.eqb_spec t' t); congruence.
        -- cbn. rewrite N.eqb_refl. reflexivity.
        -- cbn. rewrite N.eqb_refl. reflexivity.
  - rewrite Ec. unfold content. destruct (files s t) as [ls|] eqn:Ef.
    + destruct (build ls) as [|e es'] eqn:Eb.
      * repeat split; auto; try discriminate. 
      * repeat split; auto; try discriminate.
        -- intros t' Ht. rewrite !cached_set. destruct (N.eqb_spec t' t); congruence.
        -- rewrite cached_set, N.eqb_refl. reflexivity.
        -- rewrite cached_set, N.eqb_refl. discriminate.
    + repeat split; auto; try discriminate. 
Qed.

Definition fresh (s : state) (n : N)
  (vs : N -> list (option (list (option line)))) : Prop :=
  use_cache s = true /\ clients s = 1%nat /\ gen s = n /\
  (forall t, In (files s t) (vs t)) /\
  (forall t g es, caches s t = Some (g, es) ->
     g <= n /\ (g = n -> exists v, In v (vs t) /\ content v = Some es)).

Lemma run_fresh h : forall s n vs, fresh s n vs ->
  n + N.of_nat (reports h) < 2 ^ 32 ->
  fresh (run s h) (n + N.of_nat (reports h))
    (fun t => versions h t (files s t) (vs t)).
Proof.
  induction h as [|e h IH]; intros s n vs H Hn.
  - cbn. rewrite N.add_0_r. exact H.
  - change (run s (e :: h)) with (run (step s e) h).
    destruct H as (Hu & Hc & Hg & Hf & Hca).
    destruct e as [|f| |t|t]; cbn [step reports versions] in *.
    + unfold enable. rewrite Hu. apply IH; [|lia]. split; auto.
    + specialize (IH (mk_state (gen s) (use_cache s) (clients s) (caches s) f)
        n (fun t => f t :: vs t)).
      cbn [files] in IH. apply IH; [|lia].
      split; [exact Hu|]. split; [exact Hc|]. split; [exact Hg|].
      split; [intros t; left; reflexivity|].
      intros t g es E. destruct (Hca t g es E) as (A & B). split; [exact A|].
      intros X. destruct (B X) as (v & Hv & Hv'). exists v. split; [right|]; auto.
    + unfold report. rewrite Hc. cbn [Nat.iter nat_rect].
      replace (n + N.of_nat (S (reports h))) with (n + 1 + N.of_nat (reports h))
        in * by lia.
      specialize (IH (invalidate s) (n + 1) (fun t => [files s t])).
      cbn [files invalidate] in IH. apply IH; [|lia].
      split; [exact Hu|]. split; [exact Hc|]. split.
      { cbn. rewrite Hg. unfold u32. apply N.mod_small. lia. }
      split; [intros t; left; reflexivity|].
      intros t g es E. destruct (Hca t g es E) as (A & _). split; lia.
    + pose proof (rebuild_spec s t) as R.
      destruct (rebuild_if_invalid s t) as [s' r]. cbn [fst].
      destruct R as (R1 & R2 & R3 & R4 & R5 & R6 & _).
      specialize (IH s' n vs). rewrite R4 in IH. apply IH; [|lia].
      split; [congruence|]. split; [congruence|]. split; [congruence|].
      split; [intros t'; rewrite R4; apply Hf|].
      intros t' g es E. destruct (N.eq_dec t' t) as [->|Ht].
      2:{ rewrite R5 in E by exact Ht. eauto. }
      assert (X : caches s' t = option_map (pair (gen s)) (content (files s t)) ->
         g <= n /\ (g = n -> exists v, In v (vs t) /\ content v = Some es)).
      { intros Q. rewrite E in Q. destruct (content (files s t)) as [es'|] eqn:Ect;
          [|discriminate]. cbn in Q. injection Q as -> ->.
        split; [lia|]. intros _. exists (files s t). auto. }
      destruct (caches s t) as [[g0 es0]|] eqn:Ec; [|apply X, R6].
      destruct (g0 =? gen s) eqn:Eg; [|apply X, R6].
      destruct R6 as (_ & R6). rewrite R6 in E. injection E as -> ->. eauto.
    + specialize (IH (delete_mmap_cache s t) n vs).
      cbn [files delete_mmap_cache set_cache] in IH. apply IH; [|lia].
      split; [exact Hu|]. split; [exact Hc|]. split; [exact Hg|].
      split; [exact Hf|].
      intros t' g es E. unfold delete_mmap_cache in E. rewrite cached_set in E.
      destruct (t' =? t); [discriminate|eauto].
Qed.

Lemma init_fresh f :
  fresh (step (init f) EEnable) 0 (fun t => [f t]).
Proof.
  split; [reflexivity|]. split; [reflexivity|]. split; [reflexivity|].
  split; [intros t; left; reflexivity|]. intros t g es E. discriminate.
Qed.

Lemma run_app s h1 h2 : run s (h1 ++ h2) = run (run s h1) h2.
Proof. unfold run. apply fold_left_app. Qed.

Lemma settled_versions h : forall t cur vs b,
  (b = true -> vs = [cur]) -> settled h b = true ->
  exists v, versions h t cur vs = [v].
Proof.
  induction h as [|[|f| |t'|t'] h IH]; intros t cur vs b Hb HS;
    cbn [settled versions] in *; eauto.
  - eapply (IH t (f t) _ false); auto. discriminate.
Qed.

Lemma run_reports q : forall s, clients s = 1%nat -> gen s < 2 ^ 32 ->
  run s (repeat EReport q) =
  mk_state ((gen s + N.of_nat q) mod 2 ^ 32) (use_cache s) 1 (caches s) (files s).
Proof.
  induction q as [|q IH]; intros s Hc Hg.
  - cbn. rewrite N.add_0_r, N.mod_small by exact Hg. destruct s; cbn in *.
    congruence.
  - change (run s (repeat EReport (S q))) with (run (step s EReport) (repeat EReport q)).
    cbn [step]. unfold report. rewrite Hc. cbn [Nat.iter nat_rect].
    rewrite IH; cbn [invalidate gen use_cache clients caches files]; auto.
    + f_equal. unfold u32.
      change (2 ^ 32) with 4294967296. rewrite N.add_mod_idemp_l by lia.
      f_equal. lia.
    + unfold u32. apply N.mod_lt. lia.
Qed.
