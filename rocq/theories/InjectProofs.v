From Verif Require Import Base NumSetModel NumSetProofs StrtouModel StrtouSpec StrtouProofs InjectModel InjectSpec.
Local Open Scope N_scope.

(** ---- when= ---- *)
Lemma in_plusdot c : In c (bs "+.") <-> c = 43 \/ c = 46.
Proof. simpl. intuition. Qed.
Lemma in_plus c : In c (bs "+") <-> c = 43.
Proof. simpl. intuition. Qed.

Lemma numeral_not_sep s v c r : numeral s v (c :: r) -> ~ digit c.
Proof. intros (b & sg & ds & _ & _ & _ & _ & _ & H & _). eapply H; eauto. Qed.

Lemma parse_step_iff first last e F L S : (e = [] \/ exists r, e = 43 :: r) ->
  parse_when_step first last e = Some (F, L, S) <->
  F = first /\ L = last /\ step_part e (if last =? INJECT_LAST_INF then 0 else 1) S.
Proof.
  intros HE. unfold parse_when_step, step_part. change (bs "+") with [43]. cbn [app].
  destruct HE as [->|[r ->]].
  - split.
    + intros H; inversion H; subst. auto.
    + intros (-> & -> & [[_ ->]|[[H _]|(s & H & _)]]); [reflexivity|discriminate|discriminate].
  - destruct r as [|c r].
    + split.
      * intros H; inversion H; subst. split; [reflexivity|split; [reflexivity|right; left; auto]].
      * intros (-> & -> & [[H _]|[[_ ->]|(s & H & Hn & _)]]); [discriminate|reflexivity|].
        inversion H. congruence.
    + pose proof (string_to_uint_upto_iff (c :: r) 65535) as U.
      destruct (string_to_uint_upto (c :: r) 65535) as [v|] eqn:E.
      * destruct (proj1 (U v ltac:(lia)) eq_refl) as [HN HM].
        destruct (N.ltb_spec v 1).
        -- split; [discriminate|].
           intros (-> & -> & [[H' _]|[[H' _]|(s & H' & Hn & H2 & H3)]]); try discriminate.
           inversion H'; subst. destruct (numeral_functional _ _ _ _ _ HN H2). lia.
        -- split.
           ++ intros H'; inversion H'; subst. split; [reflexivity|split; [reflexivity|]]. right. right.
              exists (c :: r). repeat split; auto; try discriminate; lia.
           ++ intros (-> & -> & [[H' _]|[[H' _]|(s & H' & Hn & H2 & H3)]]); try discriminate.
              inversion H'; subst. destruct (numeral_functional _ _ _ _ _ HN H2). subst. reflexivity.
      * split; [discriminate|].
        intros (-> & -> & [[H' _]|[[H' _]|(s & H' & Hn & H2 & H3)]]); try discriminate.
        inversion H'; subst. 
        assert (X : None = Some S) by (apply U; [lia|split; auto; lia]). discriminate.
Qed.

Lemma parse_when_iff s F L S : parse_when s = Some (F, L, S) <-> when_denotes s F L S.
Proof.
  unfold parse_when, when_denotes.
  pose proof (string_to_uint_ex_iff s 65535 (Some (bs "+."))) as U.
  destruct (string_to_uint_ex s 65535 (Some (bs "+."))) as [[v e]|] eqn:E.
  2:{ split; [discriminate|]. intros (r & HN & HF & HR). exfalso.
      assert (X : None = Some (Z.of_N F, r)).
      { apply U. rewrite N2Z.id. split; [lia|split; [assumption|split; [lia|split; [change LLONG_MAX with 9223372036854775807%Z; lia|]]]].
        destruct HR as [[_ HS]|(s2 & r2 & -> & _)].
        - destruct HS as [[-> _]|[[-> _]|(s3 & -> & _)]]; [left; reflexivity| |];
            right; do 3 eexists; (split; [reflexivity|split; [reflexivity|simpl; auto]]).
        - right. do 3 eexists; (split; [reflexivity|split; [reflexivity|simpl; auto]]). }
      discriminate. }
  destruct (proj1 (U v e) eq_refl) as (H0 & HN & HM & _ & HE).
  destruct (Z.ltb_spec v 1) as [Hv|Hv].
  { split; [discriminate|]. intros (r & HN' & HF & _).
    destruct (numeral_functional _ _ _ _ _ HN HN'). lia. }
  assert (HR : forall r, numeral s F r -> F = Z.to_N v /\ r = e).
  { intros r Hr. destruct (numeral_functional _ _ _ _ _ HN Hr). auto. }
  assert (CASES : e = [] \/ (exists r, e = 43 :: r) \/ (exists r, e = 46 :: r)).
  { destruct HE as [->|(c & r & a & -> & Ha & Hin)]; [auto|]. inversion Ha; subst.
    apply in_plusdot in Hin as [->| ->]; eauto. }
  assert (PLAIN : (e = [] \/ exists r, e = 43 :: r) ->
    (parse_when_step (Z.to_N v) INJECT_LAST_INF e = Some (F, L, S) <->
     exists r, numeral s F r /\ 1 <= F <= 65535 /\
      (L = INJECT_LAST_INF /\ step_part r 0 S \/
       (exists s2 r2, r = bs ".." ++ s2 /\ numeral s2 L r2 /\ F <= L < 65535 /\ step_part r2 1 S)))).
  { intros HP. rewrite (parse_step_iff _ _ _ _ _ _ HP). rewrite N.eqb_refl. split.
    - intros (-> & -> & HS). exists e. repeat split; auto; lia.
    - intros (r & Hr & HF & HS). destruct (HR r Hr) as [-> ->]. split; [reflexivity|].
      destruct HS as [HS|(s2 & r2 & Hx & _)]; [exact HS|]. exfalso.
      destruct HP as [->|[r' ->]]; discriminate. }
  destruct CASES as [->|[[r ->]|[r ->]]].
  - apply PLAIN. auto.
  - replace (43 =? 46) with false by reflexivity. apply PLAIN. eauto.
  - replace (46 =? 46) with true by reflexivity. clear PLAIN.
    assert (NODOT : forall dflt, ~ step_part (46 :: r) dflt S).
    { intros dflt [[Hx _]|[[Hx _]|(s3 & Hx & _)]]; discriminate. }
    destruct r as [|c2 val2].
    { split; [discriminate|]. intros (r & Hr & HF & HS). destruct (HR r Hr) as [-> ->].
      destruct HS as [[_ HS]|(s2 & r2 & Hx & _)]; [edestruct NODOT; eauto|discriminate]. }
    destruct (N.eqb_spec c2 46) as [->|Hc2].
    2:{ split; [discriminate|]. intros (r & Hr & HF & HS). destruct (HR r Hr) as [-> ->].
        destruct HS as [[_ HS]|(s2 & r2 & Hx & _)]; [edestruct NODOT; eauto|]. change (bs ".." ++ s2) with (46 :: 46 :: s2) in Hx. inversion Hx. congruence. }
    pose proof (string_to_uint_ex_iff val2 65535 (Some (bs "+"))) as U2.
    destruct (string_to_uint_ex val2 65535 (Some (bs "+"))) as [[l e2]|] eqn:E2.
    2:{ split; [discriminate|]. intros (r & Hr & HF & HS). destruct (HR r Hr) as [-> ->].
        destruct HS as [[_ HS]|(s2 & r2 & Hx & HN2 & HL & HS)]; [edestruct NODOT; eauto|].
        change (bs ".." ++ s2) with (46 :: 46 :: s2) in Hx; inversion Hx; subst. exfalso.
        assert (X : None = Some (Z.of_N L, r2)).
        { apply U2. rewrite N2Z.id. split; [lia|split; [assumption|split; [lia|split; [change LLONG_MAX with 9223372036854775807%Z; lia|]]]].
          destruct HS as [[-> _]|[[-> _]|(s3 & -> & _)]]; [left; reflexivity| |];
            right; do 3 eexists; (split; [reflexivity|split; [reflexivity|simpl; auto]]). }
        discriminate. }
    destruct (proj1 (U2 l e2) eq_refl) as (Hl0 & HN2 & HM2 & _ & HE2).
    assert (HP2 : e2 = [] \/ exists r, e2 = 43 :: r).
    { destruct HE2 as [->|(c & r & a & -> & Ha & Hin)]; [auto|]. inversion Ha; subst.
      apply in_plus in Hin as ->. eauto. }
    destruct (Z.to_N l <? Z.to_N v) eqn:EL; [|destruct (Z.to_N l =? INJECT_LAST_INF) eqn:EI]; cbn [orb].
    + split; [discriminate|]. intros (r & Hr & HF & HS). destruct (HR r Hr) as [-> ->].
      destruct HS as [[_ HS]|(s2 & r2 & Hx & HNx & HL & HS)]; [edestruct NODOT; eauto|].
      change (bs ".." ++ s2) with (46 :: 46 :: s2) in Hx; inversion Hx; subst. destruct (numeral_functional _ _ _ _ _ HN2 HNx). lia.
    + split; [discriminate|]. intros (r & Hr & HF & HS). destruct (HR r Hr) as [-> ->].
      destruct HS as [[_ HS]|(s2 & r2 & Hx & HNx & HL & HS)]; [edestruct NODOT; eauto|].
      change (bs ".." ++ s2) with (46 :: 46 :: s2) in Hx; inversion Hx; subst. destruct (numeral_functional _ _ _ _ _ HN2 HNx).
      unfold INJECT_LAST_INF in EI. lia.
    + rewrite (parse_step_iff _ _ _ _ _ _ HP2). rewrite EI. split.
      * intros (-> & -> & HS). exists (bs ".." ++ val2). unfold INJECT_LAST_INF in EI.
        repeat split; auto; try lia. right. exists val2, e2. repeat split; auto; lia.
      * intros (r & Hr & HF & HS). destruct (HR r Hr) as [-> ->].
        destruct HS as [[_ HS]|(s2 & r2 & Hx & HNx & HL & HS)]; [edestruct NODOT; eauto|].
        change (bs ".." ++ s2) with (46 :: 46 :: s2) in Hx; inversion Hx; subst. destruct (numeral_functional _ _ _ _ _ HN2 HNx). subst. auto.
Qed.

(** ---- schedule ---- *)
Fixpoint times {D} (m : nat) (o : opts D) : opts D :=
  match m with O => o | S m' => fst (countdown (times m' o)) end.

Definition cinv {D} (F L S : N) (m : N) (o : opts D) : Prop :=
  step o = S /\
  ((1 <= first o /\ (exists k, m + first o = F + k * S) /\
    (forall n, m < n -> n < m + first o -> ~ exists k, n = F + k * S) /\
    ((L = INJECT_LAST_INF /\ last o = L) \/ (L < INJECT_LAST_INF /\ m < L /\ last o = L - m)))
   \/ ((first o = 0 \/ last o = 0) /\ forall n, m < n -> ~ scheduled F L S n)).

Lemma cinv_step {D} F L S m (o : opts D) : cinv F L S m o ->
  cinv F L S (m + 1) (fst (countdown o)) /\ (snd (countdown o) = true <-> scheduled F L S (m + 1)).
Proof.
  unfold cinv, countdown. intros [HS [(Hf & [k Hk] & Hno & HL)|[Hd Hn]]].
  - assert (E0 : (first o =? 0) || (last o =? 0) = false).
    { unfold INJECT_LAST_INF in HL. destruct HL as [[-> HL]|(H1 & H2 & H3)]; lia. }
    rewrite E0.
    assert (HLlast : let l := if last o =? INJECT_LAST_INF then last o else last o - 1 in
      (L = INJECT_LAST_INF /\ l = L) \/ (L < INJECT_LAST_INF /\ m + 1 <= L /\ l = L - (m + 1))).
    { cbv zeta. destruct HL as [[H1 H2]|(H1 & H2 & H3)].
      - left. rewrite H2, H1, N.eqb_refl. auto.
      - right. replace (last o =? INJECT_LAST_INF) with false by lia. lia. }
    cbv zeta in HLlast. cbv zeta. set (l := if last o =? INJECT_LAST_INF then last o else last o - 1) in *.
    assert (BOUND : L = INJECT_LAST_INF \/ m + 1 <= L) by (destruct HLlast as [[? _]|(? & ? & _)]; auto).
    destruct (N.eqb_spec (first o - 1) 0) as [Hz|Hz]; cbn [fst snd first last step].
    + assert (F1 : first o = 1) by lia. rewrite F1 in Hk.
      split.
      * split; [exact HS|]. 
        destruct (N.eq_dec S 0) as [HS0|HS0].
        { right. split; [left; lia|]. intros n Hn [[k' Hk'] _]. subst S. rewrite HS0 in *. lia. }
        destruct (N.eq_dec l 0) as [Hl0|Hl0].
        { right. split; [auto|]. intros n Hn [_ HB]. 
          destruct HLlast as [[H1 H2]|(H1 & H2 & H3)]; [unfold INJECT_LAST_INF in *; lia|].
          destruct HB; lia. }
        left. rewrite HS. split; [lia|]. split; [exists (k + 1); nia|]. split.
        { intros n Hn1 Hn2 [k' Hk']. assert (k < k') by nia. assert (k' < k + 1) by nia. lia. }
        destruct HLlast as [?|(H1 & H2 & H3)]; [left; auto|right; repeat split; auto; lia].
      * split; [|reflexivity]. intros _. split; [exists k; lia|exact BOUND].
    + split.
      * split; [exact HS|].
        destruct (N.eq_dec l 0) as [Hl0|Hl0].
        { right. split; [auto|]. intros n Hn [_ HB].
          destruct HLlast as [[H1 H2]|(H1 & H2 & H3)]; [unfold INJECT_LAST_INF in *; lia|].
          destruct HB; lia. }
        left. split; [lia|]. split; [exists k; lia|]. split.
        { intros n Hn1 Hn2. apply Hno; lia. }
        destruct HLlast as [?|(H1 & H2 & H3)]; [left; auto|right; repeat split; auto; lia].
      * split; [discriminate|]. intros [[k' Hk'] _]. exfalso.
        apply (Hno (m + 1)); [lia|lia|eauto].
  - replace ((first o =? 0) || (last o =? 0)) with true by lia. cbn [fst snd]. split.
    + split; [exact HS|]. right. split; [exact Hd|]. intros n Hm. apply Hn. lia.
    + split; [discriminate|]. intros HX. exfalso. apply (Hn (m + 1)); [lia|exact HX].
Qed.

Definition sched_ok {D} (o : opts D) : Prop := 1 <= first o /\ first o <= last o /\ last o <= INJECT_LAST_INF.

Lemma cinv_init {D} (o : opts D) : sched_ok o -> cinv (first o) (last o) (step o) 0 o.
Proof.
  intros (H1 & H2 & H3). split; [reflexivity|]. left. split; [auto|]. split; [exists 0; lia|]. split.
  - intros n Hn1 Hn2 [k Hk]. nia.
  - destruct (N.eq_dec (last o) INJECT_LAST_INF); [left; auto|right]. lia.
Qed.

Lemma times_cinv {D} (o : opts D) m : sched_ok o -> cinv (first o) (last o) (step o) (N.of_nat m) (times m o).
Proof.
  intros H. induction m as [|m IH]; [apply cinv_init; auto|].
  cbn [times]. replace (N.of_nat (S m)) with (N.of_nat m + 1) by lia. apply cinv_step. exact IH.
Qed.
Lemma times_odata {D} (o : opts D) m : odata (times m o) = odata o.
Proof.
  induction m as [|m IH]; [reflexivity|]. cbn [times]. rewrite <- IH. unfold countdown.
  destruct (_ || _); [reflexivity|]. destruct (_ =? 0); reflexivity.
Qed.
Lemma times_fire {D} (o : opts D) m : sched_ok o ->
  (snd (countdown (times m o)) = true <-> scheduled (first o) (last o) (step o) (N.of_nat m + 1)).
Proof. intros H. apply cinv_step. apply times_cinv. auto. Qed.

(** state after a history *)
Definition look {D} (gvec : nat -> option (list (opts D))) (st : istate D) pid p (scno : nat) : option (opts D) :=
  match (match st pid p with Some v => Some v | None => gvec p end) with
  | Some v => nth_error v scno
  | None => None
  end.

Lemma irun_snoc {D} gvec (st : istate D) h e : irun gvec st (h ++ [e]) = fst (istep gvec (irun gvec st h) e).
Proof. revert st; induction h as [|x h IH]; intros st; simpl; auto. Qed.

Lemma entries_snoc pid p scno acc h e : entries pid p scno acc (h ++ [e]) =
  entries pid p scno (entries pid p scno acc h) [e].
Proof.
  revert acc; induction h as [|x h IH]; intros acc; [reflexivity|].
  destruct x; cbn [app entries]; apply IH.
Qed.

Lemma look_irun {D} gvec h pid p scno (o : opts D) v0 :
  gvec p = Some v0 -> nth_error v0 scno = Some o ->
  look gvec (irun gvec iinit h) pid p scno = Some (times (N.to_nat (entries pid p scno 0 h)) o).
Proof.
  intros Hg Hn. induction h as [|e h IH] using rev_ind.
  - cbn. unfold look, iinit. rewrite Hg. exact Hn.
  - rewrite irun_snoc, entries_snoc. set (st := irun gvec iinit h) in *.
    set (m := entries pid p scno 0 h) in *.
    destruct e as [pid' p' scno' rec|pid']; cbn [istep entries].
    + unfold tamper_entering. unfold look in *.
      destruct ((pid =? pid') && Nat.eqb p p') eqn:EK.
      * assert (pid' = pid /\ p' = p) as [-> ->].
        { apply andb_true_iff in EK as [E1 E2]. apply Nat.eqb_eq in E2. apply N.eqb_eq in E1. auto. }
        rewrite N.eqb_refl, Nat.eqb_refl. cbn [andb].
        destruct (match st pid p with Some v => Some v | None => gvec p end) as [v|] eqn:EV; [|discriminate].
        destruct (nth_error v scno') as [o'|] eqn:EO.
        -- destruct (countdown o') as [o1 fire] eqn:EC. cbn [fst].
           unfold iset. rewrite N.eqb_refl, Nat.eqb_refl. cbn [andb].
           assert (Hl : (scno' < length v)%nat) by (apply nth_error_Some; congruence).
           destruct (upd_some v scno' o1 Hl) as [v' Hv']. rewrite Hv'.
           destruct (Nat.eqb_spec scno' scno) as [->|Hne].
           ++ rewrite (upd_nth_eq _ _ _ _ Hv'). f_equal.
              replace (N.to_nat (m + 1)) with (S (N.to_nat m)) by lia. cbn [times].
              rewrite EO in IH. inversion IH; subst o'. rewrite EC. reflexivity.
           ++ rewrite (upd_nth_ne _ _ _ _ _ Hv') by auto. exact IH.
        -- cbn [fst]. unfold iset. rewrite N.eqb_refl, Nat.eqb_refl. cbn [andb].
           destruct (Nat.eqb_spec scno' scno) as [->|Hne]; [congruence|exact IH].
      * assert (EK' : (pid' =? pid) && Nat.eqb p' p = false).
        { rewrite N.eqb_sym, Nat.eqb_sym. exact EK. }
        rewrite EK'. cbn [andb].
        assert (ST : forall w, iset st pid' p' w pid p = st pid p).
        { intros w. unfold iset. rewrite EK. reflexivity. }
        destruct (match st pid' p' with Some v => Some v | None => gvec p' end) as [v|];
          [destruct (nth_error v scno') as [o'|]; [destruct (countdown o') as [o1 fire]|]|];
          cbn [fst]; rewrite ST; exact IH.
    + cbn [fst]. unfold look, iclear in *. rewrite (N.eqb_sym pid pid').
      destruct (pid' =? pid); [|exact IH]. rewrite Hg. exact Hn.
Qed.

Lemma schedule_exact {D} gvec h pid p scno rec (o : opts D) v0 :
  gvec p = Some v0 -> nth_error v0 scno = Some o -> sched_ok o ->
  let n := entries pid p scno 0 h + 1 in
  let out := snd (istep gvec (irun gvec iinit h) (Enter pid p scno rec)) in
  (out = Some (odata o) /\ scheduled (first o) (last o) (step o) n /\ rec = false) \/
  (out = None /\ (~ scheduled (first o) (last o) (step o) n \/ rec = true)).
Proof.
  intros Hg Hn Hok. cbv zeta. pose proof (look_irun gvec h pid p scno o v0 Hg Hn) as HL.
  cbn [istep]. unfold tamper_entering, look in *.
  destruct (match irun gvec iinit h pid p with Some v => Some v | None => gvec p end) as [v|]; [|discriminate].
  rewrite HL. pose proof (times_fire o (N.to_nat (entries pid p scno 0 h)) Hok) as HF.
  rewrite N2Nat.id in HF.
  destruct (countdown (times (N.to_nat (entries pid p scno 0 h)) o)) as [o1 fire] eqn:EC.
  cbn [snd] in *. rewrite times_odata. destruct fire; cbn [andb].
  - destruct rec; cbn [negb]; [right; auto|left]. split; [reflexivity|split; [apply HF; reflexivity|reflexivity]].
  - right. split; [reflexivity|]. left. intros HX. apply HF in HX. discriminate.
Qed.

(** ---- rules are merged: last matching expression wins ---- *)
(** bit j of set q *)
Definition sbit (s : list nset) (q : nat) (j : N) : bool :=
  match nth_error s q with Some a => inbit (vec a) j | None => false end.
Definition uninv (s : list nset) : Prop := Forall (fun a => nt a = false) s.

Lemma add_arr i s p : (p < length s)%nat -> uninv s ->
  exists s', add_number_to_set_array i s p = Some s' /\ length s' = length s /\ uninv s' /\
    (forall j q, sbit s' q j = sbit s q j || ((j =? i) && Nat.eqb q p)).
Proof.
  intros HL HU. unfold add_number_to_set_array.
  destruct (nth_error s p) as [s0|] eqn:H; [|apply nth_error_None in H; lia].
  destruct (add_spec i s0) as (s1 & E & Hnt & _ & Hb). rewrite E.
  destruct (upd_some s p s1 HL) as [s' Hs']. exists s'. split; [exact Hs'|].
  split; [eapply upd_length; eauto|]. split.
  { eapply upd_Forall; eauto. rewrite Hnt. eapply nth_error_Forall in H; [|exact HU]. exact H. }
  intros j q. unfold sbit.
  destruct (Nat.eqb_spec q p) as [->|Hne].
  - rewrite H, (upd_nth_eq _ _ _ _ Hs'). rewrite Hb, andb_true_r. apply orb_comm.
  - rewrite (upd_nth_ne _ _ _ _ _ Hs') by auto. rewrite andb_false_r, orb_false_r. reflexivity.
Qed.

Lemma in_set_total tmp p i : (p < length tmp)%nat -> is_number_in_set_array i (Some tmp) p = Some (covers tmp p i).
Proof.
  intros H. unfold covers, is_number_in_set_array.
  destruct (nth_error tmp p) as [s|] eqn:E; [|apply nth_error_None in E; lia].
  rewrite is_number_in_set_inbit. reflexivity.
Qed.

Lemma leb_succ_ne (i j : N) : j <> i -> (i + 1 <=? j) = (i <=? j).
Proof. intros. destruct (N.leb_spec (i + 1) j), (N.leb_spec i j); lia. Qed.

Lemma merge_loop_spec {D} tmp p (o : opts D) i vec iset : (p < length tmp)%nat -> (p < length iset)%nat -> uninv iset ->
  exists vec' iset', merge_loop tmp p o i vec iset = Some (vec', iset') /\
    length iset' = length iset /\ uninv iset' /\ length vec' = length vec /\
    (forall k x, nth_error vec k = Some x ->
       nth_error vec' k = Some (if covers tmp p (i + N.of_nat k) then o else x)) /\
    (forall q j, sbit iset' q j = sbit iset q j ||
       (Nat.eqb q p && (i <=? j) && (j <? i + N.of_nat (length vec)) && covers tmp p j)).
Proof.
  intros HT. revert i iset; induction vec as [|x vec IH]; intros i iset HL HU; cbn [merge_loop].
  - exists [], iset. repeat split; auto.
    + intros k x Hk. destruct k; discriminate.
    + intros q j. cbn [length]. destruct (N.leb_spec i j); [|rewrite andb_false_r; cbn [andb]; rewrite orb_false_r; reflexivity].
      destruct (N.ltb_spec j (i + N.of_nat 0)); [exfalso; lia|]. rewrite andb_false_r. cbn [andb]. rewrite orb_false_r. reflexivity.
  - rewrite in_set_total by auto. destruct (covers tmp p i) eqn:EC.
    + destruct (add_arr i iset p HL HU) as (s1 & E1 & L1 & U1 & B1). rewrite E1.
      destruct (IH (i + 1) s1 ltac:(lia) U1) as (v' & s' & E2 & L2 & U2 & LV & V2 & B2). rewrite E2.
      exists (o :: v'), s'. split; [reflexivity|]. split; [lia|]. split; [auto|]. split; [cbn [length]; lia|]. split.
      * intros [|k] y Hy; cbn [nth_error] in *.
        -- inversion Hy; subst. replace (i + N.of_nat 0) with i by lia. rewrite EC. reflexivity.
        -- rewrite (V2 _ _ Hy). replace (i + 1 + N.of_nat k) with (i + N.of_nat (S k)) by lia. reflexivity.
      * intros q j. rewrite B2, B1. cbn [length].
        destruct (Nat.eqb q p); [|rewrite !andb_false_r, !orb_false_r; reflexivity].
        cbn [andb]. rewrite <- orb_assoc. f_equal. rewrite andb_true_r.
        destruct (N.eqb_spec j i) as [->|Hne].
        -- rewrite EC. replace (i <=? i) with true by lia. replace (i <? i + N.of_nat (S (length vec))) with true by lia. reflexivity.
        -- rewrite (leb_succ_ne _ _ Hne).
           replace (i + 1 + N.of_nat (length vec)) with (i + N.of_nat (S (length vec))) by lia. reflexivity.
    + destruct (IH (i + 1) iset HL HU) as (v' & s' & E2 & L2 & U2 & LV & V2 & B2). rewrite E2.
      exists (x :: v'), s'. split; [reflexivity|]. split; [lia|]. split; [auto|]. split; [cbn [length]; lia|]. split.
      * intros [|k] y Hy; cbn [nth_error] in *.
        -- inversion Hy; subst. replace (i + N.of_nat 0) with i by lia. rewrite EC. reflexivity.
        -- rewrite (V2 _ _ Hy). replace (i + 1 + N.of_nat k) with (i + N.of_nat (S k)) by lia. reflexivity.
      * intros q j. rewrite B2. cbn [length]. f_equal.
        destruct (Nat.eqb q p); [|reflexivity]. cbn [andb].
        replace (i + 1 + N.of_nat (length vec)) with (i + N.of_nat (S (length vec))) by lia.
        destruct (N.eqb_spec j i) as [->|Hne].
        -- rewrite EC, !andb_false_r. reflexivity.
        -- rewrite (leb_succ_ne _ _ Hne). reflexivity.
Qed.

Lemma empty_covers tmp p i : number_set_array_is_empty (Some tmp) p = Some true -> covers tmp p i = false.
Proof.
  unfold number_set_array_is_empty, covers, is_number_in_set_array.
  destruct (nth_error tmp p) as [s|]; [|discriminate]. intros H.
  unfold is_number_in_set. destruct (nslots s =? 0) eqn:E; cbn in H; [|discriminate].
  destruct (nt s) eqn:En; [discriminate|]. 
  apply N.eqb_eq in E. rewrite E. destruct (N.ltb_spec (i / bits_per_slot) 0) as [Hlt|]; [destruct (N.nlt_0_r _ Hlt)|reflexivity].
Qed.

(** vector of personality q is allocated exactly when some expression concerned it;
    it has nsys elements *)
Definition gv_ok {D} (nsys : list nat) (gv : list (option (list (opts D)))) : Prop :=
  Forall2 (fun n g => match g with Some v => length v = n | None => True end) nsys gv.

Lemma merge_pers_spec {D} (zd : D) tmp p nsys os gv iset :
  length os = length nsys -> gv_ok nsys gv -> uninv iset ->
  (p + length nsys <= length tmp)%nat -> (p + length nsys <= length iset)%nat ->
  exists gv' iset', merge_pers zd tmp p nsys os gv iset = Some (gv', iset') /\
    gv_ok nsys gv' /\ length iset' = length iset /\ uninv iset' /\
    (forall q n o i, nth_error nsys q = Some n -> nth_error os q = Some o -> (N.to_nat i < n)%nat ->
       (covers tmp (p + q) i = true ->
          sbit iset' (p + q) i = true /\
          exists v, nth_error gv' q = Some (Some v) /\ nth_error v (N.to_nat i) = Some o) /\
       (covers tmp (p + q) i = false ->
          sbit iset' (p + q) i = sbit iset (p + q) i /\
          forall v x, nth_error gv q = Some (Some v) -> nth_error v (N.to_nat i) = Some x ->
            exists v', nth_error gv' q = Some (Some v') /\ nth_error v' (N.to_nat i) = Some x)) /\
    (forall q j, (q < p)%nat \/ (p + length nsys <= q)%nat -> sbit iset' q j = sbit iset q j) /\
    (forall q n j, nth_error nsys q = Some n -> N.of_nat n <= j -> sbit iset' (p + q) j = sbit iset (p + q) j).
Proof.
  revert p os gv iset; induction nsys as [|n nsys IH]; intros p os gv iset HO HG HU HT HI.
  - destruct os; [|discriminate]. inversion HG; subst. cbn. exists [], iset.
    split; [reflexivity|]. split; [constructor|]. split; [auto|]. split; [auto|]. split; [|split; [auto|]].
    + intros [|q] n o i Hn; discriminate.
    + intros [|q] n j Hn; discriminate.
  - destruct os as [|o os]; [discriminate|]. inversion HG as [|? g ? gv' Hg HG']; subst. cbn [merge_pers length] in *.
    assert (EMP : exists e, number_set_array_is_empty (Some tmp) p = Some e).
    { unfold number_set_array_is_empty. destruct (nth_error tmp p) eqn:E; [eauto|apply nth_error_None in E; lia]. }
    destruct EMP as [[|] EE]; rewrite EE.
    + destruct (IH (S p) os gv' iset ltac:(lia) HG' HU ltac:(lia) ltac:(lia)) as (gv2 & s2 & E2 & G2 & L2 & U2 & P2 & Q2 & R2).
      rewrite E2. exists (g :: gv2), s2. split; [reflexivity|]. split; [constructor; auto|]. split; [auto|]. split; [auto|].
      split; [|split].
      * intros [|q] n' o' i Hn Ho Hi; cbn [nth_error] in *.
        -- inversion Hn; inversion Ho; subst. rewrite Nat.add_0_r. split.
           ++ intros HC. rewrite (empty_covers _ _ _ EE) in HC. discriminate.
           ++ intros _. split; [apply Q2; left; lia|]. intros v x Hv Hx. exists v. auto.
        -- replace (p + S q)%nat with (S p + q)%nat by lia. eapply P2; eauto.
      * intros q j Hq. apply Q2. lia.
      * intros [|q] n' j Hn Hj; cbn [nth_error] in Hn.
        -- rewrite Nat.add_0_r. apply Q2. lia.
        -- replace (p + S q)%nat with (S p + q)%nat by lia. eapply R2; eauto.
    + set (vec := match g with Some v => v | None => repeat (zero_opts zd) n end).
      assert (LV : length vec = n) by (subst vec; destruct g; [auto|apply repeat_length]).
      destruct (merge_loop_spec tmp p o 0 vec iset ltac:(lia) ltac:(lia) HU) as (v1 & s1 & E1 & L1 & U1 & LV1 & V1 & B1).
      rewrite E1.
      destruct (IH (S p) os gv' s1 ltac:(lia) HG' U1 ltac:(lia) ltac:(lia)) as (gv2 & s2 & E2 & G2 & L2 & U2 & P2 & Q2 & R2).
      rewrite E2. exists (Some v1 :: gv2), s2. split; [reflexivity|]. split; [constructor; auto; lia|].
      split; [lia|]. split; [auto|]. split; [|split].
      * intros [|q] n' o' i Hn Ho Hi; cbn [nth_error] in *.
        -- inversion Hn; inversion Ho; subst n' o'. rewrite Nat.add_0_r.
           assert (HX : exists x, nth_error vec (N.to_nat i) = Some x).
           { destruct (nth_error vec (N.to_nat i)) eqn:E; [eauto|apply nth_error_None in E; lia]. }
           destruct HX as [x Hx]. pose proof (V1 _ _ Hx) as HV. rewrite N2Nat.id, N.add_0_l in HV.
           rewrite Q2 by (left; lia). rewrite B1. rewrite Nat.eqb_refl, LV.
           replace (0 <=? i) with true by lia. replace (i <? 0 + N.of_nat n) with true by lia. cbn [andb].
           split.
           ++ intros HC. rewrite HC in HV |- *. rewrite orb_true_r. split; [reflexivity|]. exists v1. auto.
           ++ intros HC. rewrite HC in HV |- *. rewrite orb_false_r. split; [reflexivity|].
              intros v y Hv Hy. inversion Hv; subst g. subst vec. exists v1. split; [reflexivity|].
              rewrite Hy in Hx. inversion Hx; subst. exact HV.
        -- replace (p + S q)%nat with (S p + q)%nat by lia.
           destruct (P2 _ _ _ i Hn Ho Hi) as [PA PB]. split; [exact PA|]. intros HC. destruct (PB HC) as [PB1 PB2].
           split; [|exact PB2]. rewrite PB1, B1. replace (Nat.eqb (S p + q) p) with false by (symmetry; apply Nat.eqb_neq; lia).
           apply orb_false_r.
      * intros q j Hq. rewrite Q2 by lia. rewrite B1.
        replace (Nat.eqb q p) with false by (symmetry; apply Nat.eqb_neq; lia). apply orb_false_r.
      * intros [|q] n' j Hn Hj; cbn [nth_error] in Hn.
        -- inversion Hn; subst n'. rewrite Nat.add_0_r, Q2 by lia. rewrite B1, LV.
           replace (j <? 0 + N.of_nat n) with false by lia. rewrite andb_false_r. cbn [andb]. apply orb_false_r.
        -- replace (p + S q)%nat with (S p + q)%nat by lia. rewrite (R2 _ _ _ Hn Hj), B1.
           replace (Nat.eqb (S p + q) p) with false by (symmetry; apply Nat.eqb_neq; lia). apply orb_false_r.
Qed.

Lemma rules_merge {D} (zd : D) nsys (rules : list (rule D)) :
  Forall (rules_ok nsys) rules ->
  exists gv iset, qualify_injections zd nsys rules = Some (gv, iset) /\ gv_ok nsys gv /\
    length iset = length nsys /\ uninv iset /\
    forall p n i, nth_error nsys p = Some n -> (N.to_nat i < n)%nat ->
      match find (fun r => covers (r_set r) p i) (rev rules) with
      | Some r => sbit iset p i = true /\
          exists v o, nth_error gv p = Some (Some v) /\ nth_error (r_opts r) p = Some o /\ nth_error v (N.to_nat i) = Some o
      | None => sbit iset p i = false
      end.
Proof.
  unfold qualify_injections. induction rules as [|r rules IH] using rev_ind; intros HF.
  - cbn. exists (repeat None (length nsys)), (alloc_number_set_array (length nsys)).
    split; [reflexivity|]. split; [|split; [apply repeat_length|split]].
    + clear HF. unfold gv_ok. induction nsys; cbn [repeat length]; constructor; auto.
    + apply Forall_forall. intros s Hs. apply repeat_spec in Hs. subst. reflexivity.
    + intros p n i _ _. unfold sbit. destruct (nth_error _ p) eqn:E; [|reflexivity].
      apply nth_error_In, repeat_spec in E. subst. unfold inbit. cbn. destruct (N.to_nat (i / 32)); reflexivity.
  - apply Forall_app in HF as [HF HR]. inversion HR as [|? ? [R1 R2] _]; subst.
    destruct (IH HF) as (gv & s & E & HG & HL & HU & HP). rewrite fold_left_app, E. cbn [fold_left].
    destruct (merge_pers_spec zd (r_set r) 0 nsys (r_opts r) gv s R1 HG HU ltac:(lia) ltac:(lia))
      as (gv2 & s2 & E2 & G2 & L2 & U2 & P2 & _ & _).
    rewrite E2. exists gv2, s2. split; [reflexivity|]. split; [auto|]. split; [lia|]. split; [auto|].
    intros p n i Hn Hi. rewrite rev_app_distr. cbn [rev app find].
    assert (Ho : exists o, nth_error (r_opts r) p = Some o).
    { destruct (nth_error (r_opts r) p) eqn:Eo; [eauto|]. apply nth_error_None in Eo.
      assert (p < length nsys)%nat by (apply nth_error_Some; congruence). lia. }
    destruct Ho as [o Ho]. destruct (P2 _ _ _ _ Hn Ho Hi) as [PA PB]. cbn [Nat.add] in PA, PB.
    destruct (covers (r_set r) p i) eqn:EC.
    + destruct (PA eq_refl) as [A1 (v & A2 & A3)]. split; [auto|]. exists v, o. auto.
    + destruct (PB eq_refl) as [B1 B2]. specialize (HP p n i Hn Hi).
      destruct (find _ (rev rules)) as [r'|].
      * destruct HP as [H1 (v & o' & H2 & H3 & H4)]. split; [congruence|].
        destruct (B2 v o' H2 H4) as (v' & H5 & H6). exists v', o'. auto.
      * congruence.
Qed.

(** ---- results ---- *)
Lemma neg64_small v : 1 <= v -> v < 2^64 -> neg64 v = 2^64 - v.
Proof. intros H1 H2. unfold neg64, u64. rewrite (N.mod_small v) by lia. apply N.mod_small. lia. Qed.

Lemma nofail_unsubst sci f h : nofail f = false -> Forall (fun c => substituted c = false) h ->
  nofail (trun sci f h) = false.
Proof.
  revert f; induction h as [|c h IH]; intros f Hf HF; [exact Hf|]. inversion HF; subst. cbn [trun].
  apply IH; auto. unfold tstep, substituted in *. destruct (inj c) as [i|]; cbn [fst exiting_finish nofail]; auto.
  unfold tamper_entering_flags. destruct (set_ok c); auto. destruct (with_syscall i); cbn in *; congruence.
Qed.

Lemma report_ret sci c i : is_retval i = true -> unambiguous sci c i ->
  (if sci then {| u_error := 0; u_rval := value i |} else get_error false (negb (never_fails c)) (value i)) =
  {| u_error := 0; u_rval := value i |}.
Proof.
  intros ER U. destruct sci; [reflexivity|]. destruct U as [?|[[? ?]|[_ U]]]; [congruence|congruence|].
  unfold get_error, is_negated_errno64, MAX_ERRNO_VALUE. replace (2^64 - 4095 <=? value i) with false by lia.
  rewrite andb_false_r. reflexivity.
Qed.
Lemma report_err sci c i : is_retval i = false -> 1 <= value i <= 4095 -> unambiguous sci c i ->
  (if sci then {| u_error := value i; u_rval := 2^64 - 1 |}
   else get_error false (negb (never_fails c)) (2^64 - value i)) = {| u_error := value i; u_rval := 2^64 - 1 |}.
Proof.
  intros ER Hv U. destruct sci; [reflexivity|]. destruct U as [?|[[_ U]|[? ?]]]; [congruence| |congruence].
  unfold get_error, is_negated_errno64, MAX_ERRNO_VALUE. rewrite U.
  replace (2^64 - 4095 <=? 2^64 - value i) with true by lia. cbn [negb orb andb].
  rewrite neg64_small by lia. f_equal. lia.
Qed.

Lemma injected_result sci h c i :
  inj c = Some i -> tinj_ok i -> kernel_ok c -> set_ok c = true ->
  (with_syscall i = true \/ Forall (fun c => substituted c = false) h) ->
  let '(reg, r, ok) := snd (tstep sci (trun sci tinit h) c) in
  ok = true /\ reg = injected_register i /\ (unambiguous sci c i -> r = injected_report i).
Proof.
  intros Hi (Hv & He) (HK1 & HK2 & HK3) Hs Hor. unfold tstep. rewrite Hi, Hs. cbn [snd].
  unfold tamper_entering_flags. set (f := trun sci tinit h).
  assert (NF : with_syscall i = false -> nofail f = false).
  { intros E. destruct Hor as [|HF]; [congruence|]. apply nofail_unsubst; auto. }
  unfold tamper_exiting, get_syscall_result, injected_register, injected_report.
  cbn [tampered nofail]. rewrite orb_true_r. cbn [andb negb].
  destruct (with_syscall i) eqn:EW.
  - cbn [negb].
    assert (GE : get_error sci false (kernel c (Some true)) = {| u_error := 0; u_rval := kernel c (Some true) |}).
    { unfold get_error, is_negated_errno64, MAX_ERRNO_VALUE.
      replace (2^64 - 4095 <=? kernel c (Some true)) with false by lia. rewrite andb_false_r. reflexivity. }
    rewrite GE. cbn [u_error].
    change (xorb (0 =? 0) true) with false. cbv iota.
    destruct (is_retval i) eqn:ER.
    + unfold set_success. split; [reflexivity|]. split; [reflexivity|]. intros U. apply report_ret; auto.
    + specialize (He eq_refl). unfold set_error, MAX_ERRNO_VALUE. cbn [u_error].
      replace (4095 <? value i) with false by lia. replace (value i =? 0) with false by lia. cbn [orb].
      split; [reflexivity|]. rewrite neg64_small by lia. split; [reflexivity|]. intros U. apply report_err; auto.
  - rewrite (NF eq_refl). cbn [negb]. rewrite HK1.
    assert (GE : get_error sci true (2^64 - 38) = {| u_error := 38; u_rval := 2^64-1 |}).
    { unfold get_error. rewrite orb_true_r. reflexivity. }
    rewrite GE. cbn [u_error]. change (xorb (38 =? 0) false) with false. cbv iota.
    destruct (is_retval i) eqn:ER.
    + unfold set_success. split; [reflexivity|]. split; [reflexivity|]. intros U. apply report_ret; auto.
    + specialize (He eq_refl). unfold set_error, MAX_ERRNO_VALUE. cbn [u_error].
      replace (4095 <? value i) with false by lia. rewrite orb_false_r.
      destruct (N.eqb_spec (value i) 38) as [E|E].
      * split; [reflexivity|]. rewrite E. split; [reflexivity|]. intros _. reflexivity.
      * split; [reflexivity|]. rewrite neg64_small by lia. split; [reflexivity|]. intros U. apply report_err; auto.
Qed.

Lemma untouched sci f c : tampered f = false -> inj c = None \/ set_ok c = false ->
  let '(reg, r, ok) := snd (tstep sci f c) in
  reg = kernel c (Some false) /\ ok = true /\
  (sci = true -> r = get_syscall_result true (never_fails c) tinit reg).
Proof.
  intros HT H. unfold tstep. destruct (inj c) as [i|].
  - destruct H as [H|H]; [discriminate|]. rewrite H. unfold tamper_entering_flags, tamper_exiting. cbn [snd]. rewrite HT. cbn [negb].
    split; [reflexivity|]. split; [reflexivity|]. intros ->. reflexivity.
  - cbn [snd]. split; [reflexivity|]. split; [reflexivity|]. intros ->. reflexivity.
Qed.
Lemma trun_tampered sci f h : tampered f = false -> tampered (trun sci f h) = false.
Proof.
  revert f; induction h as [|c h IH]; intros f Hf; [exact Hf|]. cbn [trun]. apply IH.
  unfold tstep. destruct (inj c); cbn; reflexivity.
Qed.

Lemma sbit_member iset p i : uninv iset -> (p < length iset)%nat ->
  is_number_in_set_array i (Some iset) p = Some (sbit iset p i).
Proof.
  intros HU HL. unfold is_number_in_set_array, sbit.
  destruct (nth_error iset p) as [s|] eqn:E; [|apply nth_error_None in E; lia].
  rewrite is_number_in_set_inbit. eapply nth_error_Forall in E; [|exact HU]. cbn in E. rewrite E, xorb_false_r. reflexivity.
Qed.

Lemma rules_merge_member {D} (zd : D) nsys (rules : list (rule D)) :
  Forall (rules_ok nsys) rules ->
  exists gv iset, qualify_injections zd nsys rules = Some (gv, iset) /\
    forall p n i, nth_error nsys p = Some n -> (N.to_nat i < n)%nat ->
      match deciding rules p i with
      | Some r => is_number_in_set_array i (Some iset) p = Some true /\
          exists v o, nth_error gv p = Some (Some v) /\ nth_error (r_opts r) p = Some o /\ nth_error v (N.to_nat i) = Some o
      | None => is_number_in_set_array i (Some iset) p = Some false
      end.
Proof.
  intros HF. destruct (rules_merge zd nsys rules HF) as (gv & s & E & HG & HL & HU & HP).
  exists gv, s. split; [exact E|]. intros p n i Hn Hi. specialize (HP p n i Hn Hi).
  assert (p < length s)%nat. { rewrite HL. apply nth_error_Some. congruence. }
  rewrite sbit_member by auto. unfold deciding. destruct (find _ _) as [r|].
  - destruct HP as [-> HP]. split; [reflexivity|exact HP].
  - rewrite HP. reflexivity.
Qed.
