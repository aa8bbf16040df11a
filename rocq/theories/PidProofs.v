(** Lemmas for PidThms. *)
From Verif Require Import Base RetModel PidModel PidSpec.
Local Open Scope Z_scope.

(** ** lists *)
Lemma split_first (n : N) l : In n l -> exists l1 l2, l = l1 ++ n :: l2 /\ ~ In n l1.
Proof.
  induction l as [|m r IH]; intros H; [destruct H|].
  destruct (N.eq_dec m n) as [->|Ne]; [exists [], r; split; [reflexivity|intros []]|].
  destruct H as [->|H]; [congruence|]. destruct (IH H) as (l1 & l2 & E & N).
  exists (m :: l1), l2. split; [rewrite E; reflexivity|]. intros [X|X]; congruence || auto.
Qed.
Lemma upto_split (n : N) l1 l2 : ~ In n l1 -> upto n (l1 ++ n :: l2) = l1 ++ [n].
Proof.
  induction l1 as [|m r IH]; intros H; cbn; [rewrite N.eqb_refl; reflexivity|].
  destruct (N.eqb_spec m n) as [->|Ne]; [exfalso; apply H; left; reflexivity|].
  rewrite IH; [reflexivity|]. intros X; apply H; right; exact X.
Qed.
Lemma assoc_split l1 (n : N) l2 x : ~ In n l1 -> length x = length (l1 ++ n :: l2) ->
  assoc (l1 ++ n :: l2) x n = nth_error x (length l1).
Proof.
  revert x; induction l1 as [|m r IH]; intros [|y x] H L; cbn in *; try discriminate.
  - rewrite N.eqb_refl. reflexivity.
  - destruct (N.eqb_spec m n) as [->|Ne]; [exfalso; apply H; left; reflexivity|].
    apply IH; [intros X; apply H; right; exact X|]. lia.
Qed.
Lemma assoc_in l x n i : assoc l x n = Some i -> In n l.
Proof.
  revert x; induction l as [|m r IH]; intros [|y x] H; cbn in *; try discriminate.
  destruct (N.eqb_spec m n) as [->|Ne]; [left; reflexivity|right; eapply IH; exact H].
Qed.
Lemma nth_error_firstn {A} (l : list A) k i : (i < k)%nat -> nth_error (firstn k l) i = nth_error l i.
Proof.
  revert k i; induction l as [|a r IH]; intros [|k] [|i] H; cbn; try reflexivity; try lia.
  apply IH; lia.
Qed.
Lemma nth_error_rev {A} (l : list A) i : (i < length l)%nat -> nth_error (rev l) (length l - i - 1) = nth_error l i.
Proof.
  revert i; induction l as [|a r IH]; intros i H; cbn [length rev] in *; [lia|].
  destruct i as [|i].
  - rewrite nth_error_app2; rewrite rev_length; [|lia].
    replace (S (length r) - 0 - 1 - length r)%nat with 0%nat by lia. reflexivity.
  - cbn [nth_error]. rewrite nth_error_app1; [|rewrite rev_length; lia].
    replace (S (length r) - S i - 1)%nat with (length r - i - 1)%nat by lia. apply IH; lia.
Qed.
Lemma nodup_split l1 n l2 : NoDup (l1 ++ n :: l2 : list N) -> ~ In n l1 /\ ~ In n l2.
Proof.
  intros H. apply NoDup_remove in H as [_ H]. split; intros X; apply H, in_or_app; [left|right]; exact X.
Qed.
Lemma app_prefix {A} (a1 a2 b1 b2 : list A) : a1 ++ a2 = b1 ++ b2 -> (length a1 <= length b1)%nat ->
  exists m, b1 = a1 ++ m /\ a2 = m ++ b2.
Proof.
  revert b1; induction a1 as [|x a1 IH]; intros b1 E L.
  - exists b1. split; [reflexivity|exact E].
  - destruct b1 as [|y b1]; cbn in *; [lia|]. injection E as -> E.
    destruct (IH b1 E ltac:(lia)) as (m & -> & E2). exists m. split; [reflexivity|exact E2].
Qed.

(** ** the translation of one structure *)
Lemma id_at_ok ids i : (i < length ids)%nat -> (length ids <= 32)%nat -> exists x, id_at ids i = Ok x /\ nth_error ids i = Some x.
Proof.
  intros H L. unfold id_at, MAX_NS_DEPTH.
  replace (i <? 32)%nat with true by (symmetry; apply Nat.ltb_lt; lia).
  destruct (nth_error ids i) as [x|] eqn:E; [exists x; auto|].
  apply nth_error_None in E. lia.
Qed.
Lemma find_ns_absent ids count n id l : forall i, (i + length l = count)%nat -> (count <= length ids)%nat -> (length ids <= 32)%nat ->
  ~ In n l -> find_ns ids count n id i l = Ok None.
Proof.
  induction l as [|m r IH]; intros i E C L H; [reflexivity|]. cbn [find_ns length] in *.
  destruct (id_at_ok ids (length ids - i - 1)) as (x & -> & _); [lia|exact L|].
  destruct (id_at_ok ids (length ids - count)) as (y & -> & _); [lia|exact L|].
  cbn [rbind]. destruct (N.eqb_spec m n) as [->|Ne]; [exfalso; apply H; left; reflexivity|].
  cbn [negb]. apply IH; try lia. intros X; apply H; right; exact X.
Qed.
Lemma find_ns_present ids count n id l2 : forall l1 i, (i + length (l1 ++ n :: l2) = count)%nat -> (count <= length ids)%nat ->
  (length ids <= 32)%nat -> ~ In n l1 ->
  exists x y, nth_error ids (length ids - (i + length l1) - 1) = Some x /\ nth_error ids (length ids - count) = Some y /\
    find_ns ids count n id i (l1 ++ n :: l2) = Ok (if x =? id then Some y else None).
Proof.
  induction l1 as [|m r IH]; intros i E C L H; cbn [find_ns length app] in *.
  - destruct (id_at_ok ids (length ids - i - 1)) as (x & -> & Ex); [lia|exact L|].
    destruct (id_at_ok ids (length ids - count)) as (y & -> & Ey); [lia|exact L|].
    cbn [rbind]. rewrite N.eqb_refl. exists x, y. rewrite Nat.add_0_r. split; [exact Ex|split; [exact Ey|]].
    cbn [negb]. destruct (x =? id); reflexivity.
  - destruct (id_at_ok ids (length ids - i - 1)) as (x & -> & Ex); [lia|exact L|].
    destruct (id_at_ok ids (length ids - count)) as (y & -> & Ey); [lia|exact L|].
    cbn [rbind]. destruct (N.eqb_spec m n) as [->|Ne]; [exfalso; apply H; left; reflexivity|].
    cbn [negb]. destruct (IH (S i)) as (x' & y' & E1 & E2 & E3); try lia.
    { intros X; apply H; right; exact X. }
    exists x', y'. replace (i + S (length r))%nat with (S i + length r)%nat by lia. auto.
Qed.
Lemma from_data_ok pd n id ty : (length (pd_ids pd ty) <= 32)%nat -> exists r, from_data pd n id ty = Ok r.
Proof.
  intros L. unfold from_data. destruct (length (pd_ns pd) =? 0)%nat eqn:Z0; [eexists; reflexivity|].
  destruct (length (pd_ids pd ty) <? length (pd_ns pd))%nat eqn:Z1; [eexists; reflexivity|]. cbn [orb].
  apply Nat.ltb_ge in Z1. destruct (in_dec N.eq_dec n (pd_ns pd)) as [I|I].
  - destruct (split_first n _ I) as (l1 & l2 & E & N). rewrite E in *.
    destruct (find_ns_present (pd_ids pd ty) (length (l1 ++ n :: l2)) n id l2 l1 0) as (x & y & _ & _ & ->); auto. eexists; reflexivity.
  - rewrite find_ns_absent; auto. eexists; reflexivity.
Qed.

(** ** the state *)
(** what is cached under a key belongs to that process, and fits *)
Definition wf (s : state) : Prop := enotty s = false /\
  forall k pd, cache s k = Some pd -> pd_pid pd = k /\ k <> 0 /\ forall ty, (length (pd_ids pd ty) <= 32)%nat.
Lemma wf_init : wf init.
Proof. split; [reflexivity|]. intros k pd H; discriminate. Qed.
Lemma wf_put c s ns id ty p : wf s -> wf (put_proc_pid c s ns id ty p).
Proof. intros W; exact W. Qed.
Lemma wf_set c s p pd : wf s -> (forall d, pd = Some d -> pd_pid d = p /\ p <> 0 /\ forall ty, (length (pd_ids d ty) <= 32)%nat) ->
  wf (set_cache c s p pd).
Proof.
  intros [W1 W2] H. split; [exact W1|]. intros k d E. cbn [set_cache cache] in E.
  destruct (k =? p) eqn:K; cbn [andb] in E; [|apply W2; exact E].
  destruct (in_trie c p); [|apply W2; exact E]. assert (k = p) as -> by lia. apply H, E.
Qed.

Section Process.
Variables (c : config) (v : view).
Hypothesis P : parent_known c = true.
Hypothesis R : forall p ty, (length (ids_of v p ty) <= 32)%nat.

Lemma hierarchy_eq s p size : wf s -> get_ns_hierarchy c v s p size = (firstn size (ns_of v p), s).
Proof.
  intros [W _]. unfold get_ns_hierarchy. destruct (ns_of v p) as [|n r]; [destruct size; reflexivity|].
  rewrite W, P. destruct (size <=? 1)%nat; reflexivity.
Qed.
Definition same_type ty t (a b : list Z) := if ptype_eqb t ty then a else b.
(** by_pid looks at what /proc shows now, whatever the caches hold *)
Lemma by_pid_now n id ty s p : wf s -> p <> 0 ->
  exists o, by_pid c v n id ty s p = Ok o /\ wf (st o) /\
    (forall pd, found o = Some pd -> pd_pid pd = p) /\ (found o = None -> result_id o = 0) /\
    match ns_of v p, ids_of v p ty with
    | [], _ | _, [] => found o = None
    | h, i => exists r, from_data {| pd_pid := p; pd_ns := firstn 32 h; pd_ids := fun _ => i |} n id ty = Ok r /\
                match r with None => found o = None | Some j => result_id o = j /\ found o <> None end
    end.
Proof.
  intros W Hp. unfold by_pid.
  assert (exists pd s1, get_or_create c s p = (pd, s1) /\ wf s1 /\ pd_pid pd = p /\ forall ty, (length (pd_ids pd ty) <= 32)%nat)
    as (pd & s1 & -> & W1 & Epd & Lpd).
  { unfold get_or_create. destruct (if in_trie c p then cache s p else None) as [pd|] eqn:E.
    - destruct (in_trie c p); [|discriminate]. destruct (proj2 W _ _ E) as (A & B & D).
      exists pd, s. auto.
    - eexists _, _. split; [reflexivity|]. split; [|split; [reflexivity|intros; cbn; lia]].
      apply wf_set; [exact W|]. intros d X. injection X as <-. cbn. split; [reflexivity|split; [exact Hp|intros; lia]]. }
  unfold update_proc_data. rewrite Epd, (hierarchy_eq s1 p _ W1).
  destruct (ns_of v p) as [|m h] eqn:En.
  - cbn [firstn MAX_NS_DEPTH]. eexists. split; [reflexivity|]. cbn [st found result_id].
    split; [apply wf_set; [exact W1|discriminate]|]. split; [discriminate|]. split; reflexivity.
  - change (firstn MAX_NS_DEPTH (m :: h)) with (m :: firstn 31 h). cbv iota.
    destruct (ids_of v p ty) as [|i0 il] eqn:Ei.
    + eexists. split; [reflexivity|]. cbn [st found result_id].
      split; [apply wf_set; [exact W1|discriminate]|]. split; [discriminate|]. split; reflexivity.
    + set (I := i0 :: il) in *.
      set (d := {| pd_pid := p; pd_ns := m :: firstn 31 h; pd_ids := fun t => if ptype_eqb t ty then I else pd_ids pd t |}).
      assert (LI : (length I <= 32)%nat) by (rewrite <- Ei; apply R).
      assert (F : from_data d n id ty = from_data {| pd_pid := p; pd_ns := firstn 32 (m :: h); pd_ids := fun _ => I |} n id ty).
      { unfold from_data, d. cbn [pd_ids pd_ns]. replace (ptype_eqb ty ty) with true by (destruct ty; reflexivity). reflexivity. }
      destruct (from_data_ok d n id ty) as [r Er].
      { cbn [d pd_ids]. replace (ptype_eqb ty ty) with true by (destruct ty; reflexivity). exact LI. }
      rewrite Er. cbn [rbind]. eexists. split; [reflexivity|].
      assert (Wd : wf (set_cache c s1 p (Some d))).
      { apply wf_set; [exact W1|]. intros d' X. injection X as <-. cbn [d pd_pid pd_ids].
        split; [reflexivity|split; [exact Hp|]]. intros t. destruct (ptype_eqb t ty); [exact LI|apply Lpd]. }
      destruct r as [j|]; cbn [outcome st found result_id].
      * split; [exact Wd|]. split; [intros q X; injection X as <-; reflexivity|]. split; [discriminate|].
        exists (Some j). rewrite <- F. split; [exact Er|]. split; [reflexivity|discriminate].
      * split; [exact Wd|]. split; [discriminate|]. split; [reflexivity|].
        exists None. rewrite <- F. split; [exact Er|reflexivity].
Qed.
End Process.

Lemma from_data_absent pd n id ty : ~ In n (pd_ns pd) -> (length (pd_ids pd ty) <= 32)%nat -> from_data pd n id ty = Ok None.
Proof.
  intros H L. unfold from_data. destruct (length (pd_ns pd) =? 0)%nat eqn:Z0; [reflexivity|].
  destruct (length (pd_ids pd ty) <? length (pd_ns pd))%nat eqn:Z1; [reflexivity|]. cbn [orb].
  apply Nat.ltb_ge in Z1. apply find_ns_absent; auto.
Qed.

Section World.
Variables (c : config) (v : view) (w : world).
Hypothesis Sane : sane w.
Hypothesis Shallow : shallow w.
Hypothesis Shows : shows w v.
Hypothesis Conf : configured c w.
Notation our := (strace_ns w).

Lemma known : parent_known c = true.
Proof. apply Conf. Qed.
Lemma entry_dec p : (exists t, In t (tasks w) /\ id_in t TID (proc_ns w) = Some p) \/
                    (forall t, In t (tasks w) -> id_in t TID (proc_ns w) <> Some p).
Proof.
  generalize (tasks w). induction l as [|t r IH]; [right; intros t []|].
  destruct IH as [(u & I & E)|N]; [left; exists u; split; [right; exact I|exact E]|].
  destruct (id_in t TID (proc_ns w)) as [q|] eqn:E.
  - destruct (Z.eq_dec q p) as [->|Ne]; [left; exists t; split; [left; reflexivity|exact E]|].
    right. intros u [<-|I]; [congruence|apply N, I].
  - right. intros u [<-|I]; [congruence|apply N, I].
Qed.
Lemma room p ty : (length (ids_of v p ty) <= 32)%nat.
Proof.
  destruct (entry_dec p) as [(t & I & E)|N].
  - destruct (entry _ _ Shows t p I E) as (_ & -> & _). rewrite rev_length, firstn_length.
    destruct (well_formed _ Sane t I) as (_ & _ & L). rewrite L. pose proof (Shallow t I). lia.
  - destruct (no_entry _ _ Shows p N) as [_ ->]. cbn; lia.
Qed.

(** a namespace strace can look into: its own, or one below *)
Definition inside (n : N) : Prop := exists u, In u (tasks w) /\ outward u n our.

Lemma inside_our t n : inside n -> In t (tasks w) -> In n (chain t) -> exists l1 l2, chain t = l1 ++ n :: l2 /\ In our (n :: l2).
Proof.
  intros (u & Iu & u1 & u2 & Eu & Io) It In_. destruct (split_first n _ In_) as (l1 & l2 & E & _).
  exists l1, l2. split; [exact E|]. rewrite (tree _ Sane t u _ _ _ _ _ It Iu E Eu). exact Io.
Qed.
Lemma proc_above t A B : In t (tasks w) -> chain t = A ++ our :: B -> In (proc_ns w) (our :: B).
Proof.
  intros It E. destruct (strace_there _ Sane) as (me & l & Im & Em & Ip).
  rewrite (tree _ Sane t me A B [] l our It Im E Em). rewrite Em in Ip. exact Ip.
Qed.

Lemma by_pid_world n id ty s p : wf s -> p <> 0 -> inside n -> id <> 0 ->
  exists o, by_pid c v n id ty s p = Ok o /\ wf (st o) /\
    (found o = None /\ result_id o = 0 /\
       (forall t, In t (tasks w) -> id_in t TID (proc_ns w) = Some p -> id_in t ty n <> Some id) \/
     exists t pd, found o = Some pd /\ pd_pid pd = p /\ In t (tasks w) /\ id_in t TID (proc_ns w) = Some p /\
       id_in t ty n = Some id /\ id_in t ty our = Some (result_id o) /\ result_id o <> 0).
Proof.
  intros W Hp Hn Hid.
  destruct (by_pid_now c v known room n id ty s p W Hp) as (o & Eo & Wo & Fp & Fn & M).
  exists o. split; [exact Eo|split; [exact Wo|]].
  destruct (entry_dec p) as [(t & It & Et)|N].
  2:{ left. destruct (no_entry _ _ Shows p N) as [E1 _]. rewrite E1 in M.
      split; [exact M|split; [apply Fn, M|]]. intros u Iu Eu. exfalso. exact (N u Iu Eu). }
  destruct (entry _ _ Shows t p It Et) as (Ens & Eids & _). specialize (Eids ty).
  assert (Uniq : forall u, In u (tasks w) -> id_in u TID (proc_ns w) = Some p -> u = t).
  { intros u Iu Eu. exact (tid_unique _ Sane u t _ _ Iu It Eu Et). }
  assert (Absent : ~ In n (chain t) -> forall u, In u (tasks w) -> id_in u TID (proc_ns w) = Some p -> id_in u ty n <> Some id).
  { intros X u Iu Eu E. rewrite (Uniq u Iu Eu) in E. apply X. eapply assoc_in. exact E. }
  destruct (well_formed _ Sane t It) as (ND & _ & LEN). specialize (LEN ty).
  pose proof (Shallow t It) as SH.
  pose proof (room p ty) as RM.
  assert (NoResult : forall X : ~ In n (firstn 32 (ns_of v p)), found o = None /\ result_id o = 0).
  { intros X. assert (found o = None) as F; [|split; [exact F|apply Fn, F]].
    destruct (ns_of v p) as [|a h] eqn:E1; [exact M|]. destruct (ids_of v p ty) as [|b i] eqn:E2; [exact M|].
    destruct M as (r & Er & Mr). rewrite from_data_absent in Er; [|exact X|exact RM].
    injection Er as <-. exact Mr. }
  destruct (in_dec N.eq_dec our (chain t)) as [Io|Io].
  - replace (existsb (N.eqb our) (chain t)) with true in Ens
      by (symmetry; apply existsb_exists; exists our; split; [exact Io|apply N.eqb_refl]).
    destruct (split_first our _ Io) as (A & B & Ec & NA).
    rewrite Ec, (upto_split our A B NA) in Ens.
    assert (LA : (length (A ++ [our]) <= 32)%nat) by (rewrite Ec, app_length in SH; cbn in SH; rewrite app_length; cbn; lia).
    destruct (in_dec N.eq_dec n (A ++ [our])) as [I|I].
    2:{ left. destruct NoResult as [F0 F1]; [rewrite Ens, firstn_all2; assumption|].
        split; [exact F0|split; [exact F1|]]. apply Absent. intros X.
        destruct (inside_our t n Hn It X) as (l1 & l2 & E & Ho).
        assert (n <> our) as Ne by (intros ->; apply I, in_or_app; right; left; reflexivity).
        destruct Ho as [->|Ho]; [congruence|].
        (* our lies behind n in the chain: n is in A *)
        destruct (split_first our _ Ho) as (k1 & k2 & Ek & _). rewrite Ek in E.
        rewrite Ec in E. rewrite app_comm_cons, app_assoc in E.
        assert (A = l1 ++ n :: k1) as EA.
        { assert (NoDup ((l1 ++ n :: k1) ++ our :: k2)) as ND2 by (rewrite <- E, <- Ec; exact ND).
          destruct (nodup_split _ _ _ ND2) as [NB _].
          clear -E NA NB. revert A E NA NB. generalize (l1 ++ n :: k1). intros b.
          induction b as [|y b IH]; intros A E NA NB; destruct A as [|x A]; cbn in *; try reflexivity.
          - injection E as -> E. exfalso. apply NA. left. reflexivity.
          - injection E as <- E. exfalso. apply NB. left. reflexivity.
          - injection E as -> E. f_equal. apply IH; auto. }
        apply I. rewrite EA. apply in_or_app. left. apply in_or_app. right. left. reflexivity. }
    (* the namespace is found *)
    destruct (split_first n _ I) as (l1 & l2 & El & N1).
    destruct (split_first (proc_ns w) _ (proc_above t A B It Ec)) as (C & D & Ecd & _).
    assert (EcD : chain t = (A ++ C) ++ proc_ns w :: D) by (rewrite Ec, Ecd, app_assoc; reflexivity).
    assert (NP : ~ In (proc_ns w) (A ++ C)) by (rewrite EcD in ND; apply (nodup_split _ _ _ ND)).
    rewrite EcD, (upto_split _ _ _ NP) in Eids.
    set (K := length ((A ++ C) ++ [proc_ns w])) in *.
    assert (KA : (length (A ++ [our]) <= K)%nat) by (unfold K; rewrite !app_length; cbn; lia).
    assert (KL : (K <= length (ids t ty))%nat) by (rewrite LEN, EcD; unfold K; rewrite !app_length; cbn; lia).
    set (L := ids_of v p ty) in *.
    assert (LL : length L = K) by (rewrite Eids, rev_length, firstn_length; lia).
    assert (At : forall i, (i < K)%nat -> nth_error L (K - i - 1) = nth_error (ids t ty) i).
    { intros i Hi. rewrite Eids. assert (length (firstn K (ids t ty)) = K) as LK by (rewrite firstn_length; lia).
      rewrite <- LK at 2. rewrite nth_error_rev by lia. apply nth_error_firstn. exact Hi. }
    destruct (ns_of v p) as [|a h] eqn:E1; [destruct A; discriminate|].
    destruct L as [|b i] eqn:E2; [cbn in LL; unfold K in LL; rewrite app_length in LL; cbn in LL; lia|].
    destruct M as (r & Er & Mr). rewrite Ens in Er. rewrite firstn_all2 in Er by exact LA.
    unfold from_data in Er. cbn [pd_ids pd_ns] in Er. rewrite LL in Er.
    replace (length (A ++ [our]) =? 0)%nat with false in Er by (symmetry; apply Nat.eqb_neq; rewrite app_length; cbn; lia).
    replace (K <? length (A ++ [our]))%nat with false in Er by (symmetry; apply Nat.ltb_ge; exact KA).
    cbn [orb] in Er.
    destruct (find_ns_present (b :: i) (length (A ++ [our])) n id l2 l1 0) as (x & y & Ex & Ey & Ef).
    { rewrite <- El. reflexivity. } { rewrite LL. exact KA. } { exact RM. } { exact N1. }
    rewrite El in Er at 2. rewrite Ef in Er. injection Er as Er. rewrite LL in Ex, Ey.
    assert (L1 : (length l1 < length (A ++ [our]))%nat) by (rewrite El, app_length; cbn; lia).
    rewrite Nat.add_0_l, At in Ex by lia.
    replace (K - length (A ++ [our]))%nat with (K - length A - 1)%nat in Ey by (rewrite app_length; cbn; lia).
    rewrite At in Ey by (rewrite app_length in KA; cbn in KA; lia).
    assert (En : chain t = l1 ++ n :: (l2 ++ B)).
    { rewrite Ec. change (our :: B) with ([our] ++ B). rewrite app_assoc, El, <- app_assoc. reflexivity. }
    assert (Idn : id_in t ty n = Some x).
    { unfold id_in. rewrite En. rewrite assoc_split; [exact Ex|exact N1|]. rewrite <- En. exact LEN. }
    assert (Ido : id_in t ty our = Some y).
    { unfold id_in. rewrite Ec. rewrite assoc_split; [exact Ey|exact NA|]. rewrite <- Ec. exact LEN. }
    destruct (x =? id) eqn:Xi.
    + assert (x = id) as -> by lia. right. rewrite <- Er in Mr. destruct Mr as [Rj Fj].
      destruct (found o) as [pd|] eqn:Fo; [|congruence]. exists t, pd. subst y.
      repeat split; auto.
      destruct (above _ Sane t ty n our id It Idn Hid) as (j & Ej & Nj).
      { exists l1, (l2 ++ B). split; [exact En|].
        assert (In our (l1 ++ n :: l2)) as Iol by (rewrite <- El; apply in_or_app; right; left; reflexivity).
        apply in_app_or in Iol as [Iol|Iol].
        - exfalso. destruct l2 as [|z l2 _] using rev_ind.
          + apply app_inj_tail in El as [El1 El2]. subst. apply NA. exact Iol.
          + rewrite app_comm_cons, app_assoc in El. apply app_inj_tail in El as [El1 El2]. subst z A. apply NA.
            apply in_or_app. left. exact Iol.
        - destruct Iol as [->|Iol]; [left; reflexivity|right; apply in_or_app; left; exact Iol]. }
      congruence.
    + left. rewrite <- Er in Mr. split; [exact Mr|]. split; [apply Fn, Mr|].
      intros u Iu Eu E. rewrite (Uniq u Iu Eu), Idn in E. injection E as E. lia.
  - replace (existsb (N.eqb our) (chain t)) with false in Ens.
    2:{ symmetry. apply not_true_iff_false. intros X. apply existsb_exists in X as (z & Iz & Ez).
        apply N.eqb_eq in Ez. subst z. exact (Io Iz). }
    assert (NI : ~ In n (chain t)).
    { intros X. destruct (inside_our t n Hn It X) as (l1 & l2 & E & Ho). apply Io. rewrite E. apply in_or_app. right. exact Ho. }
    left. destruct NoResult as [F0 F1].
    { rewrite Ens. intros X. apply NI. destruct (chain t) as [|z r]; [exact X|]. left. destruct X as [X|[]]. exact X. }
    split; [exact F0|split; [exact F1|]]. apply Absent, NI.
Qed.

(** the answer of a search: the task and the process it was found as *)
Definition hit (ty : ptype) (n : N) (id : Z) (p r : Z) : Prop :=
  exists t, In t (tasks w) /\ id_in t TID (proc_ns w) = Some p /\ id_in t ty n = Some id /\ id_in t ty our = Some r /\ r <> 0.
Definition miss (ty : ptype) (n : N) (id : Z) (p : Z) : Prop :=
  forall t, In t (tasks w) -> id_in t TID (proc_ns w) = Some p -> id_in t ty n <> Some id.
Definition valid (p : Z) : Prop := 1 <= p <= 2147483647.

Section Search.
Variables (n : N) (id : Z) (ty : ptype).
Hypothesis Hn : inside n.
Hypothesis Hid : id <> 0.
Definition fine (o : out) : Prop :=
  wf (st o) /\ (result_id o <> 0 -> exists pd, found o = Some pd /\ pd_pid pd <> 0 /\ hit ty n id (pd_pid pd) (result_id o)).

Lemma by_pid_fine s p : wf s -> p <> 0 -> exists o, by_pid c v n id ty s p = Ok o /\ fine o /\
  (result_id o = 0 -> found o = None /\ miss ty n id p).
Proof.
  intros W Hp. destruct (by_pid_world n id ty s p W Hp Hn Hid) as (o & E & Wo & [(F & R0 & M)|(t & pd & F & Ep & I & E1 & E2 & E3 & NZ)]).
  - exists o. split; [exact E|]. split; [split; [exact Wo|congruence]|]. intros _. split; [exact F|exact M].
  - exists o. split; [exact E|]. split; [|congruence]. split; [exact Wo|]. intros _.
    exists pd. rewrite Ep. split; [exact F|]. split; [exact Hp|]. exists t. auto.
Qed.
Lemma cache_fn_fine o k : fine o -> exists o', cache_fn c v n id ty o k = Ok o' /\ fine o'.
Proof.
  intros [W F]. unfold cache_fn. destruct (cache (st o) k) as [pd|] eqn:E; [|exists o; split; [reflexivity|split; assumption]].
  destruct (result_id o =? 0) eqn:Z0; cbn [negb]; [|exists o; split; [reflexivity|split; assumption]].
  destruct (proj2 W _ _ E) as (Ek & Nk & Lk). unfold by_data at 1.
  destruct (from_data_ok pd n id ty (Lk ty)) as [r Er]. rewrite Er. cbn [rbind].
  assert (st (outcome (st o) pd r) = st o) as Es by (destruct r; reflexivity).
  destruct (result_id (outcome (st o) pd r) =? 0) eqn:Z1.
  - eexists. split; [reflexivity|]. split; [rewrite Es; exact W|]. intros X. lia.
  - replace (pd_pid pd =? 0) with false by lia. rewrite Es.
    destruct (by_pid_fine (st o) (pd_pid pd) W) as (o' & -> & F' & _); [congruence|]. exists o'. auto.
Qed.
Lemma iterate_fine keys : forall o, fine o -> exists o', iterate (cache_fn c v n id ty) o keys = Ok o' /\ fine o'.
Proof.
  induction keys as [|k r IH]; intros o F; cbn [iterate]; [exists o; auto|].
  destruct (cache_fn_fine o k F) as (o1 & -> & F1). cbn [rbind]. apply IH, F1.
Qed.
Lemma scan_stop o l : result_id o <> 0 -> scan c v n id ty o l = Ok o.
Proof. intros H. destruct l as [|p r]; cbn [scan]; [reflexivity|]. replace (result_id o =? 0) with false by lia. reflexivity. Qed.
Lemma scan_fine l : forall o, fine o -> exists o', scan c v n id ty o l = Ok o' /\ fine o' /\
  (result_id o' = 0 -> (forall p, In p l -> valid p -> miss ty n id p) /\ (found o = None -> found o' = None)).
Proof.
  induction l as [|p r IH]; intros o F.
  - exists o. split; [reflexivity|]. split; [exact F|]. intros _. split; [intros p []|auto].
  - destruct (Z.eq_dec (result_id o) 0) as [Z0|Z0].
    2:{ rewrite scan_stop by exact Z0. exists o. split; [reflexivity|]. split; [exact F|congruence]. }
    cbn [scan]. rewrite Z0. cbn [Z.eqb negb].
    destruct ((p <? 1) || (2147483647 <? p)) eqn:V.
    + destruct (IH o F) as (o' & E & F' & M). exists o'. split; [exact E|]. split; [exact F'|].
      intros X. destruct (M X) as [M1 M2]. split; [|exact M2]. intros q [<-|I] Vq; [unfold valid in Vq; lia|apply M1; auto].
    + destruct (by_pid_fine (st o) p (proj1 F)) as (o1 & E1 & F1 & M1); [lia|]. rewrite E1. cbn [rbind].
      destruct (Z.eq_dec (result_id o1) 0) as [Z1|Z1].
      2:{ rewrite scan_stop by exact Z1. exists o1. split; [reflexivity|]. split; [exact F1|congruence]. }
      destruct (M1 Z1) as [FN MS]. destruct (IH o1 F1) as (o' & E & F' & M). exists o'. split; [exact E|]. split; [exact F'|].
      intros X. destruct (M X) as [M2 M3]. split; [|auto]. intros q [<-|I] Vq; [exact MS|apply M2; auto].
Qed.
Lemma scan_proc_stop o l : result_id o <> 0 -> scan_proc c v n id ty o l = Ok o.
Proof.
  intros H. destruct l as [|[p ts] r]; cbn [scan_proc]; [reflexivity|]. replace (result_id o =? 0) with false by lia. reflexivity.
Qed.
Lemma scan_proc_fine l : forall o, fine o -> exists o', scan_proc c v n id ty o l = Ok o' /\ fine o' /\
  (result_id o' = 0 ->
     (forall q ts p, In (q, ts) l -> valid q -> p = q \/ In p ts -> valid p -> miss ty n id p) /\
     (found o = None \/ (exists q ts, In (q, ts) l /\ valid q) -> found o' = None)).
Proof.
  induction l as [|[p ts] r IH]; intros o F.
  - exists o. split; [reflexivity|]. split; [exact F|]. intros _. split; [intros ? ? ? []|].
    intros [X|(q & ts & [] & _)]; exact X.
  - destruct (Z.eq_dec (result_id o) 0) as [Z0|Z0].
    2:{ rewrite scan_proc_stop by exact Z0. exists o. split; [reflexivity|]. split; [exact F|congruence]. }
    cbn [scan_proc]. rewrite Z0. cbn [Z.eqb negb].
    destruct ((p <? 1) || (2147483647 <? p)) eqn:V.
    + destruct (IH o F) as (o' & E & F' & M). exists o'. split; [exact E|]. split; [exact F'|].
      intros X. destruct (M X) as [M1 M2]. split.
      * intros q us z [I|I] Vq; [injection I as -> ->; unfold valid in Vq; lia|eapply M1; eauto].
      * intros [Y|(q & us & [I|I] & Vq)]; [auto| |apply M2; right; exists q, us; auto].
        injection I as -> ->. unfold valid in Vq; lia.
    + destruct (scan_fine ts o F) as (o1 & E1 & F1 & M1). rewrite E1. cbn [rbind].
      destruct (Z.eq_dec (result_id o1) 0) as [Z1|Z1].
      2:{ replace (result_id o1 =? 0) with false by lia. exists o1. split; [reflexivity|]. split; [exact F1|congruence]. }
      rewrite Z1. cbn [Z.eqb negb]. destruct (M1 Z1) as [MT _].
      destruct (by_pid_fine (st o1) p (proj1 F1)) as (o2 & E2 & F2 & M2); [lia|]. rewrite E2. cbn [rbind].
      destruct (Z.eq_dec (result_id o2) 0) as [Z2|Z2].
      2:{ rewrite scan_proc_stop by exact Z2. exists o2. split; [reflexivity|]. split; [exact F2|congruence]. }
      destruct (M2 Z2) as [FN MS]. destruct (IH o2 F2) as (o' & E & F' & M). exists o'. split; [exact E|]. split; [exact F'|].
      intros X. destruct (M X) as [M3 M4]. split; [|auto].
      intros q us z [I|I] Vq Hz Vz; [|eapply M3; eauto]. injection I as -> ->.
      destruct Hz as [->|Hz]; [exact MS|apply MT; auto].
Qed.

(** the search succeeds exactly if there is something to find *)
Lemma translate_in_world s : wf s -> n <> 0%N ->
  exists r pp s', translate_in c v s n id ty = Ok (r, pp, s') /\ wf s' /\
    ((r = 0 /\ pp = None /\ forall p, miss ty n id p) \/ (exists p, pp = Some p /\ hit ty n id p r)).
Proof.
  intros W N0. unfold translate_in. replace (N.eqb n 0) with false by (symmetry; apply N.eqb_neq; exact N0).
  rewrite (proj1 W). set (start := {| result_id := 0; found := None; st := s |}).
  assert (FS : fine start) by (split; [exact W|cbn; congruence]).
  set (cp := get_cached_proc_pid c s n id ty).
  assert (exists o, (if cp =? 0 then Ok start else by_pid c v n id ty s cp) = Ok o /\ fine o) as (o1 & -> & F1).
  { destruct (cp =? 0) eqn:Z0; [exists start; auto|].
    destruct (by_pid_fine s cp W) as (o & E & F & _); [lia|]. exists o. auto. }
  cbn [rbind].
  assert (exists o, (if negb (result_id o1 =? 0) then Ok o1
               else rlet o := iterate (cache_fn c v n id ty) o1 (all_keys c) in
                    if negb (result_id o =? 0) then Ok o
                    else scan_proc c v n id ty o (dirs v)) = Ok o /\ fine o /\
            (result_id o = 0 -> found o = None /\ forall p, miss ty n id p)) as (o & -> & F & M).
  { destruct (Z.eq_dec (result_id o1) 0) as [Z1|Z1].
    2:{ replace (result_id o1 =? 0) with false by lia. exists o1. split; [reflexivity|]. split; [exact F1|congruence]. }
    rewrite Z1. cbn [Z.eqb negb]. destruct (iterate_fine (all_keys c) o1 F1) as (o2 & -> & F2). cbn [rbind].
    destruct (Z.eq_dec (result_id o2) 0) as [Z2|Z2].
    2:{ replace (result_id o2 =? 0) with false by lia. exists o2. split; [reflexivity|]. split; [exact F2|congruence]. }
    rewrite Z2. cbn [Z.eqb negb]. destruct (scan_proc_fine (dirs v) o2 F2) as (o3 & -> & F3 & M3).
    exists o3. split; [reflexivity|]. split; [exact F3|]. intros X. destruct (M3 X) as [M4 M5]. split.
    - apply M5. right. destruct (strace_there _ Sane) as (me & l & Im & _ & Ip).
      destruct (split_first _ _ Ip) as (l1 & l2 & El & Nl). destruct (well_formed _ Sane me Im) as (_ & _ & Lm). specialize (Lm TID).
      destruct (nth_error (ids me TID) (length l1)) as [q|] eqn:Eq.
      2:{ apply nth_error_None in Eq. rewrite Lm, El, app_length in Eq. cbn in Eq. lia. }
      assert (id_in me TID (proc_ns w) = Some q) as Ei.
      { unfold id_in. rewrite El, assoc_split; [exact Eq|exact Nl|rewrite <- El; exact Lm]. }
      destruct (entry _ _ Shows me q Im Ei) as (_ & _ & _ & (z & ts & I & V & _)). exists z, ts. auto.
    - intros p t It Et. destruct (entry _ _ Shows t p It Et) as (_ & _ & _ & (z & ts & I & V & H)).
      apply (M4 z ts p I V H); [|exact It|exact Et]. exact (tid_range _ Sane t _ _ It Et). }
  cbn [rbind]. destruct F as [Wo F]. destruct (Z.eq_dec (result_id o) 0) as [Z0|Z0].
  - destruct (M Z0) as [-> MS]. eexists _, _, _. split; [reflexivity|]. split; [exact Wo|]. left. auto.
  - destruct (F Z0) as (pd & -> & NP & H). eexists _, _, _. split; [reflexivity|].
    split; [destruct (pd_pid pd =? 0); [exact Wo|apply wf_put, Wo]|]. right. exists (pd_pid pd). auto.
Qed.
End Search.

(** ** strace's own use *)
Lemma our_nonzero : our <> 0%N.
Proof.
  destruct (strace_there _ Sane) as (me & l & Im & Em & _). destruct (well_formed _ Sane me Im) as (_ & N0 & _).
  intros X. apply N0. rewrite Em, X. left. reflexivity.
Qed.
Lemma inside_self : inside our.
Proof.
  destruct (strace_there _ Sane) as (me & l & Im & Em & _). exists me. split; [exact Im|]. exists [], l. split; [exact Em|left; reflexivity].
Qed.
Lemma has_id t ty n : In t (tasks w) -> In n (chain t) -> exists i, id_in t ty n = Some i.
Proof.
  intros It H. destruct (split_first _ _ H) as (l1 & l2 & E & N1). destruct (well_formed _ Sane t It) as (_ & _ & L). specialize (L ty).
  unfold id_in. rewrite E, assoc_split; [|exact N1|rewrite <- E; exact L].
  destruct (nth_error (ids t ty) (length l1)) as [i|] eqn:X; [exists i; reflexivity|].
  apply nth_error_None in X. rewrite L, E, app_length in X. cbn in X. lia.
Qed.
(** a task strace can see is found in /proc *)
Lemma in_proc t : In t (tasks w) -> In our (chain t) -> exists p, id_in t TID (proc_ns w) = Some p.
Proof.
  intros It H. apply has_id; [exact It|]. destruct (split_first _ _ H) as (A & B & E & _).
  rewrite E. apply in_or_app. right. exact (proc_above t A B It E).
Qed.

Lemma get_proc_pid_world s t i : wf s -> In t (tasks w) -> id_in t TID our = Some i ->
  exists p s', get_proc_pid c v s i = Ok (p, s') /\ wf s' /\ id_in t TID (proc_ns w) = Some p.
Proof.
  intros W It Ei. pose proof (tid_range _ Sane t _ _ It Ei) as Hi. unfold get_proc_pid, translate_ours.
  replace (i <=? 0) with false by lia. destruct (proc_ours c) eqn:Po.
  - exists i, s. split; [reflexivity|]. split; [exact W|]. destruct Conf as (_ & [Pn _] & _). rewrite (Pn Po). exact Ei.
  - destruct Conf as (Eo & _). rewrite Eo.
    destruct (translate_in_world our i TID inside_self ltac:(lia) s W our_nonzero) as (r & pp & s' & -> & W' & [(_ & _ & M)|(p & -> & (u & Iu & Ep & Eu & _))]).
    + exfalso. destruct (in_proc t It (assoc_in _ _ _ _ Ei)) as (p & Ep). exact (M p t It Ep Ei).
    + exists p, s'. split; [reflexivity|]. split; [exact W'|].
      rewrite <- (tid_unique _ Sane u t _ _ Iu It Eu Ei). exact Ep.
Qed.
Lemma get_ns_world s t tk n : wf s -> traced w t tk n ->
  exists s', get_ns c v s t = Ok (n, {| t_pid := t_pid t; t_ns := n |}, s') /\ wf s'.
Proof.
  intros W (It & Ei & (l & El) & Hn). unfold get_ns.
  assert (n <> 0%N) as N0.
  { destruct (well_formed _ Sane tk It) as (_ & N0 & _). intros ->. apply N0. rewrite El. left. reflexivity. }
  destruct (N.eqb_spec (t_ns t) 0) as [Z0|Z0]; cbn [negb].
  - destruct (get_proc_pid_world s tk _ W It Ei) as (p & s' & -> & W' & Ep). cbn [rbind].
    pose proof (tid_range _ Sane tk _ _ It Ep) as Hp. replace (p =? 0) with false by lia.
    rewrite (hierarchy_eq c v known s' p 1 W'). destruct (entry _ _ Shows tk p It Ep) as (Ens & _).
    replace (existsb (N.eqb our) (chain tk)) with true in Ens.
    2:{ symmetry. apply existsb_exists. exists our. split; [eapply assoc_in; exact Ei|apply N.eqb_refl]. }
    rewrite Ens, El. cbn [upto]. destruct (N.eqb n our); cbn [firstn]; exists s'; auto.
  - destruct Hn as [Hn|Hn]; [congruence|]. exists s. rewrite Hn. split; [|exact W]. destruct t; cbn in *. subst; reflexivity.
Qed.

Lemma translate_world s t tk n id ty : wf s -> traced w t tk n -> 0 < id ->
  exists r s', translate_pid c v s t id ty = Ok (r, {| t_pid := t_pid t; t_ns := n |}, s') /\ wf s' /\
    ((n = our /\ r = id) \/
     n <> our /\ ((r = 0 /\ forall p, miss ty n id p) \/ (exists p, hit ty n id p r))).
Proof.
  intros W T Hid. unfold translate_pid. replace (id <=? 0) with false by lia.
  destruct (get_ns_world s t tk n W T) as (s1 & -> & W1). cbn [rbind].
  replace (our_ns c) with our by (symmetry; apply Conf).
  destruct (N.eqb_spec n our) as [E|E]; [exists id, s1; auto|].
  assert (T1 : traced w {| t_pid := t_pid t; t_ns := n |} tk n).
  { destruct T as (A & B & C0 & _). split; [exact A|]. split; [exact B|]. split; [exact C0|right; reflexivity]. }
  destruct (get_ns_world s1 _ tk n W1 T1) as (s2 & -> & W2). cbn [rbind t_pid].
  destruct T as (It & Ei & (l & El) & _).
  assert (N0 : n <> 0%N).
  { destruct (well_formed _ Sane tk It) as (_ & N0 & _). intros ->. apply N0. rewrite El. left. reflexivity. }
  assert (Hn : inside n).
  { exists tk. split; [exact It|]. exists [], l. split; [exact El|]. rewrite <- El. eapply assoc_in. exact Ei. }
  destruct (translate_in_world n id ty Hn ltac:(lia) s2 W2 N0) as (r & pp & s' & -> & W' & H). cbn [rbind fst snd].
  exists r, s'. split; [reflexivity|]. split; [exact W'|]. right. split; [exact E|].
  destruct H as [(A & _ & B)|(p & _ & H)]; [left; auto|right; exists p; exact H].
Qed.
End World.

(** ** whatever /proc shows, the caches stay in order *)
Section History.
Variables (c : config) (v : view).
Hypothesis P : parent_known c = true.
Hypothesis R : forall p ty, (length (ids_of v p ty) <= 32)%nat.
Definition sound (o : out) : Prop := wf (st o).
Lemma by_pid_wf n id ty s p : wf s -> p <> 0 -> exists o, by_pid c v n id ty s p = Ok o /\ sound o.
Proof. intros W Hp. destruct (by_pid_now c v P R n id ty s p W Hp) as (o & E & Wo & _). exists o. auto. Qed.
Lemma cache_fn_wf n id ty o k : sound o -> exists o', cache_fn c v n id ty o k = Ok o' /\ sound o'.
Proof.
  intros W. unfold cache_fn. destruct (cache (st o) k) as [pd|] eqn:E; [|exists o; auto].
  destruct (result_id o =? 0) eqn:Z0; cbn [negb]; [|exists o; auto].
  destruct (proj2 W _ _ E) as (Ek & Nk & Lk). unfold by_data at 1.
  destruct (from_data_ok pd n id ty (Lk ty)) as [r Er]. rewrite Er. cbn [rbind].
  assert (st (outcome (st o) pd r) = st o) as Es by (destruct r; reflexivity).
  destruct (result_id (outcome (st o) pd r) =? 0) eqn:Z1.
  - eexists. split; [reflexivity|]. unfold sound. rewrite Es; exact W.
  - replace (pd_pid pd =? 0) with false by lia. rewrite Es. apply by_pid_wf; [exact W|congruence].
Qed.
Lemma iterate_wf n id ty keys : forall o, sound o -> exists o', iterate (cache_fn c v n id ty) o keys = Ok o' /\ sound o'.
Proof.
  induction keys as [|k r IH]; intros o F; cbn [iterate]; [exists o; auto|].
  destruct (cache_fn_wf n id ty o k F) as (o1 & -> & F1). cbn [rbind]. apply IH, F1.
Qed.
Lemma scan_wf n id ty l : forall o, sound o -> exists o', scan c v n id ty o l = Ok o' /\ sound o'.
Proof.
  induction l as [|p r IH]; intros o W; cbn [scan]; [exists o; auto|].
  destruct (negb (result_id o =? 0)); [exists o; auto|].
  destruct ((p <? 1) || (2147483647 <? p)) eqn:V; [apply IH, W|].
  destruct (by_pid_wf n id ty (st o) p W) as (o1 & -> & W1); [lia|]. cbn [rbind]. apply IH, W1.
Qed.
Lemma scan_proc_wf n id ty l : forall o, sound o -> exists o', scan_proc c v n id ty o l = Ok o' /\ sound o'.
Proof.
  induction l as [|[p ts] r IH]; intros o W; cbn [scan_proc]; [exists o; auto|].
  destruct (negb (result_id o =? 0)); [exists o; auto|].
  destruct ((p <? 1) || (2147483647 <? p)) eqn:V; [apply IH, W|].
  destruct (scan_wf n id ty ts o W) as (o1 & -> & W1). cbn [rbind].
  destruct (negb (result_id o1 =? 0)); [exists o1; auto|].
  destruct (by_pid_wf n id ty (st o1) p W1) as (o2 & -> & W2); [lia|]. cbn [rbind]. apply IH, W2.
Qed.
Lemma translate_in_wf s n id ty : wf s -> exists r, translate_in c v s n id ty = Ok r /\ wf (snd r).
Proof.
  intros W. unfold translate_in. destruct (N.eqb n 0); [eexists; split; [reflexivity|exact W]|].
  rewrite (proj1 W). set (start := {| result_id := 0; found := None; st := s |}).
  set (cp := get_cached_proc_pid c s n id ty).
  assert (exists o, (if cp =? 0 then Ok start else by_pid c v n id ty s cp) = Ok o /\ sound o) as (o1 & -> & W1).
  { destruct (cp =? 0) eqn:Z0; [exists start; auto|]. apply by_pid_wf; [exact W|lia]. }
  cbn [rbind].
  assert (exists o, (if negb (result_id o1 =? 0) then Ok o1
               else rlet o := iterate (cache_fn c v n id ty) o1 (all_keys c) in
                    if negb (result_id o =? 0) then Ok o
                    else scan_proc c v n id ty o (dirs v)) = Ok o /\ sound o) as (o & -> & W3).
  { destruct (negb (result_id o1 =? 0)); [exists o1; auto|].
    destruct (iterate_wf n id ty (all_keys c) o1 W1) as (o2 & -> & W2). cbn [rbind].
    destruct (negb (result_id o2 =? 0)); [exists o2; auto|]. apply scan_proc_wf, W2. }
  cbn [rbind]. destruct (found o) as [pd|]; eexists; (split; [reflexivity|]); cbn [snd]; [|exact W3].
  destruct (pd_pid pd =? 0); [exact W3|apply wf_put, W3].
Qed.
Lemma translate_ours_wf s id ty : wf s -> exists r, translate_ours c v s id ty = Ok r /\ wf (snd r).
Proof.
  intros W. unfold translate_ours. destruct (id <=? 0); [eexists; split; [reflexivity|exact W]|].
  destruct (proc_ours c); [eexists; split; [reflexivity|exact W]|]. apply translate_in_wf, W.
Qed.
Lemma get_ns_wf s t : wf s -> exists r, get_ns c v s t = Ok r /\ wf (snd r).
Proof.
  intros W. unfold get_ns. destruct (negb (N.eqb (t_ns t) 0)); [eexists; split; [reflexivity|exact W]|].
  unfold get_proc_pid. destruct (translate_ours_wf s (t_pid t) TID W) as ([[r pp] s1] & -> & W1). cbn [rbind fst snd].
  destruct (_ =? 0); [eexists; split; [reflexivity|exact W1]|]. rewrite (hierarchy_eq c v P) by exact W1.
  destruct (firstn 1 _); eexists; (split; [reflexivity|exact W1]).
Qed.
Lemma translate_pid_wf s t id ty : wf s -> exists r, translate_pid c v s t id ty = Ok r /\ wf (snd r).
Proof.
  intros W. unfold translate_pid. destruct (id <=? 0); [eexists; split; [reflexivity|exact W]|].
  destruct (get_ns_wf s t W) as ([[n t1] s1] & -> & W1). cbn [rbind snd] in *.
  destruct (N.eqb n (our_ns c)); [eexists; split; [reflexivity|exact W1]|].
  destruct (get_ns_wf s1 t1 W1) as ([[n2 t2] s2] & -> & W2). cbn [rbind snd] in *.
  destruct (translate_in_wf s2 n2 id ty W2) as (r & -> & W3). cbn [rbind]. eexists; split; [reflexivity|exact W3].
Qed.
End History.

Lemma run_wf c h : parent_known c = true -> roomy h -> forall s, wf s -> exists s', run c s h = Ok s' /\ wf s'.
Proof.
  intros P. induction h as [|e r IH]; intros Rm s W; cbn [run]; [exists s; auto|].
  assert (exists s1, step c s e = Ok s1 /\ wf s1) as (s1 & -> & W1).
  { pose proof (Rm e (or_introl eq_refl)) as Re. destruct e as [v t id ty|v id ty]; cbn [step event_view] in *.
    - destruct (translate_pid_wf c v P Re s t id ty W) as (x & -> & Wx). cbn [rbind]. eexists; split; [reflexivity|exact Wx].
    - destruct (translate_ours_wf c v P Re s id ty W) as (x & -> & Wx). cbn [rbind]. eexists; split; [reflexivity|exact Wx]. }
  cbn [rbind]. apply IH; [|exact W1]. intros x Hx. apply Rm. right. exact Hx.
Qed.
