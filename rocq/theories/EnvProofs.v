From Verif Require Import Base EnvModel EnvSpec.
Import ListNotations.
Local Open Scope N_scope.

(** The edit of one variable, on lists. *)
Fixpoint set1 (c : list N) (env : list (list N)) : list (list N) :=
  match env with
  | [] => [c]
  | e :: r => if beqs (name e) (name c) then c :: r else e :: set1 c r
  end.
Definition edit (c : list N) (env : list (list N)) : list (list N) :=
  match strchr_eq c with
  | Some _ => set1 c env
  | None => filter (fun e => negb (beqs (name e) (name c))) env
  end.

Lemma strchr_name c i : strchr_eq c = Some i -> name c = firstn i c /\ (i < List.length c)%nat /\ sets c.
Proof.
  unfold sets. revert i. induction c as [|x c IH]; intros i; cbn [strchr_eq name]; [discriminate|].
  destruct (N.eqb_spec x 61) as [->|Hx].
  - intros E. injection E as <-. cbn. repeat split; auto. lia.
  - destruct (strchr_eq c) as [j|] eqn:E; [|discriminate]. cbn. intros X. injection X as <-.
    destruct (IH j eq_refl) as (A & B & C). cbn. rewrite A. repeat split; auto. lia.
Qed.

Lemma strchr_none c : strchr_eq c = None -> name c = c /\ ~ sets c.
Proof.
  unfold sets. induction c as [|x c IH]; cbn [strchr_eq name]; [intros _; split; auto|].
  destruct (N.eqb_spec x 61) as [->|Hx]; [discriminate|].
  destruct (strchr_eq c); [discriminate|]. intros _. destruct (IH eq_refl) as (A & B).
  split; [congruence|]. intros [X|X]; congruence.
Qed.

Lemma matches_spec e var len : cstring e -> cstring var -> (len <= List.length var)%nat ->
  ~ In 61 (firstn len var) ->
  entry_matches e var len = Ok (beqs (name e) (firstn len var)).
Proof.
  unfold entry_matches, cstring. revert e var. induction len as [|len IH]; intros e var He Hv Hl Hn.
  - cbn [strneq firstn]. destruct e as [|x e]; [reflexivity|]. cbn.
    destruct (N.eqb_spec x 61) as [->|Hx]; [reflexivity|].
    destruct (N.eqb_spec x 0) as [->|Hx0]; [exfalso; apply He; left; reflexivity|reflexivity].
  - destruct var as [|y var]; [cbn in Hl; lia|]. cbn [firstn] in Hn |- *.
    destruct e as [|x e]; [reflexivity|]. cbn [strneq name].
    destruct (N.eqb_spec x y) as [->|Hxy].
    + destruct (N.eqb_spec y 61) as [->|Hy]; [exfalso; apply Hn; left; reflexivity|].
      specialize (IH e var). 
      assert (X : entry_matches e var len = Ok (beqs (name e) (firstn len var))).
      { unfold entry_matches. apply IH; auto; [intros Z; apply He; right; exact Z| |cbn in Hl; lia|].
        - intros Z; apply Hv; right; exact Z.
        - intros Z; apply Hn; right; exact Z. }
      unfold entry_matches in X. cbn [beqs]. rewrite N.eqb_refl. cbn [andb].
      rewrite <- X. destruct (strneq e var len); [|reflexivity].
      replace (at_ (y :: e) (S len)) with (at_ e len); [reflexivity|].
      unfold at_. cbn [List.length nth].
      change (S len <? S (List.length e))%nat with (len <? List.length e)%nat. reflexivity.
    + destruct (N.eqb_spec x 61); [reflexivity|]. cbn [beqs].
      apply N.eqb_neq in Hxy. rewrite Hxy. reflexivity.
Qed.

Lemma name_no_eq s : ~ In 61 (name s).
Proof.
  induction s as [|x s IH]; cbn [name]; [auto|].
  destruct (N.eqb_spec x 61) as [->|Hx]; [auto|]. intros [X|X]; congruence.
Qed.

(** The array holds [l] below the count. *)
Definition holds (env : list (option (list N))) (l : list (list N)) : Prop :=
  firstn (List.length l) env = map Some l.

Lemma holds_len env l : holds env l -> (List.length l <= List.length env)%nat.
Proof.
  unfold holds. intros H. apply (f_equal (@List.length _)) in H.
  rewrite firstn_length, map_length in H. lia.
Qed.

Lemma holds_nth env l i : holds env l -> (i < List.length l)%nat ->
  nth_error env i = option_map Some (nth_error l i).
Proof.
  unfold holds. intros H Hi. rewrite <- (nth_error_map Some).
  rewrite <- H. clear H. revert l i Hi. induction env as [|a env IH]; intros l i Hi.
  - rewrite firstn_nil. destruct i; reflexivity.
  - destruct l as [|b l]; [cbn in Hi; lia|]. cbn [List.length firstn].
    destruct i; [reflexivity|]. cbn [nth_error]. apply IH. cbn in Hi. lia.
Qed.

Lemma nth_holds env l :
  (forall i, (i < List.length l)%nat -> nth_error env i = option_map Some (nth_error l i)) -> holds env l.
Proof.
  unfold holds. revert env. induction l as [|b l IH]; intros env H; [reflexivity|].
  pose proof (H O ltac:(cbn; lia)) as H0. destruct env as [|a env]; [discriminate|].
  cbn in H0. injection H0 as ->. cbn [List.length firstn map]. f_equal. apply IH.
  intros i Hi. apply (H (S i)). cbn. lia.
Qed.

Lemma wr_ok env i e : (i < List.length env)%nat -> exists env', wr env i e = Ok env' /\
  List.length env' = List.length env /\ nth_error env' i = Some (Some e) /\
  (forall j, j <> i -> nth_error env' j = nth_error env j).
Proof.
  intros Hi. unfold wr. destruct (upd_some env i (Some e) Hi) as (env' & E). rewrite E.
  exists env'. split; [reflexivity|]. split; [eapply upd_length; eauto|].
  split; [eapply upd_nth_eq; eauto|]. intros j Hj. eapply upd_nth_ne; eauto.
Qed.

Lemma remove_loop_spec var : cstring var -> name var = var -> forall l env r w done,
  Forall cstring l -> (w <= r)%nat -> List.length done = w -> holds env done ->
  (forall i, (i < List.length l)%nat -> nth_error env (r + i) = option_map Some (nth_error l i)) ->
  (r + List.length l <= List.length env)%nat ->
  exists env', let keep := filter (fun e => negb (beqs (name e) (name var))) l in
    remove_loop (List.length l) env r w var = Ok (env', (w + List.length keep)%nat) /\
    List.length env' = List.length env /\ holds env' (done ++ keep).
Proof.
  intros Hv Hn. induction l as [|e l IH]; intros env r w done HF Hwr Hd HH HN HL; cbn zeta.
  - cbn. exists env. rewrite Nat.add_0_r, app_nil_r. auto.
  - cbn [List.length remove_loop filter]. pose proof (HN O ltac:(cbn; lia)) as H0.
    rewrite Nat.add_0_r in H0. unfold rd. rewrite H0. cbn [option_map nth_error rbind].
    inversion HF as [|? ? He HF']; subst.
    rewrite (matches_spec e var (List.length var)); auto.
    2:{ rewrite firstn_all, <- Hn. apply name_no_eq. }
    cbn [rbind]. rewrite firstn_all. rewrite Hn.
    destruct (beqs (name e) var) eqn:Em; cbn [negb].
    + destruct (IH env (S r) (List.length done) done HF' ltac:(lia) eq_refl HH) as (env' & A & B & C).
      { intros i Hi. replace (S r + i)%nat with (r + S i)%nat by lia. apply HN. cbn. lia. }
      { cbn in HL. lia. }
      rewrite Hn in A, C. exists env'. auto.
    + assert (X : exists env1, (if (List.length done <? r)%nat then wr env (List.length done) e else Ok env) = Ok env1 /\
         List.length env1 = List.length env /\ holds env1 (done ++ [e]) /\
         forall j, (r < j)%nat -> nth_error env1 j = nth_error env j).
      { destruct (Nat.ltb_spec (List.length done) r) as [Hlt|Hge].
        - destruct (wr_ok env (List.length done) e) as (env1 & A & B & C & D); [cbn in HL; lia|].
          exists env1. split; [exact A|]. split; [exact B|]. split.
          + apply nth_holds. intros i Hi. rewrite app_length in Hi. cbn in Hi.
            destruct (Nat.eq_dec i (List.length done)) as [->|Hne].
            * rewrite nth_error_app2, Nat.sub_diag by lia. exact C.
            * rewrite D by exact Hne. rewrite nth_error_app1 by lia. apply holds_nth; auto. lia.
          + intros j Hj. apply D. lia.
        - assert (r = List.length done) by lia. subst r. exists env. split; [reflexivity|].
          split; [reflexivity|]. split; [|auto].
          apply nth_holds. intros i Hi. rewrite app_length in Hi. cbn in Hi.
          destruct (Nat.eq_dec i (List.length done)) as [->|Hne].
          + rewrite nth_error_app2, Nat.sub_diag by lia. exact H0.
          + rewrite nth_error_app1 by lia. apply holds_nth; auto. lia. }
      destruct X as (env1 & -> & L1 & H1 & N1). cbn [rbind].
      destruct (IH env1 (S r) (S (List.length done)) (done ++ [e]) HF') as (env' & A & B & C); auto.
      { lia. }
      { rewrite app_length. cbn. lia. }
      { intros i Hi. replace (S r + i)%nat with (r + S i)%nat by lia. rewrite N1 by lia. apply HN. cbn. lia. }
      { cbn in HL. lia. }
      rewrite Hn in A, C. exists env'. split; [|split].
      * rewrite A. cbn [List.length]. do 2 f_equal. lia.
      * congruence.
      * rewrite <- app_assoc in C. exact C.
Qed.

Fixpoint pos (c : list N) (l : list (list N)) : nat :=
  match l with
  | [] => O
  | e :: r => if beqs (name e) (name c) then O else S (pos c r)
  end.

Lemma find_loop_spec var len : cstring var -> (len <= List.length var)%nat -> name var = firstn len var ->
  forall l env r, Forall cstring l ->
  (forall i, (i < List.length l)%nat -> nth_error env (r + i) = option_map Some (nth_error l i)) ->
  find_loop (List.length l) env r var len = Ok (r + pos var l)%nat.
Proof.
  intros Hv Hl Hn. induction l as [|e l IH]; intros env r HF HN; cbn [List.length find_loop pos].
  - rewrite Nat.add_0_r. reflexivity.
  - pose proof (HN O ltac:(cbn; lia)) as H0. rewrite Nat.add_0_r in H0.
    unfold rd. rewrite H0. cbn [option_map nth_error rbind].
    inversion HF as [|? ? He HF']; subst.
    rewrite matches_spec; auto; [|rewrite <- Hn; apply name_no_eq].
    cbn [rbind]. rewrite <- Hn. destruct (beqs (name e) (name var)).
    + rewrite Nat.add_0_r. reflexivity.
    + rewrite IH; auto.
      * do 1 f_equal. lia.
      * intros i Hi. replace (S r + i)%nat with (r + S i)%nat by lia. apply HN. cbn. lia.
Qed.

Lemma pos_le c l : (pos c l <= List.length l)%nat.
Proof. induction l as [|e l IH]; cbn; [lia|]. destruct (beqs _ _); lia. Qed.

Lemma set1_len c l : List.length (set1 c l) =
  if (pos c l <? List.length l)%nat then List.length l else S (List.length l).
Proof.
  induction l as [|e l IH]; cbn [set1 pos List.length]; [reflexivity|].
  destruct (beqs _ _); [reflexivity|]. cbn [List.length]. rewrite IH.
  change (S (pos c l) <? S (List.length l))%nat with (pos c l <? List.length l)%nat.
  destruct (pos c l <? List.length l)%nat; reflexivity.
Qed.

Lemma set1_nth c l : forall i, nth_error (set1 c l) i = if (i =? pos c l)%nat then Some c else nth_error l i.
Proof.
  induction l as [|e l IH]; intros i; cbn [set1 pos].
  - destruct i as [|i]; [reflexivity|]. cbn. destruct i; reflexivity.
  - destruct (beqs _ _).
    + destruct i; reflexivity.
    + destruct i; [reflexivity|]. cbn [nth_error]. rewrite IH. reflexivity.
Qed.

Lemma update_env_spec env l c : Forall cstring l -> cstring c -> holds env l ->
  (List.length l < List.length env)%nat ->
  exists env', update_env env (List.length l) c = Ok (env', List.length (edit c l)) /\
    List.length env' = List.length env /\ holds env' (edit c l).
Proof.
  intros HF Hc HH HL. unfold update_env, edit. destruct (strchr_eq c) as [i|] eqn:E.
  - apply strchr_name in E as (En & Hi & _). unfold add_to_env.
    rewrite (find_loop_spec c i Hc ltac:(lia) En l); auto.
    2:{ intros j Hj. cbn. apply holds_nth; auto. }
    cbn [rbind Nat.add].
    destruct (wr_ok env (pos c l) c) as (env' & A & B & C & D).
    { pose proof (pos_le c l). lia. }
    rewrite A. cbn [rbind]. exists env'. rewrite set1_len. split; [reflexivity|]. split; [exact B|].
    apply nth_holds. intros j Hj. rewrite set1_nth. rewrite set1_len in Hj.
    destruct (Nat.eqb_spec j (pos c l)) as [->|Hne]; [exact C|]. rewrite D by exact Hne.
    apply holds_nth; auto. pose proof (pos_le c l). destruct (Nat.ltb_spec (pos c l) (List.length l)); lia.
  - apply strchr_none in E as (En & _). unfold remove_from_env.
    destruct (remove_loop_spec c Hc En l env 0 0 [] HF ltac:(lia) eq_refl eq_refl) as (env' & A & B & C).
    { intros i Hi. cbn. apply holds_nth; auto. }
    { lia. }
    rewrite A. cbn [rbind Nat.add]. exists env'. split; [|split; [exact B|exact C]].
    destruct (Nat.ltb_spec (List.length (filter (fun e => negb (beqs (name e) (name c))) l)) (List.length l)) as [X|X];
      [reflexivity|].
    do 2 f_equal. enough ((List.length (filter (fun e => negb (beqs (name e) (name c))) l) <= List.length l)%nat) by lia.
    clear. induction l; cbn; [lia|]. destruct (negb _); cbn; lia.
Qed.

Definition edits (cs : list (list N)) (l : list (list N)) : list (list N) :=
  fold_left (fun l c => edit c l) cs l.

Lemma filter_le {A} (f : A -> bool) l : (List.length (filter f l) <= List.length l)%nat.
Proof. induction l; cbn; [lia|]. destruct (f a); cbn; lia. Qed.

Lemma edit_len c l : (List.length (edit c l) <= S (List.length l))%nat.
Proof.
  unfold edit. destruct (strchr_eq c).
  - rewrite set1_len. destruct (_ <? _)%nat; lia.
  - pose proof (filter_le (fun e => negb (beqs (name e) (name c))) l). lia.
Qed.

Lemma set1_in c l e : In e (set1 c l) -> e = c \/ In e l.
Proof.
  induction l as [|a l IH]; cbn [set1].
  - intros [X|[]]; auto.
  - destruct (beqs _ _); intros [X|X]; auto.
    + right; right; auto.
    + right; left; auto.
    + apply IH in X as [X|X]; auto. right; right; auto.
Qed.

Lemma edit_cstring c l : cstring c -> Forall cstring l -> Forall cstring (edit c l).
Proof.
  intros Hc HF. rewrite Forall_forall in *. intros e He. unfold edit in He.
  destruct (strchr_eq c).
  - apply set1_in in He as [->|He]; auto.
  - apply filter_In in He as (He & _). auto.
Qed.

Lemma update_all_spec cs : forall env l, Forall cstring l -> Forall cstring cs -> holds env l ->
  (List.length l + List.length cs < List.length env)%nat ->
  exists env', update_all env (List.length l) cs = Ok (env', List.length (edits cs l)) /\
    List.length env' = List.length env /\ holds env' (edits cs l) /\
    (List.length (edits cs l) < List.length env)%nat.
Proof.
  induction cs as [|c cs IH]; intros env l HF HC HH HL; cbn [update_all].
  - exists env. cbn. cbn in HL. repeat split; auto. lia.
  - inversion HC as [|? ? Hc HC']; subst. cbn [List.length] in HL.
    destruct (update_env_spec env l c HF Hc HH ltac:(lia)) as (env1 & A & B & C).
    rewrite A. cbn [rbind]. pose proof (edit_len c l).
    destruct (IH env1 (edit c l)) as (env' & A' & B' & C' & D'); auto.
    { apply edit_cstring; auto. }
    { lia. }
    exists env'. change (edits (c :: cs) l) with (edits cs (edit c l)).
    split; [exact A'|]. split; [congruence|]. split; [exact C'|]. lia.
Qed.

Lemma read_env_spec l : forall env r,
  (forall i, (i < List.length l)%nat -> nth_error env (r + i) = option_map Some (nth_error l i)) ->
  read_env (List.length l) env r = Ok l.
Proof.
  induction l as [|e l IH]; intros env r HN; cbn [List.length read_env]; [reflexivity|].
  pose proof (HN O ltac:(cbn; lia)) as H0. rewrite Nat.add_0_r in H0. unfold rd. rewrite H0.
  cbn [nth_error option_map rbind]. rewrite IH; [reflexivity|].
  intros i Hi. replace (S r + i)%nat with (r + S i)%nat by lia. apply HN. cbn. lia.
Qed.

Lemma make_env_spec orig cs : Forall cstring orig -> Forall cstring cs ->
  N.of_nat (List.length orig) + N.of_nat (List.length cs) + 1 < 2 ^ 61 ->
  make_env orig cs = Ok (edits cs orig).
Proof.
  intros HO HC HL. destruct cs as [|c cs]; [reflexivity|].
  unfold make_env. cbv zeta. set (m := N.of_nat (List.length (c :: cs))) in *.
  set (n := N.of_nat (List.length orig)) in *.
  change (2 ^ 61) with 2305843009213693952 in HL.
  assert (E : u64 (n + m) = n + m).
  { unfold u64. apply N.mod_small. change (2 ^ 64) with 18446744073709551616. lia. }
  rewrite E.
  assert (E1 : u64 (n + m + 1) = n + m + 1).
  { unfold u64. apply N.mod_small. change (2 ^ 64) with 18446744073709551616. lia. }
  rewrite E1. change (2 ^ 64) with 18446744073709551616.
  destruct (N.ltb_spec (n + m) n); [lia|]. destruct (N.ltb_spec (n + m) m); [lia|].
  destruct (N.ltb_spec (n + m + 1) (n + m)); [lia|]. cbn [orb].
  destruct (N.leb_spec 18446744073709551616 ((n + m + 1) * 8)); [lia|].
  set (env := map Some orig ++ repeat None (N.to_nat (n + m + 1) - List.length orig)).
  assert (LE : List.length env = (List.length orig + List.length (c :: cs) + 1)%nat).
  { unfold env. rewrite app_length, map_length, repeat_length. subst n m. lia. }
  assert (HH : holds env orig).
  { unfold holds, env. rewrite firstn_app, map_length, Nat.sub_diag, firstn_O, app_nil_r.
    rewrite <- (map_length Some) at 1. apply firstn_all. }
  destruct (update_all_spec (c :: cs) env orig HO HC HH ltac:(lia)) as (env' & A & B & C & D).
  rewrite A. cbn [rbind]. destruct (Nat.ltb_spec (List.length (edits (c :: cs) orig)) (List.length env')); [|lia].
  apply read_env_spec. intros i Hi. cbn. apply holds_nth; auto.
Qed.

(** Properties of edits. *)
Lemma beqs_sym a b : beqs a b = beqs b a.
Proof.
  destruct (beqs a b) eqn:E.
  - apply beqs_eq in E. subst. symmetry. apply beqs_refl.
  - destruct (beqs b a) eqn:E'; [|reflexivity]. apply beqs_eq in E'. subst. rewrite beqs_refl in E. discriminate.
Qed.

Lemma edit_other c l (k : list N -> bool) : k (name c) = false -> only k (edit c l) = only k l.
Proof.
  intros Hk. unfold only, edit. destruct (strchr_eq c).
  - induction l as [|e l IH]; cbn [set1 filter].
    + rewrite Hk. reflexivity.
    + destruct (beqs (name e) (name c)) eqn:E; cbn [filter].
      * apply beqs_eq in E. rewrite E, Hk. reflexivity.
      * rewrite IH. reflexivity.
  - induction l as [|e l IH]; cbn [filter]; [reflexivity|].
    destruct (beqs (name e) (name c)) eqn:E; cbn [negb filter].
    + apply beqs_eq in E. rewrite E, Hk. exact IH.
    + rewrite IH. reflexivity.
Qed.

Lemma edits_other cs : forall l k, Forall (fun c => k (name c) = false) cs -> only k (edits cs l) = only k l.
Proof.
  induction cs as [|c cs IH]; intros l k H; [reflexivity|]. inversion H; subst.
  change (edits (c :: cs) l) with (edits cs (edit c l)). rewrite IH by assumption. apply edit_other. assumption.
Qed.

Lemma edit_set c l : sets c -> bindings (name c) (edit c l) = c :: tl (bindings (name c) l).
Proof.
  intros Hs. unfold edit. destruct (strchr_eq c) eqn:E; [|apply strchr_none in E as (_ & X); contradiction].
  unfold bindings. clear E. induction l as [|e l IH]; cbn [set1 filter].
  - rewrite beqs_refl. reflexivity.
  - destruct (beqs (name e) (name c)) eqn:E; cbn [filter].
    + rewrite beqs_refl. reflexivity.
    + rewrite E. exact IH.
Qed.

Lemma edit_del c l : ~ sets c -> bindings (name c) (edit c l) = [].
Proof.
  intros Hs. unfold edit. destruct (strchr_eq c) eqn:E; [apply strchr_name in E as (_ & _ & X); contradiction|].
  unfold bindings. clear E. induction l as [|e l IH]; cbn [filter]; [reflexivity|].
  destruct (beqs (name e) (name c)) eqn:E; cbn [negb filter]; [exact IH|]. rewrite E. exact IH.
Qed.

Lemma edit_ne n c l : beqs (name c) n = false -> bindings n (edit c l) = bindings n l.
Proof. intros H. apply (edit_other c l (fun x => beqs x n)). exact H. Qed.

Lemma last_edit_none n cs : last_edit n cs = None <-> Forall (fun c => beqs (name c) n = false) cs.
Proof.
  induction cs as [|c cs IH]; cbn [last_edit]; [split; constructor|].
  destruct (last_edit n cs) as [d|].
  - split; [discriminate|]. intros H. inversion H; subst. apply IH in H3. discriminate.
  - destruct (beqs (name c) n) eqn:E.
    + split; [discriminate|]. intros H. inversion H; subst. congruence.
    + split; auto. intros _. constructor; auto. apply IH. reflexivity.
Qed.

Lemma edits_last n cs : forall l,
  match last_edit n cs with
  | None => bindings n (edits cs l) = bindings n l
  | Some c => (sets c -> hd_error (bindings n (edits cs l)) = Some c) /\
              (~ sets c -> bindings n (edits cs l) = [])
  end.
Proof.
  induction cs as [|c cs IH]; intros l; [reflexivity|].
  change (edits (c :: cs) l) with (edits cs (edit c l)). cbn [last_edit].
  specialize (IH (edit c l)). destruct (last_edit n cs) as [d|]; [exact IH|].
  destruct (beqs (name c) n) eqn:E.
  - apply beqs_eq in E. subst n. rewrite IH. split; intros Hs.
    + rewrite (edit_set c l Hs). reflexivity.
    + apply edit_del, Hs.
  - rewrite IH. apply edit_ne, E.
Qed.

(** A set never adds a second binding. *)
Lemma edits_count n cs : forall l,
  (List.length (bindings n (edits cs l)) <= Nat.max 1 (List.length (bindings n l)))%nat.
Proof.
  induction cs as [|c cs IH]; intros l; [unfold edits; cbn [fold_left]; lia|].
  change (edits (c :: cs) l) with (edits cs (edit c l)). specialize (IH (edit c l)).
  etransitivity; [exact IH|]. clear IH.
  destruct (beqs (name c) n) eqn:E.
  - apply beqs_eq in E. subst n. destruct (strchr_eq c) eqn:Es.
    + apply strchr_name in Es as (_ & _ & Hs). rewrite (edit_set c l Hs).
      destruct (bindings (name c) l); cbn [List.length tl]; lia.
    + apply strchr_none in Es as (_ & Hs). rewrite (edit_del c l Hs). cbn [List.length]. lia.
  - rewrite (edit_ne n c l E). lia.
Qed.
