From Verif Require Import Base Printf QuoteModel QuoteSpec QuoteProofs InfoSpec InfoModel InfoThms NlProofs DiagModel DiagSpec.
Local Open Scope N_scope.

Lemma align_padded n : align4 n = padded n.
Proof. unfold align4, padded. apply ldiff3. Qed.
Lemma padded_le n : n <= padded n < n + 4.
Proof. unfold padded. pose proof (N.div_mod' (n + 3) 4). pose proof (N.mod_lt (n + 3) 4 ltac:(lia)). lia. Qed.
Lemma rta_complete b : rta_ok b = true <-> complete 2 4 b.
Proof. unfold rta_ok, complete. rewrite !ld_number. rewrite !andb_true_iff, Nat.leb_le, !N.leb_le. change (N.of_nat 4) with 4. tauto. Qed.
Lemma nlmsg_complete b : nlmsg_ok b = true <-> complete 4 16 b.
Proof. unfold nlmsg_ok, complete. rewrite !ld_number. rewrite !andb_true_iff, Nat.leb_le, !N.leb_le. change (N.of_nat 16) with 16. tauto. Qed.
Lemma after_short w h b : (0 < h)%nat -> complete w h b -> (length (after w b) < length b)%nat.
Proof. intros Hh [A B]. unfold after. rewrite skipn_length. pose proof (padded_le (number_at b 0 w)). lia. Qed.
Lemma first_length w h b : complete w h b -> length (first w b) = N.to_nat (number_at b 0 w).
Proof. intros [A B]. unfold first. rewrite firstn_length. lia. Qed.
Lemma elements_det w h b l : elements w h b l -> forall l', elements w h b l' -> l = l'.
Proof.
  induction 1; intros l' E; inversion E; subst; try contradiction; auto. f_equal. auto.
Qed.
Lemma number_firstn b n off k : (off + k <= n)%nat -> number_at (firstn n b) off k = number_at b off k.
Proof.
  revert off. induction k; intros off H; [reflexivity|]. rewrite !number_S. rewrite IHk by lia. f_equal.
  destruct (Nat.lt_ge_cases off (length b)).
  - rewrite <- (firstn_skipn n b) at 2. destruct (Nat.lt_ge_cases off (length (firstn n b))).
    + rewrite app_nth1; auto.
    + rewrite firstn_length in *. lia.
  - rewrite !nth_overflow; auto. rewrite firstn_length. lia.
Qed.
Lemma number_skipn b n off k : number_at (skipn n b) off k = number_at b (n + off) k.
Proof.
  revert off. induction k; intros off; [reflexivity|]. rewrite !number_S. rewrite IHk. rewrite Nat.add_succ_r. f_equal.
  clear. revert b. induction n; intros b; [reflexivity|]. destruct b; [destruct off; reflexivity|]. cbn [skipn Nat.add nth]. auto.
Qed.
Lemma nth_skipn (b : list N) n off : nth off (skipn n b) 0 = nth (n + off) b 0.
Proof. revert b. induction n; intros b; [reflexivity|]. destruct b; [destruct off; reflexivity|]. cbn [skipn Nat.add nth]. auto. Qed.
Lemma number_app b b' off k : (off + k <= length b)%nat -> number_at (b ++ b') off k = number_at b off k.
Proof. revert off. induction k; intros off H; [reflexivity|]. rewrite !number_S. rewrite IHk by lia. f_equal. apply app_nth1. lia. Qed.

Lemma sub_ok m off n : (off + n <= length m)%nat -> sub m off n = Ok (firstn n (skipn off m)).
Proof. intros H. unfold sub. apply Nat.leb_le in H. rewrite H. reflexivity. Qed.
Lemma get_ok m off n : (off + n <= length m)%nat -> get m off n = Ok (number_at m off n).
Proof. intros H. unfold get. rewrite sub_ok by auto. cbn [rbind]. f_equal. apply (ld_number m n off). Qed.
Lemma number_1 m off : number_at m off 1 = nth off m 0.
Proof. rewrite number_S. change (number_at m (S off) 0) with 0. lia. Qed.
Lemma bytes_nth m off : bytes_ok m -> nth off m 0 < 256.
Proof.
  intros B. destruct (Nat.lt_ge_cases off (length m)).
  - apply (proj1 (Forall_forall _ _) B). apply nth_In. auto.
  - rewrite nth_overflow by auto. lia.
Qed.
Lemma ntohs_port m off : bytes_ok m -> ntohs (number_at m (16 + off) 2) = port m off.
Proof.
  intros B. unfold ntohs, port. rewrite number_S, number_1. change (S (16 + off)) with (17 + off)%nat.
  pose proof (bytes_nth m (16 + off) B). pose proof (bytes_nth m (17 + off) B).
  replace ((nth (16 + off) m 0 + 256 * nth (17 + off) m 0) / 256) with (nth (17 + off) m 0).
  2:{ symmetry. replace (nth (16 + off) m 0 + 256 * nth (17 + off) m 0) with (nth (17 + off) m 0 * 256 + nth (16 + off) m 0) by lia.
      rewrite N.div_add_l by lia. rewrite (N.div_small (nth (16 + off) m 0)) by auto. lia. }
  replace (nth (16 + off) m 0 + 256 * nth (17 + off) m 0) with (nth (16 + off) m 0 + nth (17 + off) m 0 * 256) by lia.
  rewrite N.mod_add by lia. rewrite N.mod_small by auto. lia.
Qed.
Lemma nth_default_cons (b : list N) n : (n < length b)%nat -> skipn n b = nth n b 0 :: skipn (S n) b.
Proof. revert b. induction n; intros [|x b] H; cbn in H; try lia; [reflexivity|]. cbn [skipn nth]. rewrite IHn by lia. destruct b; reflexivity. Qed.
Lemma four (b : list N) n : (n + 4 <= length b)%nat ->
  firstn 4 (skipn n b) = [nth n b 0; nth (n + 1) b 0; nth (n + 2) b 0; nth (n + 3) b 0].
Proof.
  intros H. rewrite (nth_default_cons b n) by lia. rewrite (nth_default_cons b (S n)) by lia. rewrite (nth_default_cons b (S (S n))) by lia.
  rewrite (nth_default_cons b (S (S (S n)))) by lia. cbn [firstn]. replace (n + 1)%nat with (S n) by lia. replace (n + 2)%nat with (S (S n)) by lia.
  replace (n + 3)%nat with (S (S (S n))) by lia. reflexivity.
Qed.
Lemma nz_exists (b : list N) n k : (n + k <= length b)%nat ->
  existsb (fun x => negb (x =? 0)) (firstn k (skipn n b)) = true <-> exists i, (i < k)%nat /\ nth (n + i) b 0 <> 0.
Proof.
  intros H. rewrite existsb_exists. split.
  - intros (x & I & X). apply In_nth with (d := 0) in I. destruct I as (i & L & E). rewrite firstn_length, skipn_length in L.
    exists i. split; [lia|]. rewrite <- nth_skipn. rewrite <- (firstn_skipn k (skipn n b)). rewrite app_nth1 by (rewrite firstn_length, skipn_length; lia).
    rewrite E. apply negb_true_iff, N.eqb_neq in X. auto.
  - intros (i & L & E). exists (nth i (firstn k (skipn n b)) 0). split.
    + apply nth_In. rewrite firstn_length, skipn_length. lia.
    + rewrite <- nth_skipn in E. rewrite <- (firstn_skipn k (skipn n b)) in E. rewrite app_nth1 in E by (rewrite firstn_length, skipn_length; lia).
      apply negb_true_iff, N.eqb_neq. auto.
Qed.

(** what a parser finds *)
Definition parsed (e : env) (p : proto) (m : list N) (inode : N) (r : rc) : Prop :=
  match r with
  | Neg => (length m < 16 + size_of p)%nat \/ (inode_of p m = inode /\ forall t, ~ text_of e p m t)
  | Zero => (16 + size_of p <= length m)%nat /\ inode_of p m <> inode
  | Pos d => (16 + size_of p <= length m)%nat /\ inode_of p m = inode /\ exists t, text_of e p m t /\ d = pname p ++ bs ":[" ++ t ++ bs "]"
  end.

Lemma inet_parsed e p m inode : family p = 2 \/ family p = 10 -> bytes_ok m ->
  exists r, inet_parse e m inode (pname p) = Ok r /\ parsed e p m inode r.
Proof.
  intros F B. assert (N1 : family p =? 1 = false) by (apply N.eqb_neq; lia). assert (N16 : family p =? 16 = false) by (apply N.eqb_neq; lia).
  assert (SZ : size_of p = 72%nat) by (unfold size_of; rewrite N1, N16; reflexivity).
  assert (INO : inode_of p m = number_at m 84 4) by (unfold inode_of; rewrite N1, N16; reflexivity).
  assert (TX : forall t, text_of e p m t <-> (family_of m = 2 \/ family_of m = 10) /\ inet_text e m t) by (intros t; unfold text_of; rewrite N1, N16; tauto).
  unfold inet_parse. destruct (length m <? 16 + 72)%nat eqn:L; [eexists; split; [reflexivity|]; left; rewrite SZ; apply Nat.ltb_lt; auto|].
  apply Nat.ltb_ge in L. rewrite get_ok by lia. cbn [rbind]. change (16 + 68)%nat with 84%nat. rewrite <- INO.
  destruct (inode_of p m =? inode) eqn:EI; cbn [negb]; [|eexists; split; [reflexivity|]; split; [rewrite SZ; lia|apply N.eqb_neq; auto]].
  apply N.eqb_eq in EI. rewrite get_ok by lia. cbn [rbind]. rewrite number_1. fold (family_of m).
  assert (G : forall t, text_of e p m t -> parsed e p m inode (Pos (pname p ++ bs ":[" ++ t ++ bs "]"))).
  { intros t T. repeat split; auto; [rewrite SZ; lia|eauto]. }
  destruct (family_of m =? 2) eqn:F2.
  - apply N.eqb_eq in F2. replace (family_of m =? 10) with false by (symmetry; apply N.eqb_neq; lia). cbn match.
    rewrite !sub_ok by lia. rewrite !get_ok by lia. cbn [rbind]. rewrite !ntohs_port by auto.
    assert (HP : negb (number_at m (16 + 6) 2 =? 0) || existsb (fun b => negb (b =? 0)) (firstn 4 (skipn (16 + 24) m)) = true <-> has_peer m).
    { rewrite orb_true_iff, nz_exists by lia. unfold has_peer. rewrite F2. change (2 =? 10) with false. cbn match.
      rewrite negb_true_iff, N.eqb_neq. unfold port. rewrite number_S, number_1. change (S (16 + 6)) with (17 + 6)%nat. clear. intuition lia. }
    assert (AD : forall off, (16 + off + 4 <= length m)%nat -> ntop4 (firstn 4 (skipn (16 + off) m)) = dotted m off).
    { intros off LO. rewrite four by lia. unfold ntop4, dotted. rewrite Nat.add_0_r. reflexivity. }
    rewrite !AD by lia. cbn [app].
    destruct (negb (number_at m (16 + 6) 2 =? 0) || existsb (fun b => negb (b =? 0)) (firstn 4 (skipn (16 + 24) m))) eqn:HB.
    + eexists. split; [reflexivity|].
      replace (pname p ++ _) with (pname p ++ bs ":[" ++ (endpoint e m 8 4 ++ bs "->" ++ endpoint e m 24 6) ++ bs "]").
      * apply G. apply TX. split; [auto|]. split; [auto|]. intros NP. exfalso. apply NP. apply HP. reflexivity.
      * unfold endpoint, address. rewrite F2. change (2 =? 10) with false. cbn match. rewrite <- !app_assoc. reflexivity.
    + eexists. split; [reflexivity|].
      replace (pname p ++ _) with (pname p ++ bs ":[" ++ endpoint e m 8 4 ++ bs "]").
      * apply G. apply TX. split; [auto|]. split; [|auto]. intros NP. exfalso. apply HP in NP. discriminate.
      * unfold endpoint, address. rewrite F2. change (2 =? 10) with false. cbn match. rewrite <- !app_assoc. reflexivity.
  - destruct (family_of m =? 10) eqn:F10; [|eexists; split; [reflexivity|]; right; split; [auto|]; intros t T; apply TX in T; apply N.eqb_neq in F2; apply N.eqb_neq in F10; lia].
    apply N.eqb_eq in F10. cbn match.
    rewrite !sub_ok by lia. rewrite !get_ok by lia. cbn [rbind]. rewrite !ntohs_port by auto.
    assert (HP : negb (number_at m (16 + 6) 2 =? 0) || existsb (fun b => negb (b =? 0)) (firstn 16 (skipn (16 + 24) m)) = true <-> has_peer m).
    { rewrite orb_true_iff, nz_exists by lia. unfold has_peer. rewrite F10. change (10 =? 10) with true. cbn match.
      rewrite negb_true_iff, N.eqb_neq. unfold port. rewrite number_S, number_1. change (S (16 + 6)) with (17 + 6)%nat. clear. intuition lia. }
    destruct (negb (number_at m (16 + 6) 2 =? 0) || existsb (fun b => negb (b =? 0)) (firstn 16 (skipn (16 + 24) m))) eqn:HB.
    + eexists. split; [reflexivity|].
      replace (pname p ++ _) with (pname p ++ bs ":[" ++ (endpoint e m 8 4 ++ bs "->" ++ endpoint e m 24 6) ++ bs "]").
      * apply G. apply TX. split; [auto|]. split; [auto|]. intros NP. exfalso. apply NP. apply HP. reflexivity.
      * unfold endpoint, address. rewrite F10. change (10 =? 10) with true. cbn match. rewrite <- !app_assoc. reflexivity.
    + eexists. split; [reflexivity|].
      replace (pname p ++ _) with (pname p ++ bs ":[" ++ endpoint e m 8 4 ++ bs "]").
      * apply G. apply TX. split; [auto|]. split; [|auto]. intros NP. exfalso. apply HP in NP. discriminate.
      * unfold endpoint, address. rewrite F10. change (10 =? 10) with true. cbn match. rewrite <- !app_assoc. reflexivity.
Qed.

Lemma find_names k (l : list (N * list N)) :
  match find (fun x => fst x =? k) l with
  | Some (_, s) => In (k, s) l
  | None => ~ In k (map fst l)
  end.
Proof.
  induction l as [|[a s] l IH]; cbn [find fst map]; [intros []|].
  destruct (a =? k) eqn:E.
  - apply N.eqb_eq in E. subst. left. reflexivity.
  - destruct (find _ l) as [[? ?]|]; [right; auto|]. intros [H|H]; [apply N.eqb_neq in E; cbn in H; congruence|auto].
Qed.

Lemma netlink_parsed e p m inode : family p = 16 -> bytes_ok m ->
  exists r, netlink_parse m inode (pname p) = Ok r /\ parsed e p m inode r.
Proof.
  intros F B. assert (N1 : family p =? 1 = false) by (rewrite F; reflexivity). assert (N16 : family p =? 16 = true) by (rewrite F; reflexivity).
  assert (SZ : size_of p = 28%nat) by (unfold size_of; rewrite N1, N16; reflexivity).
  assert (INO : inode_of p m = number_at m 32 4) by (unfold inode_of; rewrite N1, N16; reflexivity).
  assert (TX : forall t, text_of e p m t <-> family_of m = 16 /\ netlink_text m t) by (intros t; unfold text_of; rewrite N1, N16; tauto).
  unfold netlink_parse. destruct (length m <? 16 + 28)%nat eqn:L; [eexists; split; [reflexivity|]; left; rewrite SZ; apply Nat.ltb_lt; auto|].
  apply Nat.ltb_ge in L. rewrite get_ok by lia. cbn [rbind]. change (16 + 16)%nat with 32%nat. rewrite <- INO.
  destruct (inode_of p m =? inode) eqn:EI; cbn [negb]; [|eexists; split; [reflexivity|]; split; [rewrite SZ; lia|apply N.eqb_neq; auto]].
  apply N.eqb_eq in EI. rewrite get_ok by lia. cbn [rbind]. rewrite number_1. fold (family_of m).
  destruct (family_of m =? 16) eqn:FM; cbn [negb]; [|eexists; split; [reflexivity|]; right; split; [auto|]; intros t T; apply TX in T; apply N.eqb_neq in FM; tauto].
  apply N.eqb_eq in FM. rewrite !get_ok by lia. cbn [rbind]. rewrite number_1. change (16 + 2)%nat with 18%nat. change (16 + 4)%nat with 20%nat.
  pose proof (find_names (nth 18 m 0) netlink_protocols) as FN.
  destruct (find _ netlink_protocols) as [[z s]|]; eexists; (split; [reflexivity|]); (split; [rewrite SZ; lia|]); (split; [auto|]).
  - exists (s ++ bs ":" ++ pr_num 10 (number_at m 20 4)). split; [apply TX; split; [auto|]; left; eauto|]. rewrite <- !app_assoc. reflexivity.
  - exists (pr_num 10 (nth 18 m 0)). split; [apply TX; split; [auto|]; right; auto|]. reflexivity.
Qed.

Lemma bytes_after w b : bytes_ok b -> bytes_ok (after w b).
Proof. apply bytes_skipn. Qed.
Lemma name_of_cons a l : name_of (a :: l) =
  if (attribute_type a =? 0) && negb (length (attribute_data a) =? 0)%nat then firstn 108 (attribute_data a) else name_of l.
Proof.
  unfold name_of. cbn [filter]. destruct (attribute_type a =? 0); cbn [map filter andb]; [|reflexivity].
  destruct (negb (length (attribute_data a) =? 0)%nat); reflexivity.
Qed.
Definition last_peer (l : list (list N)) (d : N) : N :=
  last (map (fun a => number_at a 4 4) (filter (fun a => (attribute_type a =? 2) && (8 <=? length a)%nat) l)) d.
Lemma last_peer_cons a l d : last_peer (a :: l) d =
  last_peer l (if (attribute_type a =? 2) && (8 <=? length a)%nat then number_at a 4 4 else d).
Proof.
  unfold last_peer. cbn [filter]. destruct ((attribute_type a =? 2) && (8 <=? length a)%nat); [|reflexivity].
  cbn [map]. generalize (map (fun a => number_at a 4 4) (filter (fun a => (attribute_type a =? 2) && (8 <=? length a)%nat) l)). intros k.
  generalize (number_at a 4 4). induction k as [|x k IH]; intros v; [reflexivity|]. change (last (v :: x :: k) d) with (last (x :: k) d).
  rewrite IH. symmetry. destruct k; [reflexivity|]. change (last (x :: n :: k) v) with (last (n :: k) v).
  rewrite (IH v) at 1 || idtac. clear. revert n. induction k as [|y k IH]; intros n; [reflexivity|]. apply IH.
Qed.

Lemma unix_attrs_ok fuel : forall b path peer, bytes_ok b -> (length b < fuel)%nat ->
  exists l, attributes b l /\ unix_attrs fuel b path peer = Ok (if (length path =? 0)%nat then name_of l else path, last_peer l peer).
Proof.
  induction fuel; intros b path peer B L; [lia|]. cbn [unix_attrs].
  destruct (rta_ok b) eqn:R.
  - apply rta_complete in R. rewrite !ld_number. rewrite align_padded. fold (after 2 b).
    assert (LA : (length (after 2 b) < fuel)%nat) by (pose proof (after_short 2 4 b ltac:(lia) R); lia).
    pose proof (first_length 2 4 b R) as FL. destruct R as [R1 R2].
    set (len := N.to_nat (number_at b 0 2)) in *. change (N.of_nat 4) with 4 in R2.
    assert (TY : attribute_type (first 2 b) = number_at b 2 2) by (unfold attribute_type, first; apply number_firstn; lia).
    assert (DA : attribute_data (first 2 b) = firstn (len - 4) (skipn 4 b)) by (unfold attribute_data, first; apply skipn_firstn_comm).
    assert (DL : length (attribute_data (first 2 b)) = (len - 4)%nat) by (rewrite DA, firstn_length, skipn_length; lia).
    assert (PE : (8 <= len)%nat -> number_at (first 2 b) 4 4 = number_at b 4 4) by (intros; unfold first; apply number_firstn; lia).
    assert (K : forall path' peer', path' = (if (length path =? 0)%nat then (if (attribute_type (first 2 b) =? 0) && negb (length (attribute_data (first 2 b)) =? 0)%nat then firstn 108 (attribute_data (first 2 b)) else path) else path) ->
      peer' = (if (attribute_type (first 2 b) =? 2) && (8 <=? length (first 2 b))%nat then number_at (first 2 b) 4 4 else peer) ->
      exists l, attributes b l /\ unix_attrs fuel (after 2 b) path' peer' = Ok (if (length path =? 0)%nat then name_of l else path, last_peer l peer)).
    { intros path' peer' -> ->. destruct (IHfuel (after 2 b) (if (length path =? 0)%nat then (if (attribute_type (first 2 b) =? 0) && negb (length (attribute_data (first 2 b)) =? 0)%nat then firstn 108 (attribute_data (first 2 b)) else path) else path)
         (if (attribute_type (first 2 b) =? 2) && (8 <=? length (first 2 b))%nat then number_at (first 2 b) 4 4 else peer) (bytes_after 2 b B) LA) as (l & A & E).
      exists (first 2 b :: l). split; [constructor; auto; split; auto|]. rewrite E. rewrite last_peer_cons. f_equal. f_equal.
      rewrite name_of_cons. destruct (length path =? 0)%nat eqn:LP; [|rewrite LP; reflexivity].
      destruct ((attribute_type (first 2 b) =? 0) && negb (length (attribute_data (first 2 b)) =? 0)%nat) eqn:C; [|rewrite LP; reflexivity].
      apply andb_true_iff in C. destruct C as [_ C]. apply negb_true_iff, Nat.eqb_neq in C.
      destruct (length (firstn 108 (attribute_data (first 2 b))) =? 0)%nat eqn:Z; [|reflexivity]. apply Nat.eqb_eq in Z. rewrite firstn_length in Z. lia. }
    rewrite TY in K. rewrite FL, DL in K.
    destruct (number_at b 2 2 =? 0) eqn:T0.
    + apply N.eqb_eq in T0. rewrite T0 in K. change (0 =? 2) with false in K. cbn [andb] in K.
      destruct (length path =? 0)%nat eqn:LP.
      * rewrite sub_ok by (unfold UNIX_PATH_MAX; lia). cbn [rbind]. apply K; [|reflexivity].
        rewrite DA. rewrite firstn_firstn. apply Nat.eqb_eq in LP. destruct path; [|discriminate].
        destruct (len - 4 =? 0)%nat eqn:Z; cbn [negb].
        -- apply Nat.eqb_eq in Z. rewrite Z. reflexivity.
        -- f_equal. unfold UNIX_PATH_MAX. lia.
      * cbn [rbind]. apply K; reflexivity.
    + cbn [andb] in K. destruct (number_at b 2 2 =? 2) eqn:T2.
      * cbn [andb] in K. destruct (4 <=? len - 4)%nat eqn:L4.
        -- apply Nat.leb_le in L4. rewrite get_ok by lia. cbn [rbind]. apply K; [destruct (length path =? 0)%nat; reflexivity|].
           rewrite PE by lia. replace (8 <=? len)%nat with true by (symmetry; apply Nat.leb_le; lia). reflexivity.
        -- apply Nat.leb_gt in L4. cbn [rbind]. apply K; [destruct (length path =? 0)%nat; reflexivity|].
           replace (8 <=? len)%nat with false by (symmetry; apply Nat.leb_gt; lia). reflexivity.
      * cbn [rbind]. apply K; [destruct (length path =? 0)%nat; reflexivity|reflexivity].
  - exists []. split; [constructor; intros C; apply rta_complete in C; congruence|].
    unfold name_of, last_peer. cbn [filter map hd last]. rewrite firstn_nil. destruct (length path =? 0)%nat eqn:Z; [|reflexivity].
    apply Nat.eqb_eq in Z. destruct path; [reflexivity|discriminate].
Qed.

Lemma quote_fits s st e : bytes_ok s -> st = {| q0term := true; omit_quotes := false; omit0 := false; expect0 := false; comment := false; xstyle := xflag e |} ->
  exists o rc, string_quote (s ++ [0]) (length s) st None = Ok (o, rc) /\ (length o <= 4 * length s + 2)%nat /\ quoted e s o.
Proof.
  intros B ->. set (st := {| q0term := true; omit_quotes := false; omit0 := false; expect0 := false; comment := false; xstyle := xflag e |}).
  assert (B' : bytes_ok (s ++ [0])) by (apply Forall_app; split; [auto|constructor; [reflexivity|constructor]]).
  destruct (string_quote_total (s ++ [0]) (length s) st None B') as (o & rc & E).
  { unfold readable. cbn [q0term st]. right. rewrite app_length. cbn [length]. lia. }
  exists o, rc. split; [exact E|].
  pose proof (QuoteProofs.string_quote_wrap _ _ _ _ _ _ B' E) as W.
  split.
  - destruct W as (bd & W1 & W2 & W3). rewrite W1. unfold wrap. cbn [comment omit_quotes st]. rewrite app_nil_r, app_nil_l, !app_length. cbn [length bs]. change (length (bs """")) with 1%nat. lia.
  - destruct W as (bd & W1 & W2 & W3). exists bd. split; [rewrite W1; unfold wrap; cbn [comment omit_quotes st]; rewrite app_nil_r; reflexivity|].
    split; [exact W2|]. intros h H.
    destruct (string_quote_lossless h _ _ st _ _ _ B' H E) as (bd' & bb & A1 & A2 & A3 & _).
    assert (bd = bd') as ->.
    { rewrite W1 in A1. unfold wrap in A1. cbn [comment omit_quotes st] in A1. rewrite !app_nil_r, !app_nil_l in A1. apply app_inv_head in A1. apply app_inv_tail in A1. auto. }
    rewrite A2. f_equal. destruct A3 as [A3|(A3 & _)]; [|discriminate]. rewrite A3. unfold subject. cbn [q0term st].
    rewrite firstn_app, Nat.sub_diag, firstn_O, app_nil_r, firstn_all. reflexivity.
Qed.

Lemma attrs_bytes b l : attributes b l -> bytes_ok b -> Forall bytes_ok l.
Proof. induction 1; intros BS; constructor; [apply bytes_firstn; auto|]. apply IHelements. apply bytes_after; auto. Qed.
Lemma name_bytes l : Forall bytes_ok l -> bytes_ok (name_of l).
Proof.
  induction 1 as [|a l B _ IH]; [constructor|]. rewrite name_of_cons. destruct (_ && _); [|auto]. apply bytes_firstn, bytes_skipn. auto.
Qed.
Lemma peer_lt l : Forall bytes_ok l -> peer_of l < 2^32.
Proof.
  intros BA. unfold peer_of. set (k := map _ _). assert (Forall (fun v => v < 2^32) k) as H.
  { unfold k. apply Forall_forall. intros v V. apply in_map_iff in V. destruct V as (a & <- & I). apply filter_In in I. apply number4. apply (proj1 (Forall_forall _ _) BA). tauto. }
  clearbody k. induction H as [|x k ? ? IH]; [reflexivity|]. destruct k; [auto|]. apply IH.
Qed.

Lemma unix_parsed e p m inode : family p = 1 -> bytes_ok m ->
  exists r, unix_parse e m inode (pname p) = Ok r /\ parsed e p m inode r.
Proof.
  intros F B. assert (N1 : family p =? 1 = true) by (rewrite F; reflexivity).
  assert (SZ : size_of p = 16%nat) by (unfold size_of; rewrite N1; reflexivity).
  assert (INO : inode_of p m = number_at m 20 4) by (unfold inode_of; rewrite N1; reflexivity).
  assert (INO' : inode_of (P [] 1 0) m = inode_of p m) by (unfold inode_of; rewrite N1; reflexivity).
  assert (TX : forall t, text_of e p m t <-> family_of m = 1 /\ unix_text e m t) by (intros t; unfold text_of; rewrite N1; tauto).
  unfold unix_parse. destruct (length m <? 16 + 16)%nat eqn:L; [eexists; split; [reflexivity|]; left; rewrite SZ; apply Nat.ltb_lt; auto|].
  apply Nat.ltb_ge in L. rewrite get_ok by lia. cbn [rbind]. change (16 + 4)%nat with 20%nat. rewrite <- INO.
  destruct (inode_of p m =? inode) eqn:EI; cbn [negb]; [|eexists; split; [reflexivity|]; split; [rewrite SZ; lia|apply N.eqb_neq; auto]].
  apply N.eqb_eq in EI. rewrite get_ok by lia. cbn [rbind]. rewrite number_1. fold (family_of m).
  destruct (family_of m =? 1) eqn:FM; cbn [negb]; [|eexists; split; [reflexivity|]; right; split; [auto|]; intros t T; apply TX in T; apply N.eqb_neq in FM; tauto].
  apply N.eqb_eq in FM. change (16 + 16)%nat with 32%nat in *.
  destruct (unix_attrs_ok (S (length m)) (skipn 32 m) [] 0 (bytes_skipn _ 32 B)) as (l & A & E); [rewrite skipn_length; lia|].
  rewrite E. cbn [rbind length Nat.eqb]. change (last_peer l 0) with (peer_of l).
  pose proof (attrs_bytes _ _ A (bytes_skipn _ 32 B)) as BA.
  pose proof (name_bytes l BA) as BN. pose proof (peer_lt l BA) as BP.
  destruct ((peer_of l =? 0) && (length (name_of l) =? 0)%nat) eqn:NN.
  { apply andb_true_iff in NN. destruct NN as [N2 N3]. apply N.eqb_eq in N2. apply Nat.eqb_eq in N3.
    eexists. split; [reflexivity|]. right. split; [auto|]. intros t T. apply TX in T. destruct T as [_ (l' & nm & A' & N & _)].
    pose proof (elements_det _ _ _ _ A _ A') as <-. apply N. split; [auto|]. destruct (name_of l); [reflexivity|discriminate]. }
  assert (PS : (if peer_of l =? 0 then Ok [] else fits 15 (bs "->" ++ pr_num 10 (peer_of l))) = Ok (if peer_of l =? 0 then [] else bs "->" ++ pr_num 10 (peer_of l))).
  { destruct (peer_of l =? 0); [reflexivity|]. unfold fits. rewrite app_length. change (length (bs "->")) with 2%nat.
    pose proof (pr_num_length 10 (peer_of l) 9 ltac:(lia)) as PL. change (10 ^ N.of_nat 10) with 10000000000 in PL. specialize (PL ltac:(lia)).
    replace (2 + length (pr_num 10 (peer_of l)) <? 15)%nat with true by (symmetry; apply Nat.ltb_lt; lia). reflexivity. }
  rewrite PS. cbn [rbind]. clear PS.
  set (st := {| q0term := true; omit_quotes := false; omit0 := false; expect0 := false; comment := false; xstyle := xflag e |}).
  assert (NM : exists nm, match name_of l with
     | [] => Ok []
     | c :: r =>
        rlet s := (if c =? 0
                   then rlet (o, _) := string_quote (r ++ [0]) (length (name_of l) - 1) st None in Ok (bs ",@" ++ o)
                   else rlet (o, _) := string_quote (name_of l ++ [0]) (length (name_of l)) st None in Ok (bs "," ++ o)) in
        fits (4 * length (name_of l) + 4) s
     end = Ok nm /\
     match name_of l with
     | [] => nm = []
     | 0 :: r => exists q, nm = bs ",@" ++ q /\ quoted e r q
     | _ => exists q, nm = bs "," ++ q /\ quoted e (name_of l) q
     end).
  { destruct (name_of l) as [|c r] eqn:EN; [eexists; split; reflexivity|].
    assert (BR : bytes_ok r) by (inversion BN; auto).
    destruct (c =? 0) eqn:C0.
    - apply N.eqb_eq in C0. subst c. destruct (quote_fits r st e BR eq_refl) as (o & rc & Q1 & Q2 & Q3).
      replace (length (0%N :: r) - 1)%nat with (length r) by (cbn [length]; lia). rewrite Q1. cbn [rbind]. unfold fits.
      rewrite app_length. change (length (bs ",@")) with 2%nat. replace (2 + length o <? 4 * length (0%N :: r) + 4)%nat with true by (symmetry; apply Nat.ltb_lt; cbn [length]; lia).
      exists (bs ",@" ++ o). eauto.
    - destruct (quote_fits (c :: r) st e BN eq_refl) as (o & rc & Q1 & Q2 & Q3). rewrite Q1. cbn [rbind]. unfold fits.
      rewrite app_length. change (length (bs ",")) with 1%nat. replace (1 + length o <? 4 * length (c :: r) + 4)%nat with true by (symmetry; apply Nat.ltb_lt; lia).
      exists (bs "," ++ o). split; [reflexivity|]. destruct c; [discriminate|]. eauto. }
  destruct NM as (nm & NM1 & NM2). rewrite NM1. cbn [rbind]. eexists. split; [reflexivity|]. split; [rewrite SZ; lia|]. split; [auto|].
  exists (pr_num 10 inode ++ (if peer_of l =? 0 then [] else bs "->" ++ pr_num 10 (peer_of l)) ++ nm). split.
  - apply TX. split; [auto|]. exists l, nm. split; [auto|]. split.
    { intros [Z1 Z2]. rewrite Z1, Z2 in NN. discriminate. }
    rewrite INO', EI. split; [reflexivity|exact NM2].
  - rewrite <- !app_assoc. reflexivity.
Qed.

(** a row of the table and the protocol it is for *)
Definition row_of (p : proto) : list N * getter * N * N :=
  (pname p, if family p =? 1 then unix_get else if family p =? 16 then netlink_get else inet_get, family p, number p).
Lemma rows : protocols = map row_of protos.
Proof. reflexivity. Qed.
Lemma protocol_known n : protocol n = option_map row_of (known n).
Proof. destruct n; [reflexivity|]. unfold protocol, known. rewrite rows. apply nth_error_map. Qed.
Definition fam_ok (p : proto) : Prop := family p = 1 \/ family p = 16 \/ family p = 2 \/ family p = 10.
Lemma protos_fam p : In p protos -> fam_ok p.
Proof.
  intros I. assert (F : forallb (fun p => (family p =? 1) || (family p =? 16) || (family p =? 2) || (family p =? 10)) protos = true) by reflexivity.
  rewrite forallb_forall in F. specialize (F p I). unfold fam_ok. lia.
Qed.
Definition pparse (e : env) (p : proto) (m : list N) (inode : N) : res rc :=
  parse e (if family p =? 1 then unix_get else if family p =? 16 then netlink_get else inet_get) m inode (pname p).
Lemma pparse_ok e p m inode : fam_ok p -> bytes_ok m -> exists r, pparse e p m inode = Ok r /\ parsed e p m inode r.
Proof.
  intros F B. unfold pparse. destruct (family p =? 1) eqn:F1; [apply unix_parsed; auto; apply N.eqb_eq; auto|].
  destruct (family p =? 16) eqn:F16; [apply netlink_parsed; auto; apply N.eqb_eq; auto|].
  apply inet_parsed; auto. apply N.eqb_neq in F1, F16. destruct F as [F|[F|F]]; tauto.
Qed.
Lemma request_question e p inode : request_of e (if family p =? 1 then unix_get else if family p =? 16 then netlink_get else inet_get) (family p) (number p) inode = question e p inode.
Proof. unfold question, request_of. destruct (family p =? 1); [reflexivity|]. destruct (family p =? 16); reflexivity. Qed.

Lemma walk_ok q fuel : (forall m, bytes_ok m -> exists r, q m = Ok r) -> forall b, bytes_ok b -> (length b < fuel)%nat ->
  exists w l, walk fuel q b = Ok w /\ messages b l /\
  match w with
  | Return (Some d) => exists l1 m l2, l = l1 ++ m :: l2 /\ message_type m = 20 /\ N.of_nat (length m) = number_at m 0 4 /\ bytes_ok m /\ q m = Ok (Pos d)
  | _ => True
  end.
Proof.
  intros Q. induction fuel; intros b B L; [lia|]. cbn [walk].
  destruct (nlmsg_ok b) eqn:K.
  - apply nlmsg_complete in K. assert (LA : (length (after 4 b) < fuel)%nat) by (pose proof (after_short 4 16 b ltac:(lia) K); lia).
    destruct (IHfuel (after 4 b) (bytes_after 4 b B) LA) as (w & l & E1 & E2 & E3).
    rewrite !ld_number, align_padded. fold (after 4 b). fold (first 4 b).
    assert (BF : bytes_ok (first 4 b)) by (apply bytes_firstn; auto).
    assert (MT : message_type (first 4 b) = number_at b 4 2).
    { unfold message_type, first. apply number_firstn. destruct K. lia. }
    assert (ML : N.of_nat (length (first 4 b)) = number_at (first 4 b) 0 4).
    { rewrite (first_length 4 16) by auto. unfold first. rewrite number_firstn by (destruct K; lia). lia. }
    rewrite <- MT. unfold SOCK_DIAG_BY_FAMILY. destruct (message_type (first 4 b) =? 20) eqn:T; cbn [negb].
    + apply N.eqb_eq in T. destruct (Q (first 4 b) BF) as (r & ER). rewrite ER. cbn [rbind]. destruct r as [| |d].
      * exists (Return None), (first 4 b :: l). repeat split; auto. constructor; auto.
      * exists w, (first 4 b :: l). split; [exact E1|]. split; [constructor; auto|]. destruct w as [[d|]|]; auto.
        destruct E3 as (l1 & m & l2 & -> & M). exists (first 4 b :: l1), m, l2. split; [reflexivity|auto].
      * exists (Return (Some d)), (first 4 b :: l). split; [reflexivity|]. split; [constructor; auto|]. exists [], (first 4 b), l. auto.
    + exists (Return None), (first 4 b :: l). repeat split; auto. constructor; auto.
  - exists Next, []. repeat split; auto. constructor. intros C. apply nlmsg_complete in C. congruence.
Qed.

Lemma receive_ok q : (forall m, bytes_ok m -> exists r, q m = Ok r) -> forall gs, Forall bytes_ok gs ->
  exists r gs', receive q gs = Ok (r, gs') /\ incl gs' gs /\
  match r with
  | Some d => exists g m, In g gs /\ in_datagram g m /\ message_type m = 20 /\ N.of_nat (length m) = number_at m 0 4 /\ bytes_ok m /\ q m = Ok (Pos d)
  | None => True
  end.
Proof.
  intros Q gs B. induction B as [|g gs BG B IH]; cbn [receive]; [exists None, []; repeat split; auto; apply incl_refl|].
  set (b := firstn (N.to_nat 8192) g).
  assert (BB : bytes_ok b) by (apply bytes_firstn; auto).
  destruct (nlmsg_ok b) eqn:K; cbn [negb]; [|exists None, gs; repeat split; auto; apply incl_tl, incl_refl].
  destruct (walk_ok q (S (length b)) Q b BB ltac:(lia)) as (w & l & E1 & E2 & E3). rewrite E1. cbn [rbind].
  destruct w as [d|].
  - exists d, gs. split; [reflexivity|]. split; [apply incl_tl, incl_refl|]. destruct d as [d|]; auto.
    destruct E3 as (l1 & m & l2 & -> & M). exists g, m. split; [left; auto|]. split; [exists (l1 ++ m :: l2); split; [exact E2|apply in_or_app; right; left; auto]|exact M].
  - destruct IH as (r & gs' & I1 & I2 & I3). exists r, gs'. split; [exact I1|]. split; [apply incl_tl; auto|]. destruct r; auto.
    destruct I3 as (g' & m & G1 & G2). exists g', m. split; [right; auto|auto].
Qed.

(** completeness: the message that is looked for is found behind others *)
Definition passed (e : env) (p : proto) (inode : N) (m : list N) : Prop := wellformed p m /\ bytes_ok m /\ inode_of p m <> inode.
Lemma passed_zero e p inode m : fam_ok p -> passed e p inode m -> pparse e p m inode = Ok Zero.
Proof.
  intros F (W & B & I). destruct (pparse_ok e p m inode F B) as (r & E & R). rewrite E. f_equal.
  destruct r as [| |d]; [|reflexivity|]; cbn [parsed] in R.
  - destruct W as (_ & W & _). destruct R as [R|[R _]]; [lia|congruence].
  - destruct R as (_ & R & _). congruence.
Qed.
Lemma pad_len m : length (pad m) = N.to_nat (padded (N.of_nat (length m))).
Proof. unfold pad. rewrite app_length, repeat_length. pose proof (padded_le (N.of_nat (length m))). lia. Qed.
Definition framed (m : list N) : Prop := (16 <= length m)%nat /\ N.of_nat (length m) = number_at m 0 4.
Lemma pad_front m r : framed m -> complete 4 16 (pad m ++ r) /\ first 4 (pad m ++ r) = m /\ after 4 (pad m ++ r) = r.
Proof.
  intros [F1 F2]. assert (NB : number_at (pad m ++ r) 0 4 = N.of_nat (length m)).
  { unfold pad. rewrite <- app_assoc. rewrite number_app by lia. auto. }
  pose proof (padded_le (N.of_nat (length m))) as PL. pose proof (pad_len m) as LP.
  split; [|split].
  - split; rewrite ?NB, app_length; lia.
  - unfold first. rewrite NB, Nat2N.id. unfold pad. rewrite <- app_assoc. rewrite firstn_app, Nat.sub_diag, firstn_O, app_nil_r. apply firstn_all.
  - unfold after. rewrite NB, <- LP. rewrite skipn_app, Nat.sub_diag, skipn_all. reflexivity.
Qed.
Lemma datagram_cons m l : datagram (m :: l) = pad m ++ datagram l.
Proof. reflexivity. Qed.
Lemma wf_framed p m : wellformed p m -> framed m.
Proof. intros (_ & A & B). split; [lia|auto]. Qed.

Lemma walk_step e p inode fuel m r : fam_ok p -> passed e p inode m -> walk (S fuel) (fun m => pparse e p m inode) (pad m ++ r) = walk fuel (fun m => pparse e p m inode) r.
Proof.
  intros F W. pose proof (passed_zero e p inode m F W) as Z. destruct W as (W & B & I). destruct (pad_front m r (wf_framed p m W)) as (C & F1 & A1).
  cbn [walk]. pose proof (proj2 (nlmsg_complete _) C) as K. rewrite K. rewrite !ld_number, align_padded.
  fold (first 4 (pad m ++ r)). fold (after 4 (pad m ++ r)).
  assert (MT : message_type (first 4 (pad m ++ r)) = number_at (pad m ++ r) 4 2).
  { unfold message_type, first. apply number_firstn. destruct C. lia. }
  rewrite <- MT, F1, A1. destruct W as (T & _). rewrite T. change (20 =? SOCK_DIAG_BY_FAMILY) with true. cbn [negb]. rewrite Z. reflexivity.
Qed.
Lemma walk_skips e p inode l : fam_ok p -> Forall (passed e p inode) l -> forall fuel r, (length (datagram l ++ r) < fuel)%nat ->
  exists fuel', walk fuel (fun m => pparse e p m inode) (datagram l ++ r) = walk fuel' (fun m => pparse e p m inode) r /\ (length r < fuel')%nat.
Proof.
  intros F A. induction A as [|m l M A IH]; intros fuel r L; [exists fuel; auto|].
  rewrite datagram_cons, <- app_assoc in *. destruct fuel; [lia|]. rewrite walk_step by auto. apply IH.
  rewrite app_length in L. rewrite pad_len in L. pose proof (padded_le (N.of_nat (length m))). destruct M as ((_ & M & _) & _). lia.
Qed.
Lemma walk_found e p inode m d r fuel : fam_ok p -> wellformed p m -> pparse e p m inode = Ok (Pos d) -> (0 < fuel)%nat ->
  walk fuel (fun m => pparse e p m inode) (pad m ++ r) = Ok (Return (Some d)).
Proof.
  intros F W Z LF. destruct fuel; [lia|]. destruct (pad_front m r (wf_framed p m W)) as (C & F1 & A1).
  cbn [walk]. pose proof (proj2 (nlmsg_complete _) C) as K. rewrite K. rewrite !ld_number, align_padded.
  fold (first 4 (pad m ++ r)).
  assert (MT : message_type (first 4 (pad m ++ r)) = number_at (pad m ++ r) 4 2).
  { unfold message_type, first. apply number_firstn. destruct C. lia. }
  rewrite <- MT, F1. destruct W as (T & _). rewrite T. change (20 =? SOCK_DIAG_BY_FAMILY) with true. cbn [negb]. rewrite Z. reflexivity.
Qed.
Lemma short_whole (g : list N) : N.of_nat (length g) <= 8192 -> firstn (N.to_nat 8192) g = g.
Proof. intros H. apply firstn_all2. lia. Qed.
Lemma not_empty_ok l : l <> [] -> Forall framed l -> nlmsg_ok (datagram l) = true.
Proof. intros N F. destruct F as [|m l M F]; [congruence|]. apply nlmsg_complete. rewrite datagram_cons. apply pad_front. auto. Qed.
Lemma receive_found e p inode : fam_ok p -> forall before l1 m l2 rest d,
  Forall (fun l => l <> [] /\ Forall (passed e p inode) l /\ N.of_nat (length (datagram l)) <= 8192) before ->
  Forall (passed e p inode) l1 -> wellformed p m -> pparse e p m inode = Ok (Pos d) -> N.of_nat (length (datagram (l1 ++ m :: l2))) <= 8192 ->
  receive (fun m => pparse e p m inode) (map datagram before ++ datagram (l1 ++ m :: l2) :: rest) = Ok (Some d, rest).
Proof.
  intros F before l1 m l2 rest d B L1 W Z S8. induction B as [|l before (Ne & A & Sz) B IH].
  - cbn [map app receive]. rewrite short_whole by auto. set (b := datagram (l1 ++ m :: l2)) in *.
    assert (EB : b = datagram l1 ++ pad m ++ datagram l2) by (unfold b, datagram; rewrite map_app, concat_app; reflexivity).
    assert (K : nlmsg_ok b = true).
    { rewrite EB. destruct L1 as [|m1 l1 M1 L1].
      - apply nlmsg_complete. cbn [datagram map concat app]. apply pad_front. eapply wf_framed; eauto.
      - apply nlmsg_complete. rewrite datagram_cons, <- app_assoc. apply pad_front. destruct M1. eapply wf_framed; eauto. }
    rewrite K. cbn [negb].
    destruct (walk_skips e p inode l1 F L1 (S (length b)) (pad m ++ datagram l2)) as (f' & E1 & E2); [rewrite <- EB; lia|].
    assert (LM : (0 < f')%nat) by lia.
    rewrite EB at 2. rewrite E1. rewrite (walk_found e p inode m d (datagram l2) f' F W Z LM). reflexivity.
  - cbn [map app receive]. rewrite short_whole by auto.
    rewrite not_empty_ok; auto; [|eapply Forall_impl; [|exact A]; intros ? [? _]; eapply wf_framed; eauto].
    cbn [negb]. destruct (walk_skips e p inode l F A (S (length (datagram l))) []) as (f' & E1 & E2); [rewrite app_nil_r; lia|].
    rewrite app_nil_r in E1. rewrite E1. destruct f'; [cbn in E2; lia|]. cbn [walk]. change (nlmsg_ok []) with false. cbn [rbind]. exact IH.
Qed.

(** the cache *)
Lemma cached_same c i d : get_cached (cache_inode_details c i d) i = Some d.
Proof. unfold get_cached, cache_inode_details. rewrite N.eqb_refl. cbn [fst snd]. rewrite N.eqb_refl. reflexivity. Qed.
Lemma cached_other c i d j d' : get_cached (cache_inode_details c i d) j = Some d' -> (j = i /\ d' = d) \/ get_cached c j = Some d'.
Proof.
  unfold get_cached, cache_inode_details. destruct (N.land j CACHE_MASK =? N.land i CACHE_MASK); cbn [fst snd]; [|auto].
  destruct (j =? i) eqn:E; [|discriminate]. apply N.eqb_eq in E. intros H. injection H as ->. auto.
Qed.
Definition store (c : cache) (i : N) (d : option (list N)) : cache := match d with Some d => cache_inode_details c i d | None => c end.

Definition world_ok (w : world) : Prop := forall r l, reply w r = Some l -> Forall bytes_ok l.
(** one lookup: what is found, without the cache *)
Definition heard (e : env) (w : world) (inode : N) (ps : list proto) (p : proto) (d : list N) : Prop :=
  exists p' answer g m, In p' ps /\ reply w (question e p' inode) = Some answer /\ In g answer /\ in_datagram g m /\ says e p m inode d.

Lemma get_details_ok e w p inode q : fam_ok p -> world_ok w -> Forall bytes_ok q ->
  exists d q', (forall c, get_details e w (row_of p) inode c q = Ok (d, store c inode d, q')) /\
  Forall bytes_ok q' /\ (forall g, In g q' -> In g q \/ exists l, reply w (question e p inode) = Some l /\ In g l) /\
  match d with
  | Some d => exists g m, (In g q \/ exists l, reply w (question e p inode) = Some l /\ In g l) /\ in_datagram g m /\ says e p m inode d
  | None => True
  end.
Proof.
  intros F WO BQ. unfold get_details, row_of. cbn [fst snd]. rewrite request_question.
  destruct (reply w (question e p inode)) as [l|] eqn:R; [|exists None, q; repeat split; auto].
  pose proof (WO _ _ R) as BL.
  destruct (receive_ok (fun m => pparse e p m inode)) with (gs := q ++ l) as (d & gs & E1 & E2 & E3); [intros m Bm; destruct (pparse_ok e p m inode F Bm) as (r & Er & _); eauto|apply Forall_app; auto|].
  unfold pparse in E1. exists d, gs. split.
  { intros c. rewrite E1. cbn [rbind]. destruct d as [d|]; [|reflexivity]. rewrite cached_same. reflexivity. }
  assert (SRC : forall g, In g (q ++ l) -> In g q \/ (exists l0, Some l = Some l0 /\ In g l0)).
  { intros g G. apply in_app_or in G. destruct G; [auto|right; eauto]. }
  split; [|split].
  - apply Forall_forall. intros g G. apply E2 in G. apply in_app_or in G. destruct G as [G|G]; [apply (proj1 (Forall_forall _ _) BQ); auto|apply (proj1 (Forall_forall _ _) BL); auto].
  - intros g G. apply SRC. auto.
  - destruct d as [d|]; [|auto]. destruct E3 as (g & m & G1 & G2 & G3 & G4 & G5 & G6). exists g, m. split; [auto|]. split; [auto|].
    destruct (pparse_ok e p m inode F G5) as (r & Er & Pr). rewrite G6 in Er. injection Er as <-. cbn [parsed] in Pr. destruct Pr as (P1 & P2 & P3).
    split; [split; [auto|split; auto]|]. split; auto.
Qed.

Lemma try_all_ok e w inode ps : world_ok w -> Forall fam_ok ps -> forall done q, Forall bytes_ok q ->
  (forall g, In g q -> exists p' l, In p' done /\ reply w (question e p' inode) = Some l /\ In g l) ->
  exists d, (forall c, try_all e w (map row_of ps) inode c q = Ok (d, store c inode d)) /\
  match d with Some d => exists p, In p ps /\ heard e w inode (done ++ ps) p d | None => True end.
Proof.
  intros WO F. induction F as [|p ps Fp F IH]; intros done q BQ SQ; [exists None; split; auto|].
  destruct (get_details_ok e w p inode q Fp WO BQ) as (d & q' & E & B' & S' & D).
  assert (SRC : forall g, (In g q \/ exists l, reply w (question e p inode) = Some l /\ In g l) -> exists p' l, In p' (done ++ [p]) /\ reply w (question e p' inode) = Some l /\ In g l).
  { intros g [G|(l & R & G)]; [destruct (SQ g G) as (p' & l & ? & ?); exists p', l; split; [apply in_or_app; auto|auto]|exists p, l; split; [apply in_or_app; right; left; auto|auto]]. }
  destruct d as [d|].
  - exists (Some d). split; [intros c; cbn [map try_all]; rewrite E; reflexivity|]. exists p. split; [left; auto|].
    destruct D as (g & m & G & I & Sy). destruct (SRC g G) as (p' & l & I' & R & Gl). exists p', l, g, m. split; [|auto].
    apply in_or_app. apply in_app_or in I'. destruct I' as [I'|[<-|[]]]; [auto|right; left; auto].
  - destruct (IH (done ++ [p]) q' B') as (d & E2 & D2); [intros g G; apply SRC; auto|].
    exists d. split; [intros c; cbn [map try_all]; rewrite E; cbn [rbind store]; apply E2|]. destruct d as [d|]; auto.
    destruct D2 as (p2 & I2 & H2). exists p2. split; [right; auto|]. rewrite <- app_assoc in H2. exact H2.
Qed.

Lemma lookup_ok e w inode n : world_ok w -> exists d, (forall c, lookup e w inode n c = Ok (d, store c inode d)) /\
  match d with
  | Some d => told e {| aw := w; ainode := inode; aproto := n |} d
  | None => True
  end.
Proof.
  intros WO. unfold lookup. destruct (S (length protocols) <=? n)%nat eqn:LN; [exists None; split; auto|].
  destruct (opened w) eqn:O; cbn [negb]; [|exists None; split; auto].
  rewrite protocol_known. destruct n as [|n]; cbn [known option_map].
  - assert (FP : Forall fam_ok protos) by (apply Forall_forall; intros; apply protos_fam; auto).
    destruct (try_all_ok e w inode protos WO FP [] [] (Forall_nil _)) as (d & E & D); [intros g []|].
    exists d. split; [intros c; rewrite rows; apply E|]. destruct d as [d|]; auto. destruct D as (p & Ip & (p' & l & g & m & I & R & G & M & S)).
    exists p, p', l, g, m. cbn [aproto aw ainode possible]. auto 10.
  - destruct (nth_error protos n) as [p|] eqn:NP; cbn [option_map].
    + pose proof (protos_fam p (nth_error_In _ _ NP)) as FP.
      destruct (get_details_ok e w p inode [] FP WO (Forall_nil _)) as (d & q' & E & _ & _ & D).
      exists d. split; [intros c; rewrite E; reflexivity|]. destruct d as [d|]; auto. destruct D as (g & m & [[]|(l & R & G)] & M & S).
      exists p, p, l, g, m. cbn [aproto aw ainode possible]. auto 10.
    + exfalso. apply nth_error_None in NP. apply Nat.leb_gt in LN. rewrite rows, map_length in LN. lia.
Qed.
