From Coq Require Import Btauto.
From Verif Require Import Base NumSetModel NumSetProofs StrtouModel StrtouSpec StrtouProofs QualModel QualSpec.
Local Open Scope N_scope.

(** ---- tokenisation ---- *)
Lemma split_nonnil d s : split d s <> [].
Proof. destruct s as [|c r]; simpl; [discriminate|]. destruct (c =? d); [discriminate|]. destruct (split d r); discriminate. Qed.

Lemma strtok_loop_spec d s cur :
  strtok_loop d s cur =
  match split d s with
  | p :: ps => filter nonempty ((rev cur ++ p) :: ps)
  | [] => []
  end.
Proof.
  revert cur; induction s as [|c r IH]; intros cur; simpl.
  - rewrite app_nil_r. destruct cur as [|x cur]; simpl; auto.
    destruct (rev cur ++ [x]) eqn:E; auto. destruct (rev cur); discriminate.
  - destruct (c =? d).
    + rewrite app_nil_r, (IH []). destruct (split d r) as [|p ps] eqn:E; [exfalso; eapply split_nonnil; eauto|].
      destruct cur as [|x cur]; cbn [rev app filter nonempty]; auto.
      destruct (rev cur ++ [x]) eqn:E2; auto. destruct (rev cur); discriminate.
    + rewrite IH. destruct (split d r) as [|p ps] eqn:E; [exfalso; eapply split_nonnil; eauto|].
      simpl rev. rewrite <- app_assoc. reflexivity.
Qed.
Lemma strtok_all_spec s : strtok_all 44 s = comma_tokens s.
Proof.
  unfold strtok_all, comma_tokens. rewrite strtok_loop_spec.
  destruct (split 44 s) eqn:E; auto. 
Qed.

(** ---- abstract view of an array of sets ---- *)
Definition absq (a : list nset) (np : nat) (b : bool) (f : nat -> N -> bool) : Prop :=
  length a = np /\ forall p s, nth_error a p = Some s -> nt s = b /\ forall n, inbit (vec s) n = f p n.

Lemma absq_ext a np b f g : absq a np b f -> (forall p n, (p < np)%nat -> f p n = g p n) -> absq a np b g.
Proof.
  intros [L H] E. split; auto. intros p s Hs. destruct (H p s Hs) as [H1 H2]. split; auto.
  intros n. rewrite H2. apply E. rewrite <- L. apply nth_error_Some. congruence.
Qed.

Lemma absq_clear a np : length a = np ->
  exists a', clear_number_set_array a np = Some a' /\ absq a' np false (fun _ _ => false).
Proof.
  intros L. unfold clear_number_set_array.
  destruct (map_first_spec clear_one a np) as (a' & E & L' & Hn); [lia|].
  exists a'. split; auto. split; [lia|]. intros p s Hs.
  assert (p < length a')%nat by (apply nth_error_Some; congruence). rewrite Hn in Hs.
  replace (Nat.ltb p np) with true in Hs by (symmetry; apply Nat.ltb_lt; lia).
  destruct (nth_error a p) as [t|]; inversion Hs; subst s. split; [reflexivity|].
  intros n. apply inbit_clear.
Qed.

Lemma absq_invert a np b f : absq a np b f ->
  exists a', invert_number_set_array a np = Some a' /\ absq a' np (negb b) f.
Proof.
  intros [L H]. unfold invert_number_set_array.
  destruct (map_first_spec invert_one a np) as (a' & E & L' & Hn); [lia|].
  exists a'. split; auto. split; [lia|]. intros p s Hs.
  assert (p < length a')%nat by (apply nth_error_Some; congruence). rewrite Hn in Hs.
  replace (Nat.ltb p np) with true in Hs by (symmetry; apply Nat.ltb_lt; lia).
  destruct (nth_error a p) as [t|] eqn:Et; inversion Hs; subst s.
  destruct (H p t Et) as [H1 H2]. simpl. split; [congruence|auto].
Qed.

Lemma absq_add a np b f n p : absq a np b f -> (p < np)%nat ->
  exists a', add_number_to_set_array n a p = Some a' /\
    absq a' np b (fun q m => (Nat.eqb q p && (m =? n)) || f q m).
Proof.
  intros [L H] Hp. unfold add_number_to_set_array.
  destruct (nth_error a p) as [s|] eqn:Es. 2:{ apply nth_error_None in Es; lia. }
  destruct (add_spec n s) as (s' & Es' & Hnt & _ & Hb). rewrite Es'.
  destruct (upd_some a p s') as [a' Ea']; [lia|]. rewrite Ea'. exists a'. split; auto.
  split; [erewrite upd_length by eauto; auto|].
  destruct (H p s Es) as [H1 H2].
  intros q t Ht. destruct (Nat.eq_dec p q) as [<-|Hne].
  - erewrite upd_nth_eq in Ht by eauto. inversion Ht; subst t. split; [congruence|].
    intros m. rewrite Hb, H2, Nat.eqb_refl. reflexivity.
  - erewrite upd_nth_ne in Ht by eauto. destruct (H q t Ht) as [H3 H4]. split; auto.
    intros m. replace (Nat.eqb q p) with false by (symmetry; apply Nat.eqb_neq; auto). apply H4.
Qed.

Lemma absq_member a np b f p n : absq a np b f -> (p < np)%nat ->
  is_number_in_set_array n (Some a) p = Some (xorb (f p n) b).
Proof.
  intros [L H] Hp. unfold is_number_in_set_array.
  destruct (nth_error a p) as [s|] eqn:Es. 2:{ apply nth_error_None in Es; lia. }
  rewrite is_number_in_set_inbit. destruct (H p s Es) as [-> ->]. reflexivity.
Qed.

Lemma absq_bangs k body a np b f : absq a np b f -> no_leading 33 body ->
  exists a', bang_loop (repeat 33 k ++ body) a np = Some (body, a') /\ absq a' np (xorb b (Nat.odd k)) f.
Proof.
  intros H Hb. revert a b H; induction k as [|k IH]; intros a b H; cbn [repeat app].
  - exists a. split; [|rewrite xorb_false_r; auto].
    destruct body as [|c r]; auto. simpl. 
    replace (c =? 33) with false; auto. symmetry. apply N.eqb_neq. eapply Hb; reflexivity.
  - simpl bang_loop. destruct (absq_invert _ _ _ _ H) as (a1 & E1 & H1). rewrite E1.
    destruct (IH _ _ H1) as (a2 & E2 & H2). exists a2. split; auto.
    replace (xorb b (Nat.odd (S k))) with (xorb (negb b) (Nat.odd k)); auto.
    rewrite odd_succ_negb. destruct b, (Nat.odd k); reflexivity.
Qed.

(** ---- plain sets ---- *)
Lemma token_loop_spec func toks ok a b f : absq a 1 b f ->
  match all_some (map func toks) with
  | Some ns => exists a', token_loop func toks ok a = Ok (ok || nonempty toks, a') /\
      absq a' 1 b (fun p n => existsb (N.eqb n) ns || f p n)
  | None => token_loop func toks ok a = Die
  end.
Proof.
  revert ok a f; induction toks as [|t toks IH]; intros ok a f H; simpl.
  - exists a. rewrite orb_false_r. split; auto.
  - destruct (func t) as [n|]; auto.
    destruct (absq_add a 1 b f n 0 H) as (a1 & E1 & H1); [lia|]. rewrite E1. cbn [oob rbind].
    specialize (IH true _ _ H1). destruct (all_some (map func toks)) as [ns|].
    + destruct IH as (a2 & E2 & H2). exists a2. rewrite orb_true_r. split; auto.
      eapply absq_ext; [exact H2|]. intros p m Hp. simpl.
      replace p with 0%nat by lia. simpl. destruct (m =? n), (existsb (N.eqb m) ns), (f 0%nat m); reflexivity.
    + auto.
Qed.

Lemma qualify_tokens_spec func k body s0 : no_leading 33 body ->
  match body_denotes func body with
  | Some base => exists s, qualify_tokens (repeat 33 k ++ body) [s0] func = Ok [s] /\
      forall n, is_number_in_set n (Some s) = Some (xorb (Nat.odd k) (base n))
  | None => qualify_tokens (repeat 33 k ++ body) [s0] func = Die
  end.
Proof.
  intros Hb. unfold qualify_tokens, body_denotes.
  destruct (absq_clear [s0] 1 eq_refl) as (a1 & E1 & H1). rewrite E1. cbn [oob rbind].
  destruct (absq_bangs k body _ _ _ _ H1 Hb) as (a2 & E2 & H2). rewrite E2. cbn [oob rbind].
  assert (FIN : forall a b f, absq a 1 b f -> exists s, a = [s] /\
     forall n, is_number_in_set n (Some s) = Some (xorb (f 0%nat n) b)).
  { intros a b f H. pose proof H as [L _]. destruct a as [|s [|]]; try discriminate. exists s. split; auto.
    intros n. exact (absq_member [s] 1 b f 0 n H ltac:(lia)). }
  destruct (beqs body (bs "none")).
  { destruct (FIN _ _ _ H2) as (s & -> & Hs). exists s. split; auto. intros n. rewrite Hs.
    destruct (Nat.odd k); reflexivity. }
  destruct (beqs body (bs "all")).
  { destruct (absq_invert _ _ _ _ H2) as (a3 & E3 & H3). rewrite E3. cbn [oob].
    destruct (FIN _ _ _ H3) as (s & -> & Hs). exists s. split; auto. intros n. rewrite Hs.
    destruct (Nat.odd k); reflexivity. }
  rewrite strtok_all_spec.
  pose proof (token_loop_spec func (comma_tokens body) false _ _ _ H2) as HT.
  destruct (comma_tokens body) as [|t toks] eqn:ET.
  { simpl in *. reflexivity. }
  destruct (all_some (map func (t :: toks))) as [ns|].
  - destruct HT as (a3 & E3 & H3). rewrite E3. cbn [rbind orb nonempty].
    destruct (FIN _ _ _ H3) as (s & -> & Hs). exists s. split; auto. intros n. rewrite Hs.
    rewrite orb_false_r. f_equal. rewrite xorb_false_l. apply xorb_comm.
  - rewrite HT. reflexivity.
Qed.

Lemma bang_decompose str : exists k body, str = repeat 33 k ++ body /\ no_leading 33 body.
Proof.
  induction str as [|c r IH].
  - exists 0%nat, []. split; auto. intros d r H; discriminate.
  - destruct (N.eq_dec c 33) as [->|Hne].
    + destruct IH as (k & body & -> & H). exists (S k), body. auto.
    + exists 0%nat, (c :: r). split; auto. intros d r' H. inversion H; subst; auto.
Qed.

(** ---- system calls ---- *)
Definition only (p : nat) (g : N -> bool) : nat -> N -> bool := fun q n => Nat.eqb q p && g n.
Definition union (f g : nat -> N -> bool) : nat -> N -> bool := fun q n => f q n || g q n.

Lemma entry_cons e t P i :
  entry (e :: t) P i = if i =? 0 then P e else entry t P (i - 1).
Proof.
  unfold entry. destruct (N.eqb_spec i 0) as [->|Hne]; [reflexivity|].
  replace (N.to_nat i) with (S (N.to_nat (i - 1))) by lia. reflexivity.
Qed.

(** generic shape of the three table loops *)
Lemma regex_loop_spec rx t i p found a np b f : absq a np b f -> (p < np)%nat ->
  if existsb (named (fun n => match rx n with RxError => true | _ => false end)) t
  then regex_loop rx t i p found a = Die
  else exists a', regex_loop rx t i p found a =
      Ok (found || existsb (named (fun n => match rx n with RxMatch => true | _ => false end)) t, a') /\
    absq a' np b (union (only p (fun n => (i <=? n) && entry t (named (fun n => match rx n with RxMatch => true | _ => false end)) (n - i))) f).
Proof.
  intros H Hp. revert i found a f H; induction t as [|e t IH]; intros i found a f H.
  - simpl. exists a. rewrite orb_false_r. split; auto. eapply absq_ext; [exact H|].
    intros q n _. unfold union, only, entry. rewrite nth_error_nil || (destruct (N.to_nat (n - i)); simpl);
    destruct (Nat.eqb q p), (i <=? n); reflexivity.
  - cbn [existsb regex_loop]. unfold named at 1.
    set (err := named (fun n => match rx n with RxError => true | _ => false end)) in *.
    set (mt := named (fun n => match rx n with RxMatch => true | _ => false end)) in *.
    assert (EQ : forall n, (i <=? n) && entry (e :: t) mt (n - i)
                 = ((n =? i) && mt e) || ((i + 1 <=? n) && entry t mt (n - (i + 1)))).
    { intros n. rewrite entry_cons. destruct (N.eqb_spec n i) as [->|Hn].
      - replace (i <=? i) with true by lia. replace (i - i =? 0) with true by lia.
        replace (i + 1 <=? i) with false by lia. destruct (mt e); reflexivity.
      - destruct (N.leb_spec i n).
        + replace (n - i =? 0) with false by lia. replace (i + 1 <=? n) with true by lia.
          simpl. f_equal. lia.
        + replace (i + 1 <=? n) with false by lia. reflexivity. }
    destruct (sys_name e) as [name|] eqn:En.
    + destruct (rx name) eqn:Er.
      * cbn [orb].
        destruct (absq_add a np b f i p H Hp) as (a1 & E1 & H1). rewrite E1. cbn [oob rbind].
        specialize (IH (i + 1) true a1 _ H1). destruct (existsb err t); auto.
        destruct IH as (a2 & E2 & H2). exists a2. rewrite E2. 
        assert (Hm : mt e = true) by (unfold mt, named; rewrite En, Er; reflexivity).
        rewrite Hm. split; [rewrite !orb_true_r; reflexivity|]. eapply absq_ext; [exact H2|].
        intros q n _. unfold union, only. rewrite EQ, Hm.
        destruct (Nat.eqb q p), (n =? i), (i + 1 <=? n), (entry t mt (n - (i+1))), (f q n); reflexivity.
      * cbn [orb]. specialize (IH (i + 1) found a _ H). destruct (existsb err t); auto.
        destruct IH as (a2 & E2 & H2). exists a2. rewrite E2.
        assert (Hm : mt e = false) by (unfold mt, named; rewrite En, Er; reflexivity).
        rewrite Hm. split; [reflexivity|]. eapply absq_ext; [exact H2|].
        intros q n _. unfold union, only. rewrite EQ, Hm, andb_false_r. reflexivity.
      * reflexivity.
    + cbn [orb]. specialize (IH (i + 1) found a _ H). destruct (existsb err t); auto.
      destruct IH as (a2 & E2 & H2). exists a2. rewrite E2.
      assert (Hm : mt e = false) by (unfold mt, named; rewrite En; reflexivity).
      rewrite Hm. split; [reflexivity|]. eapply absq_ext; [exact H2|].
      intros q n _. unfold union, only. rewrite EQ, Hm, andb_false_r. reflexivity.
Qed.

Lemma entry_shift e t mt i n : (i <=? n) && entry (e :: t) mt (n - i)
                 = ((n =? i) && mt e) || ((i + 1 <=? n) && entry t mt (n - (i + 1))).
Proof.
  rewrite entry_cons. destruct (N.eqb_spec n i) as [->|Hn].
  - replace (i <=? i) with true by lia. replace (i - i =? 0) with true by lia.
    replace (i + 1 <=? i) with false by lia. destruct (mt e); reflexivity.
  - destruct (N.leb_spec i n).
    + replace (n - i =? 0) with false by lia. replace (i + 1 <=? n) with true by lia.
      simpl. f_equal. lia.
    + replace (i + 1 <=? n) with false by lia. reflexivity.
Qed.

Lemma entry_nil P i : entry [] P i = false.
Proof. unfold entry. destruct (N.to_nat i); reflexivity. Qed.

Lemma class_loop_spec v t i p a np b f : absq a np b f -> (p < np)%nat ->
  exists a', class_loop v t i p a = Ok a' /\
    absq a' np b (union (only p (fun n => (i <=? n) &&
       entry t (fun e => named (fun _ => true) e && (N.land (sys_flags e) v =? v)) (n - i))) f).
Proof.
  intros H Hp. set (P := fun e => named (fun _ => true) e && (N.land (sys_flags e) v =? v)).
  revert i a f H; induction t as [|e t IH]; intros i a f H.
  - exists a. split; auto. eapply absq_ext; [exact H|]. intros q n _. unfold union, only.
    rewrite entry_nil, !andb_false_r. reflexivity.
  - cbn [class_loop].
    assert (STEP : P e = false -> exists a', class_loop v t (i + 1) p a = Ok a' /\
       absq a' np b (union (only p (fun n => (i <=? n) && entry (e :: t) P (n - i))) f)).
    { intros Hm. destruct (IH (i + 1) a f H) as (a2 & E2 & H2). exists a2. split; auto.
      eapply absq_ext; [exact H2|]. intros q n _. unfold union, only.
      rewrite entry_shift, Hm, andb_false_r. reflexivity. }
    destruct (sys_name e) as [name|] eqn:En.
    + destruct (N.land (sys_flags e) v =? v) eqn:Ev.
      * destruct (absq_add a np b f i p H Hp) as (a1 & E1 & H1). rewrite E1. cbn [oob rbind].
        destruct (IH (i + 1) a1 _ H1) as (a2 & E2 & H2). exists a2. split; auto.
        assert (Hm : P e = true) by (unfold P, named; rewrite En, Ev; reflexivity).
        eapply absq_ext; [exact H2|]. intros q n _. unfold union, only. rewrite entry_shift, Hm.
        destruct (Nat.eqb q p), (n =? i), (i + 1 <=? n), (entry t P (n - (i+1))), (f q n); reflexivity.
      * apply STEP. unfold P. rewrite Ev. apply andb_false_r.
    + apply STEP. unfold P, named. rewrite En. reflexivity.
Qed.

Lemma scno_by_name_loop_spec s t i :
  match scno_by_name_loop s t i with
  | Some k => exists j, k = i + N.of_nat j /\ (j < length t)%nat /\
      (exists e, nth_error t j = Some e /\ named (beqs s) e = true) /\
      forall j' e, (j' < j)%nat -> nth_error t j' = Some e -> named (beqs s) e = false
  | None => forall e, In e t -> named (beqs s) e = false
  end.
Proof.
  revert i; induction t as [|e t IH]; intros i; simpl.
  - intros e [].
  - assert (STEP : named (beqs s) e = false ->
      match scno_by_name_loop s t (i + 1) with
      | Some k => exists j, k = i + N.of_nat j /\ (j < S (length t))%nat /\
          (exists e0, nth_error (e :: t) j = Some e0 /\ named (beqs s) e0 = true) /\
          forall j' e0, (j' < j)%nat -> nth_error (e :: t) j' = Some e0 -> named (beqs s) e0 = false
      | None => forall e0, e = e0 \/ In e0 t -> named (beqs s) e0 = false
      end).
    { intros Hf. specialize (IH (i + 1)). destruct (scno_by_name_loop s t (i + 1)) as [k|].
      - destruct IH as (j & -> & Hj & (e0 & Ee0 & He0) & Hlt). exists (S j). split; [lia|].
        split; [lia|]. split; [exists e0; auto|]. intros [|j'] e1 Hj' E1; simpl in E1.
        + inversion E1; subst; auto.
        + apply (Hlt j'); auto. lia.
      - intros e0 [<-|Hin]; auto. }
    destruct (sys_name e) as [name|] eqn:En.
    + destruct (beqs s name) eqn:Eb.
      * exists 0%nat. split; [lia|]. split; [lia|]. split.
        -- exists e. split; auto. unfold named. rewrite En. auto.
        -- intros j' e0 Hj'. lia.
      * apply STEP. unfold named. rewrite En. auto.
    + apply STEP. unfold named. rewrite En. auto.
Qed.

Lemma nth_error_skipn {A} (l : list A) n i : nth_error (skipn n l) i = nth_error l (n + i).
Proof.
  revert n; induction l as [|x l IH]; intros [|n]; simpl; auto.
  destruct i; reflexivity.
Qed.

Lemma name_loop_spec fuel s t start p found a np b f : absq a np b f -> (p < np)%nat ->
  (N.to_nat start <= length t)%nat -> (length t - N.to_nat start < fuel)%nat ->
  exists a', name_loop fuel s t start p found a =
     Ok (found || existsb (named (beqs s)) (skipn (N.to_nat start) t), a') /\
    absq a' np b (union (only p (fun n => (start <=? n) && entry t (named (beqs s)) n)) f).
Proof.
  intros H Hp. revert start found a f H; induction fuel as [|fuel IH]; intros start found a f H Hs Hf; [lia|].
  cbn [name_loop]. unfold scno_by_name.
  pose proof (scno_by_name_loop_spec s (skipn (N.to_nat start) t) start) as HS.
  destruct (scno_by_name_loop s (skipn (N.to_nat start) t) start) as [k|] eqn:Ek.
  - destruct HS as (j & Hk & Hj & (e & Ee & He) & Hlt). 
    rewrite skipn_length in Hj.
    destruct (absq_add a np b f k p H Hp) as (a1 & E1 & H1). rewrite E1. cbn [oob rbind].
    destruct (IH (k + 1) true a1 _ H1) as (a2 & E2 & H2); [lia|lia|].
    exists a2. rewrite E2. split.
    + f_equal. f_equal. cbn [orb]. symmetry.
      replace (existsb (named (beqs s)) (skipn (N.to_nat start) t)) with true; [apply orb_true_r|].
      symmetry. apply existsb_exists. exists e. split; auto. eapply nth_error_In; eauto.
    + eapply absq_ext; [exact H2|]. intros q n _. unfold union, only.
      destruct (Nat.eqb q p); [|reflexivity]. cbn [andb].
      rewrite nth_error_skipn in Ee.
      destruct (N.eqb_spec n k) as [->|Hnk].
      * replace (start <=? k) with true by lia. cbn [andb]. 
        assert (entry t (named (beqs s)) k = true).
        { unfold entry. replace (N.to_nat k) with (N.to_nat start + j)%nat by lia. rewrite Ee. auto. }
        rewrite H0. rewrite orb_true_r. reflexivity.
      * cbn [orb]. f_equal. 
        destruct (N.leb_spec (k + 1) n) as [Hle|Hle].
        -- replace (start <=? n) with true by lia. reflexivity.
        -- cbn [andb]. destruct (N.leb_spec start n) as [Hle2|]; [|reflexivity]. cbn [andb].
           unfold entry. destruct (nth_error t (N.to_nat n)) as [e0|] eqn:E0; auto.
           symmetry. apply (Hlt (N.to_nat n - N.to_nat start)%nat); [lia|].
           rewrite nth_error_skipn. rewrite <- E0. f_equal. lia.
  - exists a. split.
    + f_equal. f_equal. replace (existsb (named (beqs s)) (skipn (N.to_nat start) t)) with false; [symmetry; apply orb_false_r|].
      symmetry. apply not_true_is_false. intros Hx. apply existsb_exists in Hx as (e & Hin & He).
      rewrite (HS e Hin) in He. discriminate.
    + eapply absq_ext; [exact H|]. intros q n _. unfold union, only.
      replace ((start <=? n) && entry t (named (beqs s)) n) with false; [rewrite andb_false_r; reflexivity|].
      symmetry. destruct (N.leb_spec start n); [|reflexivity]. cbn [andb]. unfold entry.
      destruct (nth_error t (N.to_nat n)) as [e0|] eqn:E0; auto. apply HS.
      apply (nth_error_In _ (N.to_nat n - N.to_nat start)). rewrite nth_error_skipn. rewrite <- E0. f_equal. lia.
Qed.

Lemma find_class items s : find_xlat_val_ex items s true =
  match find (fun c : N * list N => beqs (snd c) s) items with Some (v, _) => Some v | None => None end.
Proof.
  induction items as [|[v str] r IH]; simpl; auto. destruct (beqs str s); auto.
Qed.

Lemma string_to_uint_lt s v : string_to_uint s = Some v -> v < 2^31.
Proof.
  unfold string_to_uint. intros H. apply string_to_uint_upto_iff in H; [|lia]. lia.
Qed.

Lemma valid_lt t k : scno_pers_is_valid t k = true -> k < N.of_nat (length t).
Proof.
  unfold scno_pers_is_valid. destruct (k <? N.of_nat (length t)) eqn:E; [|discriminate]. lia.
Qed.

Lemma pers_spec env p t tok a np b f : env_ok env -> nth_error (tables env) p = Some t ->
  absq a np b f -> (p < np)%nat ->
  match pers_denotes env t p tok with
  | None => qualify_syscall_pers env tok p a = Die
  | Some (fd, g) => exists a', qualify_syscall_pers env tok p a = Ok (fd, a') /\
       absq a' np b (union (only p g) f)
  end.
Proof.
  intros [_ HE] Ht H Hp. destruct (HE p t Ht) as (Hlen & Hsh & Hinv).
  unfold qualify_syscall_pers, pers_denotes. rewrite Ht.
  assert (NAME : exists a', qualify_syscall_name t tok p a = Ok (existsb (named (beqs tok)) t, a') /\
      absq a' np b (union (only p (entry t (named (beqs tok)))) f)).
  { unfold qualify_syscall_name.
    destruct (name_loop_spec (S (length t)) tok t 0 p false a np b f H Hp) as (a' & E & H'); [lia|lia|].
    exists a'. rewrite E. split; [reflexivity|]. eapply absq_ext; [exact H'|]. intros q n _.
    unfold union, only. replace (0 <=? n) with true by lia. reflexivity. }
  assert (CLASS : match class_value tok with
     | Some v => exists a', (rlet (ok, set') := qualify_syscall_class t tok p a in
               if ok then Ok (true, set') else qualify_syscall_name t tok p set') = Ok (true, a') /\
           absq a' np b (union (only p (entry t (fun e => named (fun _ => true) e && (N.land (sys_flags e) v =? v)))) f)
     | None => exists a', (rlet (ok, set') := qualify_syscall_class t tok p a in
               if ok then Ok (true, set') else qualify_syscall_name t tok p set') = Ok (existsb (named (beqs tok)) t, a') /\
           absq a' np b (union (only p (entry t (named (beqs tok)))) f)
     end).
  { unfold qualify_syscall_class, class_value. rewrite find_class.
    destruct (find (fun c : N * list N => beqs (snd c) tok) syscall_class) as [[v x]|].
    - destruct (class_loop_spec v t 0 p a np b f H Hp) as (a' & E & H'). rewrite E. exists a'. split; auto.
      eapply absq_ext; [exact H'|]. intros q n _. unfold union, only.
      rewrite N.sub_0_r. replace (0 <=? n) with true by lia. reflexivity.
    - exact NAME. }
  destruct tok as [|c r].
  { change (class_value []) with (@None N) in CLASS. exact CLASS. }
  change (is_digit c) with ((48 <=? c) && (c <=? 57)).
  destruct ((48 <=? c) && (c <=? 57)).
  - unfold qualify_syscall_number, number_denotes.
    destruct (string_to_uint (c :: r)) as [v|] eqn:Ev.
    + apply string_to_uint_lt in Ev. 
      replace (u32 (shuffle env v p)) with (shuffle env v p).
      2:{ unfold u32. rewrite N.mod_small; [reflexivity|]. apply Hsh. lia. }
      destruct (scno_pers_is_valid t (shuffle env v p)).
      * destruct (absq_add a np b f (shuffle env v p) p H Hp) as (a1 & E1 & H1). rewrite E1.
        exists a1. split; auto. eapply absq_ext; [exact H1|]. intros q n _. unfold union, only.
        rewrite N.eqb_sym. reflexivity.
      * destruct (non_shuffled_check env && scno_pers_is_valid t v).
        -- destruct (absq_add a np b f v p H Hp) as (a1 & E1 & H1). rewrite E1.
           exists a1. split; auto. eapply absq_ext; [exact H1|]. intros q n _. unfold union, only.
           rewrite N.eqb_sym. reflexivity.
        -- exists a. split; auto. eapply absq_ext; [exact H|]. intros q n _. unfold union, only.
           rewrite andb_false_r. reflexivity.
    + replace (u32 (shuffle env (2 ^ 32 - 1) p)) with (shuffle env (2^32 - 1) p).
      2:{ unfold u32. rewrite N.mod_small; [reflexivity|]. apply Hsh. lia. }
      destruct (scno_pers_is_valid t (shuffle env (2^32 - 1) p)) eqn:E1.
      { apply valid_lt in E1. lia. }
      destruct (scno_pers_is_valid t (2^32 - 1)) eqn:E2.
      { apply valid_lt in E2. lia. }
      rewrite andb_false_r. exists a. split; auto. eapply absq_ext; [exact H|].
      intros q n _. unfold union, only. rewrite andb_false_r. reflexivity.
  - destruct (c =? 47).
    + unfold qualify_syscall_regex. destruct (regcomp env r) as [rx|]; auto.
      pose proof (regex_loop_spec rx t 0 p false a np b f H Hp) as HR.
      destruct (existsb (named (fun n => match rx n with RxError => true | _ => false end)) t); [exact HR|].
      destruct HR as (a' & E & H'). exists a'. split; auto.
      eapply absq_ext; [exact H'|]. intros q n _. unfold union, only.
      rewrite N.sub_0_r. replace (0 <=? n) with true by lia. reflexivity.
    + destruct (class_value (c :: r)); exact CLASS.
Qed.

Definition fold_union (ds : list (nat * (bool * (N -> bool)))) : nat -> N -> bool :=
  fun p n => existsb (fun d => Nat.eqb p (fst d) && snd (snd d) n) ds.

Definition pd (env : qenv) (str : list N) (p : nat) : option (nat * (bool * (N -> bool))) :=
  match nth_error (tables env) p with
  | Some t => option_map (fun d => (p, d)) (pers_denotes env t p str)
  | None => None end.

Lemma pers_loop_spec env str p n rc a b f : env_ok env ->
  absq a (length (tables env)) b f -> (p + n = length (tables env))%nat ->
  match all_some (map (pd env str) (seq p n)) with
  | None => pers_loop env str p n rc a = Die
  | Some ds => exists a', pers_loop env str p n rc a = Ok (rc || existsb (fun d => fst (snd d)) ds, a') /\
      absq a' (length (tables env)) b (union (fold_union ds) f)
  end.
Proof.
  intros HE. revert p rc a f; induction n as [|n IH]; intros p rc a f H Hpn.
  - simpl. exists a. rewrite orb_false_r. split; auto.
  - cbn [seq map pers_loop]. 
    destruct (nth_error (tables env) p) as [t|] eqn:Et. 2:{ apply nth_error_None in Et. lia. }
    pose proof (pers_spec env p t str a _ b f HE Et H ltac:(lia)) as HP.
    unfold pd at 1. rewrite Et.
    destruct (pers_denotes env t p str) as [[fd g]|].
    + destruct HP as (a1 & E1 & H1). rewrite E1. cbn [rbind option_map all_some].
      specialize (IH (S p) (rc || fd) a1 _ H1 ltac:(lia)).
      destruct (all_some (map (pd env str) (seq (S p) n))) as [ds|].
      * destruct IH as (a2 & E2 & H2). exists a2. split.
        { rewrite E2. f_equal. f_equal. simpl. rewrite orb_assoc. reflexivity. }
        eapply absq_ext; [exact H2|]. intros q m _. unfold union, only, fold_union. simpl.
        btauto.
      * auto.
    + cbn [option_map all_some]. rewrite HP. reflexivity.
Qed.

Lemma strip_q_spec tok rc : strip_q tok rc = (drop_q tok, rc || optional_token tok).
Proof.
  revert rc; induction tok as [|c r IH]; intros rc; simpl.
  - rewrite orb_false_r. reflexivity.
  - destruct (c =? 63) eqn:E; [rewrite IH, orb_true_r; reflexivity|rewrite orb_false_r; reflexivity].
Qed.

Lemma strrchr_snoc s c :
  strrchr_at (s ++ [c]) = if c =? 64 then Some (s, []) else
     match strrchr_at s with Some (a, b) => Some (a, b ++ [c]) | None => None end.
Proof.
  induction s as [|x s IH]; simpl.
  - destruct (c =? 64); reflexivity.
  - rewrite IH. destruct (c =? 64); auto. destruct (strrchr_at s) as [[a b]|]; auto.
    destruct (x =? 64); auto.
Qed.
Lemma strrchr_spec s : strrchr_at s = split_last_at s.
Proof.
  unfold split_last_at. induction s as [|c s IH] using rev_ind; simpl; auto.
  rewrite strrchr_snoc, rev_app_distr. simpl. rewrite IH.
  destruct (c =? 64).
  - rewrite rev_involutive. reflexivity.
  - destruct (split_first 64 (rev s)) as [[a b]|]; simpl; auto.
Qed.
Lemma beqs_sym a b : beqs a b = beqs b a.
Proof.
  revert b; induction a as [|x a IH]; intros [|y b]; simpl; auto. rewrite N.eqb_sym, IH. reflexivity.
Qed.
Lemma find_designator_spec ds s i : find_designator ds s i = option_map (fun k => (i + k)%nat) (index_of ds s).
Proof.
  revert i; induction ds as [|d r IH]; intros i; simpl; auto.
  rewrite beqs_sym. destruct (beqs d s); simpl; [f_equal; lia|].
  rewrite IH. destruct (index_of r s); simpl; auto.
Qed.
Lemma index_of_lt l s k : index_of l s = Some k -> (k < length l)%nat.
Proof.
  revert k; induction l as [|d r IH]; intros k; simpl; [discriminate|].
  destruct (beqs d s); intros H; [inversion H; lia|].
  destruct (index_of r s) as [j|] eqn:E; inversion H; subst. specialize (IH j eq_refl). lia.
Qed.

Lemma qualify_syscall_spec env tok a b f : env_ok env -> absq a (length (tables env)) b f ->
  match token_denotes env tok with
  | Some g => exists a', qualify_syscall env tok a = Ok (true, a') /\
        absq a' (length (tables env)) b (union g f)
  | None => qualify_syscall env tok a = Die \/ exists a', qualify_syscall env tok a = Ok (false, a')
  end.
Proof.
  intros HE H. unfold qualify_syscall, token_denotes, token_scope, separate_personality.
  rewrite strip_q_spec, strrchr_spec. cbn [orb].
  destruct (split_last_at (drop_q tok)) as [[pre suf]|].
  - rewrite find_designator_spec.
    destruct (index_of (designators env) suf) as [p|] eqn:EI; cbn [option_map]; [|left; reflexivity].
    rewrite Nat.add_0_l. cbn [rbind map].
    apply index_of_lt in EI. rewrite (proj1 HE) in EI.
    destruct (nth_error (tables env) p) as [t|] eqn:Et. 2:{ apply nth_error_None in Et. lia. }
    pose proof (pers_spec env p t pre a _ b f HE Et H ltac:(lia)) as HP.
    destruct (pers_denotes env t p pre) as [[fd g]|].
    + destruct HP as (a1 & E1 & H1). rewrite E1. cbn [rbind option_map all_some existsb fst snd].
      rewrite orb_false_r. destruct (optional_token tok || fd).
      * exists a1. split; auto. eapply absq_ext; [exact H1|]. intros q n _. unfold union, only.
        cbn [fst snd]. rewrite orb_false_r. reflexivity.
      * right. eauto.
    + rewrite HP. left. reflexivity.
  - cbn [rbind].
    pose proof (pers_loop_spec env (drop_q tok) 0 (length (tables env)) (optional_token tok) a b f HE H eq_refl) as HP.
    unfold pd in HP.
    destruct (all_some _) as [ds|].
    + destruct HP as (a1 & E1 & H1). rewrite E1.
      destruct (optional_token tok || existsb (fun d => fst (snd d)) ds).
      * exists a1. split; auto.
      * right. eauto.
    + left. auto.
Qed.

Lemma syscall_token_loop_spec env toks done a b f : env_ok env -> absq a (length (tables env)) b f ->
  match all_some (map (token_denotes env) toks) with
  | Some fs => exists a', syscall_token_loop env toks done a = Ok (done || nonempty toks, a') /\
      absq a' (length (tables env)) b (union (fun p n => existsb (fun f : nat -> N -> bool => f p n) fs) f)
  | None => syscall_token_loop env toks done a = Die
  end.
Proof.
  intros HE. revert done a f; induction toks as [|t toks IH]; intros done a f H; simpl.
  - exists a. rewrite orb_false_r. split; auto.
  - pose proof (qualify_syscall_spec env t a b f HE H) as HQ.
    destruct (token_denotes env t) as [g|].
    + destruct HQ as (a1 & E1 & H1). rewrite E1. cbn [rbind].
      specialize (IH true a1 _ H1). destruct (all_some (map (token_denotes env) toks)) as [fs|]; auto.
      destruct IH as (a2 & E2 & H2). exists a2. rewrite orb_true_r. split; auto.
      eapply absq_ext; [exact H2|]. intros q n _. unfold union. simpl.
      btauto.
    + destruct HQ as [HQ|[a1 HQ]]; rewrite HQ; reflexivity.
Qed.

Lemma qualify_syscall_tokens_spec env k body a : env_ok env -> length a = length (tables env) ->
  no_leading 33 body ->
  match syscalls_denote env body with
  | Some base => exists a', qualify_syscall_tokens env (repeat 33 k ++ body) a = Ok a' /\
      forall p n, (p < length (tables env))%nat ->
         is_number_in_set_array n (Some a') p = Some (xorb (Nat.odd k) (base p n))
  | None => qualify_syscall_tokens env (repeat 33 k ++ body) a = Die
  end.
Proof.
  intros HE HL Hb. unfold qualify_syscall_tokens, syscalls_denote.
  destruct (absq_clear a _ HL) as (a1 & E1 & H1). rewrite E1. cbn [oob rbind].
  destruct (absq_bangs k body _ _ _ _ H1 Hb) as (a2 & E2 & H2). rewrite E2. cbn [oob rbind].
  destruct (beqs body (bs "none")).
  { exists a2. split; auto. intros p n Hp. rewrite (absq_member _ _ _ _ _ _ H2 Hp).
    destruct (Nat.odd k); reflexivity. }
  destruct (beqs body (bs "all")).
  { destruct (absq_invert _ _ _ _ H2) as (a3 & E3 & H3). rewrite E3. cbn [oob].
    exists a3. split; auto. intros p n Hp. rewrite (absq_member _ _ _ _ _ _ H3 Hp).
    destruct (Nat.odd k); reflexivity. }
  rewrite strtok_all_spec.
  pose proof (syscall_token_loop_spec env (comma_tokens body) false _ _ _ HE H2) as HT.
  destruct (comma_tokens body) as [|t toks] eqn:ET.
  { simpl in *. reflexivity. }
  destruct (all_some (map (token_denotes env) (t :: toks))) as [fs|].
  - destruct HT as (a3 & E3 & H3). rewrite E3. cbn [rbind orb nonempty].
    exists a3. split; auto. intros p n Hp. rewrite (absq_member _ _ _ _ _ _ H3 Hp).
    unfold union. rewrite orb_false_r, xorb_false_l. f_equal. apply xorb_comm.
  - rewrite HT. reflexivity.
Qed.

Lemma split_nocomma tok : ~ In 44 tok -> split 44 tok = [tok].
Proof.
  induction tok as [|c r IH]; intros H; simpl; auto.
  replace (c =? 44) with false. 2:{ symmetry. apply N.eqb_neq. intros ->. apply H. left; auto. }
  rewrite IH by (intros Hr; apply H; right; auto). reflexivity.
Qed.
Lemma split_first_none d s : ~ In d s -> split_first d s = None.
Proof.
  induction s as [|c r IH]; intros H; simpl; auto.
  replace (c =? d) with false. 2:{ symmetry. apply N.eqb_neq. intros ->. apply H. left; auto. }
  rewrite IH by (intros Hr; apply H; right; auto). reflexivity.
Qed.
Lemma drop_q_In x s : In x (drop_q s) -> In x s.
Proof. induction s as [|c r IH]; simpl; auto. destruct (c =? 63); simpl; auto. Qed.

Lemma all_some_total {A B} (f : A -> option B) l : (forall x, In x l -> exists y, f x = Some y) ->
  exists ys, all_some (map f l) = Some ys.
Proof.
  induction l as [|x l IH]; intros H; simpl; [eauto|].
  destruct (H x) as [y ->]; [left; auto|]. destruct IH as [ys ->]; [intros; apply H; right; auto|]. eauto.
Qed.

Lemma optional_accepted env tok a : env_ok env -> length a = length (tables env) ->
  ~ In 44 tok -> ~ In 64 tok -> no_leading 47 (drop_q tok) ->
  exists a', qualify_syscall_tokens env (63 :: tok) a = Ok a'.
Proof.
  intros HE HL Hc Ha Hs.
  pose proof (qualify_syscall_tokens_spec env 0 (63 :: tok) a HE HL) as H. cbn [repeat app] in H.
  assert (no_leading 33 (63 :: tok)) as HN by (intros d r Hd; inversion Hd; lia).
  specialize (H HN). unfold syscalls_denote in H.
  replace (beqs (63 :: tok) (bs "none")) with false in H by reflexivity.
  replace (beqs (63 :: tok) (bs "all")) with false in H by reflexivity.
  unfold comma_tokens in H. rewrite split_nocomma in H.
  2:{ intros [Hx|Hx]; [discriminate|auto]. }
  cbn [filter nonempty map all_some] in H.
  assert (exists g, token_denotes env (63 :: tok) = Some g) as [g Hg].
  { unfold token_denotes, token_scope, split_last_at. cbn [drop_q optional_token N.eqb Pos.eqb].
    rewrite split_first_none. 2:{ intros Hx. apply in_rev, drop_q_In in Hx. auto. }
    edestruct (@all_some_total nat (nat * (bool * (N -> bool)))) as [ys Hys].
    2:{ rewrite Hys. cbn [orb]. eauto. }
    intros p Hp. apply in_seq in Hp. cbn beta.
    destruct (nth_error (tables env) p) as [t|] eqn:Et. 2:{ apply nth_error_None in Et. lia. }
    unfold pers_denotes. destruct (drop_q tok) as [|c r]; [simpl; eauto|].
    destruct ((48 <=? c) && (c <=? 57)). { destruct (number_denotes env t p (c :: r)); simpl; eauto. }
    replace (c =? 47) with false. 2:{ symmetry. apply N.eqb_neq. eapply Hs; reflexivity. }
    destruct (class_value (c :: r)); simpl; eauto. }
  rewrite Hg in H. destruct H as (a' & E & _). eauto.
Qed.
