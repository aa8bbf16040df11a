(** C82: merged logs. *)
From Coq Require Import Sorted Permutation.
From Verif Require Import Base Printf RetProofs MergeModel MergeSpec.
Local Open Scope N_scope.

(** ** Digits *)
Lemma dig_is c : dig c <-> is_digit c = true.
Proof. unfold dig, is_digit. lia. Qed.
Lemma digits_app d r : Forall dig d -> match r with c :: _ => is_digit c = false | [] => True end -> digits (d ++ r) = (d, r).
Proof.
  induction d as [|c d IH]; intros F R.
  - cbn [app]. destruct r as [|c r]; [reflexivity|]. cbn [digits]. rewrite R. reflexivity.
  - inversion F; subst. cbn [app digits]. rewrite (proj1 (dig_is c)) by assumption. rewrite IH by assumption. reflexivity.
Qed.
Lemma number_rd s : Forall dig s -> rd_num 10 0 s = Some (number s).
Proof.
  unfold number. generalize 0 as acc. induction s as [|c s IH]; intros acc F; [reflexivity|]. inversion F; subst. rewrite rd_num_dec by assumption. cbn [fold_left]. apply IH. assumption.
Qed.
Lemma number_app a b : Forall dig a -> Forall dig b -> number (a ++ b) = number a * 10 ^ N.of_nat (length b) + number b.
Proof.
  intros A B. assert (E : rd_num 10 0 (a ++ b) = Some (number (a ++ b))) by (apply number_rd, Forall_app; auto).
  rewrite rd_num_app, (number_rd a A) in E. rewrite (rd_num_acc b (number a) (number b) B (number_rd b B)) in E. congruence.
Qed.
Lemma number_num n : number (pr_num 10 n) = n.
Proof. pose proof (number_rd _ (pr_num_dig n)) as E. rewrite pr_num_rd in E by lia. congruence. Qed.
Lemma number_pad w n : number (pr_pad 10 w n) = n.
Proof. pose proof (number_rd _ (pr_pad_dig w n)) as E. rewrite pr_pad_rd in E by lia. congruence. Qed.

Lemma number_two n : number (two n) = n.
Proof. apply number_pad. Qed.

(** ** Time stamps *)
Definition fracd (prec : nat) (f : N) : list N := match prec with O => [] | _ => pr_pad 10 prec f end.
Lemma fracd_dig prec f : Forall dig (fracd prec f).
Proof. destruct prec; [constructor|apply pr_pad_dig]. Qed.
Lemma fracd_len prec f : f < 10 ^ N.of_nat prec -> length (fracd prec f) = prec.
Proof. intros H. destruct prec; [reflexivity|]. apply pr_pad_length; lia. Qed.
Lemma fracd_num prec f : f < 10 ^ N.of_nat prec -> number (fracd prec f) = f.
Proof. intros H. destruct prec; [cbn in *; lia|]. apply number_pad. Qed.
Definition rest_stamp (s : list N) : option (list N) :=
  let (d, r) := digits s in
  match d, r with
  | [], _ => None
  | _, 32 :: _ => Some d
  | _, 46 :: r => let (e, r) := digits r in match e, r with _ :: _, 32 :: _ => Some (d ++ e) | _, _ => None end
  | _, _ => None
  end.
Lemma rest_stamp_ok d prec f rest : Forall dig d -> d <> [] -> f < 10 ^ N.of_nat prec ->
  rest_stamp (d ++ fraction prec f ++ bs " " ++ rest) = Some (d ++ fracd prec f).
Proof.
  intros D NE F. unfold rest_stamp, fraction, fracd. change (bs " ") with [32]. change (bs ".") with [46]. destruct prec as [|p].
  - cbn [app]. rewrite digits_app by (try assumption; reflexivity). destruct d; [congruence|]. rewrite app_nil_r. reflexivity.
  - cbn [app]. rewrite digits_app by (try assumption; reflexivity). destruct d as [|c d]; [congruence|]. rewrite digits_app by (try apply pr_pad_dig; reflexivity).
    pose proof (pr_pad_length 10 (S p) f ltac:(lia) F ltac:(lia)) as L. destruct (pr_pad 10 (S p) f); [discriminate|]. reflexivity.
Qed.
Lemma stamp_rest s : dd s = None -> stamp s = rest_stamp s.
Proof.
  intros E. unfold stamp. rewrite E. rewrite E. unfold rest_stamp. destruct (digits s) as [[|c d] r]; [reflexivity|]. reflexivity.
Qed.
Lemma two_digits n : n < 100 -> exists a b, two n = [a; b] /\ dig a /\ dig b.
Proof.
  intros H. pose proof (pr_pad_length 10 2 n ltac:(lia) H ltac:(lia)) as L. pose proof (pr_pad_dig 2 n) as D. unfold two.
  destruct (pr_pad 10 2 n) as [|a [|b [|]]]; try discriminate. inversion D as [|? ? A D']; subst. inversion D' as [|? ? B _]; subst. eauto.
Qed.
Lemma dd_two n r : n < 100 -> dd (two n ++ bs ":" ++ r) = Some (two n, r).
Proof.
  intros H. destruct (two_digits n H) as (a & b & -> & A & B). change (bs ":") with [58]. cbn [app dd]. apply dig_is in A, B. rewrite A, B. reflexivity.
Qed.
Lemma dd_not c d r s : match r with c :: _ => c <> 58 /\ (is_digit c = true -> False) | [] => True end -> s = c :: d ++ r -> Forall dig (c :: d) -> dd s = None.
Proof.
  intros R -> F. inversion F as [|? ? C F']; subst. destruct d as [|x d].
  - cbn [app]. destruct r as [|y [|z r]]; try reflexivity. unfold dd. destruct R as [R1 R2].
    destruct (is_digit y) eqn:Y; [tauto|]. rewrite andb_false_r. destruct z as [|p]; [reflexivity|]. do 6 (destruct p; try reflexivity).
  - inversion F' as [|? ? X F'']; subst. destruct d as [|y d].
    + cbn [app]. destruct r as [|z r]; [reflexivity|]. destruct R as [R1 R2]. unfold dd. destruct z as [|p]; [reflexivity|]. do 6 (destruct p; try reflexivity). congruence.
    + cbn [app]. inversion F'' as [|? ? Y _]; subst. unfold dig in Y. unfold dd. destruct y as [|p]; [reflexivity|]. do 6 (destruct p; try reflexivity). lia.
Qed.
Lemma no_dd d prec f rest : Forall dig d -> d <> [] -> dd (d ++ fraction prec f ++ bs " " ++ rest) = None.
Proof.
  intros F NE. destruct d as [|c d]; [congruence|]. apply (dd_not c d (fraction prec f ++ bs " " ++ rest)); [|reflexivity|exact F].
  destruct prec; cbn; split; discriminate.
Qed.
Lemma stamped_key c prec l t : stamped c prec l t -> exists d k, stamp l = Some d /\ Forall dig d /\ d <> [] /\ number d = k /\
  match c with
  | Epoch => k = t
  | Day => exists h m s f, h < 24 /\ m < 60 /\ s < 60 /\ f < 10 ^ N.of_nat prec /\ k = ((h * 100 + m) * 100 + s) * 10 ^ N.of_nat prec + f /\ t = ((h * 60 + m) * 60 + s) * 10 ^ N.of_nat prec + f
  end.
Proof.
  intros (f & rest & F & H). destruct c.
  - destruct H as (h & m & s & H1 & H2 & H3 & -> & T).
    exists (two h ++ two m ++ two s ++ fracd prec f), (((h * 100 + m) * 100 + s) * 10 ^ N.of_nat prec + f).
    assert (L : forall n, n < 100 -> length (two n) = 2%nat) by (intros n Hn; destruct (two_digits n Hn) as (? & ? & -> & _); reflexivity).
    assert (DG : forall n, Forall dig (two n)) by (intros n; apply pr_pad_dig).
    split; [|split; [|split; [|split]]].
    + assert (TS : two s <> []) by (intros E; pose proof (L s ltac:(lia)) as Q; rewrite E in Q; discriminate).
      unfold stamp. rewrite dd_two by lia. rewrite dd_two by lia.
      pose proof (rest_stamp_ok (two s) prec f rest (DG s) TS F) as R. unfold rest_stamp in R. destruct (digits _) as [[|x d] r]; [discriminate|].
      destruct r as [|y r]; [discriminate|]. destruct y as [|p]; [discriminate|]. do 6 (destruct p; try discriminate).
      * destruct (digits r) as [e r']. destruct e as [|z e]; [discriminate|]. destruct r' as [|y r']; [discriminate|]. destruct y as [|p]; [discriminate|]. do 6 (destruct p; try discriminate). injection R as R. rewrite <- R. reflexivity.
      * injection R as R. rewrite <- R. reflexivity.
    + do 3 (apply Forall_app; split; [apply DG|]). apply fracd_dig.
    + intros E. apply app_eq_nil in E. destruct E as [E _]. pose proof (L h ltac:(lia)) as Q. rewrite E in Q. discriminate.
    + assert (D1 : Forall dig (fracd prec f)) by apply fracd_dig. assert (D2 : Forall dig (two s ++ fracd prec f)) by (apply Forall_app; auto).
      assert (D3 : Forall dig (two m ++ two s ++ fracd prec f)) by (apply Forall_app; auto).
      rewrite number_app, number_app, number_app by auto. rewrite !number_two. rewrite fracd_num by exact F.
      rewrite !app_length, (L s), (L m), fracd_len by (try exact F; lia). rewrite !Nat2N.inj_add, !N.pow_add_r. change (10 ^ N.of_nat 2) with 100. lia.
    + exists h, m, s, f. do 4 (split; [assumption|]). split; [reflexivity|exact T].
  - destruct H as (s & -> & T). exists (pr_num 10 s ++ fracd prec f), t. 
    assert (NE : pr_num 10 s <> []) by (pose proof (pr_num_length 10 s (N.to_nat s) ltac:(lia)) as Q; intros E; rewrite E in Q; cbn in Q; specialize (Q ltac:(rewrite Nat2N.inj_succ, N2Nat.id; pose proof (N.pow_gt_lin_r 10 (N.succ s) ltac:(lia)); lia)); lia).
    split; [|split; [|split; [|split; [|reflexivity]]]].
    + rewrite stamp_rest by (apply no_dd; [apply pr_num_dig|exact NE]). apply rest_stamp_ok; [apply pr_num_dig|exact NE|exact F].
    + apply Forall_app. split; [apply pr_num_dig|apply fracd_dig].
    + intros E. apply app_eq_nil in E. tauto.
    + rewrite number_app by (try apply pr_num_dig; apply fracd_dig). rewrite number_num, fracd_num, fracd_len by exact F. symmetry. exact T.
Qed.
Lemma other_none l : other l -> stamp l = None.
Proof. intros [->|(r & ->)]; [reflexivity|]. rewrite stamp_rest; [reflexivity|]. destruct r as [|b [|[|p] r]]; try reflexivity. cbn [dd is_digit]. destruct p as [p|p|]; try reflexivity; do 5 (destruct p; try reflexivity). Qed.
(** the order of keys is that of times *)
Lemma key_order c prec l l' t t' d d' : stamped c prec l t -> stamped c prec l' t' -> stamp l = Some d -> stamp l' = Some d' -> (number d <= number d' <-> t <= t').
Proof.
  intros H H' E E'. destruct (stamped_key _ _ _ _ H) as (x & k & X & _ & _ & K & C). destruct (stamped_key _ _ _ _ H') as (x' & k' & X' & _ & _ & K' & C').
  assert (d = x) by congruence. assert (d' = x') by congruence. subst d d'. rewrite K, K'. clear X X' E E' K K' H H'. destruct c; [|subst; tauto].
  destruct C as (h & m & s & f & H1 & H2 & H3 & H4 & -> & ->). destruct C' as (h' & m' & s' & f' & H1' & H2' & H3' & H4' & -> & ->).
  set (P := 10 ^ N.of_nat prec) in *.
  assert (G : forall a b : N, (a * P + f <= b * P + f' <-> a < b \/ (a = b /\ f <= f'))).
  { intros a b. split.
    - intros L. destruct (N.lt_trichotomy a b) as [Q|[Q|Q]]; [auto| |].
      + right. split; [exact Q|]. subst. lia.
      + exfalso. assert (b * P + P <= a * P) by nia. lia.
    - intros [Q|[-> Q]]; [|lia]. assert (a * P + P <= b * P) by nia. lia. }
  rewrite !G. lia.
Qed.

(** ** Lines *)
Lemma lines_terminated l b : a_line l -> lines (l ++ 10 :: b) = l :: lines b.
Proof.
  induction l as [|c l IH]; intros A; [reflexivity|]. cbn [app lines]. rewrite IH by (intros I; apply A; right; exact I).
  destruct (N.eqb_spec c 10) as [->|_]; [destruct A; left; reflexivity|reflexivity].
Qed.
Lemma lines_last l : a_line l -> l <> [] -> lines l = [l].
Proof.
  induction l as [|c l IH]; intros A NE; [congruence|]. cbn [lines]. destruct (N.eqb_spec c 10) as [->|_]; [destruct A; left; reflexivity|].
  destruct l as [|x l]; [reflexivity|]. rewrite IH; [reflexivity| |discriminate]. intros I. apply A. right. exact I.
Qed.
Lemma lines_unlines ls b : Forall a_line ls -> lines (concat (map (fun l => l ++ [10]) ls) ++ b) = ls ++ lines b.
Proof.
  induction ls as [|l ls IH]; intros F; [reflexivity|]. inversion F; subst. cbn [map concat app]. rewrite <- !app_assoc. cbn [app]. rewrite lines_terminated by assumption. rewrite IH by assumption. reflexivity.
Qed.
Lemma lines_text ls b : is_text ls b -> lines b = ls.
Proof.
  intros [F [->|(ls' & l & -> & NE & ->)]].
  - rewrite <- (app_nil_r (concat _)), lines_unlines by assumption. apply app_nil_r.
  - apply Forall_app in F. destruct F as [F1 F2]. inversion F2; subst. rewrite lines_unlines by assumption. rewrite lines_last by assumption. reflexivity.
Qed.
(** what sed and echo write for a log: its stamped lines, and perhaps an empty one *)
Definition written (pid : list N) (ls : list (list N)) : list (list N) := flat_map (fun l => match convert pid l with Some t => [t] | None => [] end) ls.
Lemma convert_line pid l t : a_line pid -> a_line l -> convert pid l = Some t -> a_line t /\ t <> [].
Proof.
  unfold convert. intros A B E. destruct (stamp l) as [k|] eqn:K; [|discriminate]. injection E as <-. split.
  - assert (KD : ~ In 10 k).
    { unfold stamp in K. assert (DG : forall s, ~ In 10 (fst (digits s))).
      { clear. induction s as [|c s IH]; [cbn; tauto|]. cbn [digits]. destruct (is_digit c) eqn:D; [|cbn; tauto]. destruct (digits s). cbn [fst] in *. intros [->|I]; [discriminate|tauto]. }
      assert (DD : forall s a r, dd s = Some (a, r) -> ~ In 10 a).
      { clear. intros s a r E. unfold dd in E. destruct s as [|x [|y [|z s]]]; try discriminate. destruct z as [|p]; try discriminate. do 6 (destruct p; try discriminate).
        destruct (is_digit x) eqn:X; [|discriminate]. destruct (is_digit y) eqn:Y; [|discriminate]. injection E as <- _. intros [->|[->|[]]]; discriminate. }
      assert (E1 : exists a s1, match dd l with Some (a, r) => (a, r) | None => ([], l) end = (a, s1) /\ ~ In 10 a).
      { destruct (dd l) as [[a r]|] eqn:Q; [exists a, r; split; [reflexivity|eapply DD; exact Q]|exists [], l; split; [reflexivity|tauto]]. }
      destruct E1 as (a & s1 & E1 & N1). rewrite E1 in K.
      assert (E2 : exists b s2, match dd s1 with Some (a, r) => (a, r) | None => ([], s1) end = (b, s2) /\ ~ In 10 b).
      { destruct (dd s1) as [[b r]|] eqn:Q; [exists b, r; split; [reflexivity|eapply DD; exact Q]|exists [], s1; split; [reflexivity|tauto]]. }
      destruct E2 as (b & s2 & E2 & N2). rewrite E2 in K. pose proof (DG s2) as N3. destruct (digits s2) as [d r]. cbn [fst] in N3.
      assert (R : k = a ++ b ++ d \/ exists e, ~ In 10 e /\ k = a ++ b ++ d ++ e).
      { destruct d as [|x d]; [discriminate|]. destruct r as [|y r]; [discriminate|]. destruct y as [|p]; [discriminate|]. do 6 (destruct p; try discriminate).
        - pose proof (DG r) as N4. destruct (digits r) as [e r']. cbn [fst] in N4. destruct e as [|z e]; [discriminate|]. destruct r' as [|y r']; [discriminate|].
          destruct y as [|p]; [discriminate|]. do 6 (destruct p; try discriminate). right. exists (z :: e). split; [exact N4|]. congruence.
        - left. congruence. }
      destruct R as [->|(e & N4 & ->)]; rewrite !in_app_iff; tauto. }
    unfold a_line in *. intros Q. apply in_app_or in Q. destruct Q as [Q|[Q|Q]]; [exact (KD Q)|discriminate Q|]. apply in_app_or in Q. destruct Q as [Q|[Q|Q]]; [exact (A Q)|discriminate Q|exact (B Q)].
  - destruct k; discriminate.
Qed.
Lemma sed_lines pid term ls : a_line pid -> Forall a_line ls -> exists x, lines (sed pid term ls ++ [10]) = written pid ls ++ x /\ (x = [] \/ x = [[]]) /\
  (forall b, lines (sed pid term ls ++ [10] ++ b) = written pid ls ++ x ++ lines b).
Proof.
  intros AP. enough (G : Forall a_line ls -> exists x, (x = [] \/ x = [[]]) /\ forall b, lines (sed pid term ls ++ [10] ++ b) = written pid ls ++ x ++ lines b).
  { intros F. destruct (G F) as (x & X & E). exists x. split; [|auto]. specialize (E []). rewrite app_nil_r in E. cbn [lines] in E. rewrite app_nil_r in E. exact E. }
  induction ls as [|l ls IH]; intros F; [exists [[]]; split; [auto|reflexivity]|]. inversion F as [|? ? A F']; subst. destruct (IH F') as (x & X & E).
  destruct ls as [|l' ls].
  - cbn [sed written flat_map]. destruct (convert pid l) as [t|] eqn:C.
    + destruct (convert_line pid l t AP A C) as [AT NE]. destruct term.
      * exists [[]]. split; [auto|]. intros b. rewrite <- app_assoc. cbn [app]. rewrite lines_terminated by exact AT. reflexivity.
      * exists []. split; [auto|]. intros b. rewrite app_nil_r. cbn [app]. rewrite lines_terminated by exact AT. reflexivity.
    + exists [[]]. split; [auto|]. reflexivity.
  - exists x. split; [exact X|]. intros b. change (sed pid term (l :: l' :: ls)) with ((match convert pid l with Some t => t ++ [10] | None => [] end) ++ sed pid term (l' :: ls)).
    cbn [written flat_map]. fold (written pid (l' :: ls)). change ((match convert pid l' with Some t => [t] | None => [] end) ++ flat_map (fun l => match convert pid l with Some t => [t] | None => [] end) ls) with (written pid (l' :: ls)).
    destruct (convert pid l) as [t|] eqn:C; [|apply E]. destruct (convert_line pid l t AP A C) as [AT _].
    rewrite <- !app_assoc. cbn [app]. rewrite lines_terminated by exact AT. change (10 :: b) with ([10] ++ b). rewrite E. reflexivity.
Qed.

(** ** Sorting *)
Section G.
Context {A : Type} (key : A -> N).
Fixpoint gins (x : A) (l : list A) : list A := match l with [] => [x] | y :: r => if key x <=? key y then x :: l else y :: gins x r end.
Definition gsort (l : list A) : list A := fold_right gins [] l.
Notation srt := (StronglySorted (fun x y => key x <= key y)).
Lemma gins_perm x l : Permutation (x :: l) (gins x l).
Proof. induction l as [|y l IH]; [reflexivity|]. cbn [gins]. destruct (key x <=? key y); [reflexivity|]. rewrite perm_swap. constructor. exact IH. Qed.
Lemma gsort_perm l : Permutation l (gsort l).
Proof. induction l as [|y l IH]; [reflexivity|]. cbn [gsort fold_right]. rewrite <- gins_perm. constructor. exact IH. Qed.
Lemma gins_sorted x l : srt l -> srt (gins x l).
Proof.
  induction l as [|y l IH]; intros H; [constructor; constructor|]. inversion H as [|? ? H1 H2]; subst. cbn [gins]. destruct (N.leb_spec (key x) (key y)) as [L|L].
  - constructor; [exact H|]. constructor; [exact L|]. eapply Forall_impl; [|exact H2]. cbn. intros; lia.
  - constructor; [auto|]. rewrite Forall_forall in *. intros z Z. apply (Permutation_in _ (Permutation_sym (gins_perm x l))) in Z. destruct Z as [<-|Z]; [lia|auto].
Qed.
Lemma gsort_sorted l : srt (gsort l).
Proof. induction l; [constructor|]. apply gins_sorted. assumption. Qed.
Lemma gins_filter p x l : srt l -> filter p (gins x l) = if p x then gins x (filter p l) else filter p l.
Proof.
  induction l as [|y l IH]; intros H; [cbn; destruct (p x); reflexivity|]. inversion H as [|? ? H1 H2]; subst. cbn [gins]. destruct (N.leb_spec (key x) (key y)) as [L|L].
  - cbn [filter]. destruct (p x); [|reflexivity].
    assert (Q : forall z, In z (filter p (y :: l)) -> key x <= key z).
    { intros z Z. apply filter_In in Z. destruct Z as [[<-|Z] _]; [exact L|]. rewrite Forall_forall in H2. specialize (H2 z Z). cbn in H2. lia. }
    cbn [filter] in Q. destruct (if p y then _ else _) as [|z r]; [reflexivity|]. cbn [gins]. destruct (N.leb_spec (key x) (key z)) as [_|G]; [reflexivity|]. specialize (Q z (or_introl eq_refl)). lia.
  - cbn [filter]. rewrite IH by assumption. destruct (p y), (p x); try reflexivity. cbn [gins]. destruct (N.leb_spec (key x) (key y)); [lia|reflexivity].
Qed.
Lemma gsort_filter p l : filter p (gsort l) = gsort (filter p l).
Proof.
  induction l as [|x l IH]; [reflexivity|]. cbn [gsort fold_right filter]. fold (gsort l). rewrite gins_filter by apply gsort_sorted. rewrite IH. destruct (p x); reflexivity.
Qed.
Lemma gsort_equal t l : (forall x, In x l -> key x = t) -> gsort l = l.
Proof.
  induction l as [|x l IH]; intros H; [reflexivity|]. cbn [gsort fold_right]. fold (gsort l). rewrite IH by (intros; apply H; right; assumption).
  destruct l as [|y l]; [reflexivity|]. cbn [gins]. rewrite (H x), (H y) by (cbn; auto). rewrite N.leb_refl. reflexivity.
Qed.
Lemma gsort_stable t l : filter (fun x => key x =? t) (gsort l) = filter (fun x => key x =? t) l.
Proof. rewrite gsort_filter. apply (gsort_equal t). intros x X. apply filter_In in X. destruct X as [_ X]. apply N.eqb_eq in X. exact X. Qed.
End G.
Lemma gins_F2 {A B} (ka : A -> N) (kb : B -> N) (R : A -> B -> Prop) : (forall a b a' b', R a b -> R a' b' -> (ka a <= ka a' <-> kb b <= kb b')) ->
  forall a b l m, R a b -> Forall2 R l m -> Forall2 R (gins ka a l) (gins kb b m).
Proof.
  intros H a b l m Q F. induction F as [|x y l m X F IH]; [constructor; auto|]. cbn [gins]. specialize (H a b x y Q X).
  destruct (N.leb_spec (ka a) (ka x)), (N.leb_spec (kb b) (kb y)); try lia; repeat constructor; auto.
Qed.
Lemma gsort_F2 {A B} (ka : A -> N) (kb : B -> N) (R : A -> B -> Prop) : (forall a b a' b', R a b -> R a' b' -> (ka a <= ka a' <-> kb b <= kb b')) ->
  forall l m, Forall2 R l m -> Forall2 R (gsort ka l) (gsort kb m).
Proof. intros H l m F. induction F as [|x y l m X F IH]; [constructor|]. cbn [gsort fold_right]. apply gins_F2; assumption. Qed.
Lemma sort_gsort l : sort l = gsort sort_key l.
Proof.
  induction l as [|x l IH]; [reflexivity|]. cbn [sort gsort fold_right]. change (fold_right ins [] l) with (sort l). change (fold_right (gins sort_key) [] l) with (gsort sort_key l). rewrite IH. generalize (gsort sort_key l).
  intros m. induction m as [|y m IM]; [reflexivity|]. cbn [ins gins]. rewrite IM. reflexivity.
Qed.
Lemma gsort_by_time e : by_time e (gsort fst e).
Proof. split; [apply gsort_perm|]. split; [apply gsort_sorted|]. intros t. apply gsort_stable. Qed.

(** ** The whole *)
Lemma pid_nonempty n : 0 < n -> pr_num 10 n <> [].
Proof. intros P E. pose proof (number_num n) as Q. rewrite E in Q. cbn in Q. lia. Qed.
(** a line on its way through sort *)
Definition sent (c : clock) (prec : nat) (r : list N) (e : N * list N) : Prop :=
  exists pid l d, stamped c prec l (fst e) /\ stamp l = Some d /\ r = d ++ bs " " ++ snd e /\ snd e = pid ++ bs " " ++ l /\ pid <> [].
Lemma sent_written c prec pid ls es : pid <> [] -> taken c prec pid ls es -> Forall2 (sent c prec) (written pid ls) es.
Proof.
  intros NE H. induction H as [|l t ls es ST H IH|l ls es O H IH]; [constructor| |].
  - destruct (stamped_key _ _ _ _ ST) as (d & k & D & _). cbn [written flat_map]. unfold convert at 1. rewrite D. cbn [app]. constructor; [|exact IH].
    exists pid, l, d. cbn [fst snd]. change (bs " ") with [32]. split; [exact ST|]. split; [exact D|]. split; [reflexivity|]. split; [reflexivity|exact NE].
  - cbn [written flat_map]. unfold convert at 1. rewrite (other_none l O). exact IH.
Qed.
Lemma sent_key c prec r e : sent c prec r e -> exists l d, stamped c prec l (fst e) /\ stamp l = Some d /\ digits r = (d, bs " " ++ snd e) /\ d <> [].
Proof.
  intros (pid & l & d & ST & D & -> & _). exists l, d. split; [exact ST|]. split; [exact D|]. destruct (stamped_key _ _ _ _ ST) as (d' & k & D' & F & NE & _).
  assert (d' = d) by congruence. subst d'. split; [|exact NE]. apply digits_app; [exact F|reflexivity].
Qed.
Lemma sent_order c prec : forall a b a' b', sent c prec a b -> sent c prec a' b' -> (sort_key a <= sort_key a' <-> fst b <= fst b').
Proof.
  intros a b a' b' H H'. destruct (sent_key _ _ _ _ H) as (l & d & S1 & D & E & _). destruct (sent_key _ _ _ _ H') as (l' & d' & S1' & D' & E' & _).
  unfold sort_key. rewrite E, E'. cbn [fst]. eapply key_order; eassumption.
Qed.
Lemma sent_strip c prec rs es : Forall2 (sent c prec) rs es -> flat_map strip rs = map snd es.
Proof.
  intros F. induction F as [|r e rs es X F IH]; [reflexivity|]. cbn [flat_map map]. rewrite IH. destruct (sent_key _ _ _ _ X) as (l & d & _ & _ & E & NE).
  unfold strip. rewrite E. destruct d; [congruence|]. reflexivity.
Qed.
Definition ne (t : list N) : bool := match t with [] => false | _ => true end.
Lemma strip_ne l : flat_map strip l = flat_map strip (filter ne l).
Proof. induction l as [|[|x y] l IH]; [reflexivity|exact IH|]. cbn [flat_map filter ne]. rewrite IH. reflexivity. Qed.
Lemma sent_ne c prec rs es : Forall2 (sent c prec) rs es -> filter ne rs = rs.
Proof.
  intros F. induction F as [|r e rs es X F IH]; [reflexivity|]. cbn [filter]. rewrite IH. destruct (sent_key _ _ _ _ X) as (l & d & _ & _ & E & NE).
  destruct r; [cbn in E; congruence|reflexivity].
Qed.
Lemma snd_ne c prec rs es : Forall2 (sent c prec) rs es -> filter ne (map snd es) = map snd es.
Proof.
  intros F. induction F as [|r e rs es X F IH]; [reflexivity|]. cbn [map filter]. rewrite IH. destruct X as (pid & l & d & _ & _ & _ & E & NE). rewrite E. destruct pid; [congruence|reflexivity].
Qed.
Lemma stream c prec w fs es : Forall (fun f => a_pid (fst f)) fs -> taken_all c prec w fs es -> exists ss, lines (concat (map (process_logfile w) fs)) = ss /\ Forall2 (sent c prec) (filter ne ss) es.
Proof.
  intros P H. induction H as [|s b ls es fs es' T K H IH]; [exists []; split; [reflexivity|constructor]|]. inversion P as [|? ? P1 P2]; subst. destruct (IH P2) as (ss & E & F).
  cbn [map concat]. unfold process_logfile at 1. cbn [fst snd]. rewrite (lines_text ls b T). destruct P1 as (n & PN & P1). cbn [fst] in P1.
  assert (AP : a_line (column w s)).
  { unfold a_line, column. intros I. apply in_app_or in I. destruct I as [I|I].
    - subst s. pose proof (pr_num_dig n) as D. rewrite Forall_forall in D. apply D in I. apply dig_is in I. discriminate.
    - apply repeat_spec in I. discriminate. }
  assert (NP : column w s <> []) by (unfold column; pose proof (pid_nonempty n PN) as NN; rewrite <- P1 in NN; destruct s; [congruence|discriminate]).
  destruct (sed_lines (column w s) (terminated b) ls AP (proj1 T)) as (x & _ & X & EL).
  exists (written (column w s) ls ++ x ++ ss). split; [rewrite <- app_assoc; rewrite <- E; apply EL|].
  rewrite !filter_app. pose proof (sent_written c prec (column w s) ls es NP K) as SW. rewrite (sent_ne _ _ _ _ SW).
  replace (filter ne x) with (@nil (list N)) by (destruct X; subst x; reflexivity). apply Forall2_app; assumption.
Qed.
Lemma logs_pids files fs : logs files fs -> Forall (fun f => a_pid (fst f)) fs.
Proof. induction 1; auto. Qed.
Lemma pid_chosen s b : a_pid s -> chosen (s, b) = true.
Proof.
  intros (n & P & ->). unfold chosen. cbn [fst]. rewrite number_num. pose proof (pid_nonempty n P) as NE. pose proof (pr_num_dig n) as D. destruct (N.ltb_spec 0 n); [|lia].
  rewrite (proj2 (forallb_forall is_digit (pr_num 10 n))); [destruct (pr_num 10 n); [congruence|reflexivity]|]. intros x I. rewrite Forall_forall in D. apply dig_is. auto.
Qed.
Lemma logs_chosen files fs : logs files fs -> filter chosen files = fs.
Proof.
  induction 1 as [|s b fs ls P H IH|s b fs ls Q H IH]; [reflexivity| |]; cbn [filter].
  - rewrite (pid_chosen s b P), IH. reflexivity.
  - replace (chosen (s, b)) with false; [exact IH|]. unfold chosen. cbn [fst]. symmetry. destruct Q as [->|(c & I & NC)]; [reflexivity|].
    destruct (forallb is_digit s) eqn:F; [|rewrite andb_false_r; reflexivity]. rewrite forallb_forall in F. apply F in I. apply dig_is in I. unfold dig in I. lia.
Qed.
Lemma max_widest l : max_suffix_length l = widest l.
Proof.
  unfold max_suffix_length, widest. enough (G : forall m, fold_left (fun m f => if (m <? length (fst f))%nat then length (fst f) else m) l m = Nat.max m (list_max (map (fun f => length (fst f)) l))) by (rewrite G; reflexivity).
  induction l as [|f l IH]; intros m; [cbn; lia|]. cbn [fold_left map]. rewrite IH.
  destruct (Nat.ltb_spec m (length (fst f))); cbn [list_max fold_right]; fold (list_max (map (fun f => length (fst f)) l)); lia.
Qed.

(** ** The theorems *)
Theorem C82_merge : forall files fs c prec e, logs files fs -> fs <> [] -> taken_all c prec (widest fs) fs e ->
  exists e', by_time e e' /\ merge files = Some (concat (map (fun x => snd x ++ [10]) e')).
Proof.
  intros files fs c prec e L NE T. exists (gsort fst e). split; [apply gsort_by_time|]. unfold merge. rewrite (logs_chosen _ _ L), max_widest.
  pose proof (logs_pids _ _ L) as P. assert (W : (0 < widest fs)%nat).
  { destruct fs as [|[s b] fs]; [congruence|]. inversion P as [|? ? (n & PN & P1) _]; subst. cbn [fst] in P1. subst s. unfold widest. cbn [map fst list_max fold_right]. pose proof (pid_nonempty n PN). destruct (pr_num 10 n); [congruence|]. cbn [length]. lia. }
  destruct (Nat.ltb_spec 0 (widest fs)); [|lia]. f_equal. destruct (stream c prec (widest fs) fs e P T) as (ss & E & F). rewrite E.
  rewrite strip_ne, sort_gsort, gsort_filter. pose proof (gsort_F2 sort_key fst (sent c prec) (sent_order c prec) _ _ F) as F'.
  rewrite (sent_strip _ _ _ _ F'). change (fun t : list N => match t with [] => false | _ => true end) with ne. rewrite (snd_ne _ _ _ _ F'). unfold unlines. rewrite map_map. reflexivity.
Qed.
Theorem C82_none : forall files, logs files [] -> merge files = None.
Proof. intros files L. unfold merge. rewrite (logs_chosen _ _ L). reflexivity. Qed.

Lemma part_nil {A} (l : list A) : part [] l.
Proof. induction l; constructor; assumption. Qed.
Lemma part_filter {A} p (q l : list A) : part q l -> part (filter p q) (filter p l).
Proof. induction 1; cbn [filter]; [constructor| |]; destruct (p x); try constructor; assumption. Qed.
Notation at_time t := (filter (fun x : N * list N => fst x =? t)).
Lemma at_below (l : list (N * list N)) t : (forall x, In x l -> t < fst x) -> at_time t l = [].
Proof.
  induction l as [|x l IH]; intros H; [reflexivity|]. cbn [filter]. destruct (N.eqb_spec (fst x) t) as [E|_]; [specialize (H x (or_introl eq_refl)); lia|]. apply IH. intros y Y. apply H. right. exact Y.
Qed.
Lemma merge_parts (l : list (N * list N)) : StronglySorted (fun x y => fst x <= fst y) l -> forall q, StronglySorted (fun x y => fst x <= fst y) q -> (forall t, part (at_time t q) (at_time t l)) -> part q l.
Proof.
  induction l as [|y l IH]; intros SL q SQ H.
  - destruct q as [|x q]; [constructor|]. specialize (H (fst x)). cbn [filter] in H. rewrite N.eqb_refl in H. inversion H.
  - destruct q as [|x q]; [apply part_nil|]. inversion SL as [|? ? SL1 SL2]; subst. inversion SQ as [|? ? SQ1 SQ2]; subst. rewrite Forall_forall in SL2, SQ2.
    destruct (N.lt_trichotomy (fst x) (fst y)) as [L|[L|L]].
    + exfalso. specialize (H (fst x)). rewrite (at_below (y :: l)) in H; [|intros z [<-|Z]; [exact L|specialize (SL2 z Z); lia]]. cbn [filter] in H. rewrite N.eqb_refl in H. inversion H.
    + pose proof (H (fst y)) as HY. cbn [filter] in HY. rewrite L, N.eqb_refl in HY. inversion HY as [|? ? ? HK|? ? ? HD]; subst.
      * constructor. apply IH; [assumption..|]. intros t. specialize (H t). cbn [filter] in H. destruct (N.eqb_spec (fst y) t) as [Q|]; [rewrite <- Q; assumption|assumption].
      * constructor. apply IH; [assumption..|]. intros t. specialize (H t). cbn [filter] in H |- *. rewrite L in *. destruct (N.eqb_spec (fst y) t) as [Q|]; [rewrite <- Q; assumption|assumption].
    + constructor. apply IH; [assumption..|]. intros t. pose proof (H t) as HT. destruct (N.eqb_spec (fst y) t) as [<-|NE].
      * rewrite at_below; [apply part_nil|]. intros z [<-|Z]; [exact L|specialize (SQ2 z Z); lia].
      * cbn [filter] in HT |- *. destruct (N.eqb_spec (fst y) t); [congruence|]. exact HT.
Qed.
Theorem C82_kept : forall e e' q, by_time e e' -> part q e -> StronglySorted (fun x y => fst x <= fst y) q -> part q e'.
Proof.
  intros e e' q (_ & ST & F) P SQ. apply merge_parts; [exact ST|exact SQ|]. intros t. rewrite F. apply part_filter. exact P.
Qed.
Lemma taken_all_app c prec w f1 e1 f2 e2 : taken_all c prec w f1 e1 -> taken_all c prec w f2 e2 -> taken_all c prec w (f1 ++ f2) (e1 ++ e2).
Proof. intros H1 H2. induction H1; [exact H2|]. cbn [app]. rewrite <- app_assoc. econstructor; eassumption. Qed.
Lemma part_app {A} (a q b : list A) : part q (a ++ q ++ b).
Proof.
  assert (R : part q (q ++ b)) by (induction q; [apply part_nil|constructor; assumption]). induction a; [exact R|]. constructor. assumption.
Qed.
Theorem C82_log_order : forall files f1 s b f2 c prec ls e1 es e2, let fs := f1 ++ (s, b) :: f2 in logs files fs ->
  taken_all c prec (widest fs) f1 e1 -> is_text ls b -> taken c prec (column (widest fs) s) ls es -> taken_all c prec (widest fs) f2 e2 ->
  StronglySorted (fun x y => fst x <= fst y) es ->
  exists e', part es e' /\ Permutation (e1 ++ es ++ e2) e' /\ StronglySorted (fun x y => fst x <= fst y) e' /\ merge files = Some (concat (map (fun x => snd x ++ [10]) e')).
Proof.
  intros files f1 s b f2 c prec ls e1 es e2 fs L T1 X T T2 ST.
  assert (TA : taken_all c prec (widest fs) fs (e1 ++ es ++ e2)) by (apply taken_all_app; [exact T1|]; econstructor; eassumption).
  destruct (C82_merge files fs c prec _ L ltac:(unfold fs; destruct f1; discriminate) TA) as (e' & B & M). exists e'.
  split; [apply (C82_kept _ _ _ B (part_app e1 es e2) ST)|]. destruct B as (P & Q & _). auto.
Qed.

(** *** Cases *)
Definition l1 : list N := bs "09:00:01.000002 read(3) = 1". Definition l2 : list N := bs "09:00:03.000000 close(3) = 0". Definition l3 : list N := bs "09:00:02.500000 fork() = 100".
Definition l4 : list N := bs " > /lib/libc.so(read+0x1) [0x2]".
Definition exf : list (list N * list N) := [(bs "7", l1 ++ [10] ++ l4 ++ [10] ++ l2 ++ [10]); (bs "100", l3); (bs "txt", l1)].
Definition exe : list (N * list N) := [(32401000002, bs "7   " ++ l1); (32403000000, bs "7   " ++ l2)] ++ [(32402500000, bs "100 " ++ l3)].
Lemma st1 : stamped Day 6 l1 32401000002. Proof. exists 2, (bs "read(3) = 1"). split; [reflexivity|]. exists 9, 0, 1. repeat split. Qed.
Lemma st2 : stamped Day 6 l2 32403000000. Proof. exists 0, (bs "close(3) = 0"). split; [reflexivity|]. exists 9, 0, 3. repeat split. Qed.
Lemma st3 : stamped Day 6 l3 32402500000. Proof. exists 500000, (bs "fork() = 100"). split; [reflexivity|]. exists 9, 0, 2. repeat split. Qed.
Lemma line_dec l : existsb (fun c => c =? 10) l = false -> a_line l.
Proof. intros E I. enough (T : existsb (fun c => c =? 10) l = true) by congruence. apply existsb_exists. exists 10. split; [exact I|reflexivity]. Qed.
Lemma exl : logs exf (firstn 2 exf).
Proof.
  apply l_pid; [exists 7; split; [lia|reflexivity]|]. apply l_pid; [exists 100; split; [lia|reflexivity]|]. apply l_not; [|constructor]. right. exists 116. split; [left; reflexivity|lia].
Qed.
Lemma ext : taken_all Day 6 3 (firstn 2 exf) exe.
Proof.
  unfold exe. apply (a_log Day 6 3 (bs "7") _ [l1; l4; l2] [(32401000002, bs "7   " ++ l1); (32403000000, bs "7   " ++ l2)] [(bs "100", l3)] [(32402500000, bs "100 " ++ l3)]).
  - split; [repeat constructor; apply line_dec; reflexivity|]. left. reflexivity.
  - apply (t_stamp Day 6 (column 3 (bs "7")) l1 _ _ _ st1). apply t_other; [right; eexists; reflexivity|]. apply (t_stamp Day 6 (column 3 (bs "7")) l2 _ _ _ st2). constructor.
  - apply (a_log Day 6 3 (bs "100") l3 [l3] [(32402500000, bs "100 " ++ l3)] [] []); [|apply (t_stamp Day 6 (column 3 (bs "100")) l3 _ _ _ st3); constructor|constructor].
    split; [repeat constructor; apply line_dec; reflexivity|]. right. exists [], l3. repeat split. discriminate.
Qed.
Example merge_met : logs exf (firstn 2 exf) /\ taken_all Day 6 (widest (firstn 2 exf)) (firstn 2 exf) exe /\
  merge exf = Some (bs "7   " ++ l1 ++ [10] ++ bs "100 " ++ l3 ++ [10] ++ bs "7   " ++ l2 ++ [10]).
Proof. split; [exact exl|]. split; [exact ext|]. vm_compute. reflexivity. Qed.
Example epoch_met : stamped Epoch 6 (bs "1700000000.000123 getpid() = 7") 1700000000000123.
Proof. exists 123, (bs "getpid() = 7"). split; [reflexivity|]. exists 1700000000. split; reflexivity. Qed.
(** "Every line of the logs is in the output" is false: lines that begin with a space (stacks with -k, dumps with -e write) are dropped. *)
Theorem C82_stack_refuted : ~ (forall files fs c prec e s b ls l out, logs files fs -> taken_all c prec (widest fs) fs e -> In (s, b) fs -> is_text ls b -> In l ls -> l <> [] ->
  merge files = Some out -> exists x z, out = x ++ column (widest fs) s ++ bs " " ++ l ++ [10] ++ z).
Proof.
  intros H. destruct (H exf (firstn 2 exf) Day 6%nat exe (bs "7") (l1 ++ [10] ++ l4 ++ [10] ++ l2 ++ [10]) [l1; l4; l2] l4 (bs "7   " ++ l1 ++ [10] ++ bs "100 " ++ l3 ++ [10] ++ bs "7   " ++ l2 ++ [10]) exl ext) as (x & z & E).
  - left. reflexivity.
  - split; [repeat constructor; apply line_dec; reflexivity|]. left. reflexivity.
  - right. left. reflexivity.
  - discriminate.
  - exact (proj2 (proj2 merge_met)).
  - assert (I : In 62 (bs "7   " ++ l1 ++ [10] ++ bs "100 " ++ l3 ++ [10] ++ bs "7   " ++ l2 ++ [10])).
    { rewrite E. apply in_or_app. right. apply in_or_app. right. apply in_or_app. right. apply in_or_app. left. right. left. reflexivity. }
    assert (F : existsb (fun c => c =? 62) (bs "7   " ++ l1 ++ [10] ++ bs "100 " ++ l3 ++ [10] ++ bs "7   " ++ l2 ++ [10]) = true) by (apply existsb_exists; exists 62; split; [exact I|reflexivity]).
    vm_compute in F. discriminate F.
Qed.
(** "The lines of one log stay in order" is false of -tt logs that run over midnight. *)
Definition m1 : list N := bs "23:59:59.900000 read(3) = 1". Definition m2 : list N := bs "00:00:00.100000 close(3) = 0".
Theorem C82_midnight_refuted : ~ (forall s b ls c prec e out, a_pid s -> is_text ls b -> taken c prec s ls e -> Forall (fun l => ~ other l) ls ->
  merge [(s, b)] = Some out -> out = concat (map (fun x => snd x ++ [10]) e)).
Proof.
  intros H. assert (E := H (bs "7") (m1 ++ [10] ++ m2 ++ [10]) [m1; m2] Day 6%nat [(86399900000, bs "7 " ++ m1); (100000, bs "7 " ++ m2)] (bs "7 " ++ m2 ++ [10] ++ bs "7 " ++ m1 ++ [10])).
  enough (X : bs "7 " ++ m2 ++ [10] ++ bs "7 " ++ m1 ++ [10] = concat (map (fun x => snd x ++ [10]) [(86399900000, bs "7 " ++ m1); (100000, bs "7 " ++ m2)])) by (vm_compute in X; discriminate X).
  apply E; clear.
  - exists 7. split; [lia|reflexivity].
  - split; [repeat constructor; apply line_dec; reflexivity|]. left. reflexivity.
  - apply (t_stamp Day 6 (bs "7") m1); [|apply (t_stamp Day 6 (bs "7") m2); [|constructor]].
    + exists 900000, (bs "read(3) = 1"). split; [reflexivity|]. exists 23, 59, 59. repeat split.
    + exists 100000, (bs "close(3) = 0"). split; [reflexivity|]. exists 0, 0, 0. repeat split.
  - repeat constructor; intros [Q|(r & Q)]; discriminate Q.
  - vm_compute. reflexivity.
Qed.
Print Assumptions C82_merge.
Print Assumptions C82_none.
Print Assumptions C82_kept.
Print Assumptions C82_log_order.
Print Assumptions C82_stack_refuted.
Print Assumptions C82_midnight_refuted.
