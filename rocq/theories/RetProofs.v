From Coq Require Import String.
From Verif Require Import Base QuoteSpec Printf QuoteModel XlatModel XlatText TimeModel TimeSpec TimeProofs RetModel RetSpec.
Import List.
Local Open Scope N_scope.

(** * Words *)
Lemma word_app w k : ~ In 32 w -> (k = [] \/ exists r, k = 32 :: r) -> word (w ++ k) = (w, k).
Proof.
  intros H K. induction w as [|c w IH]; cbn [app].
  - destruct K as [->|(r & ->)]; reflexivity.
  - cbn [word]. destruct (c =? 32) eqn:E; [exfalso; apply H; left; lia|]. rewrite IH; [reflexivity|]. intros I. apply H. right. exact I.
Qed.
Lemma upto_app w k : ~ In 41 w -> upto_close (w ++ 41 :: k) = Some (w, k).
Proof.
  intros H. induction w as [|c w IH]; cbn [app upto_close]; [reflexivity|].
  destruct (c =? 41) eqn:E; [exfalso; apply H; left; lia|]. rewrite IH; [reflexivity|]. intros I. apply H. right. exact I.
Qed.
Definition strings (l : list (list N)) : list N := concat (map sysret_string l).
Definition ends (k : list N) : Prop := k = [] \/ exists r, k = 32 :: 60 :: r.
Lemma sysret_string_eq s k : sysret_string s ++ k = 32 :: 40 :: (s ++ 41 :: k).
Proof. unfold sysret_string, sysret_next. change (bs " ") with [32]. change (bs "(") with [40]. change (bs ")") with [41]. cbn [app]. rewrite <- app_assoc. reflexivity. Qed.
Lemma groups_strings l k fuel : Forall quiet l -> ends k -> (List.length l <= fuel)%nat -> groups fuel (strings l ++ k) = Some (l, k).
Proof.
  intros F K. revert fuel. induction F as [|s l Hs Hl IH]; intros fuel L; cbn [strings map concat].
  - cbn [app]. destruct K as [->|(r & ->)]; destruct fuel; reflexivity.
  - destruct fuel as [|fuel]; [cbn in L; lia|]. rewrite <- app_assoc, sysret_string_eq. cbn [groups]. rewrite upto_app by exact Hs.
    fold (strings l). rewrite IH; [reflexivity|]. cbn in L. lia.
Qed.
Lemma strings_length l : (List.length l <= List.length (strings l))%nat.
Proof. induction l as [|s l IH]; [reflexivity|]. change (strings (s :: l)) with (sysret_string s ++ strings l). rewrite sysret_string_eq. cbn. rewrite app_length. cbn. lia. Qed.
Lemma strings_head l k : ends k -> strings l ++ k = [] \/ exists c r, strings l ++ k = 32 :: c :: r /\ (c = 40 \/ c = 60).
Proof.
  intros K. destruct l as [|s l].
  - destruct K as [->|(r & ->)]; [left; reflexivity|]. right. exists 60, r. auto.
  - right. change (strings (s :: l)) with (sysret_string s ++ strings l). rewrite <- app_assoc, sysret_string_eq. eexists; eexists. split; [reflexivity|]. auto.
Qed.

(** * Reading the whole result *)
Definition vtext (v : option Z) (t : list N) : Prop := ~ In 32 t /\ (if beqs t (bs "?") then Some None else option_map Some (c_number t)) = Some v.
Lemma read_plain v t l k tm : vtext v t -> Forall quiet l -> ends k -> read_time k = Some tm ->
  read_result (bs "=" ++ sysret_next ++ t ++ strings l ++ k) = Some {| value := v; error := None; texts := l; time := tm |}.
Proof.
  intros (H32 & Hv) F K T. unfold sysret_next. change (bs "=") with [61]. change (bs " ") with [32]. cbn [app]. unfold read_result.
  rewrite word_app; [|exact H32|].
  2:{ destruct (strings_head l k K) as [->|(c & r & -> & _)]; eauto. }
  rewrite Hv. cbn [obind].
  assert (E : groups (List.length (strings l ++ k)) (strings l ++ k) = Some (l, k)).
  { apply groups_strings; auto. rewrite app_length. pose proof (strings_length l). lia. }
  destruct (strings_head l k K) as [E0|(c & r & E0 & Hc)]; rewrite E0 in E |- *.
  - rewrite E. cbn [obind]. rewrite T. reflexivity.
  - replace ((c =? 40) || (c =? 60)) with true by lia. cbn [orb]. rewrite E. cbn [obind]. rewrite T. reflexivity.
Qed.
Lemma read_named v t e c0 e0 l k tm : vtext v t -> e = c0 :: e0 -> c0 <> 40 -> c0 <> 60 -> ~ In 32 e ->
  Forall quiet l -> ends k -> read_time k = Some tm ->
  read_result (bs "=" ++ sysret_next ++ t ++ sysret_next ++ e ++ strings l ++ k) = Some {| value := v; error := Some e; texts := l; time := tm |}.
Proof.
  intros (H32 & Hv) He N1 N2 He32 F K T. unfold sysret_next. change (bs "=") with [61]. change (bs " ") with [32]. cbn [app]. unfold read_result.
  rewrite word_app; [|exact H32|eauto]. rewrite Hv. cbn [obind]. rewrite He at 1. cbn [app].
  replace ((c0 =? 40) || (c0 =? 60)) with false by lia. cbn [tl].
  replace (c0 :: e0 ++ strings l ++ k) with (e ++ strings l ++ k) by (rewrite He; reflexivity).
  rewrite word_app; [|exact He32|].
  2:{ destruct (strings_head l k K) as [->|(c & r & -> & _)]; eauto. }
  rewrite groups_strings; auto. 2:{ rewrite app_length. pose proof (strings_length l). lia. }
  cbn [obind]. rewrite T. reflexivity.
Qed.

(** * Numbers *)
Ltac noin := let H := fresh in intros H; cbn in H; repeat (destruct H as [H|H]; [discriminate H|]); exact H.
Lemma digits_lead base fuel n : 2 <= base <= 16 -> 0 < n -> n < 2 ^ N.of_nat fuel ->
  exists d r, digits_from base fuel n [] = hex_char d :: r /\ 0 < d < base.
Proof.
  intros Hb. revert n. induction fuel as [|f IH]; intros n Hn Hf; [cbn in Hf; lia|].
  cbn [digits_from]. cbv zeta. rewrite Nat2N.inj_succ, N.pow_succ_r' in Hf.
  destruct (n / base =? 0) eqn:E.
  - apply N.eqb_eq in E. apply N.div_small_iff in E; [|lia]. exists n, []. rewrite N.mod_small by lia. split; [reflexivity|lia].
  - rewrite digits_from_acc. destruct (IH (n / base)) as (d & r & -> & Hd); [apply N.eqb_neq in E; apply N.neq_0_lt_0; exact E| |].
    + apply N.div_lt_upper_bound; [lia|]. nia.
    + eexists; eexists. split; [reflexivity|exact Hd].
Qed.
Lemma pr_num_lead base n : 2 <= base <= 10 -> 0 < n -> exists c r, pr_num base n = c :: r /\ 49 <= c <= 57.
Proof.
  intros Hb Hn. destruct (digits_lead base (S (N.size_nat n)) n) as (d & r & E & Hd); [lia|exact Hn| |].
  - rewrite Nat2N.inj_succ, N.pow_succ_r'. pose proof (size_nat_bound n). lia.
  - exists (hex_char d), r. split; [exact E|]. unfold hex_char. destruct (d <? 10) eqn:Ed; lia.
Qed.
Lemma c_number_dec c r : c <> 45 -> c <> 48 -> c_number (c :: r) = option_map Z.of_N (rd_num 10 0 (c :: r)).
Proof.
  intros H1 H2. destruct c as [|p]; [reflexivity|].
  do 7 (destruct p as [p|p|]; try reflexivity; try congruence).
Qed.
Lemma c_number_oct c r : c <> 120 -> c_number (48 :: c :: r) = option_map Z.of_N (rd_num 8 0 (c :: r)).
Proof.
  intros H1. destruct c as [|p]; [reflexivity|].
  do 8 (destruct p as [p|p|]; try reflexivity; try congruence).
Qed.
Lemma beqs_q c r : c <> 63 -> beqs (c :: r) (bs "?") = false.
Proof. intros H. change (bs "?") with [63]. cbn. destruct (c =? 63) eqn:E; [lia|reflexivity]. Qed.
Lemma vtext_q : vtext None (bs "?").
Proof. split; [noin|reflexivity]. Qed.
Lemma vtext_num t c r z : t = c :: r -> c <> 63 -> ~ In 32 t -> c_number t = Some z -> vtext (Some z) t.
Proof. intros -> H1 H2 H3. split; [exact H2|]. rewrite beqs_q by exact H1. rewrite H3. reflexivity. Qed.
Lemma pr_num_no32 base n : 2 <= base <= 16 -> ~ In 32 (pr_num base n).
Proof. intros H. apply pr_num_not_in; [exact H|lia]. Qed.
Lemma vtext_u n : vtext (Some (Z.of_N n)) (pr_num 10 n).
Proof.
  destruct (N.eq_dec n 0) as [->|Hn]; [split; [noin|reflexivity]|].
  destruct (pr_num_lead 10 n ltac:(lia) ltac:(lia)) as (c & r & E & Hc).
  eapply vtext_num; [exact E|lia|apply pr_num_no32; lia|]. rewrite E, c_number_dec, <- E, pr_num_rd by lia. reflexivity.
Qed.
Lemma vtext_z z : vtext (Some z) (pr_z z).
Proof.
  unfold pr_z. destruct (z <? 0)%Z eqn:E.
  - change (bs "-" ++ pr_num 10 (Z.to_N (- z))) with (45 :: pr_num 10 (Z.to_N (- z))).
    eapply vtext_num; [reflexivity|lia| |].
    + intros [H|H]; [discriminate H|]. revert H. apply pr_num_no32. lia.
    + cbn [c_number].
      rewrite pr_num_rd by lia. cbn [option_map]. f_equal. lia.
  - pose proof (vtext_u (Z.to_N z)) as V. rewrite Z2N.id in V by lia. exact V.
Qed.
Lemma vtext_x n : vtext (Some (Z.of_N n)) (pr_hex n).
Proof.
  unfold pr_hex. destruct (n =? 0) eqn:E; [apply N.eqb_eq in E; subst; split; [noin|reflexivity]|].
  change (bs "0x" ++ pr_num 16 n) with (48 :: 120 :: pr_num 16 n).
  eapply vtext_num; [reflexivity|lia| |].
  - intros [H|[H|H]]; [discriminate H|discriminate H|]. revert H. apply pr_num_no32. lia.
  - cbn [c_number]. rewrite pr_num_rd by lia. reflexivity.
Qed.
Lemma oct_zeros k d n : rd_num 8 0 d = Some n -> (exists c r, d = c :: r /\ 48 <= c <= 57) -> ~ In 32 d ->
  vtext (Some (Z.of_N n)) (repeat 48 k ++ 48 :: d).
Proof.
  intros R (c & r & -> & Hc) H32.
  assert (E : exists c' r', repeat 48 k ++ 48 :: c :: r = 48 :: c' :: r' /\ 48 <= c' <= 57 /\ rd_num 8 0 (c' :: r') = Some n).
  { destruct k as [|k].
    - exists c, r. auto.
    - assert (E : repeat 48 (S k) ++ 48 :: c :: r = 48 :: (repeat 48 (S k) ++ c :: r)).
      { clear. cbn [repeat app]. f_equal. induction k as [|k IH]; [reflexivity|]. cbn [repeat app]. f_equal. exact IH. }
      rewrite E. exists 48, (repeat 48 k ++ c :: r). split; [reflexivity|]. split; [lia|].
      change (48 :: repeat 48 k ++ c :: r) with (repeat 48 (S k) ++ c :: r). rewrite rd_zeros by lia. exact R. }
  assert (X : ~ In 32 (repeat 48 k ++ 48 :: c :: r)).
  { intros I. apply in_app_iff in I as [I|[I|I]]; [apply repeat_spec in I; discriminate I|discriminate I|apply H32; exact I]. }
  destruct E as (c' & r' & E & Hc' & R'). rewrite E in X |- *.
  eapply vtext_num; [reflexivity|lia|exact X|]. rewrite c_number_oct, R' by lia. reflexivity.
Qed.
Lemma vtext_o n : vtext (Some (Z.of_N n)) (print_val_03o n).
Proof.
  unfold print_val_03o. destruct (n =? 0) eqn:E.
  - apply N.eqb_eq in E. subst. split; [noin|reflexivity].
  - cbv zeta. change (bs "0" ++ pr_num 8 n) with (48 :: pr_num 8 n). apply oct_zeros; [apply pr_num_rd; lia| |apply pr_num_no32; lia].
    destruct (pr_num_head 8 n ltac:(lia)) as (c & r & E1 & H). eauto.
Qed.

(** * The time *)
Definition dig (c : N) : Prop := 48 <= c <= 57.
Lemma rd_num_dec acc c s : dig c -> rd_num 10 acc (c :: s) = rd_num 10 (10 * acc + (c - 48)) s.
Proof.
  unfold dig. intros H. cbn [rd_num]. replace (hex_val c) with (Some (c - 48)).
  - replace (c - 48 <? 10) with true by lia. reflexivity.
  - unfold hex_val. replace ((48 <=? c) && (c <=? 57)) with true by lia. reflexivity.
Qed.
Lemma decimal_step acc pl c r : dig c -> r <> [] -> decimal acc pl (c :: r) = decimal (10 * acc + (c - 48)) (option_map S pl) r.
Proof.
  unfold dig. intros H Hr. assert (E : (48 <=? c) && (c <=? 57) = true) by lia.
  destruct c as [|p]; [lia|].
  repeat (match goal with q : positive |- _ => destruct q end; try (exfalso; lia)); destruct r as [|x r]; try congruence; reflexivity.
Qed.
Lemma decimal_digits s acc pl k n : Forall dig s -> k <> [] -> rd_num 10 acc s = Some n ->
  decimal acc pl (s ++ k) = decimal n (option_map (fun p => List.length s + p)%nat pl) k.
Proof.
  intros F. revert acc pl. induction F as [|c s Hc Hs IH]; intros acc pl Hk R.
  - cbn in R. injection R as <-. cbn [app]. destruct pl; reflexivity.
  - rewrite rd_num_dec in R by exact Hc. cbn [app]. rewrite decimal_step; [|exact Hc|destruct s; [exact Hk|discriminate]].
    rewrite (IH _ _ Hk R). destruct pl as [p|]; cbn [option_map List.length]; [|reflexivity]. f_equal. f_equal. lia.
Qed.
Lemma pr_num_dig n : Forall dig (pr_num 10 n).
Proof.
  eapply Forall_impl; [|apply pr_num_digits; lia]. intros c (d & Hd & ->). unfold dig, hex_char. destruct (d <? 10) eqn:E; lia.
Qed.
Lemma pr_pad_dig w n : Forall dig (pr_pad 10 w n).
Proof. unfold pr_pad. apply Forall_app. split; [|apply pr_num_dig]. apply Forall_forall. intros x I. apply repeat_spec in I. subst. unfold dig. lia. Qed.
Lemma rd_num_acc s acc n : Forall dig s -> rd_num 10 0 s = Some n -> rd_num 10 acc s = Some (acc * 10 ^ N.of_nat (List.length s) + n).
Proof.
  intros F. assert (G : forall a m, rd_num 10 a s = Some m -> forall b, rd_num 10 (b + a) s = Some (b * 10 ^ N.of_nat (List.length s) + m)).
  { induction F as [|c s Hc Hs IH]; intros a m R b.
    - cbn in R |- *. injection R as <-. f_equal. lia.
    - rewrite rd_num_dec in R |- * by exact Hc. replace (10 * (b + a) + (c - 48)) with (10 * b + (10 * a + (c - 48))) by lia.
      rewrite (IH _ _ R (10 * b)). cbn [List.length]. rewrite Nat2N.inj_succ, N.pow_succ_r'. f_equal. nia. }
  intros R. specialize (G 0 n R acc). rewrite N.add_0_r in G. exact G.
Qed.
Lemma time_read c : (forall w, tflag c = Some w -> (w <= 9)%nat) -> normal (etime c) -> normal (xtime c) -> (ns (etime c) <= ns (xtime c))%Z ->
  ends (print_time c) /\ exists t, read_time (print_time c) = Some t /\ time_right c t.
Proof.
  intros Hw N1 N2 Hle. unfold print_time, time_right. destruct (tflag c) as [w|]; [|split; [left; reflexivity|exists None; split; [reflexivity|exact I]]].
  specialize (Hw w eq_refl).
  pose proof (ts_sub_ns (xtime c) (etime c) N2 N1) as (Hns & Hnorm). set (d := ts_sub (xtime c) (etime c)) in *. clearbody d.
  assert (Hs : (0 <= sec d)%Z) by (unfold ns, normal in *; lia).
  unfold sysret_next. change (bs " ") with [32]. change (bs "<") with [60]. change (bs ">") with [62]. change (bs ".") with [46]. cbn [app].
  split; [right; eauto|]. unfold pr_z. replace (sec d <? 0)%Z with false by lia.
  set (S0 := Z.to_N (sec d)). assert (ES : Z.of_N S0 = sec d) by (unfold S0; lia).
  cbv zeta.
  destruct w as [|w].
  - exists (Some (S0, O)). cbn [Nat.eqb app read_time].
    rewrite (decimal_digits _ 0 None [62] S0); [|apply pr_num_dig|discriminate|apply pr_num_rd; lia]. split; [reflexivity|]. split; [reflexivity|].
    unfold took. change (9 - Z.of_nat 0)%Z with 9%Z. unfold ns, normal in *. lia.
  - cbn [Nat.eqb]. set (W := S w) in *. set (P := (10 ^ (9 - Z.of_nat W))%Z).
    assert (HP : (0 < P)%Z) by (unfold P; apply Z.pow_pos_nonneg; lia).
    assert (HQ : (P * 10 ^ Z.of_nat W = 1000000000)%Z) by (unfold P; rewrite <- Z.pow_add_r by lia; replace (9 - Z.of_nat W + Z.of_nat W)%Z with 9%Z by lia; reflexivity).
    set (F0 := Z.to_N (nsec d / P)). assert (EF : Z.of_N F0 = (nsec d / P)%Z) by (unfold F0; rewrite Z2N.id; [reflexivity|apply Z.div_pos; unfold normal in *; lia]).
    assert (LF : F0 < 10 ^ N.of_nat W).
    { apply N2Z.inj_lt. rewrite EF, N2Z.inj_pow, nat_N_Z. change (Z.of_N 10) with 10%Z. apply Z.div_lt_upper_bound; [lia|]. unfold normal in Hnorm. lia. }
    exists (Some (S0 * 10 ^ N.of_nat W + F0, W)). cbn [read_time].
    rewrite (decimal_digits _ 0 None _ S0); [|apply pr_num_dig|discriminate|apply pr_num_rd; lia]. cbn [option_map].
    cbn [app]. replace (decimal S0 None (46 :: pr_pad 10 W F0 ++ [62])) with (decimal S0 (Some O) (pr_pad 10 W F0 ++ [62])).
    2:{ destruct (pr_pad 10 W F0) as [|x l]; reflexivity. }
    rewrite (decimal_digits _ S0 (Some O) _ (S0 * 10 ^ N.of_nat W + F0)); [|apply pr_pad_dig|discriminate|].
    2:{ rewrite (rd_num_acc _ _ F0); [|apply pr_pad_dig|apply pr_pad_rd; lia]. rewrite pr_pad_length by (unfold W in *; try lia; auto). reflexivity. }
    cbn [option_map]. rewrite pr_pad_length by (unfold W in *; try lia; auto). split; [cbn [decimal]; rewrite Nat.add_0_r; reflexivity|]. split; [reflexivity|].
    unfold took. fold P. rewrite N2Z.inj_add, N2Z.inj_mul, N2Z.inj_pow, nat_N_Z, ES, EF. change (Z.of_N 10) with 10%Z.
    pose proof (Z.div_mod (nsec d) P ltac:(lia)) as Hdm. pose proof (Z.mod_pos_bound (nsec d) P HP) as Hmb.
    rewrite <- Hns. unfold ns. clear -HQ Hdm Hmb. set (T := (10 ^ Z.of_nat W)%Z) in *. set (q := (nsec d / P)%Z) in *. set (m := (nsec d mod P)%Z) in *.
    replace ((sec d * T + q) * P)%Z with (sec d * (P * T) + P * q)%Z by ring.
    replace ((sec d * T + q + 1) * P)%Z with (sec d * (P * T) + P * q + P)%Z by ring. rewrite HQ. lia.
Qed.

(** * The notes *)
Lemma notes_text c : (if israw c then [] else match aux c with Some s => sysret_string s | None => [] end) ++
  print_injected_note (tampered c) (poked c) (delayed c) = strings (notes c).
Proof.
  unfold notes, print_injected_note, strings. destruct (israw c), (aux c), (tampered c), (poked c), (delayed c); cbn [andb orb app map concat]; rewrite ?app_nil_r; reflexivity.
Qed.
Lemma notes_quiet c : (forall s, aux c = Some s -> quiet s) -> Forall quiet (notes c).
Proof.
  intros H. unfold notes. apply Forall_app. split.
  - destruct (israw c); [constructor|]. destruct (aux c) as [s|]; [|constructor]. constructor; [apply H; reflexivity|constructor].
  - apply Forall_app. split; [destruct (tampered c), (poked c)|destruct (delayed c)]; cbn [orb]; repeat constructor; unfold quiet; noin.
Qed.

(** * Errors *)
Definition name_ok (s : list N) : bool := match s with c :: _ => (65 <=? c) && (c <=? 90) | [] => false end && negb (existsb (N.eqb 32) s).
Lemma names_ok : forallb (fun e => name_ok (bs (snd e))) errnoent = true.
Proof. vm_compute. reflexivity. Qed.
Fixpoint nodup_names (l : list (N * string)) : bool :=
  match l with [] => true | e :: r => negb (existsb (fun e' => beqs (bs (snd e)) (bs (snd e'))) r) && nodup_names r end.
Lemma names_nodup : nodup_names errnoent = true.
Proof. vm_compute. reflexivity. Qed.
Lemma err_name_in e s : err_name e = Some s -> exists t, In (e, t) errnoent /\ s = bs t.
Proof.
  unfold err_name. destruct (find _ _) as [x|] eqn:F; [|discriminate]. intros [= <-]. apply find_some in F as (I & E). cbv beta in E.
  apply N.eqb_eq in E. subst. destruct x as (a & t). exists t. auto.
Qed.
Lemma nodup_names_inj l a b s t : nodup_names l = true -> In (a, s) l -> In (b, t) l -> bs s = bs t -> a = b.
Proof.
  induction l as [|e l IH]; [intros _ []|]. cbn [nodup_names]. intros H Ia Ib E. apply andb_prop in H as (H1 & H2).
  assert (X : forall y u, In (y, u) l -> bs (snd e) = bs u -> False).
  { intros y u I E'. apply negb_true_iff in H1. rewrite <- not_true_iff_false in H1. apply H1. apply existsb_exists.
    exists (y, u). split; [exact I|]. cbn [snd]. rewrite E'. apply beqs_eq. reflexivity. }
  destruct Ia as [->|Ia], Ib as [Eb|Ib]; [inversion Eb; reflexivity|exfalso; eapply X; [exact Ib|exact E]|subst; exfalso; eapply X; [exact Ia|symmetry; exact E]|auto].
Qed.
Lemma err_name_inj a b s : err_name a = Some s -> err_name b = Some s -> a = b.
Proof.
  intros (t & I & E)%err_name_in (u & J & F)%err_name_in. eapply nodup_names_inj; [apply names_nodup|exact I|exact J|congruence].
Qed.
Lemma err_name_ok e s : err_name e = Some s -> exists c r, s = c :: r /\ c <> 40 /\ c <> 60 /\ ~ In 32 s.
Proof.
  intros (t & I & ->)%err_name_in. pose proof names_ok as H. rewrite forallb_forall in H. specialize (H _ I). cbn [snd] in H.
  unfold name_ok in H. apply andb_prop in H as (H1 & H2). destruct (bs t) as [|c r]; [discriminate|]. exists c, r.
  split; [reflexivity|]. split; [lia|]. split; [lia|]. intros I32. apply negb_true_iff in H2. rewrite <- not_true_iff_false in H2. apply H2.
  apply existsb_exists. exists 32. split; [exact I32|reflexivity].
Qed.
Lemma err_read strerror c v t e : vtext v t -> call_ok strerror c -> exists tm,
  time_right c tm /\
  (forall s l, err_name e = Some s -> quiet l -> read_result (bs "=" ++ (sysret_next ++ t ++ sysret_next ++ s ++ sysret_string l) ++ strings (notes c) ++ print_time c) =
     Some {| value := v; error := Some s; texts := l :: notes c; time := tm |}) /\
  (forall l, quiet l -> read_result (bs "=" ++ (sysret_next ++ t ++ sysret_string l) ++ strings (notes c) ++ print_time c) =
     Some {| value := v; error := None; texts := l :: notes c; time := tm |}) /\
  read_result (bs "=" ++ (sysret_next ++ t) ++ strings (notes c) ++ print_time c) =
     Some {| value := v; error := None; texts := notes c; time := tm |}.
Proof.
  intros V (W & N1 & N2 & Hle & Hq & Ha). destruct (time_read c W N1 N2 Hle) as (K & tm & T & TR). exists tm. split; [exact TR|].
  pose proof (notes_quiet c Ha) as NQ. split; [|split].
  - intros s l Es Hl. destruct (err_name_ok e s Es) as (c0 & e0 & E0 & H1 & H2 & H3).
    rewrite <- (read_named v t s c0 e0 (l :: notes c) (print_time c) tm V E0 H1 H2 H3); auto.
    f_equal. change (strings (l :: notes c)) with (sysret_string l ++ strings (notes c)). rewrite <- !app_assoc. reflexivity.
  - intros l Hl. rewrite <- (read_plain v t (l :: notes c) (print_time c) tm V); auto. f_equal.
    change (strings (l :: notes c)) with (sysret_string l ++ strings (notes c)). rewrite <- !app_assoc. reflexivity.
  - rewrite <- (read_plain v t (notes c) (print_time c) tm V); auto; rewrite <- ?app_assoc; reflexivity.
Qed.

(** * The result *)
Definition bits (c : rcfg) : Z := if k8 c || israw c then 64%Z else 32%Z.
Definition success_text (c : rcfg) (v : N) : list N :=
  if israw c then print_val_x v else if none c then bs "?" else
  match fmt c with
  | HEX => if k8 c then print_val_x v else print_val_x (u32 v)
  | OCTAL => print_val_03o (if k8 c then v else u32 v)
  | UDECIMAL => if k8 c then print_val_u v else print_val_u (u32 v)
  | FD => if negb (k8 c) || (v <=? 2147483647) then pr_z (sgn32 v) else print_val_d v
  | PID => pr_z (sgn32 v)
  end.
Lemma print_success strerror c v e : ~ fails c e ->
  print_result strerror c v e = bs "=" ++ (sysret_next ++ success_text c v) ++ strings (notes c) ++ print_time c.
Proof.
  intros NF. unfold print_result, success_text, fails in *. rewrite <- notes_text, <- !app_assoc.
  destruct (israw c) eqn:Er.
  - replace (e =? 0) with true by lia. cbn [negb]. rewrite <- ?app_assoc. reflexivity.
  - replace (negb (none c) && negb (e =? 0)) with false. 2:{ destruct (none c); cbn; [reflexivity|]. destruct (e =? 0) eqn:E; [reflexivity|]. exfalso. apply NF. split; [lia|auto]. }
    destruct (none c), (fmt c), (k8 c); cbn [negb orb]; rewrite <- ?app_assoc; reflexivity.
Qed.
Lemma mod_sgn64 v : v < 2^64 -> (sgn64 v mod 2^64 = Z.of_N v mod 2^64)%Z.
Proof.
  intros H. unfold sgn64. destruct (v <? 2^63) eqn:E; [reflexivity|].
  replace (Z.of_N v - 2^64)%Z with (Z.of_N v + (-1) * 2^64)%Z by lia. apply Z_mod_plus_full.
Qed.
Lemma mod_u32 v : (Z.of_N (u32 v) mod 2^32 = Z.of_N v mod 2^32)%Z.
Proof. unfold u32. change (2^32)%Z with (Z.of_N (2^32)). rewrite <- !N2Z.inj_mod. f_equal. apply N.mod_mod. discriminate. Qed.
Lemma mod_sgn32 v : (sgn32 v mod 2^32 = Z.of_N v mod 2^32)%Z.
Proof.
  rewrite <- mod_u32. unfold sgn32. destruct (u32 v <? 2^31) eqn:E; [reflexivity|].
  replace (Z.of_N (u32 v) - 2^32)%Z with (Z.of_N (u32 v) + (-1) * 2^32)%Z by lia. apply Z_mod_plus_full.
Qed.
Lemma sgn32_small v : v <= 2147483647 -> sgn32 v = Z.of_N v.
Proof. intros H. unfold sgn32, u32. rewrite N.mod_small by lia. replace (v <? 2^31) with true by lia. reflexivity. Qed.
Lemma success_value c v : v < 2^64 -> (k8 c = true -> israw c = false -> fmt c = PID -> v < 2^31) ->
  exists x, vtext x (success_text c v) /\ (x = None <-> israw c = false /\ none c = true) /\
    (forall z, x = Some z -> same_mod (bits c) z v /\ (israw c = true \/ (fmt c <> FD /\ fmt c <> PID) -> (0 <= z)%Z)).
Proof.
  intros Hv Hpid. unfold success_text, same_mod, bits. destruct (israw c) eqn:Er.
  { eexists. split; [apply vtext_x|]. split; [split; [discriminate|intros [X _]; discriminate X]|]. intros z [= <-]. rewrite orb_true_r. split; [reflexivity|lia]. }
  rewrite orb_false_r. destruct (none c) eqn:En.
  { exists None. split; [apply vtext_q|]. split; [split; auto|]. intros z X. discriminate X. }
  assert (G : forall z : Z, (Some z = None <-> false = false /\ false = true)) by (intros z; split; [discriminate|intros [_ X]; discriminate X]).
  destruct (fmt c) eqn:Ef.
  - destruct (k8 c); (eexists; split; [apply vtext_u|]; split; [apply G|]; intros z [= <-]; split; [|lia]); [reflexivity|apply mod_u32].
  - destruct (k8 c); (eexists; split; [apply vtext_x|]; split; [apply G|]; intros z [= <-]; split; [|lia]); [reflexivity|apply mod_u32].
  - destruct (k8 c); (eexists; split; [apply vtext_o|]; split; [apply G|]; intros z [= <-]; split; [|lia]); [reflexivity|apply mod_u32].
  - destruct (k8 c) eqn:Ek; cbn [negb orb]; [destruct (v <=? 2147483647) eqn:El|];
      (eexists; split; [apply vtext_z|]; split; [apply G|]; intros z [= <-]; split; [|intros [X|[X _]]; [discriminate X|congruence]]);
      [rewrite sgn32_small by lia; reflexivity|apply mod_sgn64; exact Hv|apply mod_sgn32].
  - eexists; split; [apply vtext_z|]; split; [apply G|]; intros z [= <-]; split; [|intros [X|[_ X]]; [discriminate X|congruence]].
    destruct (k8 c) eqn:Ek; [rewrite sgn32_small; [reflexivity|]|apply mod_sgn32]. specialize (Hpid eq_refl eq_refl eq_refl). change (2^31) with 2147483648 in Hpid. lia.
Qed.

Lemma err_text_quiet n : quiet (bs "errno " ++ pr_num 10 n).
Proof. unfold quiet. intros I. apply in_app_iff in I as [I|I]; [revert I; noin|]. revert I. apply pr_num_not_in; lia. Qed.
Lemma print_failure strerror c v e : fails c e -> ~ restarts c e ->
  print_result strerror c v e = bs "=" ++ print_err_ret strerror v e ++ strings (notes c) ++ print_time c.
Proof.
  intros (He & NF) NR. unfold print_result, restarts in *. rewrite <- notes_text, <- !app_assoc. cbn [In] in NR.
  replace (e =? 0) with false by lia. cbn [negb]. destruct (israw c) eqn:Er; [reflexivity|].
  destruct NF as [X|En]; [discriminate X|]. rewrite En. cbn [andb negb].
  destruct (e =? 512) eqn:E1; [exfalso; apply NR; split; [reflexivity|lia]|].
  destruct (e =? 513) eqn:E2; [exfalso; apply NR; split; [reflexivity|lia]|].
  destruct (e =? 514) eqn:E3; [exfalso; apply NR; split; [reflexivity|lia]|].
  destruct (e =? 516) eqn:E4; [exfalso; apply NR; split; [reflexivity|lia]|]. reflexivity.
Qed.
Lemma print_restart strerror c v e : fails c e -> restarts c e -> exists s l, err_name e = Some s /\ quiet l /\
  print_result strerror c v e = bs "=" ++ print_erestart s l ++ strings (notes c) ++ print_time c.
Proof.
  intros (He & NF) (Er & NR). unfold print_result. rewrite <- notes_text, Er. destruct NF as [X|En]; [congruence|]. rewrite En.
  cbn [andb negb]. cbn [In] in NR.
  destruct NR as [<-|[<-|[<-|[<-|[]]]]]; (eexists; eexists; split; [vm_compute; reflexivity|]; split; [|rewrite <- ?app_assoc; reflexivity]; unfold quiet; noin).
Qed.

(** ---- the names of errors are those of the kernel ---- *)
Definition in_tab (e : list N * N) : bool := existsb (fun x => (fst x =? snd e) && beqs (bs (snd x)) (fst e)) errnoent.
Definition in_list (x : N * String.string) : bool := existsb (fun e => (snd e =? fst x) && beqs (fst e) (bs (snd x))) linux_errors.
Lemma errors_tab : forallb in_tab linux_errors = true. Proof. vm_compute. reflexivity. Qed.
Lemma errors_list : forallb in_list errnoent = true. Proof. vm_compute. reflexivity. Qed.
Lemma errors_same n e : In (n, e) linux_errors <-> exists s, In (e, s) errnoent /\ n = bs s.
Proof.
  split.
  - intros I. pose proof errors_tab as H. rewrite forallb_forall in H. specialize (H _ I). unfold in_tab in H. apply existsb_exists in H as ([a s] & I2 & E). cbn [fst snd] in E. apply andb_true_iff in E as [E1 E2]. apply N.eqb_eq in E1. apply beqs_eq in E2. subst. exists s. auto.
  - intros (s & I & ->). pose proof errors_list as H. rewrite forallb_forall in H. specialize (H _ I). unfold in_list in H. apply existsb_exists in H as ([t a] & I2 & E). cbn [fst snd] in E. apply andb_true_iff in E as [E1 E2]. apply N.eqb_eq in E1. apply beqs_eq in E2. subst. exact I2.
Qed.
