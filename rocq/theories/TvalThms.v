(** C94: how resource limits are shown. *)
From Verif Require Import Base Printf InfoModel InfoSpec TvalModel TvalSpec.
From Verif Require ExtModel InfoThms.
Local Open Scope N_scope.

Lemma udec_number n : number (udec n) n.
Proof.
  split; [|apply pr_num_rd; lia]. unfold udec. pose proof (digits_from_pos 10 (S (N.size_nat n)) n ltac:(lia)) as H.
  unfold pr_num. destruct (digits_from _ _ _ _); [cbn in H; lia|discriminate].
Qed.
Lemma udec_length n k : n < 10 ^ N.of_nat (S k) -> (1 <= length (udec n) <= S k)%nat.
Proof. intros H. apply pr_num_length; [lia|exact H]. Qed.
Lemma printaddr_ok a : address (printaddr a) a.
Proof.
  unfold printaddr, address. destruct (N.eqb_spec a 0); [left; auto|right; split; [auto|]].
  exists (pr_num 16 a). split; [reflexivity|]. split; [|apply pr_num_rd; lia].
  pose proof (digits_from_pos 16 (S (N.size_nat a)) a ltac:(lia)) as H. unfold pr_num. destruct (digits_from _ _ _ _); [cbn in H; lia|discriminate].
Qed.
Lemma umoven_bytes m b : forall a, bytes_at m a b -> ExtModel.umoven m a (length b) = Some b.
Proof.
  induction b as [|x b IH]; intros a H; [reflexivity|]. cbn [length ExtModel.umoven].
  pose proof (H O ltac:(cbn; lia)) as H0. cbn [nth] in H0. rewrite N.add_0_r in H0. rewrite H0.
  rewrite IH; [reflexivity|]. intros i Hi. specialize (H (S i) ltac:(cbn; lia)). cbn [nth] in H.
  replace (a + 1 + N.of_nat i) with (a + N.of_nat (S i)) by lia. exact H.
Qed.
Lemma umoven_none m n : forall a, unreadable m a n -> ExtModel.umoven m a n = None.
Proof.
  induction n as [|n IH]; intros a (i & Hi & H); [lia|]. cbn [ExtModel.umoven]. destruct i as [|i].
  - rewrite N.add_0_r in H. rewrite H. reflexivity.
  - rewrite IH; [destruct (m (u64 a)); reflexivity|]. exists i. split; [lia|]. replace (a + 1 + N.of_nat i) with (a + N.of_nat (S i)) by lia. exact H.
Qed.
(** what is read at an address *)
Lemma fetched o m a b : a <> 0 -> ExtModel.verbose o = true -> ExtModel.failed o = false -> bytes_at m a b ->
  ExtModel.umoven_or_printaddr o m a (length b) = Some b.
Proof.
  intros A V F B. unfold ExtModel.umoven_or_printaddr. rewrite V, F. apply N.eqb_neq in A. rewrite A. cbn [negb orb]. apply umoven_bytes, B.
Qed.
Lemma not_fetched o m a n : a = 0 \/ ExtModel.verbose o = false \/ ExtModel.failed o = true \/ unreadable m a n ->
  ExtModel.umoven_or_printaddr o m a n = None.
Proof.
  intros H. unfold ExtModel.umoven_or_printaddr. destruct H as [->|[->|[->|U]]]; [reflexivity|cbn [negb]; rewrite orb_true_r; reflexivity|rewrite orb_true_r; reflexivity|].
  destruct (_ || _); [reflexivity|]. apply umoven_none, U.
Qed.

Definition inf64 : list N := bs "RLIM64_INFINITY".
Definition inf32 : list N := bs "RLIM_INFINITY".
Lemma number_digits t n : number t n -> Forall (fun c => 48 <= c <= 57) t.
Proof.
  intros [_ H]. revert H. generalize 0. induction t as [|c t IH]; intros a H; [constructor|]. cbn [rd_num] in H.
  destruct (QuoteSpec.hex_val c) as [d|] eqn:E; [|discriminate]. destruct (d <? 10) eqn:D; [|discriminate].
  constructor; [|eauto]. unfold QuoteSpec.hex_val in E.
  destruct ((48 <=? c) && (c <=? 57)) eqn:E1; [lia|]. destruct ((97 <=? c) && (c <=? 102)) eqn:E2; [inversion E; lia|].
  destruct ((65 <=? c) && (c <=? 70)) eqn:E3; [inversion E; lia|discriminate].
Qed.
(** the parts of a text do not depend on how it is cut *)
Lemma number_fun t n n' : number t n -> number t n' -> n = n'.
Proof. intros [_ A] [_ B]. congruence. Qed.
Lemma times_not_number t n n' : number (t ++ bs "*1024") n' -> number t n -> False.
Proof. intros A _. apply number_digits in A. apply Forall_app in A. destruct A as [_ A]. inversion A as [|? ? [X _] _]; subst. apply X. reflexivity. Qed.
Lemma inf_not_number i n : i = inf64 \/ i = inf32 -> number i n -> False.
Proof. intros [-> | ->] H; apply number_digits in H; inversion H as [|? ? [_ X] _]; subst; apply X; reflexivity. Qed.
Lemma inf_not_times i t n : i = inf64 \/ i = inf32 -> number t n -> i = t ++ bs "*1024" -> False.
Proof.
  intros I H E. pose proof (number_digits _ _ H) as D. destruct H as [NE _]. destruct t as [|c t]; [congruence|].
  inversion D as [|? ? [_ X] _]; subst. destruct I as [I|I]; cbn [app] in I; inversion I; subst; apply X; reflexivity.
Qed.
(** The meaning of a text is one value: what is shown of a limit identifies it. *)
Theorem C94_meaning : forall i max t v v', i = bs "RLIM64_INFINITY" \/ i = bs "RLIM_INFINITY" -> denotes i max t v -> denotes i max t v' -> v = v'.
Proof.
  assert (K : forall i max t v, denotes i max t v ->
    (t = i /\ v = max) \/ number t v \/ (exists d n, t = d ++ bs "*1024" /\ number d n /\ v = n * 1024)).
  { intros i max t v A. destruct A as [|t n A|t n A]; [left; auto|right; left; auto|right; right; eauto]. }
  intros i max t v v' I A B. apply K in A. apply K in B.
  destruct A as [[A1 A2]|[A|(d & n & A1 & A2 & A3)]]; destruct B as [[B1 B2]|[B|(d' & n' & B1 & B2 & B3)]].
  - congruence.
  - exfalso. rewrite A1 in B. eapply inf_not_number; eauto.
  - exfalso. rewrite A1 in B1. eapply inf_not_times; eauto.
  - exfalso. rewrite B1 in A. eapply inf_not_number; eauto.
  - eapply number_fun; eauto.
  - exfalso. rewrite B1 in A. eapply times_not_number; eauto.
  - exfalso. rewrite B1 in A1. eapply inf_not_times; eauto.
  - exfalso. rewrite A1 in B. eapply times_not_number; eauto.
  - rewrite A1 in B1. apply app_inv_tail in B1. subst. f_equal. eapply number_fun; eauto.
Qed.
Print Assumptions C94_meaning.

(** both printers, with the size of the type in bytes *)
Definition print_rlim (wide : bool) (st : style) (lim : N) : res (list N) := if wide then print_rlim64_t st lim else print_rlim32_t st lim.
Definition top (wide : bool) : N := if wide then 2 ^ 64 - 1 else 2 ^ 32 - 1.
Definition infn (wide : bool) : list N := if wide then inf64 else inf32.
Lemma print_rlim_eq wide st lim : lim <= top wide ->
  print_rlim wide st lim = Ok (show_lim st (if lim =? top wide then Some (infn wide)
                                            else if (1024 <? lim) && (lim mod 1024 =? 0) then Some (udec (lim / 1024) ++ bs "*1024") else None) lim).
Proof.
  intros L. unfold print_rlim, print_rlim64_t, print_rlim32_t, top, infn, inf64, inf32 in *. destruct wide.
  - destruct (lim =? 2 ^ 64 - 1) eqn:E; [reflexivity|]. destruct (_ && _) eqn:F; [|reflexivity].
    unfold xsprintf. assert (Q : (length (udec (lim / 1024)) <= 20)%nat).
    { apply (udec_length _ 19). eapply N.le_lt_trans; [apply N.div_le_upper_bound; [lia|]|].
      { instantiate (1 := 2 ^ 64). lia. } vm_compute. reflexivity. }
    rewrite app_length. change (length (bs "*1024")) with 5%nat.
    replace (N.of_nat (length (udec (lim / 1024)) + 5) <? 8 * 3 + 6) with true by lia. reflexivity.
  - destruct (lim =? 2 ^ 32 - 1) eqn:E; [reflexivity|]. destruct (_ && _) eqn:F; [|reflexivity].
    unfold xsprintf. assert (Q : (length (udec (lim / 1024)) <= 10)%nat).
    { apply (udec_length _ 9). eapply N.le_lt_trans; [apply N.div_le_upper_bound; [lia|]|].
      { instantiate (1 := 2 ^ 32). lia. } vm_compute. reflexivity. }
    rewrite app_length. change (length (bs "*1024")) with 5%nat.
    replace (N.of_nat (length (udec (lim / 1024)) + 5) <? 4 * 3 + 6) with true by lia. reflexivity.
Qed.

(** C94: with -X raw a limit is its number. *)
Theorem C94_raw : forall wide lim, lim <= top wide -> exists t, print_rlim wide Raw lim = Ok t /\ number t lim.
Proof.
  intros wide lim L. rewrite (print_rlim_eq _ _ _ L). eexists. split; [reflexivity|]. unfold show_lim.
  destruct (if _ : bool then _ else _); rewrite app_nil_r; apply udec_number.
Qed.
Print Assumptions C94_raw.
(** C94: with -X abbrev: the name exactly of the greatest value, a product with 1024 exactly of the greater multiples of 1024, and of all others the number. *)
Theorem C94_abbrev : forall wide lim, lim <= top wide -> exists t,
  print_rlim wide Abbrev lim = Ok t /\ denotes (infn wide) (top wide) t lim /\
  (t = infn wide <-> lim = top wide) /\
  ((exists d n, t = d ++ bs "*1024" /\ number d n) <-> (1024 < lim /\ (1024 | lim))) /\
  (number t lim <-> lim <> top wide /\ ~ (1024 < lim /\ (1024 | lim))).
Proof.
  intros wide lim L. rewrite (print_rlim_eq _ _ _ L). eexists. split; [reflexivity|]. unfold show_lim.
  assert (I : infn wide = inf64 \/ infn wide = inf32) by (destruct wide; auto).
  assert (M : (1024 | top wide) -> False). { intros D. apply N.mod_divide in D; [|lia]. destruct wide; vm_compute in D; discriminate. }
  destruct (N.eqb_spec lim (top wide)) as [E|E].
  - rewrite E. cbn [app]. split; [constructor|]. split; [split; auto|]. split; split.
    + intros (d & n & Q & H). exfalso. exact (inf_not_times _ _ _ I H Q).
    + intros [_ H]. destruct (M H).
    + intros H. exfalso. exact (inf_not_number _ _ I H).
    + intros [H _]. congruence.
  - destruct ((1024 <? lim) && (lim mod 1024 =? 0)) eqn:F.
    + apply andb_true_iff in F. destruct F as [F1 F2]. apply N.ltb_lt in F1. apply N.eqb_eq in F2. pose proof F2 as F3. apply N.mod_divide in F3; [|lia].
      cbn [app]. assert (W : lim = lim / 1024 * 1024). { pose proof (N.div_mod lim 1024 ltac:(lia)) as D. rewrite F2 in D. lia. }
      split. { rewrite W at 2. apply D_times. apply udec_number. }
      split; [split; [|congruence]|split; split].
      * intros Q. exfalso. eapply inf_not_times; [exact I|apply udec_number|symmetry; exact Q].
      * auto.
      * intros _. exists (udec (lim / 1024)), (lim / 1024). split; [reflexivity|apply udec_number].
      * intros H. exfalso. eapply times_not_number; [exact H|apply udec_number].
      * intros [_ H]. tauto.
    + rewrite app_nil_r. assert (Z : ~ (1024 < lim /\ (1024 | lim))).
      { intros [H1 H2]. apply N.mod_divide in H2; [|lia]. apply N.ltb_lt in H1. rewrite H1, H2 in F. discriminate. }
      split; [apply D_number; apply udec_number|]. split; [split; [|congruence]|split; split].
      * intros Q. exfalso. eapply inf_not_number; [exact I|]. rewrite <- Q. apply udec_number.
      * intros (d & n & Q & H). exfalso. apply (times_not_number d n lim); [|exact H]. rewrite <- Q. apply udec_number.
      * intros H. tauto.
      * auto.
      * intros _. apply udec_number.
Qed.
Print Assumptions C94_abbrev.
(** C94: with -X verbose: the number, and, if the abbreviated form is another, that form in a comment. *)
Theorem C94_verbose : forall wide lim, lim <= top wide -> exists t a,
  number t lim /\ print_rlim wide Abbrev lim = Ok a /\
  print_rlim wide Verbose lim = Ok (if beqs t a then t else t ++ bs " /* " ++ a ++ bs " */").
Proof.
  intros wide lim L. rewrite !(print_rlim_eq _ _ _ L). exists (udec lim). eexists. split; [apply udec_number|]. split; [reflexivity|].
  assert (I : infn wide = inf64 \/ infn wide = inf32) by (destruct wide; auto).
  unfold show_lim. destruct (lim =? top wide); [|destruct (_ && _)].
  - cbn [app]. destruct (beqs _ _) eqn:E.
    + apply beqs_eq in E. exfalso. eapply inf_not_number; [exact I|]. rewrite <- E. apply udec_number.
    + destruct wide; reflexivity.
  - cbn [app]. destruct (beqs _ _) eqn:E.
    + apply beqs_eq in E. exfalso. eapply times_not_number; [|apply udec_number]. rewrite <- E. apply udec_number.
    + unfold comment. destruct (udec (lim / 1024) ++ bs "*1024") eqn:Q; [|reflexivity]. apply app_eq_nil in Q. destruct Q as [_ Q]. discriminate.
  - rewrite !app_nil_r. destruct (beqs _ _) eqn:E; [reflexivity|]. assert (X : beqs (udec lim) (udec lim) = true) by (apply beqs_eq; reflexivity). congruence.
Qed.
Print Assumptions C94_verbose.

(** C94: the structure: the soft limit and the hard limit, each from its own bytes, of 4 bytes on i386 and 8 otherwise. *)
Theorem C94_struct : forall klong o m st a b, let wide := negb (klong =? 4) in let n := if wide then 8%nat else 4%nat in
  a <> 0 -> ExtModel.verbose o = true -> ExtModel.failed o = false -> bytes_at m a b -> length b = (2 * n)%nat -> Forall (fun x => x < 256) b ->
  exists x y, decode_rlimit klong o m st a = Ok (bs "{rlim_cur=" ++ x ++ bs ", rlim_max=" ++ y ++ bs "}") /\
    print_rlim wide st (number_at b 0 n) = Ok x /\ number_at b 0 n <= top wide /\
    print_rlim wide st (number_at b n n) = Ok y /\ number_at b n n <= top wide.
Proof.
  intros klong o m st a b wide n A V F B LB BB. unfold decode_rlimit. subst n wide. destruct (klong =? 4); cbn [negb] in *; cbv iota in *.
  - unfold print_rlimit32. change 8%nat with (2 * 4)%nat. rewrite <- LB, fetched by auto. rewrite !InfoThms.ld_number.
    pose proof (InfoThms.number4 b 0 BB) as U. pose proof (InfoThms.number4 b 4 BB) as W.
    generalize dependent (number_at b 0 4); intros u U; generalize dependent (number_at b 4 4); intros v W.
    assert (Hu : u <= top false) by (unfold top; lia). assert (Hv : v <= top false) by (unfold top; lia).
    fold (print_rlim false st u). pose proof (print_rlim_eq false st u Hu) as Pu. pose proof (print_rlim_eq false st v Hv) as Pv.
    unfold print_rlim in *. rewrite Pu, Pv. unfold rlim_struct. cbn [rbind]. do 2 eexists. auto.
  - unfold print_rlimit64. change 16%nat with (2 * 8)%nat. rewrite <- LB, fetched by auto. rewrite !InfoThms.ld_number.
    pose proof (InfoThms.number8 b 0 BB) as U. pose proof (InfoThms.number8 b 8 BB) as W.
    generalize dependent (number_at b 0 8); intros u U; generalize dependent (number_at b 8 8); intros v W.
    assert (Hu : u <= top true) by (unfold top; lia). assert (Hv : v <= top true) by (unfold top; lia).
    pose proof (print_rlim_eq true st u Hu) as Pu. pose proof (print_rlim_eq true st v Hv) as Pv.
    unfold print_rlim in *. rewrite Pu, Pv. unfold rlim_struct. cbn [rbind]. do 2 eexists. auto.
Qed.
Print Assumptions C94_struct.
(** C94: otherwise only the address is shown. *)
Theorem C94_address : forall klong o m st a, let n := if klong =? 4 then 8%nat else 16%nat in
  a = 0 \/ ExtModel.verbose o = false \/ ExtModel.failed o = true \/ unreadable m a n ->
  exists t, decode_rlimit klong o m st a = Ok t /\ address t a.
Proof.
  intros klong o m st a n H. exists (printaddr a). split; [|apply printaddr_ok]. unfold decode_rlimit. subst n. destruct (klong =? 4).
  - unfold print_rlimit32. rewrite not_fetched by exact H. reflexivity.
  - unfold print_rlimit64. rewrite not_fetched by exact H. reflexivity.
Qed.
Print Assumptions C94_address.

Definition rl_mem : list N := [0; 0; 128; 0; 0; 0; 0; 0; 255; 255; 255; 255; 255; 255; 255; 255].
Definition rl_m : ExtModel.memory := fun a => if (4096 <=? a) && (a <? 4112) then Some (nth (N.to_nat (a - 4096)) rl_mem 0) else None.
Definition rl_o : ExtModel.opts := {| ExtModel.verbose := true; ExtModel.failed := false; ExtModel.max_strlen := 32; ExtModel.pagesize := 4096 |}.
Example C94_ex : decode_rlimit 8 rl_o rl_m Abbrev 4096 = Ok (bs "{rlim_cur=8192*1024, rlim_max=RLIM64_INFINITY}") /\
  decode_rlimit 8 rl_o rl_m Verbose 4096 = Ok (bs "{rlim_cur=8388608 /* 8192*1024 */, rlim_max=18446744073709551615 /* RLIM64_INFINITY */}") /\
  decode_rlimit 4 rl_o rl_m Raw 4096 = Ok (bs "{rlim_cur=8388608, rlim_max=0}").
Proof. vm_compute. auto. Qed.
Example C94_ex_bytes : bytes_at rl_m 4096 rl_mem /\ unreadable rl_m 4100 16.
Proof.
  split.
  - intros i Hi. do 16 (destruct i as [|i]; [vm_compute; reflexivity|]). cbn in Hi. lia.
  - exists 15%nat. split; [lia|reflexivity].
Qed.
