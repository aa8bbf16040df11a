(** C89: the security contexts shown with --secontext. *)
From Verif Require Import Base QuoteModel QuoteSpec QuoteProofs SecModel SecSpec.
Local Open Scope N_scope.

(** ---- the part ---- *)
Lemma find_colon_some s a b : find_colon s = Some (a, b) -> s = a ++ bs ":" ++ b /\ no_colon a.
Proof.
  revert a b; induction s as [|c s IH]; intros a b H; [discriminate|]. cbn [find_colon] in H. destruct (N.eqb_spec c 58) as [->|NE].
  - injection H as <- <-. split; [reflexivity|intros []].
  - destruct (find_colon s) as [[a' b']|]; [|discriminate]. injection H as <- <-. destruct (IH _ _ eq_refl) as [-> NC]. split; [reflexivity|].
    intros [X|X]; [apply NE; rewrite X; reflexivity|exact (NC X)].
Qed.
Lemma find_colon_none s : find_colon s = None -> no_colon s.
Proof.
  induction s as [|c s IH]; intros H; [intros []|]. cbn [find_colon] in H. destruct (N.eqb_spec c 58) as [->|NE]; [discriminate|].
  destruct (find_colon s) as [[a b]|]; [discriminate|]. intros [X|X]; [apply NE; rewrite X; reflexivity|exact (IH eq_refl X)].
Qed.
Lemma find_colon_app a b : no_colon a -> find_colon (a ++ bs ":" ++ b) = Some (a, b).
Proof.
  induction a as [|c a IH]; intros NC; [reflexivity|]. cbn [app find_colon]. destruct (N.eqb_spec c 58) as [->|NE]; [exfalso; apply NC; left; reflexivity|].
  rewrite IH; [reflexivity|]. intros X; apply NC; right; exact X.
Qed.
Lemma strip_chomped s : chomped s (strip_nl s).
Proof.
  unfold strip_nl. assert (H : exists k, rev s = repeat 10 k ++ drop_nl (rev s) /\ forall a, drop_nl (rev s) <> 10 :: a).
  { generalize (rev s). clear s. induction l as [|c l [k [E D]]]; [exists O; split; [reflexivity|discriminate]|]. cbn [drop_nl].
    destruct (N.eqb_spec c 10) as [->|NE]; [exists (S k); split; [cbn [repeat app]; rewrite <- E; reflexivity|exact D]|exists O; split; [reflexivity|]].
    intros a X. injection X as X _. exact (NE X). }
  destruct H as (k & E & D). exists k. split.
  - assert (R : forall m, rev (repeat 10 m) = repeat 10 m).
    { assert (R1 : forall m, repeat 10 m ++ [10] = repeat 10 (S m)) by (clear; induction m as [|m IH]; [reflexivity|]; cbn [repeat app] in *; rewrite IH; reflexivity).
      clear - R1. induction m as [|m IH]; [reflexivity|]. cbn [rev]. change (repeat 10 (S m)) with (10 :: repeat 10 m) at 1. cbn [rev]. rewrite IH. apply R1. }
    apply (f_equal (@rev N)) in E. rewrite rev_involutive, rev_app_distr, R in E. exact E.
  - intros a X. apply (f_equal (@rev N)) in X. rewrite rev_involutive, rev_app_distr in X. exact (D _ X).
Qed.
Lemma chomped_inj s t u : chomped s t -> chomped s u -> t = u.
Proof.
  intros (k & E & D) (j & F & G). revert j F; induction k as [|k IH] in s, E |- *; intros j F.
  - rewrite app_nil_r in E. subst s. destruct j; [rewrite app_nil_r in F; exact F|]. exfalso. apply (D (u ++ repeat 10 j)). rewrite F.
    rewrite <- app_assoc. f_equal. clear. induction j; [reflexivity|]. cbn [repeat app] in *. rewrite <- IHj. reflexivity.
  - assert (R : forall m, repeat 10 (S m) = repeat 10 m ++ [10]) by (clear; induction m as [|m IH]; [reflexivity|]; cbn [repeat app] in *; rewrite <- IH; reflexivity).
    destruct j.
    + rewrite app_nil_r in F. rewrite E in F. exfalso. apply (G (t ++ repeat 10 k)). rewrite <- F, R, app_assoc. reflexivity.
    + rewrite R, app_assoc in E. rewrite R, app_assoc in F. rewrite E in F. apply app_inj_tail in F as [F _]. eapply IH; [reflexivity|exact F].
Qed.
Lemma with_type_find s t : with_type s t <-> exists u r1 r r2, find_colon s = Some (u, r1) /\ find_colon r1 = Some (r, r2) /\
  match find_colon r2 with Some (x, _) => x = t | None => r2 = t end.
Proof.
  split.
  - intros (u & r & NU & NR & NT & [->|[range ->]]).
    + exists u, (r ++ bs ":" ++ t), r, t. rewrite !find_colon_app by assumption. repeat split. destruct (find_colon t) as [[a b]|] eqn:F; [|reflexivity].
      exfalso. apply find_colon_some in F as [-> _]. apply NT. rewrite in_app_iff. right. left. reflexivity.
    + exists u, (r ++ bs ":" ++ t ++ bs ":" ++ range), r, (t ++ bs ":" ++ range). rewrite !find_colon_app by assumption. repeat split.
  - intros (u & r1 & r & r2 & F1 & F2 & F3). apply find_colon_some in F1 as [-> NU]. apply find_colon_some in F2 as [-> NR]. exists u, r.
    destruct (find_colon r2) as [[x y]|] eqn:F; [subst x; apply find_colon_some in F as [-> NT]; repeat split; auto; right; exists y; reflexivity|].
    subst r2. apply find_colon_none in F. repeat split; auto.
Qed.
Lemma with_type_inj s t u : with_type s t -> with_type s u -> t = u.
Proof.
  rewrite !with_type_find. intros (a1 & b1 & c1 & d1 & E1 & E2 & E3) (a2 & b2 & c2 & d2 & F1 & F2 & F3).
  rewrite F1 in E1. injection E1 as -> ->. rewrite F2 in E2. injection E2 as -> ->. destruct (find_colon d1) as [[x y]|]; congruence.
Qed.
(** The part shown is the one wanted, and there is only one such part. *)
Theorem C89_part : forall full s, wanted full s (parse_secontext full s) /\ forall w, wanted full s w -> w = parse_secontext full s.
Proof.
  intros full s. assert (W : wanted full s (parse_secontext full s)).
  { unfold parse_secontext. destruct full; [left; split; [reflexivity|apply strip_chomped]|].
    destruct (find_colon s) as [[u r1]|] eqn:F1; [destruct (find_colon r1) as [[r r2]|] eqn:F2; [right; left; split; [reflexivity|]|]|].
    - assert (T : forall t, match find_colon r2 with Some (x, _) => x = t | None => r2 = t end -> with_type s t) by (intros t E; apply with_type_find; exists u, r1, r, r2; auto).
      destruct (find_colon r2) as [[t y]|]; [exists t; split; [apply T; reflexivity|apply strip_chomped]|exists r2; split; [apply T; reflexivity|apply strip_chomped]].
    - right; right. split; [reflexivity|]. split; [|apply strip_chomped]. intros t WT. apply with_type_find in WT as (a & b & c & d & E1 & E2 & _). congruence.
    - right; right. split; [reflexivity|]. split; [|apply strip_chomped]. intros t WT. apply with_type_find in WT as (a & b & c & d & E1 & E2 & _). congruence. }
  split; [exact W|]. generalize (parse_secontext full s), W. clear W. intros v V w W.
  destruct V as [[F V]|[[F (t & T & V)]|[F [NT V]]]], W as [[F' W]|[[F' (t' & T' & W)]|[F' [NT' W]]]]; try congruence; try (eapply chomped_inj; eauto; fail).
  - rewrite (with_type_inj _ _ _ T' T) in W. eapply chomped_inj; eauto.
  - exfalso. exact (NT' _ T).
  - exfalso. exact (NT _ T').
Qed.
Print Assumptions C89_part.
(** user:role:type:range with a newline; without a range; something else *)
Example C89_part_used :
  parse_secontext false (bs "unconfined_u:object_r:user_home_t:s0:c1,c2" ++ [10]) = bs "user_home_t" /\
  parse_secontext false (bs "u:r:etc_t" ++ [10; 10]) = bs "etc_t" /\
  parse_secontext true (bs "u:r:etc_t:s0" ++ [10]) = bs "u:r:etc_t:s0" /\
  parse_secontext false (bs "kernel:x") = bs "kernel:x".
Proof. repeat split; reflexivity. Qed.

(** ---- the text ---- *)
Definition quiet (t : list N) : bool := forallb (fun c => negb ((c =? 91) || (c =? 93) || (c =? 33))) t.
Lemma quiet_in t : quiet t = true -> ~ In (ch "[") t /\ ~ In (ch "]") t /\ ~ In (ch "!") t.
Proof. intros H. unfold quiet in H. rewrite forallb_forall in H. repeat split; intros X; apply H in X; discriminate X. Qed.
Lemma quiet_char x c nx : c < 256 -> quiet (quote_char (con_style x) (Some (bs "[]!")) c nx) = true.
Proof.
  intros C. revert c C. apply forallb_bytes. destruct nx, x; vm_compute; reflexivity.
Qed.
Lemma quiet_app a b : quiet (a ++ b) = quiet a && quiet b. Proof. apply forallb_app. Qed.
Lemma quiet_loop x n s o e : bytes_ok s -> quote_loop (con_style x) (Some (bs "[]!")) n s = Ok (o, e) -> quiet o = true.
Proof.
  revert s o e; induction n as [|n IH]; intros s o e B H; [injection H as <- _; reflexivity|]. destruct s as [|c s]; [discriminate H|]. inversion B as [|? ? C B']; subst.
  cbn [quote_loop] in H. change (q0term (con_style x)) with false in H. change (omit0 (con_style x)) with false in H. rewrite andb_false_r in H. cbn [andb] in H.
  destruct (next_is_octal n s) as [nx| |]; try discriminate. cbn [rbind] in H. destruct (quote_loop _ _ n s) as [[o1 e1]| |] eqn:EL; try discriminate. cbn [rbind] in H.
  assert (E : o = quote_char (con_style x) (Some (bs "[]!")) c nx ++ o1) by congruence. rewrite E, quiet_app, (quiet_char x c nx C), (IH _ _ _ B' EL). reflexivity.
Qed.
Lemma print_con_text x s : bytes_ok s -> N.of_nat (length s) < 2^30 -> exists t, print_con x s = Ok t /\ text_of s t.
Proof.
  intros B L. unfold print_con, print_quoted_string_ex. change (q0term (con_style x)) with false. rewrite andb_false_r. unfold quote_alloc_size.
  assert (U : u32 (4 * N.of_nat (length s)) = 4 * N.of_nat (length s)) by (apply N.mod_small; lia). rewrite U, N.mul_comm, N.div_mul, N.eqb_refl by lia. cbn [negb].
  destruct (string_quote_total s (N.to_nat (N.of_nat (length s))) (con_style x) (Some (bs "[]!")) B) as (out & rc & E); [unfold readable; change (q0term (con_style x)) with false; cbv iota; lia|].
  rewrite E. cbn [rbind]. exists out. split; [reflexivity|]. rewrite Nat2N.id in E.
  destruct (string_quote_lossless Two _ _ _ _ _ _ B (or_introl eq_refl) E) as (body & b & W & UQ & SB & _).
  assert (WE : wrap (con_style x) body = body) by (unfold wrap; cbn [comment omit_quotes con_style app]; apply app_nil_r). rewrite WE in W. subst body.
  unfold subject in SB. change (q0term (con_style x)) with false in SB. change (omit0 (con_style x)) with false in SB. cbv iota in SB. rewrite firstn_all in SB. destruct SB as [->|(_ & X & _)]; [|discriminate X].
  split; [exact UQ|]. apply quiet_in. unfold string_quote in E.
  assert (UH : usehex (con_style x) (length s) s = Ok false) by (destruct x; reflexivity). rewrite UH in E. cbn [rbind] in E.
  destruct (quote_loop _ _ (length s) s) as [[o e]| |] eqn:EL; try discriminate. cbn [rbind] in E. cbn [comment omit_quotes con_style app] in E. rewrite app_nil_r in E.
  pose proof (quiet_loop _ _ _ _ _ B EL) as Q. destruct e; [injection E as <- _; exact Q|]. change (q0term (con_style x)) with false in E. injection E as <- _. exact Q.
Qed.
Lemma parse_sub full s : incl (parse_secontext full s) s /\ (length (parse_secontext full s) <= length s)%nat.
Proof.
  assert (ST : forall t, incl (strip_nl t) t /\ (length (strip_nl t) <= length t)%nat).
  { intros t. destruct (strip_chomped t) as (k & E & _). split; [intros c I; rewrite E; apply in_app_iff; auto|rewrite E at 2; rewrite app_length; lia]. }
  assert (TR : forall t, incl t s -> (length t <= length s)%nat -> incl (strip_nl t) s /\ (length (strip_nl t) <= length s)%nat).
  { intros t I L. destruct (ST t) as [A B]. split; [intros c C; apply I, A, C|lia]. }
  unfold parse_secontext. destruct full; [apply ST|]. destruct (find_colon s) as [[u r1]|] eqn:F1; [|apply ST]. destruct (find_colon r1) as [[r r2]|] eqn:F2; [|apply ST].
  apply find_colon_some in F1 as [E1 _]. apply find_colon_some in F2 as [E2 _].
  assert (I2 : incl r2 s /\ (length r2 <= length s)%nat).
  { split; [intros c I; rewrite E1, E2; rewrite !in_app_iff; auto 8|rewrite E1, E2; rewrite !app_length; lia]. }
  destruct (find_colon r2) as [[t y]|] eqn:F3; [|apply TR; apply I2]. apply find_colon_some in F3 as [E3 _]. destruct I2 as [I2 L2].
  apply TR; [intros c I; apply I2; rewrite E3, in_app_iff; auto|rewrite E3, app_length in L2; lia].
Qed.
(** For every context and every expected one, in every mode: the context's part is shown; then "!!" and the part of
    the expected context exactly when the two parts differ. *)
Theorem C89_context : forall o x ctx exp, bytes_ok ctx -> N.of_nat (length ctx) < 2^30 ->
  (forall e, exp = Some e -> bytes_ok e /\ N.of_nat (length e) < 2^30) ->
  exists t, print_context o x (Some ctx) exp = Ok t /\ context_text (sec_full o) ctx exp t.
Proof.
  intros o x ctx exp B L E. unfold print_context. destruct (C89_part (sec_full o) ctx) as [W _]. destruct (parse_sub (sec_full o) ctx) as [I LE].
  assert (B1 : bytes_ok (parse_secontext (sec_full o) ctx)) by (unfold bytes_ok in *; rewrite Forall_forall in *; intros c C; apply B, I, C).
  destruct (print_con_text x _ B1 ltac:(lia)) as (t & -> & T). cbn [rbind]. destruct exp as [e|].
  - destruct (E e eq_refl) as [BE LL]. destruct (C89_part (sec_full o) e) as [V _]. destruct (parse_sub (sec_full o) e) as [IE LE2].
    assert (B2 : bytes_ok (parse_secontext (sec_full o) e)) by (unfold bytes_ok in *; rewrite Forall_forall in *; intros c C; apply BE, IE, C).
    destruct (negb _ || negb _) eqn:D.
    + destruct (print_con_text x _ B2 ltac:(lia)) as (u & -> & U). cbn [rbind]. eexists. split; [reflexivity|]. eapply CT_differ; eauto.
      intros Q. rewrite <- Q, Nat.eqb_refl in D. cbn [negb orb] in D. assert (R : beqs (parse_secontext (sec_full o) ctx) (parse_secontext (sec_full o) ctx) = true) by (apply beqs_eq; reflexivity). rewrite R in D. discriminate D.
    + apply orb_false_iff in D as [_ D]. apply negb_false_iff in D. apply beqs_eq in D. exists t. split; [reflexivity|]. eapply CT_same; [exact W| |exact T]. rewrite D. exact V.
  - exists t. split; [reflexivity|]. eapply CT_alone; eauto.
Qed.
Print Assumptions C89_context.
Example C89_context_used :
  print_context {| sec_on := true; sec_full := false; sec_mismatch := true |} HEXSTR_NONE (Some (bs "u:r:user_home_t:s0")) (Some (bs "u:r:etc_t:s0")) = Ok (bs "user_home_t!!etc_t") /\
  print_context {| sec_on := true; sec_full := false; sec_mismatch := true |} HEXSTR_NONE (Some (bs "u:r:etc_t:s0")) (Some (bs "system_u:r:etc_t:s0")) = Ok (bs "etc_t") /\
  print_context {| sec_on := true; sec_full := true; sec_mismatch := true |} HEXSTR_NONE (Some (bs "u:r:e!t:s0")) (Some (bs "u:r:e!t:s1")) = Ok (bs "u:r:e\41t:s0!!u:r:e\41t:s1").
Proof. repeat split; reflexivity. Qed.

Lemma sep_inj a b a' b' : ~ In (ch "!") a -> ~ In (ch "!") a' -> a ++ bs "!!" ++ b = a' ++ bs "!!" ++ b' -> a = a' /\ b = b'.
Proof.
  revert a'; induction a as [|c a IH]; intros [|c' a'] N1 N2 E.
  - split; [reflexivity|]. change (33 :: 33 :: b = 33 :: 33 :: b') in E. congruence.
  - exfalso. apply N2. left. change (33 :: 33 :: b = c' :: a' ++ bs "!!" ++ b') in E. injection E as E _. exact (eq_sym E).
  - exfalso. apply N1. left. change (c :: a ++ bs "!!" ++ b = 33 :: 33 :: b') in E. injection E as E _. exact E.
  - cbn [app] in E. pose proof (f_equal (hd 0) E) as E1. pose proof (f_equal (@tl N) E) as E2. cbn [hd tl] in E1, E2. subst c'. destruct (IH a') as [-> ->]; [intros I; apply N1; right; exact I|intros I; apply N2; right; exact I|exact E2|auto].
Qed.
(** A text can be read in one way only: it tells the part of the context, whether it is the expected one and, if not,
    the part of the expected one. *)
Theorem C89_context_read : forall full c1 c2 e1 e2 t, context_text full c1 (Some e1) t -> context_text full c2 (Some e2) t ->
  forall w1 w2 v1 v2, wanted full c1 w1 -> wanted full c2 w2 -> wanted full e1 v1 -> wanted full e2 v2 -> w1 = w2 /\ v1 = v2.
Proof.
  intros full c1 c2 e1 e2 t T1 T2 w1 w2 v1 v2 W1 W2 V1 V2. assert (UN : forall s a b, wanted full s a -> wanted full s b -> a = b).
  { intros s a b A B. rewrite (proj2 (C89_part full s) _ A), (proj2 (C89_part full s) _ B). reflexivity. }
  assert (C : forall c e t, context_text full c (Some e) t -> exists w v x, wanted full c w /\ wanted full e v /\ text_of w x /\
     ((w = v /\ t = x) \/ exists u, text_of v u /\ t = x ++ bs "!!" ++ u)).
  { intros c e x T. inversion T; subst; [exists w, w, x; auto 6|exists w, v, t0; eauto 9]. }
  destruct (C _ _ _ T1) as (a1 & b1 & x1 & A1 & B1 & X1 & D1). destruct (C _ _ _ T2) as (a2 & b2 & x2 & A2 & B2 & X2 & D2). clear C T1 T2.
  rewrite (UN _ _ _ W1 A1), (UN _ _ _ V1 B1), (UN _ _ _ W2 A2), (UN _ _ _ V2 B2). clear - X1 X2 D1 D2.
  assert (N : forall w x y, text_of w (x ++ bs "!!" ++ y) -> False) by (intros w x y (_ & _ & _ & Q); apply Q; rewrite in_app_iff; right; left; reflexivity).
  destruct D1 as [[-> ->]|(u1 & U1 & ->)], D2 as [[-> E]|(u2 & U2 & E)].
  - subst x2. destruct X1 as [X1 _], X2 as [X2 _]. split; congruence.
  - exfalso. rewrite E in X1. exact (N _ _ _ X1).
  - exfalso. rewrite <- E in X2. exact (N _ _ _ X2).
  - destruct X1 as (X1 & _ & _ & N1), X2 as (X2 & _ & _ & N2). destruct (sep_inj _ _ _ _ N1 N2 E) as [-> ->]. destruct U1 as [U1 _], U2 as [U2 _]. split; congruence.
Qed.
Print Assumptions C89_context_read.

(** ---- what is asked ---- *)
Lemma con_name_named p d path fname : con_name p d path = Some fname <-> file_named p d path fname.
Proof.
  split.
  - unfold con_name. destruct path as [|c r].
    + assert (NS : forall rest, [] <> bs "/" ++ rest) by discriminate. destruct (Z.eqb_spec d AT_FDCWD) as [->|ND]; [intros H; injection H as <-; apply FN_cwd; exact NS|].
      destruct (Z.leb_spec 0 d); [|discriminate]. intros H0; injection H0 as <-. rewrite <- (Z2N.id d) at 1 by assumption. apply FN_at. exact NS.
    + destruct (N.eq_dec c 47) as [->|NE].
      * intros H; injection H as <-. change (bs "/root" ++ 47 :: r) with (bs "/root/" ++ r). apply FN_abs.
      * assert (NS : forall rest, c :: r <> bs "/" ++ rest) by (intros rest E; injection E as E _; exact (NE E)).
        assert (M : forall (A : Type) (a b : A), match c with 47 => a | _ => b end = b).
        { intros A a b. destruct c as [|q]; [reflexivity|]. repeat (destruct q as [q|q|]; try reflexivity). contradiction NE; reflexivity. }
        rewrite M. destruct (Z.eqb_spec d AT_FDCWD) as [->|ND]; [intros H; injection H as <-; apply FN_cwd; exact NS|].
        destruct (Z.leb_spec 0 d); [|discriminate]. intros H0; injection H0 as <-. rewrite <- (Z2N.id d) at 1 by assumption. apply FN_at. exact NS.
  - assert (M : forall (A : Type) (path : list N) (a : list N -> A) (b : A), (forall rest, path <> bs "/" ++ rest) -> match path with 47 :: _ => a path | _ => b end = b).
    { intros A [|c r] a b NS; [reflexivity|]. destruct c as [|q]; [reflexivity|]. repeat (destruct q as [q|q|]; try reflexivity). contradiction (NS r); reflexivity. }
    intros [d0 rest|path0 NS|d0 path0 NS]; unfold con_name.
    + cbv iota. reflexivity.
    + refine (M _ path0 (fun q => Some (bs "/proc/" ++ dec p ++ bs "/root" ++ q)) _ NS).
    + rewrite (M _ path0 (fun q => Some (bs "/proc/" ++ dec p ++ bs "/root" ++ q)) _ NS). assert (E : (Z.of_N d0 =? AT_FDCWD)%Z = false) by (unfold AT_FDCWD; lia). rewrite E.
      assert (E2 : (0 <=? Z.of_N d0)%Z = true) by lia. rewrite E2, N2Z.id. reflexivity.
Qed.
(** The context shown after a path is that of the file which the path names for the tracee: there is one exactly when
    contexts are wanted, the process is known, the name fits a buffer and the system gives a context.  The context
    expected is the one the policy gives to the real path and the mode of that file; it is not asked for
    unless mismatches are wanted. *)
Theorem C89_path : forall o y pid d path ctx exp, selinux_getfilecon o y pid d path = Some (ctx, exp) <->
  sec_on o = true /\ s_proc y pid <> 0 /\
  exists fname, file_named (s_proc y pid) d path fname /\ N.of_nat (length fname) < 4096 /\ s_getfilecon y fname = Some ctx /\
    exp = (if sec_mismatch o then olet r := s_realpath y fname in olet m := s_mode y r in s_label y r m else None).
Proof.
  intros o y pid d path ctx exp. unfold selinux_getfilecon. split.
  - destruct (sec_on o); cbn [negb]; [|discriminate]. destruct (N.eqb_spec (s_proc y pid) 0); [discriminate|]. destruct (con_name _ d path) as [fname|] eqn:CN; [|discriminate].
    apply con_name_named in CN. destruct (N.leb_spec 4096 (N.of_nat (length fname))); [discriminate|]. destruct (s_getfilecon y fname) as [c|] eqn:G; [|discriminate].
    intros H1. split; [reflexivity|]. split; [assumption|]. exists fname. split; [exact CN|]. split; [assumption|]. destruct (sec_mismatch o); cbn [negb] in H1.
    + destruct (s_realpath y fname) as [r|]; cbn [obind] in *; [destruct (s_mode y r); cbn [obind] in *|]; injection H1 as -> <-; auto.
    + injection H1 as -> <-; auto.
  - intros (-> & NP & fname & CN & L & G & ->). cbn [negb]. destruct (N.eqb_spec (s_proc y pid) 0); [contradiction|]. apply con_name_named in CN. rewrite CN.
    destruct (N.leb_spec 4096 (N.of_nat (length fname))); [lia|]. rewrite G. destruct (sec_mismatch o); cbn [negb]; [|reflexivity].
    destruct (s_realpath y fname) as [r|]; cbn [obind]; [destruct (s_mode y r); reflexivity|reflexivity].
Qed.
Print Assumptions C89_path.
(** The same for a descriptor: what its link in /proc leads to; the policy is asked for the path of the link. *)
Theorem C89_fd : forall o y pid fd ctx exp, selinux_getfdcon o y pid fd = Some (ctx, exp) <->
  sec_on o = true /\ (0 < pid)%Z /\ (0 <= fd)%Z /\
  exists p n, p = s_proc y (Z.to_N pid) /\ p <> 0 /\ Z.of_N n = fd /\
    let link := bs "/proc/" ++ dec p ++ bs "/fd/" ++ dec n in
    s_getfilecon y link = Some ctx /\
    exp = (if sec_mismatch o
           then olet r := s_link y p n in
                if N.of_nat (length r) <? 4096 then olet m := s_mode y link in s_label y r m else None
           else None).
Proof.
  intros o y pid fd ctx exp. unfold selinux_getfdcon. split.
  - destruct (sec_on o); cbn [negb orb]; [|discriminate]. destruct (Z.leb_spec pid 0); [discriminate|]. destruct (Z.ltb_spec fd 0); [discriminate|]. cbn [orb].
    destruct (N.eqb_spec (s_proc y (Z.to_N pid)) 0); [discriminate|]. intros H1. split; [reflexivity|]. split; [assumption|]. split; [assumption|].
    exists (s_proc y (Z.to_N pid)), (Z.to_N fd). split; [reflexivity|]. split; [assumption|]. split; [lia|]. cbv zeta.
    destruct (s_getfilecon y _) as [c|] eqn:G; [|discriminate]. destruct (sec_mismatch o); cbn [negb] in H1.
    + destruct (s_link y _ _) as [r|]; cbn [obind] in *; [|injection H1 as -> <-; auto]. rewrite N.ltb_antisym. destruct (4096 <=? N.of_nat (length r)); cbn [negb]; [injection H1 as -> <-; auto|].
      destruct (s_mode y _); cbn [obind]; injection H1 as -> <-; auto.
    + injection H1 as -> <-; auto.
  - intros (-> & P & F & p & n & -> & NP & <- & H). cbv zeta in H. destruct H as [G ->]. cbn [negb orb]. destruct (Z.leb_spec pid 0); [lia|]. destruct (Z.ltb_spec (Z.of_N n) 0); [lia|]. cbn [orb].
    destruct (N.eqb_spec (s_proc y (Z.to_N pid)) 0); [contradiction|]. rewrite N2Z.id, G. destruct (sec_mismatch o); cbn [negb]; [|reflexivity].
    destruct (s_link y _ n) as [r|]; cbn [obind]; [|reflexivity]. rewrite N.ltb_antisym. destruct (4096 <=? N.of_nat (length r)); cbn [negb]; [reflexivity|]. destruct (s_mode y _); reflexivity.
Qed.
Print Assumptions C89_fd.

Definition good (s : list N) : Prop := bytes_ok s /\ N.of_nat (length s) < 2^30.
(** The system gives byte strings shorter than a gigabyte. *)
Definition sys_ok (y : sys) : Prop :=
  (forall p c, s_getpidcon y p = Some c -> good c) /\ (forall f c, s_getfilecon y f = Some c -> good c) /\ (forall f m c, s_label y f m = Some c -> good c).
(** What is added to the output: nothing without a context; else the text in brackets, with a space before it for
    files and after it for processes (whose context has no expected one). *)
Theorem C89_shown : forall o x y, sys_ok y ->
  (forall pid d path, match selinux_getfilecon o y pid d path with
     | None => printfilecon o x y pid d path = Ok []
     | Some (ctx, exp) => exists t, context_text (sec_full o) ctx exp t /\ printfilecon o x y pid d path = Ok (bs " [" ++ t ++ bs "]")
     end) /\
  (forall pid fd, match selinux_getfdcon o y pid fd with
     | None => printfdcon o x y pid fd = Ok []
     | Some (ctx, exp) => exists t, context_text (sec_full o) ctx exp t /\ printfdcon o x y pid fd = Ok (bs " [" ++ t ++ bs "]")
     end) /\
  (forall pid, match s_getpidcon y (s_proc y pid) with
     | Some ctx => if sec_on o && negb (s_proc y pid =? 0)
                   then exists t, context_text (sec_full o) ctx None t /\ printpidcon o x y pid = Ok (bs "[" ++ t ++ bs "] ")
                   else printpidcon o x y pid = Ok []
     | None => printpidcon o x y pid = Ok []
     end).
Proof.
  intros o x y (SP & SF & SL). split; [|split].
  - intros pid d path. unfold printfilecon. destruct (selinux_getfilecon o y pid d path) as [[ctx exp]|] eqn:E; [|reflexivity]. apply C89_path in E as (_ & _ & fname & _ & _ & G & EX).
    destruct (C89_context o x ctx exp) as (t & -> & T); [eapply SF, G|eapply SF, G| |exists t; split; [exact T|reflexivity]].
    intros e ->. destruct (sec_mismatch o); [|discriminate]. destruct (s_realpath y fname) as [r|]; [|discriminate]. cbn [obind] in EX. destruct (s_mode y r); [|discriminate]. cbn [obind] in EX. symmetry in EX. exact (SL _ _ _ EX).
  - intros pid fd. unfold printfdcon. destruct (selinux_getfdcon o y pid fd) as [[ctx exp]|] eqn:E; [|reflexivity]. apply C89_fd in E as (_ & _ & _ & p & n & _ & _ & _ & H). cbv zeta in H. destruct H as [G EX].
    destruct (C89_context o x ctx exp) as (t & -> & T); [eapply SF, G|eapply SF, G| |exists t; split; [exact T|reflexivity]].
    intros e ->. destruct (sec_mismatch o); [|discriminate]. destruct (s_link y p n) as [r|]; [|discriminate]. cbn [obind] in EX. destruct (_ <? _); [|discriminate]. destruct (s_mode y _); [|discriminate]. cbn [obind] in EX. symmetry in EX. exact (SL _ _ _ EX).
  - intros pid. unfold printpidcon, selinux_getpidcon. destruct (s_getpidcon y (s_proc y pid)) as [ctx|] eqn:G.
    + destruct (sec_on o); cbn [negb andb]; [|reflexivity]. destruct (s_proc y pid =? 0) eqn:Z; cbn [negb]; [reflexivity|].
      destruct (C89_context o x ctx None) as (t & -> & T); [eapply SP, G|eapply SP, G|discriminate|exists t; split; [exact T|reflexivity]].
    + destruct (sec_on o); cbn [negb]; [|reflexivity]. destruct (s_proc y pid =? 0); reflexivity.
Qed.
Print Assumptions C89_shown.

(** a relative path under a descriptor, whose file should have another type *)
Definition ex_sys : sys :=
  {| s_proc := fun p => p; s_getpidcon := fun _ => Some (bs "u:r:init_t"); s_label := fun _ _ => Some (bs "u:r:etc_t:s0");
     s_getfilecon := fun f => if beqs f (bs "/proc/12/fd/3/x") then Some (bs "u:r:tmp_t:s0") else None;
     s_link := fun _ _ => None; s_mode := fun _ => Some 33188; s_realpath := fun _ => Some (bs "/etc/x") |}.
Example C89_shown_used : sys_ok ex_sys /\
  printfilecon {| sec_on := true; sec_full := false; sec_mismatch := true |} HEXSTR_NONE ex_sys 12 3 (bs "x") = Ok (bs " [tmp_t!!etc_t]") /\
  printfilecon {| sec_on := true; sec_full := false; sec_mismatch := true |} HEXSTR_NONE ex_sys 12 (-100) (bs "x") = Ok [] /\
  printpidcon {| sec_on := true; sec_full := true; sec_mismatch := true |} HEXSTR_NONE ex_sys 12 = Ok (bs "[u:r:init_t] ").
Proof.
  assert (G : forall s, forallb (fun c => c <? 256) s && (N.of_nat (length s) <? 2^30) = true -> good s).
  { intros s H. apply andb_true_iff in H as [H1 H2]. split; [|lia]. unfold bytes_ok. rewrite forallb_forall in H1. apply Forall_forall. intros c C. apply H1 in C. unfold is_byte. lia. }
  split; [|repeat split; reflexivity]. split; [|split].
  - intros p c E. injection E as <-. apply G. reflexivity.
  - intros f c E. cbn [s_getfilecon ex_sys] in E. destruct (beqs f _); [|discriminate]. injection E as <-. apply G. reflexivity.
  - intros f m c E. injection E as <-. apply G. reflexivity.
Qed.

(** For whatever calls a thread makes, one after the other, the context of a path is looked up from the directory that
    the call names for it -- but for fsconfig's path, and for the target of symlinkat, which are looked up from the
    working directory. *)
Theorem C89_dirfd_partial : forall cs,
  (forall c, In c cs -> match c with CSymlinkAt _ _ _ | CFsconfigPath _ _ => False | _ => True end) ->
  decode_calls cs = map starts_at cs.
Proof.
  intros cs H. unfold decode_calls. apply map_ext_in. intros c I. specialize (H c I). destruct c; try reflexivity; contradiction.
Qed.
Print Assumptions C89_dirfd_partial.
Theorem C89_dirfd_refuted : forall o y pid p aux path ctx, sec_on o = true -> sec_mismatch o = false -> s_proc y pid = p -> p <> 0 ->
  (forall rest, path <> bs "/" ++ rest) -> (aux <> -100)%Z -> N.of_nat (length path) < 1000 ->
  s_getfilecon y (bs "/proc/" ++ dec p ++ bs "/cwd/" ++ path) = Some ctx -> N.of_nat (length (dec p)) < 100 ->
  exists d, decode_calls [CFsconfigPath path aux] = [[(d, path)]] /\ [(d, path)] <> starts_at (CFsconfigPath path aux) /\
    selinux_getfilecon o y pid d path = Some (ctx, None).
Proof.
  intros o y pid p aux path ctx O M P NP NS NA L G LP. exists (-100)%Z. split; [reflexivity|]. split; [intros E; cbn [starts_at] in E; congruence|].
  apply C89_path. rewrite P, M. split; [exact O|]. split; [exact NP|]. eexists. split; [apply FN_cwd, NS|]. split; [|split; [exact G|reflexivity]].
  rewrite !app_length. change (length (bs "/proc/")) with 6%nat. change (length (bs "/cwd/")) with 5%nat. lia.
Qed.
Print Assumptions C89_dirfd_refuted.
(** fsconfig(4, FSCONFIG_SET_PATH, "source", "x", 3) in process 12: the context shown is that of x in the working directory *)
Example C89_dirfd_refuted_used :
  let y := {| s_proc := fun p => p; s_getpidcon := fun _ => None; s_label := fun _ _ => None; s_link := fun _ _ => None; s_mode := fun _ => None; s_realpath := fun _ => None;
              s_getfilecon := fun f => if beqs f (bs "/proc/12/cwd/x") then Some (bs "u:r:wrong_t") else if beqs f (bs "/proc/12/fd/3/x") then Some (bs "u:r:right_t") else None |} in
  map (map (fun q => printfilecon {| sec_on := true; sec_full := false; sec_mismatch := false |} HEXSTR_NONE y 12 (fst q) (snd q))) (decode_calls [CFsconfigPath (bs "x") 3; CAt 3 (bs "x")])
  = [[Ok (bs " [wrong_t]")]; [Ok (bs " [right_t]")]].
Proof. reflexivity. Qed.
