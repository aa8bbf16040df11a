(** C75: what is shown of a siginfo. *)
From Verif Require Import Base Printf BitsModel BitsSpec RetModel RetSpec RetProofs XlatModel XlatText ModeModel ModeSpec ModeProofs CompModel CompSpec CompProofs CompThms TickModel TickSpec TickThms InfoModel InfoSpec.
Local Open Scope N_scope.
Local Ltac comp := vm_compute; reflexivity.

(** ---- members ---- *)
Lemma number_S s off n : number_at s off (S n) = nth off s 0 + 256 * number_at s (S off) n.
Proof.
  unfold number_at. cbn [seq fold_right]. replace (off + 0)%nat with off by lia. rewrite N.pow_0_r, N.mul_1_r. f_equal. rewrite <- seq_shift.
  generalize (seq 0 n). intros l. induction l as [|i l IH]; [reflexivity|]. cbn [map fold_right]. rewrite IH. replace (off + S i)%nat with (S off + i)%nat by lia.
  rewrite Nat2N.inj_succ, N.pow_succ_r by lia. lia.
Qed.
Lemma skipn_step (s : list N) : forall off, skipn off s = match skipn off s with [] => [] | _ => nth off s 0 :: skipn (S off) s end /\ (skipn off s = [] -> nth off s 0 = 0 /\ skipn (S off) s = []).
Proof.
  induction s as [|c s IH]; intros [|off]; cbn; auto.
  - split; [reflexivity|discriminate].
  - destruct (IH off) as (A & B). split; [exact A|exact B].
Qed.
Lemma ld_number s n : forall off, ld s off n = number_at s off n.
Proof.
  induction n as [|n IH]; intros off; [reflexivity|]. rewrite number_S, <- IH. unfold ld. destruct (skipn_step s off) as (A & B).
  destruct (skipn off s) as [|c r] eqn:E.
  - destruct (B eq_refl) as (B1 & B2). rewrite B1, B2. rewrite !firstn_nil. reflexivity.
  - injection A as -> ->. reflexivity.
Qed.
Lemma number_lt s : Forall (fun b => b < 256) s -> forall n off, number_at s off n < 256 ^ N.of_nat n.
Proof.
  intros H n. induction n as [|n IH]; intros off; [reflexivity|]. rewrite number_S, Nat2N.inj_succ, N.pow_succ_r by lia. specialize (IH (S off)).
  assert (nth off s 0 < 256); [|lia]. destruct (nth_in_or_default off s 0) as [I| ->]; [|lia]. rewrite Forall_forall in H. apply H, I.
Qed.
Lemma number4 s off : Forall (fun b => b < 256) s -> number_at s off 4 < 2^32.
Proof. intros H. apply (number_lt s H 4). Qed.
Lemma number8 s off : Forall (fun b => b < 256) s -> number_at s off 8 < 2^64.
Proof. intros H. apply (number_lt s H 8). Qed.
Lemma signed4 s off : Forall (fun b => b < 256) s -> sgn32 (number_at s off 4) = signed_at s off 4.
Proof.
  intros H. pose proof (number4 s off H) as B. unfold sgn32, signed_at, u32. cbv zeta. rewrite N.mod_small by exact B. set (v := number_at s off 4) in *. clearbody v.
  change (2 ^ (8 * Z.of_nat 4))%Z with 4294967296%Z. change (2^31) with 2147483648. change (2^32)%Z with 4294967296%Z. change (4294967296 / 2)%Z with 2147483648%Z.
  destruct (v <? 2147483648) eqn:E; [replace (Z.of_N v <? 2147483648)%Z with true by lia|replace (Z.of_N v <? 2147483648)%Z with false by lia]; reflexivity.
Qed.
Lemma signed8 s off : Forall (fun b => b < 256) s -> sgn64 (number_at s off 8) = signed_at s off 8.
Proof.
  intros H. pose proof (number8 s off H) as B. unfold sgn64, signed_at. cbv zeta. set (v := number_at s off 8) in *. clearbody v.
  change (2 ^ (8 * Z.of_nat 8))%Z with 18446744073709551616%Z. change (2^63) with 9223372036854775808. change (2^64)%Z with 18446744073709551616%Z. change (18446744073709551616 / 2)%Z with 9223372036854775808%Z.
  destruct (v <? 9223372036854775808) eqn:E; [replace (Z.of_N v <? 9223372036854775808)%Z with true by lia|replace (Z.of_N v <? 9223372036854775808)%Z with false by lia]; reflexivity.
Qed.
Lemma number_cat s off a b : number_at s off (a + b) = number_at s off a + 256 ^ N.of_nat a * number_at s (off + a) b.
Proof.
  revert off. induction a as [|a IH]; intros off.
  - cbn [Nat.add]. replace (off + 0)%nat with off by lia. change (number_at s off 0) with 0. cbn. lia.
  - cbn [Nat.add]. rewrite !number_S, IH, Nat2N.inj_succ, N.pow_succ_r by lia. replace (S off + a)%nat with (off + S a)%nat by lia. lia.
Qed.

(** ---- codes ---- *)
Definition code_check (names : list (N * list N)) (x : xlat) : bool :=
  forallb (fun k => match xlookup x (N.of_nat k) with
                    | Some s => good_name s && nochar 124 s && nochar 60 s && opt_eqb (value_of names s) (N.of_nat k)
                    | None => true end) (seq 0 16).
Definition small (x : xlat) : Prop := forall v s, xlookup x v = Some s -> v < 16.
Lemma small_normal l : forallb (fun e => fst e <? 16) l = true -> small (normal l).
Proof. intros H v s E. apply lookup_in in E. rewrite forallb_forall in H. apply H in E. cbn [fst] in E. lia. Qed.
Lemma small_indexed d : (length d <= 16)%nat -> small {| ty := XT_INDEXED; data := d |}.
Proof. intros H v s E. unfold xlookup in E. cbn [ty data] in E. destruct (v <? N.of_nat (length d)) eqn:L; [lia|discriminate]. Qed.
Lemma code_in names x v s : small x -> code_check names x = true -> xlookup x v = Some s -> cst names s v /\ ~ In 42 s.
Proof.
  intros SM F E. pose proof (SM v s E) as B. unfold code_check in F. rewrite forallb_forall in F. specialize (F (N.to_nat v)). rewrite in_seq, N2Nat.id in F. specialize (F ltac:(lia)). rewrite E in F.
  apply andb_prop in F as (T & X). apply andb_prop in T as (T & C). apply andb_prop in T as (G & B').
  destruct (name_word s G) as (U & N42). split; [|exact N42]. exists s. split; [exact U|]. split; [apply nochar_in, B'|]. split; [apply nochar_in, C|apply opt_eqb_eq, X].
Qed.
Lemma si_codes_in signo x v s : si_codes signo = Some x -> xlookup x v = Some s -> cst (code_names signo) s v /\ ~ In 42 s.
Proof.
  unfold si_codes.
  assert (Z0 : small sigtrap_codes /\ small sigchld_codes /\ small sigpoll_codes /\ small sigprof_codes /\ small sigill_codes /\ small sigfpe_codes /\ small sigsegv_codes /\ small sigbus_codes /\ small sigsys_codes).
  { repeat split; first [apply small_normal; comp | apply small_indexed; cbn; lia]. }
  destruct Z0 as (Z1 & Z2 & Z3 & Z4 & Z5 & Z6 & Z7 & Z8 & Z9).
  assert (XI : forall a b : xlat, Some a = Some b -> a = b) by (intros a b H; congruence).
  repeat (match goal with |- context [signo =? ?k] => destruct (N.eqb_spec signo k) as [->|?] end; [intros H E; cbv iota in H; apply XI in H; subst x; (refine (code_in _ _ v s _ _ E); [assumption|comp])|]). discriminate.
Qed.
Lemma general_in signo v s : xlookup siginfo_codes v = Some s -> cst (code_names signo) s v /\ ~ In 42 s.
Proof.
  intros E. apply lookup_in in E. cbn [In] in E.
  assert (G : tab_cst (code_names 0) [(v, s)] = true).
  { repeat (destruct E as [E|E]; [injection E as <- <-; comp|]). destruct E. }
  assert (V : forall names w, value_of (code_names 0) w = Some v -> find (fun e => beqs (snd e) w) (code_names 0) <> None -> value_of (code_names 0 ++ names) w = Some v).
  { intros names w. unfold value_of. clear. generalize (code_names 0). intros l. induction l as [|e l IH]; cbn [find app]; [intros _ H; destruct (H eq_refl)|].
    destruct (beqs (snd e) w); [auto|exact IH]. }
  assert (FN : find (fun e => beqs (snd e) s) (code_names 0) <> None).
  { repeat (destruct E as [E|E]; [injection E as <- <-; vm_compute; discriminate|]). destruct E. }
  destruct (tab_cst_in (code_names 0) [(v, s)] v s G ltac:(left; reflexivity)) as ((w & U & A & B & C) & N42). split; [|exact N42].
  assert (UW : utext s s). { repeat (destruct E as [E|E]; [injection E as <- <-; apply utext_word; noin|]). destruct E. }
  assert (w = s). { specialize (U []). specialize (UW []). rewrite U in UW. cbn [uncomment] in UW. rewrite !app_nil_r in UW. exact UW. } subst w.
  exists s. split; [exact U|]. split; [exact A|]. split; [exact B|].
  assert (AP : exists r, code_names signo = code_names 0 ++ r).
  { exists (skipn 10 (code_names signo)). reflexivity. }
  destruct AP as (r & ->). apply V; assumption.
Qed.
Lemma code_lettered signo : lettered (code_names signo) = true.
Proof.
  assert (G : forall k, In k [4; 5; 7; 8; 11; 17; 29; 31; 0] -> lettered (code_names k) = true).
  { intros k H. cbn [In] in H. repeat (destruct H as [<-|H]; [comp|]). destruct H. }
  assert (D : In signo [4; 5; 7; 8; 11; 17; 29; 31; 0] \/ code_names signo = code_names 0).
  { destruct (in_dec N.eq_dec signo [4; 5; 7; 8; 11; 17; 29; 31; 0]) as [I|I]; [left; exact I|right]. unfold code_names. f_equal. cbn [In] in I.
    destruct signo as [|p]; [reflexivity|]. repeat (destruct p as [p|p|]; try reflexivity; try (exfalso; apply I; tauto)). }
  destruct D as [D|D]; [apply G, D|rewrite D; apply G; cbn; tauto].
Qed.
Lemma code_text st code signo : denotes (code_names signo) (print_si_code st code signo) code.
Proof.
  pose proof (code_lettered signo) as L. unfold print_si_code. cbv zeta.
  set (n := match xlookup siginfo_codes code with Some n => Some n | None => _ end).
  assert (N0 : forall s, n = Some s -> cst (code_names signo) s code /\ ~ In 42 s).
  { intros s E. unfold n in E. destruct (xlookup siginfo_codes code) as [s'|] eqn:E1; [injection E as <-; apply general_in, E1|].
    destruct (si_codes signo) as [x|] eqn:E2; [|discriminate]. eapply si_codes_in; eassumption. }
  clearbody n. apply den_denotes, cst_den. unfold print_xlat_ex. destruct st.
  - destruct n as [s|]; [apply N0; reflexivity|apply cst_hex, L].
  - apply cst_hex, L.
  - apply cst_comment; [apply cst_hex, L|]. intros s E. apply N0, E.
Qed.

(** ---- texts ---- *)
Lemma errno_lettered : lettered error_names = true.
Proof. comp. Qed.
Lemma err_text st e : denotes error_names (print_err_u st e) e.
Proof.
  pose proof errno_lettered as L. unfold print_err_u.
  assert (N0 : forall s, err_name e = Some s -> cst error_names s e /\ ~ In 42 s).
  { intros s E. unfold err_name in E. destruct (find _ errnoent) as [[v w]|] eqn:FD; [|discriminate]. injection E as <-.
    apply find_some in FD as (I & B). cbn [fst snd] in *. apply N.eqb_eq in B. subst v.
    apply (tab_cst_in error_names (map (fun x => (fst x, bs (snd x))) errnoent)); [comp|]. apply (in_map (fun x => (fst x, bs (snd x)))) in I. exact I. }
  apply den_denotes, cst_den. destruct (err_name e) as [s|]; [|apply cst_dec, L]. destruct st; [apply N0; reflexivity|apply cst_dec, L|].
  apply cst_comment; [apply cst_dec, L|]. intros s' E. injection E as <-. apply N0. reflexivity.
Qed.
Lemma call_ok st known nr : (fst known = None -> snd known = None) -> call_text st known (print_syscall_name st (fst known) (snd known) nr) nr.
Proof.
  destruct known as (n & p). cbn [fst snd]. intros K. unfold call_text, print_syscall_name. cbn [fst snd].
  assert (C : c_number (pr_num 10 nr) = Some (Z.of_N nr)) by apply vtext_c, vtext_u.
  destruct n as [n|].
  - destruct st; [|left; split; [left; reflexivity|rewrite app_nil_r; exact C]|].
    + right. exists n. split; [discriminate|]. split; [reflexivity|]. destruct p as [p|]; [left; split; [reflexivity|]; exists p; split; [reflexivity|cbn [app]; rewrite app_nil_r; reflexivity]|].
      right. exists (pr_num 10 nr), []. split; [reflexivity|exact C].
    + right. exists n. split; [discriminate|]. split; [reflexivity|]. right. exists (pr_num 10 nr), (match p with Some p => p | None => [] end). split; [reflexivity|exact C].
  - rewrite K by reflexivity. left. split; [right; reflexivity|]. destruct st; rewrite app_nil_r; exact C.
Qed.

(** ---- the structure ---- *)
Definition tailed (l : list (list N * list N)) : list N := concat (map (fun f => F (fst f) (snd f)) l).
Lemma fields_tailed n t l : fields ((n, t) :: l) = n ++ bs "=" ++ t ++ tailed l.
Proof.
  revert n t. induction l as [|(n', t') l IH]; intros n t; [unfold tailed; cbn [fields map concat]; rewrite app_nil_r; reflexivity|].
  change (fields ((n, t) :: (n', t') :: l)) with (n ++ bs "=" ++ t ++ bs ", " ++ fields ((n', t') :: l)). rewrite IH. unfold tailed at 2. cbn [map concat fst snd]. unfold F. fold (tailed l).
  rewrite <- !app_assoc. reflexivity.
Qed.
Lemma tailed_app a b : tailed (a ++ b) = tailed a ++ tailed b.
Proof. unfold tailed. rewrite map_app, concat_app. reflexivity. Qed.
Section Main.
Variable E : sienv.
Variable o : others.
Variable st : xstyle_t.
Variable s : list N.
Hypothesis BY : Forall (fun b => b < 256) s.
Hypothesis HS : sigs E = generic_sigs.
Hypothesis HP : pid_text E = pids o.
Hypothesis HF : fd_text E = fds o.
Hypothesis HC : sysname E = calls o.
Hypothesis HN : forall nr a, fst (calls o nr a) = None -> snd (calls o nr a) = None.
Hypothesis HK : exists k, k <= 9 /\ clk E = (10 ^ Z.of_N k)%Z /\ rate o = 10 ^ k.
Definition seg (l : layout) (c : Z) (ms : list member) (out : list N) : Prop := exists ts, out = tailed ts /\ listed o st s l c ms ts.
Lemma seg_nil l c : seg l c [] [].
Proof. exists []. split; [reflexivity|constructor]. Qed.
Lemma seg_cons l c m ms t out : shown o st s m t -> seg l c ms out -> seg l c (m :: ms) (F (name m) t ++ out).
Proof. intros H (ts & -> & L). exists ((name m, t) :: ts). split; [reflexivity|constructor; assumption]. Qed.
Lemma seg_one l c m t : shown o st s m t -> seg l c [m] (F (name m) t).
Proof. intros H. rewrite <- (app_nil_r (F _ _)). apply seg_cons; [exact H|apply seg_nil]. Qed.
Lemma seg_app l c a b x y : seg l c a x -> seg l c b y -> seg l c (a ++ b) (x ++ y).
Proof.
  intros (ts & -> & L) (us & -> & L'). exists (ts ++ us). split; [symmetry; apply tailed_app|]. clear -L L'. induction L; cbn [app]; [exact L'|constructor; assumption|apply listed_left_out; assumption].
Qed.
Lemma seg_skip l c ms : Forall (left_out s l c) ms -> seg l c ms [].
Proof. intros H. exists []. split; [reflexivity|]. induction H; [constructor|apply listed_left_out; assumption]. Qed.
Lemma zc z : c_number (pr_z z) = Some z.
Proof. apply vtext_c, vtext_z. Qed.
Lemma hexc n : c_number (pr_hex n) = Some (Z.of_N n).
Proof. apply vtext_c, vtext_x. Qed.
Lemma sh_pid : shown o st s si_pid (pid_text E (sgn32 (InfoModel.si_pid s))).
Proof. unfold shown, InfoModel.si_pid. cbn [as_ off size si_pid]. rewrite ld_number, signed4, HP by exact BY. reflexivity. Qed.
Lemma sh_uid : shown o st s si_uid (print_id (InfoModel.si_uid s)).
Proof.
  unfold shown, InfoModel.si_uid. cbn [as_ off size si_uid]. rewrite ld_number. pose proof (number4 s 20 BY) as B. set (v := number_at s 20 4) in *. clearbody v. unfold print_id.
  assert (X : (sgn32 v =? -1)%Z = (v =? 2^32 - 1)). { unfold sgn32, u32. rewrite N.mod_small by exact B. change (2^31) with 2147483648. change (2^32 - 1) with 4294967295. change (2^32)%Z with 4294967296%Z. change (2^32) with 4294967296 in B. destruct (v <? 2147483648) eqn:Q; lia. }
  rewrite X. destruct (v =? 2^32 - 1); [reflexivity|apply vtext_c, vtext_u].
Qed.
Lemma sh_signed4 m : as_ m = Signed -> size m = 4%nat -> shown o st s m (pr_z (sgn32 (ld s (off m) 4))).
Proof. intros A B. unfold shown. rewrite A, B, ld_number, signed4 by exact BY. apply zc. Qed.
Lemma sh_signed8 m : as_ m = Signed -> size m = 8%nat -> shown o st s m (pr_z (sgn64 (ld s (off m) 8))).
Proof. intros A B. unfold shown. rewrite A, B, ld_number, signed8 by exact BY. apply zc. Qed.
Lemma sh_hex m : as_ m = Hexadecimal -> shown o st s m (pr_hex (ld s (off m) (size m))).
Proof. intros A. unfold shown. rewrite A, ld_number. apply hexc. Qed.
Lemma sh_addr m : as_ m = Address -> shown o st s m (printaddr (ld s (off m) (size m))).
Proof. intros A. unfold shown. rewrite A, ld_number. apply address_text. Qed.
Lemma sh_fd : shown o st s si_fd (fd_text E (sgn32 (InfoModel.si_fd s))).
Proof. unfold shown, InfoModel.si_fd. cbn [as_ off size si_fd]. rewrite ld_number, signed4, HF by exact BY. reflexivity. Qed.
Lemma sh_ticks m : as_ m = Ticks -> shown o st s m (print_clock_t st (clk E) (ld s (off m) (size m))).
Proof. intros A. unfold shown. rewrite A, ld_number. destruct HK as (k & K & -> & ->). apply C74_clock, K. Qed.
Lemma sh_sig : shown o st s si_termsig (printsignal (sigs E) st (InfoModel.si_status s)).
Proof.
  unfold shown, InfoModel.si_status. cbn [as_ off size si_termsig]. rewrite ld_number, HS. pose proof (number4 s 24 BY) as B. set (v := number_at s 24 4) in *. clearbody v.
  destruct (C72_signal st v B) as (X & Y). unfold signal_text. destruct (N.lt_ge_cases v (2^31)) as [L|L]; [left|right]; auto.
Qed.
Lemma sh_num m : as_ m = Unsigned -> shown o st s m (pr_num 10 (ld s (off m) (size m))).
Proof. intros A. unfold shown. rewrite A, ld_number. apply vtext_c, vtext_u. Qed.
Lemma sh_ptype : shown o st s si_perf_type (printxval st perf_type_id (InfoModel.si_perf_type s) (Some (bs "PERF_TYPE_???"))).
Proof.
  unfold shown, InfoModel.si_perf_type. cbn [as_ off size si_perf_type]. rewrite ld_number. apply den_denotes, cst_den, xvals_cst; [comp|intros x X; injection X as <-; noin|].
  intros x X. apply lookup_in_indexed in X; [|comp]. eapply (tab_cst_in perf_types); [|exact X]. comp.
Qed.
Lemma sh_pflags : shown o st s si_perf_flags (printflags_in st sigtrap_perf_flags (InfoModel.si_perf_flags s) (Some (bs "TRAP_PERF_FLAG_???"))).
Proof.
  unfold shown, InfoModel.si_perf_flags. cbn [as_ off size si_perf_flags]. rewrite ld_number. apply den_denotes, flags_den; [comp|intros x X; injection X as <-; noin|comp|right; discriminate].
Qed.
Lemma sh_arch : shown o st s si_arch (printxval st audit_arch (InfoModel.si_arch s) (Some (bs "AUDIT_ARCH_???"))).
Proof.
  unfold shown, InfoModel.si_arch. cbn [as_ off size si_arch]. rewrite ld_number. apply den_denotes, cst_den, xvals_cst; [comp|intros x X; injection X as <-; noin|].
  intros x X. apply lookup_in in X. eapply (tab_cst_in arch_names); [|exact X]. comp.
Qed.
Lemma sh_call : shown o st s si_syscall (print_syscall_name st (fst (sysname E (InfoModel.si_syscall s) (InfoModel.si_arch s))) (snd (sysname E (InfoModel.si_syscall s) (InfoModel.si_arch s))) (InfoModel.si_syscall s)).
Proof.
  unfold shown, InfoModel.si_syscall, InfoModel.si_arch. cbn [as_ off size si_syscall si_arch]. rewrite !ld_number, HC. apply call_ok, HN.
Qed.
Lemma seg_source l c : seg l c [si_pid; si_uid] (printsigsource E s).
Proof. apply (seg_cons l c si_pid); [apply sh_pid|]. apply (seg_one l c si_uid), sh_uid. Qed.
Lemma seg_value l c : seg l c [si_int; si_ptr] (printsigval s).
Proof. apply (seg_cons l c si_int); [apply (sh_signed4 si_int); reflexivity|]. apply (seg_one l c si_ptr), (sh_addr si_ptr). reflexivity. Qed.
Lemma seg_poll l c : seg l c [si_band; si_fd] (F (bs "si_band") (pr_z (sgn64 (InfoModel.si_band s))) ++ F (bs "si_fd") (fd_text E (sgn32 (InfoModel.si_fd s)))).
Proof. apply (seg_cons l c si_band); [apply (sh_signed8 si_band); reflexivity|]. apply (seg_one l c si_fd), sh_fd. Qed.
Lemma seg_addr l c : seg l c [si_addr] (F (bs "si_addr") (printaddr (InfoModel.si_addr s))).
Proof. apply (seg_one l c si_addr), (sh_addr si_addr). reflexivity. Qed.

Lemma union_ok code signo : code = sgn32 (si_code s) -> signo = si_signo s -> covered signo code -> cleared s (siginfo_layout signo code) -> (siginfo_layout signo code = FaultPerf -> perf E = true) ->
  exists out, print_si_info E st s = (if negb (InfoModel.si_errno s =? 0) then F (bs "si_errno") (print_err_u st (InfoModel.si_errno s)) else []) ++ out /\
    seg (siginfo_layout signo code) code (members (siginfo_layout signo code) code) out.
Proof.
  intros EC ES CV CL PF. unfold print_si_info. cbv zeta. rewrite <- EC, <- ES. eexists. split; [reflexivity|].
  destruct (Z.leb_spec code 0) as [H|H].
  - unfold siginfo_layout in *. replace (0 <? code)%Z with false in * by lia. cbn [andb] in *.
    destruct (Z.eqb_spec code 0) as [X|X]; [subst code; rewrite X; apply seg_source|].
    destruct (Z.eqb_spec code (-6)) as [X6|X6].
    { rewrite X6. cbn [Z.eqb Z.ltb Z.compare Pos.eqb members]. replace (printsigsource E s) with (printsigsource E s ++ []) by apply app_nil_r.
      apply (seg_app _ _ [_; _] [_; _]); [apply seg_source|]. apply seg_skip. apply Forall_cons; [left; auto|]. apply Forall_cons; [left; auto|]. apply Forall_nil. }
    destruct (Z.eqb_spec code (-2)) as [X2|X2].
    { cbn [members]. apply (seg_cons _ _ si_timerid); [apply (sh_hex si_timerid); reflexivity|]. apply (seg_cons _ _ si_overrun); [apply (sh_signed4 si_overrun); reflexivity|apply seg_value]. }
    destruct (Z.eqb_spec code (-5)) as [X5|X5]; [apply seg_poll|].
    replace (code <? 0)%Z with true by lia. cbn [members]. apply (seg_app _ _ [_; _] [_; _]); [apply seg_source|].
    unfold InfoModel.si_ptr. rewrite ld_number. destruct (N.eqb_spec (number_at s 24 8) 0) as [Z0|Z0]; cbn [negb]; [|apply seg_value].
    apply seg_skip. apply Forall_cons; [left; auto|]. apply Forall_cons; [left; auto|]. apply Forall_nil.
  - destruct CV as [CV|CV]; [lia|].
    destruct (N.eqb_spec signo 17) as [S17|S17].
    { subst signo. rewrite S17 in *. cbn [own_codes] in CV. unfold siginfo_layout. replace ((0 <? code)%Z && (code <? 128)%Z) with true by lia. cbn [own_codes]. replace (code <=? 6)%Z with true by lia.
      change (match code with _ => Child end) with Child. cbn [members].
      apply (seg_app _ _ [_; _] [_; _; _]); [apply seg_source|].
      apply (seg_app _ _ [_] [_; _]).
      - destruct (code =? 1)%Z; [apply (seg_one _ _ si_exit), (sh_signed4 si_exit); reflexivity|apply (seg_one _ _ si_termsig), sh_sig].
      - apply (seg_cons _ _ si_utime); [apply (sh_ticks si_utime); reflexivity|]. apply (seg_one _ _ si_stime), (sh_ticks si_stime). reflexivity. }
    assert (OWN : forall n lim l, signo = n -> own_codes n = Some (lim, l) -> (lim < 128)%Z -> own_codes signo = Some (lim, l) /\ (code <= lim)%Z /\ (0 <? code)%Z && (code <? 128)%Z = true).
    { intros n lim l -> O B. rewrite O in CV. split; [exact O|]. split; [exact CV|lia]. }
    destruct (N.eqb_spec signo 4) as [X4|X4]; cbn [orb].
    { destruct (OWN 4 _ _ X4 eq_refl eq_refl) as (O & B & G). unfold siginfo_layout. rewrite G, O. replace (code <=? 11)%Z with true by lia. rewrite X4. apply seg_addr. }
    destruct (N.eqb_spec signo 8) as [X|X].
    { destruct (OWN 8 _ _ X eq_refl eq_refl) as (O & B & G). unfold siginfo_layout. rewrite G, O. replace (code <=? 15)%Z with true by lia. rewrite X. apply seg_addr. }
    destruct (N.eqb_spec signo 7) as [X7|X7].
    { destruct (OWN 7 _ _ X7 eq_refl eq_refl) as (O & B & G). unfold siginfo_layout. rewrite G, O. replace (code <=? 5)%Z with true by lia. rewrite X7.
      assert (K : code = 1%Z \/ code = 2%Z \/ code = 3%Z \/ code = 4%Z \/ code = 5%Z) by lia. clear -K BY.
      repeat (destruct K as [->|K]; [cbn [Z.eqb Pos.eqb orb members]; first [rewrite app_nil_r; apply seg_addr | apply (seg_app _ _ [_] [_]); [apply seg_addr|apply (seg_one _ _ si_addr_lsb), (sh_hex si_addr_lsb); reflexivity]]|]).
      subst code. cbn [Z.eqb Pos.eqb orb members]. apply (seg_app _ _ [_] [_]); [apply seg_addr|apply (seg_one _ _ si_addr_lsb), (sh_hex si_addr_lsb); reflexivity]. }
    destruct (N.eqb_spec signo 11) as [X11|X11].
    { destruct (OWN 11 _ _ X11 eq_refl eq_refl) as (O & B & G). unfold siginfo_layout. rewrite G, O. replace (code <=? 10)%Z with true by lia. rewrite X11.
      destruct (Z.eqb_spec code 3) as [->|N3].
      { cbn [members]. apply (seg_app _ _ [_] [_; _]); [apply seg_addr|]. apply (seg_cons _ _ si_lower); [apply (sh_addr si_lower); reflexivity|]. apply (seg_one _ _ si_upper), (sh_addr si_upper). reflexivity. }
      destruct (Z.eqb_spec code 4) as [->|N4].
      { cbn [members]. apply (seg_app _ _ [_] [_]); [apply seg_addr|]. apply (seg_one _ _ si_pkey), (sh_num si_pkey). reflexivity. }
      assert (K : code = 1%Z \/ code = 2%Z \/ (5 <= code <= 10)%Z) by lia. rewrite app_nil_r. clear -K BY.
      destruct K as [->|[->|K]]; [apply seg_addr|apply seg_addr|].
      assert (K' : code = 5%Z \/ code = 6%Z \/ code = 7%Z \/ code = 8%Z \/ code = 9%Z \/ code = 10%Z) by lia. clear K.
      repeat (destruct K' as [->|K']; [apply seg_addr|]). subst code. apply seg_addr. }
    destruct (N.eqb_spec signo 5) as [X5|X5].
    { destruct (OWN 5 _ _ X5 eq_refl eq_refl) as (O & B & G). unfold siginfo_layout in *. rewrite G, O in *. replace (code <=? 6)%Z with true in * by lia. rewrite X5 in *.
      destruct (Z.eqb_spec code 6) as [->|N6].
      { rewrite PF by reflexivity. cbn [andb members]. apply (seg_app _ _ [_] [_; _; _]); [apply seg_addr|]. apply (seg_cons _ _ si_perf_data); [apply (sh_hex si_perf_data); reflexivity|].
        apply (seg_cons _ _ si_perf_type); [apply sh_ptype|]. apply (seg_one _ _ si_perf_flags), sh_pflags. }
      rewrite andb_false_r, app_nil_r. assert (K : code = 1%Z \/ code = 2%Z \/ code = 3%Z \/ code = 4%Z \/ code = 5%Z) by lia. clear -K BY.
      repeat (destruct K as [->|K]; [apply seg_addr|]). subst code. apply seg_addr. }
    destruct (N.eqb_spec signo 29) as [X29|X29].
    { destruct (OWN 29 _ _ X29 eq_refl eq_refl) as (O & B & G). unfold siginfo_layout. rewrite G, O. replace (code <=? 6)%Z with true by lia. replace (1 <=? code)%Z with true by lia. cbn [andb]. rewrite X29. apply seg_poll. }
    destruct (N.eqb_spec signo 31) as [X31|X31].
    { destruct (OWN 31 _ _ X31 eq_refl eq_refl) as (O & B & G). unfold siginfo_layout. rewrite G, O. replace (code <=? 2)%Z with true by lia. rewrite X31. cbn [members].
      apply (seg_cons _ _ si_call_addr); [apply (sh_addr si_call_addr); reflexivity|]. apply (seg_cons _ _ si_syscall); [apply sh_call|]. apply (seg_one _ _ si_arch), sh_arch. }
    assert (O : own_codes signo = None).
    { clear -S17 X X4 X7 X11 X5 X29 X31. unfold own_codes. destruct signo as [|p]; [reflexivity|]. repeat (destruct p as [p|p|]; try reflexivity; try (exfalso; lia)). }
    rewrite O in CV. assert (LK : siginfo_layout signo code = Kill).
    { unfold siginfo_layout. rewrite O. destruct ((0 <? code)%Z && (code <? 128)%Z) eqn:G; [replace (code <=? 6)%Z with false by lia; reflexivity|].
      replace (code =? -2)%Z with false by lia. replace (code =? -5)%Z with false by lia. replace (code <? 0)%Z with false by lia. reflexivity. }
    rewrite LK in *. specialize (CL eq_refl). unfold InfoModel.si_ptr. rewrite ld_number, CL. cbn [N.eqb negb]. rewrite app_nil_r. cbn [members].
    unfold InfoModel.si_pid, InfoModel.si_uid. rewrite !ld_number. pose proof (number_cat s 16 4 4) as NC. cbn [Nat.add] in NC.
    destruct (negb (number_at s 16 4 =? 0) || negb (number_at s 20 4 =? 0)) eqn:Q; [apply seg_source|]. apply seg_skip.
    assert (Z0 : number_at s 16 8 = 0). { rewrite NC. assert (number_at s 16 4 = 0 /\ number_at s 20 4 = 0) as (-> & ->) by (apply orb_false_iff in Q; lia). reflexivity. }
    apply Forall_cons; [right; auto|]. apply Forall_cons; [right; auto|]. apply Forall_nil.
Qed.
End Main.

(** What is shown of the siginfo of a signal: its name, its code, the error if there is one, and the members the kernel
    fills in for that signal and code. *)
Theorem C75_siginfo E o st s k :
  sigs E = generic_sigs -> pid_text E = pids o -> fd_text E = fds o -> sysname E = calls o ->
  (forall nr a, fst (calls o nr a) = None -> snd (calls o nr a) = None) -> (* a prefix comes with a name *)
  k <= 9 -> clk E = (10 ^ Z.of_N k)%Z -> rate o = 10 ^ k ->
  is_siginfo s -> let signo := number_at s 0 4 in let code := signed_at s 8 4 in let l := siginfo_layout signo code in
  signo <> 0 -> covered signo code -> cleared s l -> (l = FaultPerf -> perf E = true) ->
  exists tsig tcode err ts, printsiginfo E st s = struct_text ((bs "si_signo", tsig) :: (bs "si_code", tcode) :: err ++ ts) /\
    signal_text tsig signo /\ denotes (code_names signo) tcode (number_at s 8 4) /\
    (if number_at s 4 4 =? 0 then err = [] else exists t, err = [(bs "si_errno", t)] /\ denotes error_names t (number_at s 4 4)) /\
    listed o st s l code (members l code) ts.
Proof.
  intros HS HP HF HC HN K CK RK (LN & BY). cbv zeta. intros S0 CV CL PF.
  destruct (union_ok E o st s BY HS HP HF HC HN ltac:(exists k; auto) (signed_at s 8 4) (number_at s 0 4)) as (out & EQ & ts & -> & LI); try assumption.
  { unfold si_code. rewrite ld_number, signed4 by exact BY. reflexivity. }
  { unfold si_signo. rewrite ld_number. reflexivity. }
  set (err := if number_at s 4 4 =? 0 then [] else [(bs "si_errno", print_err_u st (number_at s 4 4))]).
  exists (printsignal (sigs E) st (number_at s 0 4)), (print_si_code st (number_at s 8 4) (number_at s 0 4)), err, ts.
  split; [|split; [|split; [apply code_text|split; [|exact LI]]]].
  - unfold printsiginfo, struct_text. rewrite fields_tailed, EQ. unfold si_signo, si_code, InfoModel.si_errno. rewrite !ld_number.
    destruct (N.eqb_spec (number_at s 0 4) 0) as [Z0|_]; [contradiction|]. cbn [negb]. f_equal. unfold tailed at 2. cbn [map concat fst snd]. fold (tailed (err ++ ts)). rewrite tailed_app.
    assert (TE : tailed err = (if negb (number_at s 4 4 =? 0) then F (bs "si_errno") (print_err_u st (number_at s 4 4)) else [])).
    { unfold err. destruct (number_at s 4 4 =? 0); [reflexivity|]. unfold tailed. cbn [map concat fst snd negb]. apply app_nil_r. }
    rewrite TE. rewrite <- !app_assoc. reflexivity.
  - rewrite HS. pose proof (number4 s 0 BY) as B. destruct (C72_signal st (number_at s 0 4) B) as (X & Y). unfold signal_text. destruct (N.lt_ge_cases (number_at s 0 4) (2^31)) as [L|L]; [left|right]; auto.
  - unfold err. destruct (number_at s 4 4 =? 0); [reflexivity|]. eexists. split; [reflexivity|apply err_text].
Qed.
(** No signal *)
Theorem C75_none E st s : number_at s 0 4 = 0 -> printsiginfo E st s = bs "{}".
Proof. intros H. unfold printsiginfo, si_signo. rewrite ld_number, H. reflexivity. Qed.
Lemma field_in c n t : forall l, In (n, t) l -> In c n -> In c (struct_text l).
Proof.
  intros l H I. unfold struct_text. apply in_app_iff. right. apply in_app_iff. left.
  induction l as [|(n', t') l IH]; [destruct H|]. destruct l as [|p l].
  - destruct H as [H|[]]. injection H as <- <-. cbn [fields]. apply in_app_iff. left. exact I.
  - change (fields ((n', t') :: p :: l)) with (n' ++ bs "=" ++ t' ++ bs ", " ++ fields (p :: l)). destruct H as [H|H].
    + injection H as <- <-. apply in_app_iff. left. exact I.
    + do 4 (apply in_app_iff; right). apply IH, H.
Qed.
(** an environment for the cases below *)
Definition env0 (prf : bool) : sienv :=
  {| sigs := generic_sigs; pid_text := pr_z; fd_text := pr_z; clk := 100; sysname := fun nr a => if (nr =? 59) && (a =? 0xc000003e) then (Some (bs "execve"), Some (bs "__NR_")) else (None, None); perf := prf |}.
Definition others0 : others := {| pids := pr_z; fds := pr_z; rate := 100; calls := sysname (env0 true) |}.
Fixpoint le_bytes (n : nat) (v : N) : list N := match n with O => [] | S n => v mod 256 :: le_bytes n (v / 256) end.
(** the words of a siginfo_t on x86_64 *)
Definition info (signo errno code : N) (u : list N) : list N :=
  let a := le_bytes 4 signo ++ le_bytes 4 errno ++ le_bytes 4 code ++ le_bytes 4 0 ++ concat (map (le_bytes 4) u) in a ++ repeat 0 (128 - length a).
Definition told (E : sienv) (o : others) (st : xstyle_t) (s : list N) : Prop :=
  let signo := number_at s 0 4 in let code := signed_at s 8 4 in let l := siginfo_layout signo code in
  exists tsig tcode err ts, printsiginfo E st s = struct_text ((bs "si_signo", tsig) :: (bs "si_code", tcode) :: err ++ ts) /\ listed o st s l code (members l code) ts.
(** fcntl(fd, F_SETSIG, SIGUSR1): the descriptor that became readable is shown as a value, and the band as a sender. *)
Definition io_usr1 : list N := info 10 0 1 [65; 0; 5; 0].
Theorem C75_poll_refuted : is_siginfo io_usr1 /\ siginfo_layout 10 1 = Poll /\ cleared io_usr1 Poll /\
  printsiginfo (env0 true) XABBREV io_usr1 = bs "{si_signo=SIGUSR1, si_code=0x1, si_pid=65, si_uid=0, si_int=5, si_ptr=0x5}" /\ ~ told (env0 true) others0 XABBREV io_usr1.
Proof.
  split; [split; [reflexivity|]; apply Forall_forall; intros b H; cbn [In] in H; vm_compute in H; repeat (destruct H as [<-|H]; [reflexivity|]); destruct H|].
  split; [reflexivity|]. split; [intros H; discriminate H|]. 
  assert (T : printsiginfo (env0 true) XABBREV io_usr1 = bs "{si_signo=SIGUSR1, si_code=0x1, si_pid=65, si_uid=0, si_int=5, si_ptr=0x5}") by comp.
  split; [exact T|]. intros (a & b & e & ts & H & L). rewrite T in H. clear T.
  replace (siginfo_layout (number_at io_usr1 0 4) (signed_at io_usr1 8 4)) with Poll in L by comp. cbn [members] in L.
  inversion L as [|m t ms us SH L' |m ms us LO L']; subst.
  - assert (IN : In 98 (bs "{si_signo=SIGUSR1, si_code=0x1, si_pid=65, si_uid=0, si_int=5, si_ptr=0x5}")).
    { rewrite H. apply (field_in 98 (bs "si_band") t); [right; right; apply in_app_iff; right; left; reflexivity|vm_compute; tauto]. }
    vm_compute in IN. repeat (destruct IN as [IN|IN]; [discriminate IN|]). destruct IN.
  - destruct LO as [(X & _)|(X & _)]; discriminate X.
Qed.
(** The stop of a tracee at a ptrace event, as PTRACE_GETSIGINFO tells it: the tracee's IDs are shown as an address. *)
Definition event_stop : list N := info 5 0 0x305 [1000; 1000].
Theorem C75_ptrace_refuted : is_siginfo event_stop /\ siginfo_layout 5 0x305 = Kill /\ cleared event_stop Kill /\
  printsiginfo (env0 true) XABBREV event_stop = bs "{si_signo=SIGTRAP, si_code=0x305, si_addr=0x3e8000003e8}" /\ ~ told (env0 true) others0 XABBREV event_stop.
Proof.
  split; [split; [reflexivity|]; apply Forall_forall; intros b H; vm_compute in H; repeat (destruct H as [<-|H]; [reflexivity|]); destruct H|].
  split; [reflexivity|]. split; [intros _; comp|].
  assert (T : printsiginfo (env0 true) XABBREV event_stop = bs "{si_signo=SIGTRAP, si_code=0x305, si_addr=0x3e8000003e8}") by comp.
  split; [exact T|]. intros (a & b & e & ts & H & L). rewrite T in H. clear T.
  replace (siginfo_layout (number_at event_stop 0 4) (signed_at event_stop 8 4)) with Kill in L by comp. cbn [members] in L.
  inversion L as [|m t ms us SH L' |m ms us LO L']; subst.
  - assert (IN : In 112 (bs "{si_signo=SIGTRAP, si_code=0x305, si_addr=0x3e8000003e8}")).
    { rewrite H. apply (field_in 112 (bs "si_pid") t); [right; right; apply in_app_iff; right; left; reflexivity|vm_compute; tauto]. }
    vm_compute in IN. repeat (destruct IN as [IN|IN]; [discriminate IN|]). destruct IN.
  - destruct LO as [(X & _)|(_ & _ & X)]; [discriminate X|]. vm_compute in X. discriminate X.
Qed.

Print Assumptions C75_siginfo.
Print Assumptions C75_none.
Print Assumptions C75_poll_refuted.
Print Assumptions C75_ptrace_refuted.

(** ---- cases ---- *)
Example ex_child : printsiginfo (env0 true) XABBREV (info 17 0 1 [4242; 1000; 3; 0; 150; 0; 7; 0]) =
  bs "{si_signo=SIGCHLD, si_code=CLD_EXITED, si_pid=4242, si_uid=1000, si_status=3, si_utime=150 /* 1.50 s */, si_stime=7 /* 0.07 s */}".
Proof. comp. Qed.
Example ex_killed : printsiginfo (env0 true) XABBREV (info 17 0 2 [4242; 1000; 9]) =
  bs "{si_signo=SIGCHLD, si_code=CLD_KILLED, si_pid=4242, si_uid=1000, si_status=SIGKILL, si_utime=0, si_stime=0}".
Proof. comp. Qed.
Example ex_segv : printsiginfo (env0 true) XABBREV (info 11 0 4 [4096; 0; 0; 0; 7]) = bs "{si_signo=SIGSEGV, si_code=SEGV_PKUERR, si_addr=0x1000, si_pkey=7}".
Proof. comp. Qed.
Example ex_sys : printsiginfo (env0 true) XABBREV (info 31 38 1 [4096; 0; 59; 0xc000003e]) =
  bs "{si_signo=SIGSYS, si_code=SYS_SECCOMP, si_errno=ENOSYS, si_call_addr=0x1000, si_syscall=__NR_execve, si_arch=AUDIT_ARCH_X86_64}".
Proof. comp. Qed.
Example ex_queue : printsiginfo (env0 true) XVERBOSE (info 34 0 4294967295 [1; 4294967295; 5; 1]) =
  bs "{si_signo=34 /* SIGRT_2 */, si_code=0xffffffff /* SI_QUEUE */, si_pid=1, si_uid=-1, si_int=5, si_ptr=0x100000005}".
Proof. comp. Qed.
(** each of them meets the hypotheses of C75_siginfo *)
Example ex_covered : covered 17 1 /\ covered 17 2 /\ covered 11 4 /\ covered 31 1 /\ covered 34 (-1) /\ covered 14 0x80 /\ covered 29 6.
Proof. unfold covered. cbn. lia. Qed.
