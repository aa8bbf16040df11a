(** C84: what the options of the command line mean. *)
From Verif Require Import Base StrtouModel StrtouSpec StrtouThms QualModel QualSpec QualProofs OptModel OptSpec OptProofs OptStep.
Local Open Scope N_scope.

Theorem C84_expression : forall s k v, qualify s = (k, v) <-> means s k v.
Proof.
  intros s k v. split.
  - intros E. pose proof (qualify_means s) as M. rewrite E in M. exact M.
  - intros M. destruct (qualify s) as [k' v'] eqn:E. pose proof (qualify_means s) as M'. rewrite E in M'. destruct (means_fun _ _ _ _ _ M M') as [-> ->]. reflexivity.
Qed.
Print Assumptions C84_expression.

Lemma has_more p l o l' : has p (l ++ [o]) = true -> has p (l ++ o :: l') = true.
Proof. unfold has. intros H. apply existsb_exists in H. destruct H as (a & J & Pa). apply existsb_exists. exists a. split; [|exact Pa]. apply in_app_or in J. apply in_or_app. destruct J as [J|[<-|[]]]; [left; exact J|right; left; reflexivity]. Qed.
Lemma options_run e l' : forall l x, raw1 e l x -> raw2 l x -> (forall o, In o l -> wf e o) ->
  match options e x l' with
  | Ok x' => (forall o, In o (l ++ l') -> wf e o) /\ raw1 e (l ++ l') x' /\ raw2 (l ++ l') x'
  | Die => (exists o, In o (l ++ l') /\ ~ wf e o) \/ (has is_c (l ++ l') = true /\ has is_C (l ++ l') = true)
  | Undef => False
  end.
Proof.
  induction l' as [|o l' IH]; intros l x R1 R2 W; cbn [options].
  - rewrite app_nil_r. split; [exact W|]. split; assumption.
  - pose proof (step e l x o R1 R2) as H. destruct (option1 e x o) as [x'| |]; cbn [rbind].
    + destruct H as (Wo & R1' & R2'). specialize (IH (l ++ [o]) x' R1' R2'). rewrite <- app_assoc in IH. apply IH. intros a J. apply in_app_or in J. destruct J as [J|[<-|[]]]; [exact (W a J)|exact Wo].
    + destruct H as [H|[H H']]; [left; exists o; split; [apply in_or_app; right; left; reflexivity|exact H]|right; split; apply has_more; assumption].
    + exact H.
Qed.

(** ** The checks *)
Definition none (x : st) : bool := match procs x with [] => true | _ => false end.
Lemma ck_args_eq e x : ck_args e x = if negb (program e) && (none x || argv0 x) then Die else Ok x.
Proof. unfold ck_args, none. destruct (program e), (procs x), (argv0 x); reflexivity. Qed.
Definition d1 (x : st) : N := if daemonized_long x =? 0 then daemonized x else daemonized_long x.
Lemma ck_daemon_eq e x : ck_daemon e x =
  if negb (daemonized_long x =? 0) && negb (daemonized x =? 0) || negb (program e) && negb (d1 x =? 0) || (3 <? d1 x) then Die else Ok (set_daemonized x (d1 x)).
Proof.
  unfold ck_daemon, d1. destruct x. proj. destruct (daemonized_long =? 0) eqn:L; cbn [negb andb orb rbind]; proj.
  - destruct (negb (program e) && negb (daemonized =? 0)); [reflexivity|]. cbn [orb]. destruct (3 <? daemonized); reflexivity.
  - destruct (daemonized =? 0); cbn [negb orb rbind]; [|reflexivity]. proj. rewrite L. cbn [negb]. destruct (negb (program e) && true); [reflexivity|]. cbn [orb]. destruct (3 <? daemonized_long); reflexivity.
Qed.
Definition t_fmt (x : st) : N := if tflag_short x =? 0 then tfmt x else if tflag_short x <=? 2 then 1 else 2.
Definition t_dig (x : st) : N := if tflag_short x =? 0 then tdig x else if tflag_short x =? 1 then tdig x else 6.
Lemma ck_t_eq x : ck_t x = if negb (tflag_short x =? 0) && tflag_long x then Die else Ok (set_tdig (set_tfmt x (t_fmt x)) (t_dig x)).
Proof.
  unfold ck_t, t_fmt, t_dig. destruct (N.eqb_spec (tflag_short x) 0) as [E|E]; [destruct x; reflexivity|]. cbn [negb andb]. destruct (tflag_long x); [reflexivity|].
  destruct (N.eqb_spec (tflag_short x) 1) as [E1|E1].
  - rewrite E1. change (1 <=? 2) with true. cbv iota. unfold parse_ts_arg. change (ts_loop (strtok_all 44 (bs "format:time")) None None) with (Some (Some 1, @None N)). destruct x; reflexivity.
  - destruct (N.eqb_spec (tflag_short x) 2) as [E2|E2].
    + rewrite E2. change (2 <=? 2) with true. cbv iota. unfold parse_ts_arg. change (ts_loop (strtok_all 44 (bs "precision:us,format:time")) None None) with (Some (Some 1, Some 6)). destruct x; reflexivity.
    + assert (L : (tflag_short x <=? 2) = false) by (apply N.leb_gt; lia). rewrite L. unfold parse_ts_arg.
      change (ts_loop (strtok_all 44 (bs "format:unix,precision:us")) None None) with (Some (Some 2, Some 6)). destruct x; reflexivity.
Qed.
Definition x1 (x : st) : N := match xflag_long x with None => xflag x | Some n => n end.
Lemma ck_x_eq x : ck_x x = if some (xflag_long x) && negb (xflag x =? 0) then Die else Ok (set_xflag x (x1 x)).
Proof. unfold ck_x, x1. destruct x. proj. destruct xflag_long as [n|]; cbn [some andb]; [|reflexivity]. destruct (xflag =? 0); reflexivity. Qed.
Definition y_text (x : st) : list N := if yflag_short x =? 1 then bs "path" else bs "all".
Definition y_quals (x : st) : kind -> option (list N) := if yflag_short x =? 0 then quals x else fun k => if kind_eq_dec k DecodeFd then Some (y_text x) else quals x k.
Definition y_upd (x : st) : bool := negb (yflag_short x =? 0) || decode_fd_updated x.
Lemma ck_y_eq e x : sane e -> ck_y e x = if negb (yflag_short x =? 0) && decode_fd_updated x then Die else Ok (set_decode_fd_updated (set_quals x (y_quals x)) (y_upd x)).
Proof.
  intros (_ & _ & _ & V1 & V2). unfold ck_y, y_quals, y_upd, y_text. destruct x. proj. destruct (yflag_short =? 0); cbn [negb andb orb]; [reflexivity|].
  destruct decode_fd_updated; [reflexivity|]. unfold do_qual. destruct (yflag_short =? 1); [rewrite V1|rewrite V2]; reflexivity.
Qed.
Definition f_sep (x : st) : bool := if followfork_short x =? 0 then separately x else 2 <=? followfork_short x.
Lemma ck_f_eq x : ck_f x = if negb (followfork_short x =? 0) && (followfork x || ((2 <=? followfork_short x) && separately x)) then Die
  else Ok (set_separately (set_followfork x (negb (followfork_short x =? 0) || followfork x)) (f_sep x)).
Proof.
  unfold ck_f, f_sep. destruct x. proj. destruct (followfork_short =? 0); cbn [negb andb orb]; [reflexivity|]. destruct followfork; cbn [orb]; [reflexivity|].
  destruct ((2 <=? followfork_short) && separately); reflexivity.
Qed.
Lemma ck_seccomp_eq e x : ck_seccomp e x = set_seccomp x (seccomp x && followfork x && negb (detach x) && negb (some (syscall_limit x)) && (program e || none x) && seccomp_ok e).
Proof.
  unfold ck_seccomp, none, some. destruct x. proj. destruct seccomp; cbn [andb]; proj; [|reflexivity].
  destruct followfork; cbn [negb andb]; proj; cbn [andb]; proj; [|reflexivity]. destruct detach; cbn [negb andb]; proj; cbn [andb]; proj; [reflexivity|].
  destruct syscall_limit; cbn [negb andb]; proj; cbn [andb]; proj; [reflexivity|]. destruct procs, (program e), (seccomp_ok e); reflexivity.
Qed.
Lemma ck_F_eq x : ck_F x = set_followfork x (followfork x || optF x).
Proof. unfold ck_F. destruct x. proj. destruct optF, followfork; reflexivity. Qed.
Lemma ck_c_eq x : ck_c x = if (separately x && negb (cflag x =? 0)) || (wallclock x && (cflag x =? 0)) || (columns_set x && (cflag x =? 0)) then Die else Ok x.
Proof. unfold ck_c. destruct (separately x), (cflag x =? 0), (wallclock x), (columns_set x); reflexivity. Qed.
Lemma ck_kill_eq e x : ck_kill e x = if kill_on_exit x && negb (none x && exitkill e) then Die else Ok x.
Proof. unfold ck_kill, none. destruct (kill_on_exit x), (procs x), (exitkill e); reflexivity. Qed.
Definition is_pipe (o : option (list N)) : bool := match o with Some (c :: _) => (c =? 124) || (c =? 33) | _ => false end.
Lemma ck_out_eq x : ck_out x = if is_pipe (outfname x) && separately x then Die else Ok (set_separately x (separately x && some (outfname x))).
Proof.
  unfold ck_out, is_pipe, some. destruct x. proj. destruct outfname as [[|c s]|]; [rewrite andb_true_r; reflexivity| |rewrite andb_false_r; reflexivity].
  rewrite andb_true_r. destruct (((c =? 124) || (c =? 33)) && separately); reflexivity.
Qed.
Definition q_intr (e : env) (x : st) : N :=
  if intr x =? 0 then if negb (daemonized x =? 0) then 4 else if some (outfname x) && program e then 3 else 2 else intr x.
Definition q_n (e : env) (x : st) : N := if some (outfname x) && program e && (qflag_short x =? 0) && negb (quiet_updated x) then 1 else qflag_short x.
Definition q_text (n : N) : list N := if n =? 1 then qflag_qual else if n =? 2 then qqflag_qual else bs "all".
Definition q_quals (e : env) (x : st) : kind -> option (list N) := if q_n e x =? 0 then quals x else fun k => if kind_eq_dec k Quiet then Some (q_text (q_n e x)) else quals x k.
Lemma ck_q_eq e x : sane e -> ck_q e x = if negb (qflag_short x =? 0) && quiet_updated x then Die
  else Ok (set_quiet_updated (set_quals (set_qflag_short (set_intr x (q_intr e x)) (q_n e x)) (q_quals e x)) (negb (q_n e x =? 0) || quiet_updated x)).
Proof.
  intros (V1 & V2 & V3 & _). fold qflag_qual in V1. fold qqflag_qual in V2.   assert (D : forall n y, (n =? 0) = false -> do_qual e y Quiet (if n =? 1 then qflag_qual else if n =? 2 then qqflag_qual else bs "all") =
     Ok (set_quiet_updated (set_quals y (fun k => if kind_eq_dec k Quiet then Some (if n =? 1 then qflag_qual else if n =? 2 then qqflag_qual else bs "all") else quals y k)) true)).
  { intros n y _. unfold do_qual. destruct (n =? 1); [rewrite V1|destruct (n =? 2); [rewrite V2|rewrite V3]]; reflexivity. }
  unfold ck_q, q_intr, q_quals, q_text, q_n, some. destruct x. proj.
  destruct (daemonized =? 0) eqn:Ed; destruct (intr =? 0) eqn:Ei; cbn [negb andb]; proj; rewrite ?Ei; destruct outfname as [o|], (program e); cbn [andb]; proj; rewrite ?Ei; change (4 =? 0) with false; cbv iota; proj;
    destruct (qflag_short =? 0) eqn:Eq; destruct quiet_updated; cbn [negb andb orb]; proj; rewrite ?Ei, ?Eq; change (4 =? 0) with false; change (3 =? 0) with false; change (1 =? 0) with false; cbv iota; proj;
    rewrite ?Ei, ?Eq; cbn [negb orb]; cbv iota; try reflexivity; rewrite D by (exact Eq || reflexivity); proj; reflexivity.
Qed.

(** ** Everything *)
Lemma latest_dflt {A V} (R : A -> V -> Prop) (dec : forall a b : V, {a = b} + {a <> b}) l d d' v : (forall a, ~ R a d) -> latest R l d v -> latest R l d' (if dec v d then d' else v).
Proof.
  intros N [(l1 & a & l2 & -> & Ra & Nn)|[-> Nn]].
  - destruct (dec v d) as [->|_]; [contradiction (N a Ra)|]. left. exists l1, a, l2. repeat split; assumption.
  - destruct (dec d d) as [_|Ne]; [|contradiction]. right. split; [reflexivity|exact Nn].
Qed.
Lemma latest_none {A V} (R : A -> V -> Prop) l d d' : (forall b w, In b l -> ~ R b w) -> latest R l d' d' /\ forall v, latest R l d v -> v = d.
Proof.
  intros N. split; [right; split; [reflexivity|exact N]|]. intros v [(l1 & a & l2 & -> & Ra & _)|[-> _]]; [|reflexivity]. exfalso; apply (N a v); [apply in_or_app; right; left; reflexivity|exact Ra].
Qed.
Lemma latest_some {A V} (R : A -> V -> Prop) l d d' v : (exists a w, In a l /\ R a w) -> latest R l d v -> latest R l d' v.
Proof. intros (b & w & J & Rb) [(l1 & a & l2 & -> & Ra & Nn)|[-> Nn]]; [left; exists l1, a, l2; repeat split; assumption|]. contradiction (Nn b w J Rb). Qed.
Lemma r_procs_fun e o x y : r_procs e o x -> r_procs e o y -> x = y.
Proof. destruct o; cbn [r_procs]; try (intros -> ->; reflexivity). apply Forall2_fun. apply process_fun. Qed.
Lemma r_I_0 o : ~ r_I o 0.
Proof.
  destruct o; cbn [r_I]; try (intros []; fail). intros [(n & J & _)|[_ H]]; [|contradiction]. cbn [In] in J.
  repeat match type of J with _ \/ _ => destruct J as [J|J]; [apply pair_equal_spec in J; destruct J as [J _]; discriminate J|] end. exact J.
Qed.
Lemma r_o_fun a x y : r_o a x -> r_o a y -> x = y.
Proof. destruct a; cbn [r_o]; try (intros []; fail). intros -> ->. reflexivity. Qed.
Lemma not_true b : b <> true <-> b = false.
Proof. destruct b; split; congruence. Qed.
Lemma daemon_le l n : latest r_daemonize l 0 n -> n <= 3.
Proof.
  intros [(l1 & a & l2 & _ & Ra & _)|[-> _]]; [|lia]. destruct a; cbn [r_daemonize] in Ra; try contradiction. destruct s as [s|]; cbn [daemon_kind] in Ra; [|rewrite Ra; lia].
  destruct Ra as (m & J & _). cbn [In] in J. repeat match type of J with _ \/ _ => destruct J as [J|J]; [apply pair_equal_spec in J; destruct J as [<- _]; clear; lia|] end. destruct J.
Qed.
Lemma upd {A B} (b : bool) (f g : A -> B) k : g k = f k -> (if b then f else g) k = f k.
Proof. intros E. destruct b; [reflexivity|exact E]. Qed.
Lemma lt2 (n : N) : (1 <? n) = (2 <=? n).
Proof. destruct (N.ltb_spec 1 n), (N.leb_spec 2 n); lia. Qed.
Ltac die := let A := fresh "A" in intros A; destruct A.
Theorem C84_options_actual : forall e l, sane e ->
  match init e l with
  | Ok x => accepted e (separate_actual l) l /\ settings e (separate_actual l) l x
  | Die => ~ accepted e (separate_actual l) l
  | Undef => False
  end.
Proof.
  intros e l Se. unfold init. pose proof (options_run e l [] st0 (raw1_0 e) raw2_0 (fun o J => match J with end)) as H. cbn [app] in H.
  destruct (options e st0 l) as [x| |]; cbn [rbind]; [|die; destruct H as [(o & J & Nw)|B]; [exact (Nw (a_wf o J))|exact (a_cC B)]|exact H].
  destruct H as (W & R1 & R2). destruct R1, R2.
  assert (Pn : forall ps, collected (r_procs e) l ps -> ps = procs x) by (intros ps Hp; exact (collected_fun _ _ _ _ (r_procs_fun e) Hp w_procs)).
  assert (hD := has_times is_D l). rewrite <- w_D in hD. assert (hf := has_times is_f l). rewrite <- w_f in hf. assert (hq := has_times is_q l). rewrite <- w_q in hq.
  assert (ht := has_times is_t l). rewrite <- w_t in ht. assert (hy := has_times is_y l). rewrite <- w_y in hy.
  assert (hx : has is_x l = negb (xflag x =? 0)). { rewrite has_times, w_x. clear. generalize (times is_x l). intros n. destruct (N.eqb_spec n 0), (N.eqb_spec (N.min 2 n) 0); cbn; lia. }
  assert (hs : summary l = negb (cflag x =? 0)). { unfold summary. rewrite w_c. destruct (has is_c l), (has is_C l); reflexivity. }
  assert (hsep : separate_actual l = f_sep x). { unfold separate_actual, f_sep. rewrite hf, w_f, w_sep. destruct (times is_f l =? 0); reflexivity. }
  assert (hd : daemon l = negb (d1 x =? 0)). { unfold daemon, d1. rewrite hD, w_Dl2. destruct (daemonized_long x =? 0) eqn:Q; cbn [negb]; [rewrite orb_false_r; reflexivity|rewrite Q, orb_true_r; reflexivity]. }
  assert (hl := daemon_le _ _ w_Dl).
  rewrite ck_args_eq. destruct (negb (program e) && (none x || argv0 x)) eqn:C1; cbn [rbind].
  { die. unfold none in C1. destruct (program e); [discriminate|]. cbn [negb andb] in C1. destruct (a_what _ w_procs) as [Q|Q]; [discriminate|]. destruct (procs x); [contradiction|]. cbn [orb] in C1. rewrite w_argv0 in C1. specialize (a_argv0 C1). discriminate. }
  rewrite ck_daemon_eq. destruct (negb (daemonized_long x =? 0) && negb (daemonized x =? 0) || negb (program e) && negb (d1 x =? 0) || (3 <? d1 x)) eqn:C2; cbn [rbind].
  { die. rewrite hD, w_Dl2 in a_daemon1. rewrite hd in a_daemon2. rewrite !orb_true_iff, !andb_true_iff in C2. destruct C2 as [[C2|[Pe C2]]|C2].
    - apply a_daemon1. split; apply C2.
    - specialize (a_daemon2 C2). rewrite a_daemon2 in Pe. discriminate.
    - apply N.ltb_lt in C2. unfold d1 in C2. destruct (N.eqb_spec (daemonized_long x) 0); [rewrite w_D in C2; clear - C2 a_daemon3; lia|clear - C2 hl; lia]. }
  apply orb_false_iff in C2. destruct C2 as [C2 C2c]. apply orb_false_iff in C2. destruct C2 as [C2a C2b]. apply N.ltb_ge in C2c.
  rewrite ck_t_eq. proj. destruct (negb (tflag_short x =? 0) && tflag_long x) eqn:C3; cbn [rbind].
  { die. apply andb_true_iff in C3. rewrite <- ht, w_tl in C3. exact (a_t C3). }
  unfold t_fmt, t_dig. proj. rewrite ck_x_eq. unfold x1. proj. destruct (some (xflag_long x) && negb (xflag x =? 0)) eqn:C4; cbn [rbind].
  { die. apply andb_true_iff in C4. rewrite <- hx, <- w_xl2 in C4. apply a_x. split; apply C4. }
  rewrite (ck_y_eq e _ Se). unfold y_quals, y_upd, y_text. proj. destruct (negb (yflag_short x =? 0) && decode_fd_updated x) eqn:C5; cbn [rbind].
  { die. apply andb_true_iff in C5. rewrite <- hy, w_du in C5. exact (a_y C5). }
  rewrite ck_f_eq. unfold f_sep. proj. destruct (negb (followfork_short x =? 0) && (followfork x || (2 <=? followfork_short x) && separately x)) eqn:C6; cbn [rbind].
  { die. apply andb_true_iff in C6. destruct C6 as [C6 C6']. rewrite <- hf in C6. apply orb_true_iff in C6'. destruct C6' as [C6'|C6'].
    - rewrite w_ff in C6'. apply a_f. split; assumption.
    - apply andb_true_iff in C6'. rewrite w_sep, w_f in C6'. apply a_ff. split; [apply N.leb_le; apply C6'|apply C6']. }
  rewrite ck_seccomp_eq, ck_F_eq. unfold none. proj. fold (f_sep x).
  rewrite ck_c_eq. proj. destruct ((f_sep x && negb (cflag x =? 0)) || (wallclock x && (cflag x =? 0)) || (columns_set x && (cflag x =? 0))) eqn:C7; cbn [rbind].
  { die. rewrite !orb_true_iff, !andb_true_iff in C7. rewrite hsep, hs in a_sep. rewrite hs in a_w, a_U. rewrite w_w, w_U in C7. destruct C7 as [[C7|[C7 C7']]|[C7 C7']].
    - exact (a_sep C7).
    - specialize (a_w C7). rewrite C7' in a_w. discriminate.
    - specialize (a_U C7). rewrite C7' in a_U. discriminate. }
  rewrite ck_kill_eq. unfold none. proj. destruct (kill_on_exit x && negb (match procs x with [] => true | _ => false end && exitkill e)) eqn:C8; cbn [rbind].
  { die. apply andb_true_iff in C8. destruct C8 as [C8 C8']. rewrite w_kill in C8. destruct (a_kill _ C8 w_procs) as [Ep Ek]. rewrite Ep, Ek in C8'. discriminate. }
  rewrite ck_out_eq. proj. destruct (is_pipe (outfname x) && f_sep x) eqn:C9; cbn [rbind].
  { die. apply andb_true_iff in C9. destruct C9 as [C9 C9']. apply a_pipe. rewrite hsep. split; [exact C9'|]. destruct (outfname x) as [[|c s]|]; try discriminate C9. exists c, s. split; [|exact w_o].
    cbn [is_pipe] in C9. apply orb_true_iff in C9. rewrite !N.eqb_eq in C9. exact C9. }
  rewrite (ck_q_eq e _ Se). unfold q_intr, q_quals, q_n. proj. destruct (negb (qflag_short x =? 0) && quiet_updated x) eqn:C10; cbn [rbind].
  { die. apply andb_true_iff in C10. rewrite <- hq, w_qu in C10. exact (a_q C10). }
  unfold ck_pid. proj. split.
  - constructor; try assumption.
    + intros ps Hp. rewrite (Pn ps Hp). unfold none in C1. destruct (program e); [left; reflexivity|]. right. destruct (procs x); [discriminate C1|discriminate].
    + intros A. destruct (program e); [reflexivity|]. rewrite w_argv0, A, orb_true_r in C1. discriminate.
    + intros [A B]. rewrite hD in A. rewrite w_Dl2 in B. rewrite A, B in C2a. discriminate.
    + intros A. rewrite hd in A. rewrite A in C2b. destruct (program e); [reflexivity|discriminate].
    + unfold d1 in C2c. rewrite <- w_D. destruct (N.eqb_spec (daemonized_long x) 0) as [E|E]; [exact C2c|]. destruct (N.eqb_spec (daemonized x) 0) as [E'|E']; [rewrite E'; apply N.le_0_l|discriminate C2a].
    + intros [A B]. rewrite ht in A. rewrite <- w_tl in B. rewrite A, B in C3. discriminate.
    + intros [A B]. rewrite hx in A. rewrite w_xl2 in B. rewrite A, B in C4. discriminate.
    + intros [A B]. rewrite hy in A. apply w_du in B. rewrite A, B in C5. discriminate.
    + intros [A B]. rewrite hf in A. rewrite <- w_ff in B. rewrite A, B in C6. discriminate.
    + intros [A B]. rewrite <- w_sep in B. apply N.leb_le in A. rewrite <- w_f in A. rewrite A, B in C6. rewrite orb_true_r, andb_true_r in C6. apply N.leb_le in A. apply negb_false_iff, N.eqb_eq in C6. rewrite C6 in A. clear - A. lia.
    + intros [A B]. rewrite hsep in A. rewrite hs in B. rewrite A, B in C7. discriminate.
    + intros A. rewrite <- w_w in A. rewrite hs. rewrite A in C7. destruct (cflag x =? 0); [|reflexivity]. rewrite orb_true_r in C7. discriminate.
    + intros A. rewrite <- w_U in A. rewrite hs. rewrite A in C7. destruct (cflag x =? 0); [|reflexivity]. rewrite orb_true_r in C7. discriminate.
    + intros ps A Hp. rewrite (Pn ps Hp). rewrite <- w_kill in A. rewrite A in C8. destruct (procs x), (exitkill e); try discriminate. split; reflexivity.
    + intros [A (c & s & Hc & L)]. rewrite hsep in A. rewrite (latest_fun _ _ _ _ _ r_o_fun w_o L), A in C9. cbn [is_pipe] in C9. destruct Hc as [-> | ->]; discriminate C9.
    + intros [A B]. rewrite hq in A. apply w_qu in B. rewrite A, B in C10. discriminate.
  - constructor; proj; try assumption.
    + rewrite hD. unfold d1. destruct (N.eqb_spec (daemonized x) 0) as [E|E]; cbn [negb].
      * rewrite E. destruct (N.eqb_spec (daemonized_long x) 0) as [E'|E']; [rewrite E' in w_Dl; exact w_Dl|exact w_Dl].
      * destruct (N.eqb_spec (daemonized_long x) 0); [exact w_D|]. discriminate C2a.
    + unfold follow. rewrite hf, w_ff, w_F. reflexivity.
    + rewrite hsep, w_o2. reflexivity.
    + rewrite hd, w_o2. pose proof (latest_dflt r_I N.eq_dec l 0 (if negb (d1 x =? 0) then 4 else if some (outfname x) && program e then 3 else 2) _ r_I_0 w_I) as Q.
      destruct (N.eq_dec (intr x) 0) as [E|E]; [rewrite E; exact Q|]. destruct (N.eqb_spec (intr x) 0); [contradiction|exact Q].
    + rewrite ht. destruct (N.eqb_spec (tflag_short x) 0) as [E|E]; cbn [negb]; [split; assumption|].
      assert (NT : has is_timestamps l = false). { rewrite <- w_tl. destruct (tflag_long x); [|reflexivity]. discriminate C3. }
      destruct (w_ts0 NT) as [_ ->]. rewrite <- w_t. destruct (N.eqb_spec (tflag_short x) 1) as [E1|E1]; [rewrite E1; reflexivity|]. destruct (N.eqb_spec (tflag_short x) 2) as [E2|E2]; [rewrite E2; reflexivity|].
      destruct (N.leb_spec (tflag_short x) 2) as [L|L]; [exfalso; clear - E E1 E2 L; lia|reflexivity].
    + rewrite hx. destruct (N.eqb_spec (xflag x) 0) as [E|E]; cbn [negb].
      * exists (xflag_long x). split; [exact w_xl|]. destruct (xflag_long x); [reflexivity|exact E].
      * destruct (xflag_long x); [discriminate C4|exact w_x].
    + unfold follow. rewrite hf, <- w_ff, <- w_sec, <- w_b, w_lim2. reflexivity.
    + intros k Nq Nd Nf Ni. rewrite upd; [|destruct (kind_eq_dec k Quiet); [contradiction|reflexivity]]. rewrite upd; [|destruct (kind_eq_dec k DecodeFd); [contradiction|reflexivity]].
      apply w_set; assumption.
    + rewrite hy. rewrite (upd _ _ (fun k => if kind_eq_dec k Quiet then _ else _)) by reflexivity.
      rewrite <- w_y. destruct (yflag_short x =? 0) eqn:E; cbn [negb]; [apply w_set; discriminate|]. destruct (kind_eq_dec DecodeFd DecodeFd) as [_|Ne]; [reflexivity|contradiction Ne; reflexivity].
    + rewrite hq, <- w_q, w_o2.
      assert (Qx : (if yflag_short x =? 0 then quals x else fun k => if kind_eq_dec k DecodeFd then Some (if yflag_short x =? 1 then bs "path" else bs "all") else quals x k) Quiet = quals x Quiet) by (destruct (yflag_short x =? 0); reflexivity).
      destruct (qflag_short x =? 0) eqn:E; cbn [negb].
      * destruct (some (outfname x) && program e) eqn:O; cbn [andb].
        -- destruct (quiet_updated x) eqn:U; cbn [negb andb].
           ++ rewrite E, Qx. destruct (proj1 w_qu eq_refl) as (o & v & J & So). apply (latest_some _ l (initial Quiet)); [exists o, (Some v); split; [exact J|exists v; split; [exact So|reflexivity]]|]. apply w_set; discriminate.
           ++ change (1 =? 0) with false. cbv iota. destruct (kind_eq_dec Quiet Quiet) as [_|Ne]; [|contradiction Ne; reflexivity]. unfold q_text. change (1 =? 1) with true. cbv iota.
              right. split; [reflexivity|]. intros o w J (v & So & _). assert (B : false = true); [|discriminate B]. apply w_qu. exists o, v. split; assumption.
        -- rewrite E, Qx. apply w_set; discriminate.
      * rewrite andb_false_r. cbn [andb]. rewrite E. destruct (kind_eq_dec Quiet Quiet) as [_|Ne]; [reflexivity|contradiction Ne; reflexivity].
    + rewrite w_o2, <- w_pid, lt2. unfold some. destruct (outfname x); reflexivity.
Qed.
Print Assumptions C84_options_actual.


(** as documented; missing: --output-separately with one -f *)
Theorem C84_options_partial : forall e l, sane e -> ~ (times is_f l = 1 /\ has is_output_separately l = true) ->
  match init e l with
  | Ok x => accepted e (separate l) l /\ settings e (separate l) l x
  | Die => ~ accepted e (separate l) l
  | Undef => False
  end.
Proof.
  intros e l Se N. pose proof (C84_options_actual e l Se) as H.
  assert (C : separate_actual l = separate l \/ (2 <= times is_f l /\ has is_output_separately l = true)).
  { unfold separate_actual, separate. rewrite has_times. destruct (N.eqb_spec (times is_f l) 0) as [E|E]; cbn [negb]; [rewrite E; left; reflexivity|].
    destruct (N.leb_spec 2 (times is_f l)) as [L|L]; [left; reflexivity|]. left. destruct (has is_output_separately l); [|reflexivity]. contradiction N. split; [lia|reflexivity]. }
  destruct C as [<-|C]; [exact H|]. destruct (init e l) as [x| |].
  - destruct H as [A _]. contradiction (a_ff _ _ _ A).
  - intros A. contradiction (a_ff _ _ _ A).
  - exact H.
Qed.
Print Assumptions C84_options_partial.

(** a user for the examples: a program is traced, everything is valid *)
Definition e1 : env := {| program := true; exitkill := true; seccomp_ok := true; self := 1; valid := fun _ _ => true |}.
Lemma sane_e1 : sane e1.
Proof. repeat split. Qed.

(** one -f: --output-separately is accepted and has no effect *)
Definition lost : list opt := [o_f; o_output_separately; o_o (bs "log")].
Theorem C84_separately_refuted : ~ forall e l, sane e ->
  match init e l with
  | Ok x => accepted e (separate l) l /\ settings e (separate l) l x
  | Die => ~ accepted e (separate l) l
  | Undef => False
  end.
Proof.
  intros H. specialize (H e1 lost sane_e1). destruct (init e1 lost) as [x| |] eqn:E.
  - destruct H as [_ H]. pose proof (s_separately _ _ _ _ H) as A. pose proof (C84_options_actual e1 lost sane_e1) as B. rewrite E in B. destruct B as [_ B].
    pose proof (s_separately _ _ _ _ B) as C. rewrite A in C. discriminate C.
  - clear H. assert (B : match init e1 lost with Ok _ => true | _ => false end = true) by (vm_compute; reflexivity). rewrite E in B. discriminate.
  - exact H.
Qed.
Print Assumptions C84_separately_refuted.

(** ** Examples *)
Definition ex1 : list opt := [o_f; o_f; o_o (bs "log"); o_s (bs "100"); o_e (bs "trace=open"); o_e (bs "t=close"); o_e (bs "read"); o_timestamps (Some (bs "precision:ms,unix")); o_s (bs "7"); o_I (bs "NEVER")].
Example C84_nonvacuous : exists x, init e1 ex1 = Ok x /\ separate ex1 = true /\ separately x = true /\ max_strlen x = 7 /\ quals x Trace = Some (bs "read") /\ tfmt x = 2 /\ tdig x = 3 /\ intr x = 3 /\ quals x Quiet = Some (bs "attach,personality").
Proof. eexists. split; [cbv; reflexivity|]. repeat split. Qed.
Example C84_nonvacuous_refused : init e1 [o_c; o_f; o_f; o_o (bs "log")] = Die /\ init e1 [o_x; o_strings_in_hex None] = Die /\ init e1 [o_s (bs "12k")] = Die /\ init e1 [o_p (bs "12,1")] = Die.
Proof. repeat split; vm_compute; reflexivity. Qed.
Example C84_nonvacuous_expression : means (bs "trace-fd=3") TraceFd (bs "3") /\ means (bs "open") Trace (bs "open") /\ means (bs "foo=3") Trace (bs "foo=3").
Proof. rewrite <- !C84_expression. repeat split; vm_compute; reflexivity. Qed.
