(** C72, C73: values composed of several constants; the arguments of futex and clone. *)
From Verif Require Import Base Printf QuoteModel BitsModel BitsSpec XlatModel XlatSpec XlatText XlatThms ModeModel RetModel RetSpec RetProofs ModeSpec ModeProofs CompModel CompSpec CompProofs.
Local Open Scope N_scope.

(** The operation of futex, whatever it is, is shown by an expression of that value, in every style. *)
Theorem C72_futex_op st op : denotes futex_names (printxval st futexops op (Some (bs "FUTEX_???"))) op.
Proof. apply den_denotes, futex_op_den. intros s E. injection E as <-. noin. Qed.
(** So is the last argument of FUTEX_WAKE_OP. *)
Theorem C72_wake_op st v : v < 2^32 -> denotes futex_names (wake_op st v) v.
Proof. intros H. apply den_denotes, wake_op_den, H. Qed.
(** The type of a socket with its flags *)
Theorem C72_sock_type st v : denotes sock_names (tprint_sock_type st v) v.
Proof. apply den_denotes, sock_den. Qed.
(** The flags of memfd_create with the page size *)
Theorem C72_memfd st v : v < 2^32 -> v <> 0 -> styled (denotes memfd_names) st (memfd_flags st v) v.
Proof.
  intros H NZ. pose proof (den_denotes _ _ _ (memfd_den v H)) as D. unfold memfd_flags, styled. replace (v =? 0) with false by lia. cbn [orb].
  assert (C : c_number (pr_hex v) = Some (Z.of_N v)) by apply vtext_c, vtext_x.
  destruct st; cbn [orb]; [exact D|exact C|]. exists (pr_hex v), (memfd_text v). auto.
Qed.
Theorem C72_memfd_zero st : memfd_flags st 0 = bs "0".
Proof. destruct st; reflexivity. Qed.
(** With -X verbose a comment may contain a comment: then the whole is not an expression. *)
Theorem C72_memfd_nested_refuted : exists v, v < 2^32 /\ expression memfd_names (uncomment false (memfd_flags XVERBOSE v)) = None.
Proof. exists 32. split; vm_compute; reflexivity. Qed.
(** The argument of personality *)
Theorem C72_personality st v : denotes personality_names (personality_arg st v) (v mod 2^32).
Proof.
  apply den_denotes. unfold personality_arg. fold (u32 v). cbv zeta. set (u := u32 v). clearbody u. destruct (u =? 4294967295).
  - apply cst_den, cst_hex. vm_compute. reflexivity.
  - pose proof (proj1 (per_low st u)) as C. pose proof (low_rest u 255) as R. destruct (N.eqb_spec (N.ldiff u 255) 0) as [E|E].
    + rewrite E, N.lor_0_r in R. rewrite app_nil_r. rewrite R in C at 2. apply cst_den, C.
    + assert (X : den personality_names (printxval st personality_types (N.land u 255) (Some (bs "PER_???")) ++ bar ++ printflags_in st personality_flags (N.ldiff u 255) None) (N.lor (N.land u 255) (N.ldiff u 255))).
      { apply den_or; [apply cst_den, C|]. apply pers_flags, E. }
      rewrite R in X. exact X.
Qed.
(** and its result, whose text is built in a buffer of 1024 bytes *)
Theorem C72_personality_result st v : exists t, personality_ret st v = Ok t /\ denotes personality_names t (v mod 2^32).
Proof. destruct (pers_ret st v) as (t & E & D). exists t. split; [exact E|]. apply den_denotes, D. Qed.
(** An I/O priority *)
Theorem C72_ioprio st p : p < 2^32 ->
  exists t, print_ioprio st p = Ok t /\ styled (macro (bs "IOPRIO_PRIO_VALUE") IOPRIO_PRIO_VALUE ioprio_names) st t p.
Proof.
  intros H. destruct (ioprio_text st p H) as (t & E & M). unfold print_ioprio.
  assert (C : c_number (pr_hex p) = Some (Z.of_N p)) by apply vtext_c, vtext_x.
  destruct st; rewrite ?E; cbn [rbind]; eexists; (split; [reflexivity|]); cbn [styled]; [exact M|exact C|].
  exists (pr_hex p), t. split; [|auto]. destruct M as (a & b & x & y & -> & _). reflexivity.
Qed.
(** A command of quotactl *)
Theorem C72_qcmd st q : styled (macro (bs "QCMD") QCMD quota_names) st (print_qcmd st q) q.
Proof.
  pose proof (qcmd_text q) as M. assert (C : c_number (pr_num 10 q) = Some (Z.of_N q)) by apply vtext_c, vtext_u. unfold print_qcmd. cbv zeta.
  destruct st; cbn [styled]; [exact M|exact C|]. eexists; eexists. split; [reflexivity|]. auto.
Qed.
(** A signal; a number that is negative as an int is shown as such. *)
Theorem C72_signal st sig : sig < 2^32 ->
  (sig < 2^31 -> denotes sig_names (printsignal generic_sigs st sig) sig) /\
  (2^31 <= sig -> c_number (printsignal generic_sigs st sig) = Some (Z.of_N sig - 2^32)%Z).
Proof.
  intros B. split; intros H; [apply den_denotes, cst_den, signal_cst; [exact H|vm_compute; reflexivity|vm_compute; reflexivity]|].
  unfold printsignal. rewrite signame_none by (eapply N.lt_le_trans; [|exact H]; reflexivity).
  assert (E : sgn32 sig = (Z.of_N sig - 2^32)%Z). { unfold sgn32, u32. rewrite N.mod_small by exact B. replace (sig <? 2^31) with false by lia. reflexivity. }
  rewrite E. apply vtext_c, vtext_z.
Qed.
(** The flags of clone, which include a signal *)
Theorem C72_clone_flags st v : denotes clone_names (clone_flags_text generic_sigs st v) v.
Proof. apply den_denotes, clone_flags_den. Qed.

(** ---- C73 ---- *)
Lemma address_text a : address (printaddr a) a.
Proof. unfold address, printaddr. destruct (N.eqb_spec a 0); [left; auto|right]. split; [assumption|]. apply vtext_c, vtext_x. Qed.
(** For each operation futex(2) describes, with or without its two flag bits, strace shows the futex word, the operation and
    exactly the arguments the operation takes. *)
Theorem C73_futex_args st ts a0 a1 a2 a3 a4 a5 name cmd args fl :
  In (name, args) futex_takes -> value_of futex_names name = Some cmd -> N.land fl 384 = fl -> a1 mod 2^32 = N.lor cmd fl ->
  exists t0 t1 rest, do_futex st ts a0 a1 a2 a3 a4 a5 = t0 :: t1 :: rest /\ address t0 a0 /\ denotes futex_names t1 (a1 mod 2^32) /\
    Forall2 (shows_arg ts a2 a3 a4 a5) args rest.
Proof.
  intros I V F E. unfold do_futex. cbv zeta. eexists; eexists; eexists. split; [reflexivity|]. split; [apply address_text|].
  split; [apply C72_futex_op|].
  assert (D : forall x, denotes futex_names (pr_num 10 (u32 x)) (x mod 2^32)). { intros x. apply den_denotes, cst_den, cst_dec. vm_compute. reflexivity. }
  assert (B : forall x, denotes futex_names (printxval st futexbitset (u32 x) None) (x mod 2^32)). { intros x. apply den_denotes, bitset_den. }
  assert (W : forall x, denotes futex_names (wake_op st (u32 x)) (x mod 2^32)). { intros x. apply C72_wake_op, u32_lt. }
  pose proof (address_text a4) as A4.
  assert (K : N.land (u32 a1) 127 = N.land cmd 127).
  { unfold u32. rewrite E. rewrite <- F, N.land_lor_distr_l, <- N.land_assoc. change (N.land 384 127) with 0. rewrite N.land_0_r, N.lor_0_r. reflexivity. }
  rewrite K. clear K E F.
  cbn [futex_takes In] in I.
  repeat (destruct I as [I|I]; [injection I as <- <-; vm_compute in V; injection V as <-; cbn [N.land Pos.land N.eqb Pos.eqb orb N.of_nat]; repeat (constructor; [first [apply D|apply B|apply W|exact A4|reflexivity]|]); constructor|]).
  destruct I.
Qed.
(** The operations it describes are those below 14; of others every argument is shown. *)
Theorem C73_futex_others st ts a0 a1 a2 a3 a4 a5 : (forall name args, In (name, args) futex_takes -> value_of futex_names name <> Some (N.land (a1 mod 2^32) 127)) ->
  exists t0 t1 t2 t3 t4 t5, do_futex st ts a0 a1 a2 a3 a4 a5 = [t0; t1; t2; t3; t4; t5] /\ address t0 a0 /\ denotes futex_names t1 (a1 mod 2^32) /\
    denotes futex_names t2 (a2 mod 2^32) /\ address t3 a3 /\ address t4 a4 /\ denotes futex_names t5 (a5 mod 2^32).
Proof.
  intros H. unfold do_futex. cbv zeta.
  assert (D : forall x, denotes futex_names (pr_num 10 (u32 x)) (x mod 2^32)). { intros x. apply den_denotes, cst_den, cst_dec. vm_compute. reflexivity. }
  assert (X : forall x, denotes futex_names (pr_hex (u32 x)) (x mod 2^32)). { intros x. apply den_denotes, cst_den, cst_hex. vm_compute. reflexivity. }
  assert (K : forall n, n < 14 -> N.land (u32 a1) 127 <> n).
  { intros n L E. unfold u32 in E. rewrite E in H.
    assert (Q : existsb (fun e => opt_eqb (value_of futex_names (fst e)) n) futex_takes = true).
    { assert (AL : forallb (fun k => existsb (fun e => opt_eqb (value_of futex_names (fst e)) (N.of_nat k)) futex_takes) (seq 0 14) = true) by (vm_compute; reflexivity).
      rewrite forallb_forall in AL. specialize (AL (N.to_nat n)). rewrite N2Nat.id in AL. apply AL. apply in_seq. lia. }
    apply existsb_exists in Q as ((name & args) & I & Q). apply opt_eqb_eq in Q. apply (H name args I Q). }
  set (c := N.land (u32 a1) 127) in *. clearbody c.
  do 6 eexists. split.
  - repeat (match goal with |- context [c =? ?n] => replace (c =? n) with false by (symmetry; apply N.eqb_neq; apply K; lia) end). cbn [orb app]. reflexivity.
  - repeat split; try apply address_text; auto. apply C72_futex_op.
Qed.

(** clone: the stack and the flags are always shown; each further argument is shown exactly when the flags make the kernel
    use it, and is taken from its place in the order of arguments. *)
Theorem C73_clone_args g st ns tid fd tls i386 args :
  let flag b := N.testbit (args 0) b in
  let arg a := match find (fun e => match snd e, a with FLAGS, FLAGS | STACK, STACK | PARENT_TID, PARENT_TID | CHILD_TID, CHILD_TID | TLS, TLS => true | _, _ => false end)
                          (combine [0; 1; 2; 3; 4] (clone_order i386)) with Some e => args (fst e) | None => 0 end in
  exists stack flags ptid ctid, address stack (arg STACK) /\ address ctid (arg CHILD_TID) /\ flags = clone_flags_text g st (arg FLAGS) /\
    (flag CLONE_PARENT_SETTID = true /\ ptid = tid (arg PARENT_TID) \/ flag CLONE_PARENT_SETTID = false /\ ptid = fd (arg PARENT_TID)) /\
    clone_args g st ns tid fd tls i386 args =
      [bs "child_stack=" ++ stack; bs "flags=" ++ flags]
      ++ (if flag CLONE_PARENT_SETTID || flag CLONE_PIDFD then [bs "parent_tid=" ++ ptid] else [])
      ++ (if flag CLONE_SETTLS then [bs "tls=" ++ tls (arg TLS)] else [])
      ++ (if flag CLONE_CHILD_SETTID || flag CLONE_CHILD_CLEARTID then [bs "child_tidptr=" ++ ctid] else []).
Proof.
  intros flag arg.
  assert (AF : arg FLAGS = args 0) by (destruct i386; reflexivity). assert (AS : arg STACK = args 1) by (destruct i386; reflexivity).
  assert (AP : arg PARENT_TID = args 2) by (destruct i386; reflexivity). assert (AC : arg CHILD_TID = args (if i386 then 4 else 3)) by (destruct i386; reflexivity).
  assert (AT : arg TLS = args (if i386 then 3 else 4)) by (destruct i386; reflexivity). clearbody arg.
  exists (printaddr (args 1)), (clone_flags_text g st (args 0)), (if flag CLONE_PARENT_SETTID then tid (args 2) else fd (args 2)), (printaddr (args (if i386 then 4 else 3))).
  rewrite AF, AS, AP, AC, AT. split; [apply address_text|]. split; [apply address_text|]. split; [reflexivity|].
  split; [destruct (flag CLONE_PARENT_SETTID); auto|].
  unfold clone_args, clone_enter, clone_exit. cbv zeta.
  assert (T : forall b, 8 <= b -> N.testbit (N.ldiff (args 0) 255) b = flag b).
  { intros b L. rewrite N.ldiff_spec. change 255 with (N.ones 8). rewrite N.ones_spec_high by exact L. rewrite andb_true_r. reflexivity. }
  set (f := N.ldiff (args 0) 255) in *.
  assert (Z1 : forall b, 8 <= b -> negb (N.land f (2^b) =? 0) = flag b).
  { intros b L. rewrite land_bit, T by exact L. destruct (flag b); [|reflexivity]. replace (2^b =? 0) with false; [reflexivity|]. symmetry. apply N.eqb_neq, N.pow_nonzero. discriminate. }
  assert (LO : forall x y, negb (N.land f (N.lor x y) =? 0) = negb (N.land f x =? 0) || negb (N.land f y =? 0)).
  { intros x y. rewrite N.land_lor_distr_r. destruct (N.eqb_spec (N.lor (N.land f x) (N.land f y)) 0) as [E|E].
    - apply N.lor_eq_0_iff in E as (-> & ->). reflexivity.
    - destruct (N.eqb_spec (N.land f x) 0) as [E1|E1]; [|reflexivity]. destruct (N.eqb_spec (N.land f y) 0) as [E2|E2]; [|reflexivity]. rewrite E1, E2 in E. exfalso. apply E. reflexivity. }
  assert (NB : forall b, (b =? 0) = negb (negb (b =? 0))) by (intros b; rewrite negb_involutive; reflexivity).
  rewrite (NB (N.land f (N.lor _ _))), !LO.
  change 0x100000 with (2^20). change 0x1000 with (2^12). change 0x1000000 with (2^24). change 0x200000 with (2^21). change 0x80000 with (2^19).
  rewrite !Z1 by lia. unfold CLONE_PARENT_SETTID, CLONE_PIDFD, CLONE_SETTLS, CLONE_CHILD_SETTID, CLONE_CHILD_CLEARTID.
  destruct (flag 20), (flag 12), (flag 19), (flag 24), (flag 21); cbn [orb negb app]; try reflexivity. destruct (negb (N.land f _ =? 0)); reflexivity.
Qed.

Print Assumptions C72_futex_op.
Print Assumptions C72_wake_op.
Print Assumptions C72_sock_type.
Print Assumptions C72_memfd.
Print Assumptions C72_memfd_zero.
Print Assumptions C72_memfd_nested_refuted.
Print Assumptions C72_personality.
Print Assumptions C72_personality_result.
Print Assumptions C72_ioprio.
Print Assumptions C72_qcmd.
Print Assumptions C72_signal.
Print Assumptions C72_clone_flags.
Print Assumptions C73_futex_args.
Print Assumptions C73_futex_others.
Print Assumptions C73_clone_args.

(** ---- cases ---- *)
Example ex_wake_op : wake_op XABBREV 0xd300a005 = bs "FUTEX_OP_OPARG_SHIFT<<28|0x5<<28 /* FUTEX_OP_??? */|0xa<<12|FUTEX_OP_CMP_LE<<24|0x5".
Proof. vm_compute. reflexivity. Qed.
(** with -X raw the comment says that the operation is unknown although it is known *)
Example ex_wake_op_raw : wake_op XRAW 0x1300a005 = bs "0x1<<28 /* FUTEX_OP_??? */|0xa<<12|0x3<<24 /* FUTEX_OP_CMP_??? */|0x5".
Proof. vm_compute. reflexivity. Qed.
Example ex_sock : tprint_sock_type XABBREV 0x80802 = bs "SOCK_DGRAM|SOCK_CLOEXEC|SOCK_NONBLOCK" /\
  tprint_sock_type XVERBOSE 0x80001 = bs "0x1 /* SOCK_STREAM */|0x80000 /* SOCK_CLOEXEC */".
Proof. split; vm_compute; reflexivity. Qed.
Example ex_memfd : memfd_flags XABBREV 0x54000005 = bs "MFD_CLOEXEC|MFD_HUGETLB|21<<MFD_HUGE_SHIFT".
Proof. vm_compute. reflexivity. Qed.
Example ex_nested : memfd_flags XVERBOSE 32 = bs "0x20 /* 0x20 /* MFD_??? */ */".
Proof. vm_compute. reflexivity. Qed.
Example ex_pers : personality_arg XABBREV 0x8040008 = bs "PER_LINUX32|ADDR_NO_RANDOMIZE|ADDR_LIMIT_3GB" /\
  personality_ret XVERBOSE 0x40000 = Ok (bs "0 /* PER_LINUX */|0x40000 /* ADDR_NO_RANDOMIZE */").
Proof. split; vm_compute; reflexivity. Qed.
Example ex_ioprio : print_ioprio XABBREV 0x4007 = Ok (bs "IOPRIO_PRIO_VALUE(IOPRIO_CLASS_BE, 7)").
Proof. vm_compute. reflexivity. Qed.
Example ex_qcmd : print_qcmd XVERBOSE 0x80000701 = bs "2147485441 /* QCMD(Q_GETQUOTA, GRPQUOTA) */".
Proof. vm_compute. reflexivity. Qed.
Example ex_clone : clone_args generic_sigs XABBREV false (fun _ => bs "[77]") (fun _ => bs "[5]") printaddr false (fun i => nth (N.to_nat i) [0x1200011; 0; 0x10; 0x7f00; 0] 0)
  = [bs "child_stack=NULL"; bs "flags=CLONE_CHILD_CLEARTID|CLONE_CHILD_SETTID|SIGCHLD"; bs "child_tidptr=0x7f00"].
Proof. vm_compute. reflexivity. Qed.
Example ex_futex : do_futex XABBREV (fun _ => bs "{tv_sec=1, tv_nsec=0}") 0x1000 0x189 3 0x2000 0 0xffffffff
  = [bs "0x1000"; bs "FUTEX_WAIT_BITSET_PRIVATE|FUTEX_CLOCK_REALTIME"; bs "3"; bs "{tv_sec=1, tv_nsec=0}"; bs "FUTEX_BITSET_MATCH_ANY"].
Proof. vm_compute. reflexivity. Qed.
