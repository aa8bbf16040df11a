(** C68: ioctl commands are shown by names of theirs. *)
From Coq Require Import Sorted.
From Verif Require Import Base Printf BitsModel XlatModel XlatSpec XlatProofs XlatText IoctlModel IoctlSpec IoctlProofs IoctlText.
Local Open Scope N_scope.

(** Whatever the command: every alternative shown is a notation for just that number, and every name the table has for
    it is among them.  A terminal has its own table for commands shared with other devices. *)
Theorem C68_command_partial : forall A T tty arg, tables_ok T -> ~ misnamed A (arg mod 2^32) ->
  (tty = true /\ tty_denotes T (command_text A T XABBREV tty arg) (arg mod 2^32)) \/
  exists parts, command_text A T XABBREV tty arg = join_or parts /\ parts <> [] /\
    Forall (fun s => denotes A T s (arg mod 2^32)) parts /\ forall s, In (arg mod 2^32, s) (ents T) -> In s parts.
Proof. intros A T tty arg OK NM. apply command_spec; [apply N.mod_lt; discriminate|exact OK|exact NM]. Qed.
Print Assumptions C68_command_partial.

(** With numbers asked for, the number comes first, exact, in every case. *)
Theorem C68_numbers : forall A T tty arg,
  command_text A T XRAW tty arg = pr_hex (arg mod 2^32) /\
  exists rest, command_text A T XVERBOSE tty arg = pr_hex (arg mod 2^32) ++ bs " /* " ++ rest ++ bs " */" /\
    (tables_ok T -> ~ misnamed A (arg mod 2^32) ->
      (tty = true /\ tty_denotes T rest (arg mod 2^32)) \/
      exists parts, rest = join_or parts /\ parts <> [] /\ Forall (fun s => denotes A T s (arg mod 2^32)) parts).
Proof.
  intros A T tty arg. split; [reflexivity|]. exists (command_name A T XVERBOSE tty (u32 arg)). split; [reflexivity|]. intros OK NM.
  destruct (command_spec A T XVERBOSE tty (u32 arg) ltac:(apply N.mod_lt; discriminate) OK NM) as [H|(parts & H1 & H2 & H3 & _)]; [left; exact H|right; exists parts; auto].
Qed.
Print Assumptions C68_numbers.

(** A command in no table is shown by _IOC, from which the number can be computed, unless a macro takes an argument. *)
Theorem C68_unknown : forall A T tty arg, tables_ok T -> let c := arg mod 2^32 in
  (forall s, ~ In (c, s) (ents T)) -> (forall s, ~ XlatSpec.named (term_names T) c s) -> ~ In (IOC_TYPE c) [33; 69; 72; 77; 85; 106; 107] ->
  exists dt d t n z, command_text A T XABBREV tty arg = bs "_IOC(" ++ dt ++ bs ", " ++ pr_hex t ++ bs ", " ++ pr_hex n ++ bs ", " ++ pr_hex z ++ bs ")" /\
    dir_text A dt d /\ c = IOC A d t n z /\ t < 256 /\ n < 256.
Proof.
  intros A T tty arg OK c NE NT TY. subst c. change (arg mod 2^32) with (u32 arg) in *. set (c := u32 arg) in *. assert (L : c < 2^32) by (apply N.mod_lt; discriminate).
  unfold command_text. fold c. unfold command_name. assert (D : ioctl_decode_command_number A T XABBREV tty c = (false, None)).
  { unfold ioctl_decode_command_number. cbv zeta. cbn [In] in TY.
    destruct (N.eqb_spec (IOC_TYPE c) 33) as [E|_]; [exfalso; apply TY; rewrite E; tauto|]. destruct (N.eqb_spec (IOC_TYPE c) 69) as [E|_]; [exfalso; apply TY; rewrite E; tauto|].
    destruct (N.eqb_spec (IOC_TYPE c) 72) as [E|_]; [exfalso; apply TY; rewrite E; tauto|]. destruct (N.eqb_spec (IOC_TYPE c) 77) as [E|_]; [exfalso; apply TY; rewrite E; tauto|].
    destruct (N.eqb_spec (IOC_TYPE c) 85) as [E|_]; [exfalso; apply TY; rewrite E; tauto|]. destruct (N.eqb_spec (IOC_TYPE c) 106) as [E|_]; [exfalso; apply TY; rewrite E; tauto|].
    destruct (N.eqb_spec (IOC_TYPE c) 107) as [E|_]; [exfalso; apply TY; rewrite E; tauto|].
    destruct OK as (_ & _ & _ & OT). pose proof (xlookup_spec (term_names T) c OT) as X. destruct (IOC_TYPE c =? 84); [|reflexivity]. destruct tty; [|reflexivity]. destruct (xlookup (term_names T) c) as [s|]; [exfalso; eapply NT, X|reflexivity]. }
  rewrite D. pose proof (lookup_spec (ents T) c (proj1 OK)) as LS. destruct (ioctl_lookup (ents T) c) as [i|].
  - exfalso. destruct LS as [LS _]. apply LS. unfold names_of. assert (FN : filter (fun e => fst e =? c) (ents T) = []); [|rewrite FN; reflexivity].
    clear -NE. induction (ents T) as [|[v s] l IH]; [reflexivity|]. cbn [filter fst]. destruct (N.eqb_spec v c) as [->|_]; [exfalso; eapply NE; left; reflexivity|]. apply IH. intros x I. eapply NE. right. exact I.
  - exists (printflags_ex (IOC_DIR A c) (dflt XABBREV (bs "_IOC_???")) XABBREV FMT_X [ioctl_dirs A]), (IOC_DIR A c), (IOC_TYPE c), (IOC_NR c), (IOC_SIZE A c). split; [reflexivity|]. split; [apply dir_printed|]. split; [symmetry; apply ioc_eq, L|].
    rewrite nr_eq, type_eq. split; apply N.mod_lt; discriminate.
Qed.
Print Assumptions C68_unknown.

(** ---- a concrete case ---- *)
Definition ex_T : itabs := {|
  ents := [(21505, bs "SNDCTL_TMR_TIMEBASE"); (21505, bs "TCGETS"); (21506, bs "TCSETS"); (2147764225, bs "HIDIOCGRDESCSIZE"); (2147764225, bs "HIDIOCGVERSION")];
  abs_names := {| ty := XT_NORMAL; data := [(0, Some (bs "ABS_X")); (1, Some (bs "ABS_Y"))] |};
  ev_names := {| ty := XT_NORMAL; data := [(1, Some (bs "EV_KEY"))] |};
  term_names := {| ty := XT_NORMAL; data := [(21505, Some (bs "TCGETS"))] |} |}.
Example ex_T_ok : tables_ok ex_T.
Proof.
  repeat split; cbn; try (repeat constructor; discriminate).
Qed.
Example ex_tty : command_text Generic ex_T XABBREV true 0x5401 = bs "TCGETS". Proof. reflexivity. Qed.
Example ex_not_tty : command_text Generic ex_T XABBREV false 0x5401 = bs "SNDCTL_TMR_TIMEBASE or TCGETS". Proof. reflexivity. Qed.
Example ex_hid : command_text Generic ex_T XABBREV false 0x80044801 = bs "HIDIOCGRDESCSIZE or HIDIOCGVERSION". Proof. reflexivity. Qed.
Example ex_gbit : command_text Generic ex_T XABBREV false 0x80084521 = bs "EVIOCGBIT(EV_KEY, 8)". Proof. reflexivity. Qed.
Example ex_gabs : command_text Generic ex_T XVERBOSE false 0x80184541 = bs "0x80184541 /* EVIOCGABS(ABS_Y) */". Proof. reflexivity. Qed.
Example ex_ioc : command_text Generic ex_T XABBREV false (2^32 * 7 + 0xdeadbeef) = bs "_IOC(_IOC_READ|_IOC_WRITE, 0xbe, 0xef, 0x1ead)". Proof. reflexivity. Qed.
Example ex_ioc_mips : command_text Thirteen ex_T XABBREV false 0xdeadbeef = bs "_IOC(_IOC_READ|_IOC_WRITE, 0xbe, 0xef, 0x1ead)". Proof. reflexivity. Qed.
Example ex_ioc_sparc : command_text Sparc ex_T XABBREV false 0xfeadbeef = bs "_IOC(_IOC_READ|_IOC_WRITE, 0xbe, 0xef, 0x3ead)". Proof. reflexivity. Qed.
Example ex_named : ~ misnamed Generic 0x80084521.
Proof. unfold misnamed. change (IOC_TYPE 0x80084521) with 69. change (IOC_NR 0x80084521) with 33. change (IOC_SIZE Generic 0x80084521) with 8. change (IOC_DIR Generic 0x80084521) with 2. change (IOC_READ Generic) with 2. change (IOC_WRITE Generic) with 1. lia. Qed.

(** Macros that are wrong: HIDIOCGNAME is shown as HIDIOCSFEATURE, SPI_IOC_MESSAGE with a number of bytes instead of
    transfers, and the macros with a fixed size whatever the size is. *)
Definition bare : itabs := {| ents := []; abs_names := {| ty := XT_NORMAL; data := [] |}; ev_names := {| ty := XT_NORMAL; data := [] |}; term_names := {| ty := XT_NORMAL; data := [] |} |}.
Theorem C68_macros_refuted :
  (command_text Generic bare XABBREV false (IOC Generic 2 72 6 1) = bs "HIDIOCSFEATURE(1)" /\ ~ denotes Generic bare (bs "HIDIOCSFEATURE(1)") (IOC Generic 2 72 6 1)) /\
  (command_text Generic bare XABBREV false (IOC Generic 1 107 0 32) = bs "SPI_IOC_MESSAGE(32)" /\ ~ denotes Generic bare (bs "SPI_IOC_MESSAGE(32)") (IOC Generic 1 107 0 32)) /\
  (command_text Generic bare XABBREV false (IOC Generic 2 77 1 5) = bs "MIXER_READ(1)" /\ ~ denotes Generic bare (bs "MIXER_READ(1)") (IOC Generic 2 77 1 5)).
Proof.
  assert (N0 : forall n, 2^32 <= n -> pr_num 10 n <> bs "1" /\ pr_num 10 n <> bs "32") by (intros n Hn; change (bs "1") with (pr_num 10 1); change (bs "32") with (pr_num 10 32); split; intros X; apply pr_num_inj in X; lia).
  assert (P1 : forall z, pr_num 10 z ++ bs ")" = bs "1)" -> z = 1) by (intros z X; change (bs "1)") with (pr_num 10 1 ++ bs ")") in X; apply app_inv_tail in X; apply pr_num_inj in X; [exact X|lia]).
  assert (P32 : forall z, pr_num 10 z ++ bs ")" = bs "32)" -> z = 32) by (intros z X; change (bs "32)") with (pr_num 10 32 ++ bs ")") in X; apply app_inv_tail in X; apply pr_num_inj in X; [exact X|lia]).
  split; [|split]; (split; [reflexivity|]); intros H; inversion H as [s c I E1 E2|d t n z dt D E1 E2|s d t n z I E1 E2|v x z V E1 E2|v x V E1 E2|v x V E1 E2|n E1 E2|n E1 E2|n E1 E2|E1 E2].
  all: try (cbn in I; contradiction); try discriminate E1.
  - cbn in I. repeat (destruct I as [I|I]; [injection I as <- <- <- <-; first [discriminate E1|idtac]|]); [|contradiction].
    cbn in E1. injection E1 as E1. apply P1 in E1. subst z. discriminate E2.
  - cbn in I. repeat (destruct I as [I|I]; [injection I as <- <- <- <-; discriminate E1|]). contradiction.
  - apply P32 in E1. subst n. discriminate E2.
  - cbn in I. repeat (destruct I as [I|I]; [injection I as <- <- <- <-; discriminate E1|]). contradiction.
  - apply P1 in E1. subst n. discriminate E2.
Qed.
Print Assumptions C68_macros_refuted.

(** The argument of commands of an unknown type: what goes in is shown before the call, what comes out after it, in
    between an arrow if both; the bare number if there is nothing to show.  If the bytes that go in cannot be read, their
    address has been shown and nothing follows. *)
Theorem C68_argument : forall A abbrev code arg ok1 ok2,
  let show := negb abbrev && negb (IOC_SIZE A code =? 0) && negb (arg =? 0) in
  let dir := IOC_DIR A code in
  argument A abbrev code arg ok1 ok2 =
    if negb show then [PNext; PNum]
    else if (dir =? IOC_READ A) then [PNext; PData]
    else if (dir =? IOC_WRITE A) then [PNext; PData]
    else if ok1 then [PNext; PData; PArrow; PData] else [PNext; PData].
Proof.
  intros A ab code arg ok1 ok2 show dir. subst show dir. unfold argument, unknown_type. destruct ab; [reflexivity|]. destruct (IOC_SIZE A code =? 0); [reflexivity|]. destruct (arg =? 0); [reflexivity|]. cbn [orb negb andb].
  destruct (N.eqb_spec (IOC_DIR A code) (IOC_READ A)) as [E|E]; [rewrite E; destruct A; reflexivity|]. destruct (N.eqb_spec (IOC_DIR A code) (IOC_WRITE A)) as [E2|E2]; destruct ok1; reflexivity.
Qed.
Print Assumptions C68_argument.
