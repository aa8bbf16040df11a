(** C110: how epoll is shown. *)
From Verif Require Import Base Printf XlatModel InfoModel InfoSpec TvalSpec NumaSpec VmSpec FlagText EpollModel AioSpec EpollSpec.
From Verif Require BitsModel ExtModel TvalModel TvalThms NumaModel NumaThms DateThms InfoThms FhSpec FhThms AioModel AioThms.
Local Open Scope N_scope.

Lemma events_ok s v : flags_text s event_bits None (bs " /* EPOLL??? */") v (printflags_ex v (Some (bs "EPOLL???")) s FMT_X [epollevents]).
Proof.
  apply (flags_ok s epollevents None (bs "EPOLL???") event_bits v); [| | |discriminate].
  - intros g. unfold epollevents, event_bits. cbn [data]. apply (T_bit _ 0); apply (T_bit _ 1); apply (T_bit _ 2); apply (T_bit _ 3); apply (T_bit _ 4); apply (T_bit _ 5); apply (T_bit _ 6); apply (T_bit _ 7).
    apply (T_bit _ 8); apply (T_bit _ 9); apply (T_bit _ 10); apply (T_bit _ 13); apply (T_bit _ 28); apply (T_bit _ 29); apply (T_bit _ 30); apply (T_bit _ 31); apply T_nil.
  - unfold epollevents. cbn [data]. split; [reflexivity|]. intros g ->. split; [reflexivity|]. destruct s; reflexivity.
  - repeat constructor; cbn; intuition discriminate.
Qed.
Lemma cloexec_ok s v : flags_text s [(19, bs "EPOLL_CLOEXEC")] None (bs " /* EPOLL_??? */") v (printflags_ex v (Some (bs "EPOLL_???")) s FMT_X [epollflags]).
Proof.
  apply (flags_ok s epollflags None (bs "EPOLL_???") [(19, bs "EPOLL_CLOEXEC")] v); [| | |discriminate].
  - intros g. unfold epollflags. cbn [data]. apply (T_bit _ 19); apply T_nil.
  - unfold epollflags. cbn [data]. split; [reflexivity|]. intros g ->. split; [reflexivity|]. destruct s; reflexivity.
  - repeat constructor; cbn; intuition discriminate.
Qed.
Lemma op_name v : xlookup epollctls v = operation v.
Proof.
  destruct (N.ltb_spec v 4) as [L|L].
  - assert (v = 0 \/ v = 1 \/ v = 2 \/ v = 3) as C by lia. repeat destruct C as [-> |C]; try reflexivity. subst v. reflexivity.
  - unfold xlookup. cbn [ty epollctls data length]. replace (v <? N.of_nat 4) with false by (symmetry; apply N.ltb_ge; exact L). unfold operation.
    destruct v as [|p]; [reflexivity|]. do 2 (destruct p as [p|p|]; try reflexivity; try lia).
Qed.
Lemma operation_ok s v : operation_text s v (printxvals_ex v (Some (bs "EPOLL_CTL_???")) s FMT_X [epollctls]).
Proof.
  exists (pr_hex v). split; [apply NumaThms.hex_ok|]. unfold named, printxvals_ex. cbn [xlookups]. rewrite op_name.
  change (sprint_xlat_val FMT_X v) with (pr_hex v). destruct (operation v) as [n|] eqn:E; [|destruct s; reflexivity].
  assert (NE : n <> []) by (intros ->; unfold operation in E; repeat match type of E with context [match ?x with _ => _ end] => destruct x end; discriminate E). destruct n; [contradiction|]. destruct s; reflexivity.
Qed.
Lemma signed_int a : signed 4 (a mod 2 ^ 32) (int a).
Proof. unfold int. apply (AioThms.sx_signed 4); [lia|]. apply N.mod_lt. discriminate. Qed.
Lemma int_ok a : int_text a (TvalModel.sdec (int a)).
Proof. eexists. split; [apply signed_int|apply DateThms.sdec_integer]. Qed.
Lemma ev_ok packed s c : struct_text (event_rows packed s c) (print_epoll_event packed s c).
Proof.
  apply AioThms.struct_ok. unfold ev_data. constructor; [apply AioThms.field_row; rewrite InfoThms.ld_number; apply events_ok|].
  constructor; [|constructor]. apply AioThms.field_row. rewrite InfoThms.ld_number. apply NumaThms.hex_ok.
Qed.
Lemma size_ok packed : ev_size packed = event_size packed.
Proof. destruct packed; reflexivity. Qed.

(** ---- C110: the size of epoll_create is an int, the flags of epoll_create1 are named ---- *)
Theorem C110_create : forall e a, int_text a (epoll_create a) /\ flags_text (st e) [(19, bs "EPOLL_CLOEXEC")] None (bs " /* EPOLL_??? */") (a mod 2 ^ 32) (epoll_create1 e a).
Proof. intros e a. split; [apply int_ok|apply cloexec_ok]. Qed.
Print Assumptions C110_create.

(** ---- epoll_ctl: EPOLL_CTL_DEL has no event; otherwise what the pointer points to ---- *)
Definition event_text (packed : bool) (e : env) (op p : N) (t : list N) : Prop :=
  (op = 2 \/ FhSpec.unseen (ExtModel.verbose (NumaModel.o e)) (negb (ExtModel.failed (NumaModel.o e))) (NumaModel.m e) p (event_size packed) -> address t p) /\
  (forall c, op <> 2 -> length c = event_size packed -> FhSpec.seen (ExtModel.verbose (NumaModel.o e)) (negb (ExtModel.failed (NumaModel.o e))) (NumaModel.m e) p c ->
     struct_text (event_rows packed (st e) c) t).
Theorem C110_ctl : forall fd packed e a0 a1 a2 a3, let op := a1 mod 2 ^ 32 in
  exists x z y v, signed 4 (a0 mod 2 ^ 32) x /\ operation_text (st e) op z /\ signed 4 (a2 mod 2 ^ 32) y /\ event_text packed e op a3 v /\
  epoll_ctl fd packed e a0 a1 a2 a3 = commas [fd x; z; fd y; v].
Proof.
  intros fd packed e a0 a1 a2 a3 op. unfold epoll_ctl. rewrite NumaThms.args_commas. change (u32 a1) with op. clearbody op.
  exists (int a0). eexists. exists (int a2). eexists. split; [apply signed_int|]. split; [apply operation_ok|]. split; [apply signed_int|]. split; [|reflexivity].
  rewrite size_ok. split.
  - intros [-> |U]; [apply TvalThms.printaddr_ok|]. rewrite (AioThms.fetch_unseen e a3 _ U). destruct (op =? 2); apply TvalThms.printaddr_ok.
  - intros c O L S. apply N.eqb_neq in O. rewrite O. pose proof (AioThms.fetch_seen e a3 c S) as E. rewrite L in E. rewrite E. apply ev_ok.
Qed.
Print Assumptions C110_ctl.

(** ---- epoll_wait and its variants: as many events as the kernel says it stored ---- *)
Lemma common_ok fd packed e tmo rest a0 a1 a2 b n :
  n <> 0%nat -> a1 <> 0 -> a1 + N.of_nat n * N.of_nat (event_size packed) < 2 ^ 64 ->
  ExtModel.verbose (NumaModel.o e) = true -> ExtModel.failed (NumaModel.o e) = false -> (NumaModel.abbrev e = true -> N.of_nat n < 2 ^ 32) ->
  bytes_at (NumaModel.m e) a1 b -> length b = (n * event_size packed)%nat ->
  let k := count (NumaModel.abbrev e) (ExtModel.max_strlen (NumaModel.o e)) (N.of_nat n) in
  exists x v y, signed 4 (a0 mod 2 ^ 32) x /\ array_text (fun i t => struct_text (event_rows packed (st e) (firstn (event_size packed) (skipn (i * event_size packed) b))) t) k (cut k n) v /\ int_text a2 y /\
    epoll_wait_common fd packed e (N.of_nat n) tmo rest a0 a1 a2 = commas ([fd x; v; y; tmo] ++ rest).
Proof.
  intros N0 A0 F V NF AB M L k. unfold epoll_wait_common. rewrite NumaThms.args_commas, size_ok. assert (S0 : (0 < event_size packed < 100)%nat) by (destruct packed; cbn; lia).
  exists (int a0). eexists. eexists. split; [apply signed_int|]. split; [|split; [apply int_ok|reflexivity]].
  apply NumaThms.array_text_of with (pf := print_epoll_event packed (st e)) (b := b) (esz := event_size packed) (j := n).
  - exact L.
  - unfold k, count. destruct (NumaModel.abbrev e); lia.
  - intros i I. apply ev_ok.
  - unfold k. apply NumaThms.array_whole; try assumption; try lia.
Qed.
Definition shown_wait (fd : Z -> list N) (packed : bool) (e : env) (tmo : list N -> Prop) (rest : list (list N) -> Prop) (a0 a2 : N) (b : list N) (n : nat) (t : list N) : Prop :=
  let k := count (NumaModel.abbrev e) (ExtModel.max_strlen (NumaModel.o e)) (N.of_nat n) in
  exists x v y w r, signed 4 (a0 mod 2 ^ 32) x /\ array_text (fun i t => struct_text (event_rows packed (st e) (firstn (event_size packed) (skipn (i * event_size packed) b))) t) k (cut k n) v /\
    int_text a2 y /\ tmo w /\ rest r /\ t = commas ([fd x; v; y; w] ++ r).
Theorem C110_wait : forall fd sig ts packed e a0 a1 a2 a3 a4 a5 b n,
  n <> 0%nat -> a1 <> 0 -> a1 + N.of_nat n * N.of_nat (event_size packed) < 2 ^ 64 ->
  ExtModel.verbose (NumaModel.o e) = true -> ExtModel.failed (NumaModel.o e) = false -> (NumaModel.abbrev e = true -> N.of_nat n < 2 ^ 32) ->
  bytes_at (NumaModel.m e) a1 b -> length b = (n * event_size packed)%nat ->
  let signals r := exists d, number d a5 /\ r = [sig a4 a5; d] in
  shown_wait fd packed e (int_text a3) (eq []) a0 a2 b n (epoll_wait fd packed e (N.of_nat n) a0 a1 a2 a3) /\
  shown_wait fd packed e (int_text a3) signals a0 a2 b n (epoll_pwait fd sig packed e (N.of_nat n) a0 a1 a2 a3 a4 a5) /\
  shown_wait fd packed e (eq (ts a3)) signals a0 a2 b n (epoll_pwait2 fd sig ts packed e (N.of_nat n) a0 a1 a2 a3 a4 a5).
Proof.
  intros fd sig ts packed e a0 a1 a2 a3 a4 a5 b n N0 A0 F V NF AB M L signals.
  assert (S : signals [sig a4 a5; TvalModel.udec a5]) by (eexists; split; [apply TvalThms.udec_number|reflexivity]).
  assert (G : forall (T : list N -> Prop) (R : list (list N) -> Prop) w r, T w -> R r -> shown_wait fd packed e T R a0 a2 b n (epoll_wait_common fd packed e (N.of_nat n) w r a0 a1 a2)).
  { intros T R w r HT HR. destruct (common_ok fd packed e w r a0 a1 a2 b n N0 A0 F V NF AB M L) as (x & v & y & X & AT & Y & E). exists x, v, y, w, r. repeat (split; [assumption|]). exact E. }
  split; [|split]; apply G; auto using int_ok.
Qed.
Print Assumptions C110_wait.
(** No event: "[]"; a call that failed, and so returned -1: the address *)
Theorem C110_no_events : forall fd packed e rval tmo rest a0 a1 a2, a1 < 2 ^ 64 -> rval = 0 \/ rval = 2 ^ 64 - 1 ->
  exists x v y, signed 4 (a0 mod 2 ^ 32) x /\ int_text a2 y /\ (if a1 =? 0 then v = bs "NULL" else if rval =? 0 then v = bs "[]" else address v a1) /\
  epoll_wait_common fd packed e rval tmo rest a0 a1 a2 = commas ([fd x; v; y; tmo] ++ rest).
Proof.
  intros fd packed e rval tmo rest a0 a1 a2 A R. unfold epoll_wait_common. rewrite NumaThms.args_commas, size_ok. assert (S0 : (12 <= event_size packed < 100)%nat) by (destruct packed; cbn; lia).
  exists (int a0). eexists. eexists. split; [apply signed_int|]. split; [apply int_ok|]. split; [|reflexivity].
  rewrite NumaThms.array_nothing; [|exact A|lia|lia|lia|].
  - destruct (a1 =? 0); [reflexivity|]. destruct (rval =? 0); [reflexivity|apply TvalThms.printaddr_ok].
  - destruct R as [-> | ->]; [auto|]. destruct (N.eqb_spec a1 0); [auto|]. right. right. destruct packed; cbn [event_size]; lia.
Qed.
Print Assumptions C110_no_events.

Definition ex_events : list N := [5; 0; 0; 128] ++ [3; 2; 0; 0; 0; 0; 0; 0] ++ [0; 0; 0; 0] ++ repeat 0 8.
Example C110_example :
  let e := NumaThms.ex_env ex_events in
  epoll_ctl TvalModel.sdec true e 3 1 (2 ^ 32 - 1) 4096 = bs "3, EPOLL_CTL_ADD, -1, {events=EPOLLIN|EPOLLOUT|EPOLLET, data=0x203}" /\
  epoll_ctl TvalModel.sdec true e 3 2 4 4096 = bs "3, EPOLL_CTL_DEL, 4, 0x1000" /\
  epoll_ctl TvalModel.sdec true e 3 7 4 64 = bs "3, 0x7 /* EPOLL_CTL_??? */, 4, 0x40" /\
  epoll_wait TvalModel.sdec true e 2 3 4096 16 (2 ^ 32 - 1) = bs "3, [{events=EPOLLIN|EPOLLOUT|EPOLLET, data=0x203}, {events=0, data=0}], 16, -1" /\
  epoll_pwait TvalModel.sdec (fun _ _ => bs "[]") true e 0 3 4096 16 5 64 8 = bs "3, [], 16, 5, [], 8" /\
  epoll_create1 e 0x80001 = bs "EPOLL_CLOEXEC|0x1" /\ epoll_create1 e (2 ^ 32 + 0x80000) = bs "EPOLL_CLOEXEC" /\ epoll_create (2 ^ 32 + 7) = bs "7".
Proof. repeat split; vm_compute; reflexivity. Qed.
