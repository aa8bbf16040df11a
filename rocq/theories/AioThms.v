(** C109: how asynchronous I/O is shown. *)
From Verif Require Import Base Printf XlatModel InfoModel InfoSpec TvalSpec NumaSpec VmSpec FlagText AioModel AioSpec.
From Verif Require BitsModel ExtModel TvalModel TvalThms NumaModel NumaThms DateThms EvThms InfoThms FhSpec FhThms.
Local Open Scope N_scope.

Lemma sx_signed (w : nat) v : (0 < w)%nat -> v < 256 ^ N.of_nat w -> signed (Z.of_nat w) v (TvalModel.sx w v).
Proof.
  intros W L. unfold signed, TvalModel.sx. assert (P : (2 ^ (8 * Z.of_nat w) = 2 * 2 ^ (8 * Z.of_nat w - 1))%Z) by (rewrite <- Z.pow_succ_r by lia; f_equal; lia).
  assert (P0 : (0 < 2 ^ (8 * Z.of_nat w - 1))%Z) by (apply Z.pow_pos_nonneg; lia).
  assert (V : (Z.of_N v < 2 ^ (8 * Z.of_nat w))%Z).
  { apply N2Z.inj_lt in L. rewrite N2Z.inj_pow in L. rewrite nat_N_Z in L. rewrite Z.pow_mul_r by lia. exact L. }
  rewrite P in *. set (h := (2 ^ (8 * Z.of_nat w - 1))%Z) in *. clearbody h. rewrite Z.mul_comm, Z.div_mul by lia. rewrite Z.mul_comm in V. 
  destruct (Z.ltb_spec (Z.of_N v) h).
  - split; [lia|]. apply Z.mod_small. lia.
  - split; [lia|]. replace (Z.of_N v - h * 2)%Z with (Z.of_N v + (-1) * (h * 2))%Z by lia. rewrite Z.mod_add by lia. apply Z.mod_small. lia.
Qed.
Lemma field_row n (P : list N -> Prop) v : P v -> is_row (n, P) (field n v).
Proof. intros H. exists v. split; [exact H|reflexivity]. Qed.
Lemma row1 n (P : list N -> Prop) v : P v -> Forall2 is_row [(n, P)] [field n v].
Proof. intros H. constructor; [apply field_row, H|constructor]. Qed.
Lemma pos_nz v : negb (v =? 0) = (0 <? v).
Proof. destruct (N.eqb_spec v 0), (N.ltb_spec 0 v); try reflexivity; lia. Qed.
Lemma when_only b l ts : Forall2 is_row l ts -> Forall2 is_row (only b l) (when b ts).
Proof. intros H. destruct b; [exact H|constructor]. Qed.
Lemma land_bit v k : negb (N.land v (2 ^ k) =? 0) = N.testbit v k.
Proof.
  destruct (N.testbit v k) eqn:T.
  - destruct (N.eqb_spec (N.land v (2 ^ k)) 0) as [E|]; [|reflexivity]. apply (f_equal (fun x => N.testbit x k)) in E. rewrite N.land_spec, T, N.pow2_bits_true, N.bits_0 in E. discriminate.
  - replace (N.land v (2 ^ k)) with 0; [reflexivity|]. symmetry. apply N.bits_inj. intros j. rewrite N.land_spec, N.bits_0. destruct (N.eqb_spec k j) as [-> |J]; [rewrite T; reflexivity|].
    rewrite N.pow2_bits_false by exact J. apply andb_false_r.
Qed.
Lemma struct_ok l ts : Forall2 is_row l ts -> struct_text l (struct ts).
Proof. intros F. exists ts. split; [exact F|]. unfold struct. rewrite NumaThms.args_commas. reflexivity. Qed.

(** ---- the names ---- *)
Lemma rwf_ok s v : flags_text s rwf_bits None (bs " /* RWF_??? */") v (printflags_ex v (Some (bs "RWF_???")) s FMT_X [rwf_flags]).
Proof.
  apply (flags_ok s rwf_flags None (bs "RWF_???") rwf_bits v); [| | |discriminate].
  - intros g. unfold rwf_flags, rwf_bits. cbn [data]. apply (T_bit _ 0); apply (T_bit _ 1); apply (T_bit _ 2); apply (T_bit _ 3); apply (T_bit _ 4); apply (T_bit _ 5); apply (T_bit _ 6); apply (T_bit _ 7); apply T_nil.
  - unfold rwf_flags. cbn [data]. split; [reflexivity|]. intros g ->. split; [reflexivity|]. destruct s; reflexivity.
  - repeat constructor; cbn; intuition discriminate.
Qed.
Lemma iocb_flags_ok s v : flags_text s iocb_bits None (bs " /* IOCB_FLAG_??? */") v (printflags_ex v (Some (bs "IOCB_FLAG_???")) s FMT_X [aio_iocb_flags]).
Proof.
  apply (flags_ok s aio_iocb_flags None (bs "IOCB_FLAG_???") iocb_bits v); [| | |discriminate].
  - intros g. unfold aio_iocb_flags, iocb_bits. cbn [data]. apply (T_bit _ 0); apply (T_bit _ 1); apply T_nil.
  - unfold aio_iocb_flags. cbn [data]. split; [reflexivity|]. intros g ->. split; [reflexivity|]. destruct s; reflexivity.
  - repeat constructor; cbn; intuition discriminate.
Qed.
Lemma poll_ok s v : flags_text s poll_bits None (bs " /* POLL??? */") v (printflags_ex v (Some (bs "POLL???")) s FMT_X [pollflags]).
Proof.
  apply (flags_ok s pollflags None (bs "POLL???") poll_bits v); [| | |discriminate].
  - intros g. unfold pollflags, poll_bits. cbn [data]. apply (T_bit _ 0); apply (T_bit _ 1); apply (T_bit _ 2); apply (T_bit _ 3); apply (T_bit _ 4); apply (T_bit _ 5); apply (T_bit _ 6); apply (T_bit _ 7).
    apply (T_bit _ 8); apply (T_bit _ 9); apply (T_bit _ 10); apply (T_bit _ 12); apply (T_bit _ 13); apply (T_bit _ 15); apply T_nil.
  - unfold pollflags. cbn [data]. split; [reflexivity|]. intros g ->. split; [reflexivity|]. destruct s; reflexivity.
  - repeat constructor; cbn; intuition discriminate.
Qed.
Lemma cmd_name v : xlookup aio_cmds v = nth_error commands (N.to_nat v).
Proof.
  destruct (N.ltb_spec v 9) as [L|L].
  - assert (v = 0 \/ v = 1 \/ v = 2 \/ v = 3 \/ v = 4 \/ v = 5 \/ v = 6 \/ v = 7 \/ v = 8) as C by lia. repeat destruct C as [-> |C]; try reflexivity. subst v. reflexivity.
  - unfold xlookup. cbn [ty aio_cmds data length]. replace (v <? N.of_nat 9) with false by (symmetry; apply N.ltb_ge; exact L). symmetry. apply nth_error_None. cbn [commands length]. lia.
Qed.
Lemma class_name v : xlookup ioprio_class v = nth_error classes (N.to_nat v).
Proof.
  destruct (N.ltb_spec v 4) as [L|L].
  - assert (v = 0 \/ v = 1 \/ v = 2 \/ v = 3) as C by lia. repeat destruct C as [-> |C]; try reflexivity. subst v. reflexivity.
  - unfold xlookup. cbn [ty ioprio_class data length]. replace (v <? N.of_nat 4) with false by (symmetry; apply N.ltb_ge; exact L). symmetry. apply nth_error_None. cbn [classes length]. lia.
Qed.
Lemma command_ok s v : command_text s v (printxvals_ex v (Some (bs "IOCB_CMD_???")) s FMT_U [aio_cmds]).
Proof.
  exists (TvalModel.udec v). split; [apply TvalThms.udec_number|]. unfold named, printxvals_ex. cbn [xlookups]. rewrite cmd_name.
  change (sprint_xlat_val FMT_U v) with (TvalModel.udec v). destruct (nth_error commands (N.to_nat v)) as [n|] eqn:E; [|destruct s; reflexivity].
  assert (NE : n <> []) by (intros ->; apply nth_error_In in E; cbn [commands In] in E; intuition discriminate). destruct n; [contradiction|]. destruct s; reflexivity.
Qed.
Lemma prio_ok s v : prio_text s v (print_ioprio s v).
Proof.
  assert (C : N.shiftr v 13 = v / 2 ^ 13) by apply N.shiftr_div_pow2. assert (D : N.land v 8191 = v mod 2 ^ 13) by (change 8191 with (N.ones 13); apply N.land_ones).
  exists (pr_hex v), (pr_hex (v / 2 ^ 13)), (sprintxval_ex ioprio_class (v / 2 ^ 13) (Some (bs "IOPRIO_CLASS_???")) s FMT_X), (TvalModel.udec (v mod 2 ^ 13)).
  split; [apply NumaThms.hex_ok|]. split; [apply NumaThms.hex_ok|]. split; [|split; [apply TvalThms.udec_number|]].
  - unfold named, sprintxval_ex. rewrite class_name. destruct (nth_error classes (N.to_nat (v / 2 ^ 13))), s; reflexivity.
  - unfold print_ioprio, sprint_ioprio. rewrite C, D. destruct s; reflexivity.
Qed.

(** ---- the members ---- *)
Section P.
  Variables (x : texts) (s : BitsModel.xstyle_t) (c : list N).
  Hypothesis B : Forall (fun b => b < 256) c.
  Lemma fd_ok off : fd_text (fd x) (number_at c off 4) (fd x (TvalModel.sx 4 (number_at c off 4))).
  Proof. eexists. split; [|reflexivity]. apply (sx_signed 4); [lia|]. apply InfoThms.number_lt, B. Qed.
  Lemma signed_ok w off : (0 < w)%nat -> signed_text (Z.of_nat w) (number_at c off w) (TvalModel.sdec (TvalModel.sx w (number_at c off w))).
  Proof. intros W. eexists. split; [|apply DateThms.sdec_integer]. apply sx_signed; [exact W|]. apply InfoThms.number_lt, B. Qed.
  Lemma first_ok : Forall2 is_row (first_rows (fd x) s c) (header x s c).
  Proof.
    unfold first_rows, header, aio_data, aio_key, aio_rw_flags, aio_lio_opcode, aio_reqprio, aio_fildes, aio_flags. rewrite !InfoThms.ld_number. change (N.land (number_at c 56 4) 2) with (N.land (number_at c 56 4) (2 ^ 1)). rewrite land_bit, !pos_nz.
    apply Forall2_app; [apply row1, NumaThms.hex_ok|]. apply Forall2_app; [apply when_only, row1, TvalThms.udec_number|]. apply Forall2_app; [apply when_only, row1, rwf_ok|].
    apply Forall2_app; [apply row1, command_ok|]. rewrite app_assoc. apply Forall2_app; [|apply row1, fd_ok].
    destruct (N.testbit (number_at c 56 4) 1); cbn [only negb andb app].
    - apply row1, prio_ok.
    - apply when_only, row1. apply (signed_ok 2). lia.
  Qed.
  Lemma last_ok : Forall2 is_row (last_rows (fd x) s c) (common_flags x s c).
  Proof.
    unfold last_rows, common_flags, aio_flags, aio_resfd. rewrite !InfoThms.ld_number. apply Forall2_app; [rewrite pos_nz; apply when_only, row1, iocb_flags_ok|].
    change (N.land (number_at c 56 4) 1) with (N.land (number_at c 56 4) (2 ^ 0)). rewrite land_bit. destruct (N.testbit (number_at c 56 4) 0); cbn [only negb andb app].
    - apply row1, fd_ok.
    - rewrite pos_nz. apply when_only, row1, NumaThms.hex_ok.
  Qed.
  Lemma all_ok : plain c = false -> Forall2 is_row (all_rows (fd x) (str x) (iov x) s c) (members x s c).
  Proof.
    intros P. unfold all_rows, members. apply Forall2_app; [exact first_ok|]. unfold plain in P. unfold middle_rows, valid, aio_lio_opcode, aio_nbytes, aio_buf, aio_offset. rewrite !InfoThms.ld_number.
    assert (C : number_at c 16 2 = 0 \/ number_at c 16 2 = 1 \/ number_at c 16 2 = 5 \/ number_at c 16 2 = 7 \/ number_at c 16 2 = 8) by (revert P; generalize (number_at c 16 2); clear; intros [|p] P; [lia|]; do 4 (destruct p as [p|p|]; try discriminate P; try lia)).
    destruct C as [-> |[-> |[-> |[-> | ->]]]]; unfold sub_of; cbn [N.to_nat Pos.to_nat Pos.iter_op nth]; (apply Forall2_app; [|exact last_ok]) || (rewrite app_assoc; apply Forall2_app; [|exact last_ok]); cbn [N.eqb Pos.eqb andb].
    - constructor; [apply field_row, NumaThms.hex_ok|]. constructor; [apply field_row, TvalThms.udec_number|]. constructor; [apply field_row, (signed_ok 8); lia|constructor].
    - constructor; [destruct (number_at c 32 8 <? 2 ^ 63); apply field_row; [reflexivity|apply NumaThms.hex_ok]|]. constructor; [apply field_row, TvalThms.udec_number|]. constructor; [apply field_row, (signed_ok 8); lia|constructor].
    - apply row1, poll_ok.
    - apply Forall2_app; [|apply row1, (signed_ok 8); lia]. destruct (number_at c 32 8 <? 2 ^ 63); [apply row1; reflexivity|]. constructor; [apply field_row, NumaThms.hex_ok|apply row1, TvalThms.udec_number].
    - apply Forall2_app; [|apply row1, (signed_ok 8); lia]. destruct (number_at c 32 8 <? 2 ^ 63); [apply row1; reflexivity|]. constructor; [apply field_row, NumaThms.hex_ok|apply row1, TvalThms.udec_number].
  Qed.
  Lemma plain_ok : plain c = true -> Forall2 is_row (first_rows (fd x) s c) (members x s c).
  Proof.
    intros P. unfold members. assert (E : sub_of (aio_lio_opcode c) = SUB_NONE).
    { unfold aio_lio_opcode. rewrite InfoThms.ld_number. unfold plain in P. revert P. generalize (number_at c 16 2). clear. intros v P. destruct (N.ltb_spec v 9) as [L|L].
      - assert (v = 0 \/ v = 1 \/ v = 2 \/ v = 3 \/ v = 4 \/ v = 5 \/ v = 6 \/ v = 7 \/ v = 8) as C by lia. repeat destruct C as [-> |C]; try discriminate P; try reflexivity. subst v. discriminate P.
      - unfold sub_of. apply nth_overflow. cbn [length]. lia. }
    rewrite E, app_nil_r. exact first_ok.
  Qed.
  Lemma event_ok : Forall2 is_row (event_rows c) [field (bs "data") (pr_hex (ld c 0 8)); field (bs "obj") (pr_hex (ld c 8 8)); field (bs "res") (TvalModel.sdec (TvalModel.sx 8 (ld c 16 8))); field (bs "res2") (TvalModel.sdec (TvalModel.sx 8 (ld c 24 8)))].
  Proof.
    rewrite !InfoThms.ld_number. constructor; [apply field_row, NumaThms.hex_ok|]. constructor; [apply field_row, NumaThms.hex_ok|]. constructor; [apply field_row, (signed_ok 8); lia|].
    constructor; [apply field_row, (signed_ok 8); lia|constructor].
  Qed.
End P.

(** ---- C109: a control block is shown with all its members ---- *)
Theorem C109_iocb_partial : forall x s c, Forall (fun b => b < 256) c -> plain c = false -> struct_text (all_rows (fd x) (str x) (iov x) s c) (print_iocb x s c).
Proof. intros x s c B P. apply struct_ok, all_ok; assumption. Qed.
Print Assumptions C109_iocb_partial.
(** ... and for the other commands with the first ones *)
Theorem C109_plain : forall x s c, Forall (fun b => b < 256) c -> plain c = true -> struct_text (first_rows (fd x) s c) (print_iocb x s c).
Proof. intros x s c B P. apply struct_ok, plain_ok; assumption. Qed.
Print Assumptions C109_plain.
(** ... although a synchronization may name a descriptor to be notified *)
Definition ex_x : texts := {| fd := TvalModel.sdec; str := fun a n => bs "S"; iov := fun a n d => bs "V" |}.
Definition ex_sync (r : N) : list N := repeat 0 16 ++ [2; 0; 0; 0; 3; 0; 0; 0] ++ repeat 0 32 ++ [1; 0; 0; 0; r; 0; 0; 0].
Theorem C109_resfd_refuted : exists c c', length c = 64%nat /\ length c' = 64%nat /\ number_at c 16 2 = 2 /\ N.testbit (number_at c 56 4) 0 = true /\ N.testbit (number_at c' 56 4) 0 = true /\
  number_at c 60 4 <> number_at c' 60 4 /\ forall x s, print_iocb x s c = print_iocb x s c'.
Proof.
  exists (ex_sync 4), (ex_sync 5). split; [reflexivity|]. split; [reflexivity|]. split; [reflexivity|]. split; [reflexivity|]. split; [reflexivity|]. split; [vm_compute; discriminate|].
  intros x s. reflexivity.
Qed.
Print Assumptions C109_resfd_refuted.

Lemma fetch_seen (e : env) a b : FhSpec.seen (ExtModel.verbose (NumaModel.o e)) (negb (ExtModel.failed (NumaModel.o e))) (NumaModel.m e) a b -> ExtModel.umoven_or_printaddr (NumaModel.o e) (NumaModel.m e) a (length b) = Some b.
Proof.
  intros (A & V & O & M). unfold ExtModel.umoven_or_printaddr. apply N.eqb_neq in A. apply negb_true_iff in O. rewrite A, V, O. apply TvalThms.umoven_bytes, M.
Qed.
Lemma fetch_unseen (e : env) a n : FhSpec.unseen (ExtModel.verbose (NumaModel.o e)) (negb (ExtModel.failed (NumaModel.o e))) (NumaModel.m e) a n -> ExtModel.umoven_or_printaddr (NumaModel.o e) (NumaModel.m e) a n = None.
Proof.
  intros U. unfold ExtModel.umoven_or_printaddr. destruct U as [-> |[V|[O|U]]].
  - reflexivity.
  - rewrite V. rewrite orb_true_r. reflexivity.
  - apply negb_false_iff in O. rewrite O, !orb_true_r. reflexivity.
  - rewrite (TvalThms.umoven_none _ _ _ U). destruct (_ || _); reflexivity.
Qed.

Lemma signed_fun w v z z' : (0 < w)%Z -> signed w v z -> signed w v z' -> z = z'.
Proof.
  intros W [R E] [R' E']. assert (P : (2 ^ (8 * w) = 2 * 2 ^ (8 * w - 1))%Z) by (rewrite <- Z.pow_succ_r by lia; f_equal; lia). rewrite P in E, E'. set (h := (2 ^ (8 * w - 1))%Z) in *. clearbody h. clear P W.
  assert (H : (0 < h)%Z) by lia. pose proof (Z.div_mod z (2 * h) ltac:(lia)) as D. pose proof (Z.div_mod z' (2 * h) ltac:(lia)) as D'. rewrite E in D. rewrite E' in D'. assert (Q : (z / (2 * h) = z' / (2 * h))%Z) by nia. nia.
Qed.
Lemma u32_pow a : u32 a = a mod 256 ^ N.of_nat 4.
Proof. reflexivity. Qed.
Lemma u64_pow a : u64 a = a mod 256 ^ N.of_nat 8.
Proof. reflexivity. Qed.
Lemma trunc_ok e w a z : w = 4%nat \/ w = 8%nat -> NumaModel.ws e = N.of_nat w -> signed (Z.of_nat w) (a mod 256 ^ N.of_nat w) z -> trunc e a = z.
Proof.
  intros W WS SG. apply (signed_fun (Z.of_nat w) (a mod 256 ^ N.of_nat w)); [lia| |exact SG]. clear SG. unfold trunc. rewrite WS. destruct W as [-> | ->].
  - replace (N.of_nat 4 =? 4) with true by reflexivity. rewrite u32_pow. apply sx_signed; [lia|]. apply N.mod_lt. discriminate.
  - replace (N.of_nat 8 =? 4) with false by reflexivity. rewrite u64_pow. apply sx_signed; [lia|]. apply N.mod_lt. discriminate.
Qed.
(** ---- io_submit: each control block is that of its pointer ---- *)
Definition iocbp_text (x : texts) (e : env) (p : N) (t : list N) : Prop :=
  (FhSpec.unseen (ExtModel.verbose (NumaModel.o e)) (negb (ExtModel.failed (NumaModel.o e))) (NumaModel.m e) p 64 -> address t p) /\
  (forall c, length c = 64%nat -> FhSpec.seen (ExtModel.verbose (NumaModel.o e)) (negb (ExtModel.failed (NumaModel.o e))) (NumaModel.m e) p c ->
     struct_text (if plain c then first_rows (fd x) (st e) c else all_rows (fd x) (str x) (iov x) (st e) c) t).
Theorem C109_submit : forall x e w a0 a1 a2 b n, DateThms.byte_memory (NumaModel.m e) -> w = 4%nat \/ w = 8%nat -> NumaModel.ws e = N.of_nat w -> a1 < 2 ^ 64 ->
  signed (Z.of_nat w) (a1 mod 256 ^ N.of_nat w) (Z.of_nat n) -> n <> 0%nat -> a2 <> 0 -> a2 + N.of_nat n * N.of_nat w < 2 ^ 64 ->
  ExtModel.verbose (NumaModel.o e) = true -> ExtModel.failed (NumaModel.o e) = false -> (NumaModel.abbrev e = true -> N.of_nat n < 2 ^ 32) ->
  bytes_at (NumaModel.m e) a2 b -> length b = (n * w)%nat ->
  let k := count (NumaModel.abbrev e) (ExtModel.max_strlen (NumaModel.o e)) (N.of_nat n) in
  exists q z v, address q a0 /\ integer z (Z.of_nat n) /\ array_text (fun i t => iocbp_text x e (number_at b (i * w) w) t) k (cut k n) v /\ io_submit x e a0 a1 a2 = commas [q; z; v].
Proof.
  intros x e w a0 a1 a2 b n BM W WS L1 SG N0 A0 F V NF AB M L k.
  exists (TvalModel.printaddr a0), (TvalModel.sdec (Z.of_nat n)), (NumaModel.print_array e (print_iocbp x e) a2 (N.of_nat n) (N.of_nat w)).
  split; [apply TvalThms.printaddr_ok|]. split; [apply DateThms.sdec_integer|]. assert (W0 : (0 < w)%nat) by (destruct W; lia). split.
  - apply NumaThms.array_text_of with (pf := print_iocbp x e) (b := b) (esz := w) (j := n).
    + exact L.
    + unfold k, count. destruct (NumaModel.abbrev e); lia.
    + intros i I. assert (IN : (i < n)%nat) by (unfold k, count in I; destruct (NumaModel.abbrev e); lia).
      assert (PL : length (NumaThms.piece b w i) = w) by (unfold NumaThms.piece; rewrite firstn_length, skipn_length, L; nia).
      unfold print_iocbp. rewrite PL. replace (if (w <? 8)%nat then ld (NumaThms.piece b w i) 0 4 else ld (NumaThms.piece b w i) 0 8) with (number_at b (i * w) w) by (rewrite <- NumaThms.piece_number; destruct W as [-> | ->]; reflexivity).
      set (p := number_at b (i * w) w). split.
      * intros U. rewrite (fetch_unseen e p 64 U). apply TvalThms.printaddr_ok.
      * intros c C S'. pose proof (fetch_seen e p c S') as E. rewrite C in E. rewrite E. destruct S' as (_ & _ & _ & S'). pose proof (FhThms.seen_bytes _ _ _ BM S') as BC.
        destruct (plain c) eqn:P; [apply C109_plain|apply C109_iocb_partial]; assumption.
    + unfold k. apply NumaThms.array_whole; try assumption; try lia.
  - unfold io_submit. assert (T : trunc e a1 = Z.of_nat n).
    { apply (trunc_ok e w a1); assumption. }
    rewrite T. rewrite NumaThms.args_commas. replace (Z.of_nat n <? 0)%Z with false by (symmetry; apply Z.ltb_ge; lia). rewrite WS. replace (Z.to_N (Z.of_nat n)) with (N.of_nat n) by lia. reflexivity.
Qed.
Print Assumptions C109_submit.
(** A number of control blocks below 0 is one of none: the pointer is shown *)
Theorem C109_submit_negative : forall x e a0 a1 a2, NumaModel.ws e = 8 -> 2 ^ 63 <= a1 < 2 ^ 64 -> exists q z v, address q a0 /\ integer z (Z.of_N a1 - 2 ^ 64) /\ address v a2 /\ io_submit x e a0 a1 a2 = commas [q; z; v].
Proof.
  intros x e a0 a1 a2 W A. exists (TvalModel.printaddr a0), (TvalModel.sdec (Z.of_N a1 - 2 ^ 64)), (TvalModel.printaddr a2). split; [apply TvalThms.printaddr_ok|]. split; [apply DateThms.sdec_integer|]. split; [apply TvalThms.printaddr_ok|].
  unfold io_submit. assert (T : trunc e a1 = (Z.of_N a1 - 2 ^ 64)%Z).
  { unfold trunc. rewrite W. cbn [N.eqb Pos.eqb]. unfold u64. rewrite N.mod_small by lia. unfold TvalModel.sx. change (2 ^ (8 * Z.of_nat 8))%Z with (2 ^ 64)%Z. change (2 ^ 64 / 2)%Z with (2 ^ 63)%Z.
    destruct (Z.ltb_spec (Z.of_N a1) (2 ^ 63)); [lia|reflexivity]. }
  rewrite T, NumaThms.args_commas. replace (Z.of_N a1 - 2 ^ 64 <? 0)%Z with true by (symmetry; apply Z.ltb_lt; lia). reflexivity.
Qed.
Print Assumptions C109_submit_negative.

(** ---- io_cancel and io_getevents ---- *)
Definition event_text (e : env) (p : N) (t : list N) : Prop :=
  (FhSpec.unseen (ExtModel.verbose (NumaModel.o e)) (negb (ExtModel.failed (NumaModel.o e))) (NumaModel.m e) p 32 -> address t p) /\
  (forall c, length c = 32%nat -> FhSpec.seen (ExtModel.verbose (NumaModel.o e)) (negb (ExtModel.failed (NumaModel.o e))) (NumaModel.m e) p c -> struct_text (event_rows c) t).
Definition header_text (x : texts) (e : env) (p : N) (t : list N) : Prop :=
  (FhSpec.unseen (ExtModel.verbose (NumaModel.o e)) (negb (ExtModel.failed (NumaModel.o e))) (NumaModel.m e) p 64 -> address t p) /\
  (forall c, length c = 64%nat -> FhSpec.seen (ExtModel.verbose (NumaModel.o e)) (negb (ExtModel.failed (NumaModel.o e))) (NumaModel.m e) p c -> struct_text (first_rows (fd x) (st e) c) t).
Theorem C109_cancel : forall x e e' a0 a1 a2, DateThms.byte_memory (NumaModel.m e) -> DateThms.byte_memory (NumaModel.m e') ->
  exists q c v, address q a0 /\ header_text x e a1 c /\ event_text e' a2 v /\ io_cancel x e e' a0 a1 a2 = commas [q; c; v].
Proof.
  intros x e e' a0 a1 a2 BM BM'. unfold io_cancel. rewrite NumaThms.args_commas. do 3 eexists. split; [apply TvalThms.printaddr_ok|]. split; [|split; [|reflexivity]].
  - split.
    + intros U. rewrite (fetch_unseen e a1 64 U). apply TvalThms.printaddr_ok.
    + intros c C S'. pose proof (fetch_seen e a1 c S') as E. rewrite C in E. rewrite E. destruct S' as (_ & _ & _ & S'). apply struct_ok, first_ok. exact (FhThms.seen_bytes _ _ _ BM S').
  - split.
    + intros U. rewrite (fetch_unseen e' a2 32 U). apply TvalThms.printaddr_ok.
    + intros c C S'. pose proof (fetch_seen e' a2 c S') as E. rewrite C in E. rewrite E. destruct S' as (_ & _ & _ & S'). apply struct_ok, event_ok. exact (FhThms.seen_bytes _ _ _ BM' S').
Qed.
Print Assumptions C109_cancel.
Lemma piece_ok b n i : Forall (fun x => x < 256) b -> Forall (fun x => x < 256) (NumaThms.piece b n i).
Proof.
  intros F. rewrite Forall_forall in *. intros y Y. apply F. unfold NumaThms.piece in Y. rewrite <- (firstn_skipn (i * n) b). apply in_or_app. right. rewrite <- (firstn_skipn n (skipn (i * n) b)). apply in_or_app. left. exact Y.
Qed.
Theorem C109_getevents : forall e e' rest a0 a1 a2 a3 b n, DateThms.byte_memory (NumaModel.m e') -> NumaModel.ws e = 8 -> a1 < 2 ^ 64 -> a2 < 2 ^ 64 ->
  n <> 0%nat -> a3 <> 0 -> a3 + N.of_nat n * 32 < 2 ^ 64 ->
  ExtModel.verbose (NumaModel.o e') = true -> ExtModel.failed (NumaModel.o e') = false -> (NumaModel.abbrev e' = true -> N.of_nat n < 2 ^ 32) ->
  bytes_at (NumaModel.m e') a3 b -> length b = (n * 32)%nat ->
  let k := count (NumaModel.abbrev e') (ExtModel.max_strlen (NumaModel.o e')) (N.of_nat n) in
  exists q y z v, address q a0 /\ signed_text 8 a1 y /\ signed_text 8 a2 z /\
    array_text (fun i t => struct_text (event_rows (firstn 32 (skipn (i * 32) b))) t) k (cut k n) v /\ io_getevents e e' (N.of_nat n) rest a0 a1 a2 a3 = commas ([q; y; z; v] ++ rest).
Proof.
  intros e e' rest a0 a1 a2 a3 b n BM WS L1 L2 N0 A0 F V NF AB M L k. unfold io_getevents. rewrite NumaThms.args_commas.
  assert (T : forall a, a < 2 ^ 64 -> signed_text 8 a (TvalModel.sdec (trunc e a))).
  { intros a A. eexists. split; [|apply DateThms.sdec_integer]. unfold trunc. rewrite WS. cbn [N.eqb Pos.eqb]. unfold u64. rewrite N.mod_small by exact A. apply (sx_signed 8); [lia|exact A]. }
  do 4 eexists. split; [apply TvalThms.printaddr_ok|]. split; [apply T, L1|]. split; [apply T, L2|]. split; [|reflexivity].
  apply NumaThms.array_text_of with (pf := print_io_event) (b := b) (esz := 32%nat) (j := n).
  - exact L.
  - unfold k, count. destruct (NumaModel.abbrev e'); lia.
  - intros i I. apply struct_ok, event_ok. apply (piece_ok b 32 i). exact (FhThms.seen_bytes _ _ _ BM M).
  - unfold k. apply (NumaThms.array_whole e' print_io_event a3 (N.of_nat n) 32 b n); try assumption; try lia.
Qed.
Print Assumptions C109_getevents.

Definition ex_write : list N := [1; 2; 0; 0; 0; 0; 0; 0] ++ [0; 0; 0; 0] ++ [0x12; 0; 0; 0] ++ [1; 0] ++ [5; 64] ++ [3; 0; 0; 0] ++ [0; 48; 0; 0; 0; 0; 0; 0] ++ [4; 0; 0; 0; 0; 0; 0; 0] ++ repeat 255 8 ++ repeat 0 8 ++ [3; 0; 0; 0] ++ [7; 0; 0; 0].
Example C109_example :
  plain ex_write = false /\ plain (ex_sync 4) = true /\
  print_iocb ex_x BitsModel.XABBREV ex_write =
    bs "{aio_data=0x201, aio_rw_flags=RWF_DSYNC|RWF_APPEND, aio_lio_opcode=IOCB_CMD_PWRITE, aio_reqprio=IOPRIO_PRIO_VALUE(IOPRIO_CLASS_BE, 5), aio_fildes=3, aio_buf=S, aio_nbytes=4, aio_offset=-1, aio_flags=IOCB_FLAG_RESFD|IOCB_FLAG_IOPRIO, aio_resfd=7}" /\
  print_iocb ex_x BitsModel.XABBREV (ex_sync 4) = bs "{aio_data=0, aio_lio_opcode=IOCB_CMD_FSYNC, aio_fildes=3}" /\
  io_submit ex_x (NumaThms.ex_env ([16; 16; 0; 0; 0; 0; 0; 0] ++ [1; 0; 0; 0; 0; 0; 0; 0] ++ ex_sync 4)) 0x7000 2 4096 =
    bs "0x7000, 2, [{aio_data=0, aio_lio_opcode=IOCB_CMD_FSYNC, aio_fildes=3}, 0x1]" /\
  io_getevents (NumaThms.ex_env []) (NumaThms.ex_env ([1; 2; 0; 0; 0; 0; 0; 0] ++ [0; 16; 0; 0; 0; 0; 0; 0] ++ [4; 0; 0; 0; 0; 0; 0; 0] ++ repeat 255 8)) 1 [bs "NULL"] 0x7000 1 2 4096 =
    bs "0x7000, 1, 2, [{data=0x201, obj=0x1000, res=4, res2=-1}], NULL" /\
  io_cancel ex_x (NumaThms.ex_env (ex_sync 4)) (NumaThms.ex_env []) 0x7000 4096 8192 = bs "0x7000, {aio_data=0, aio_lio_opcode=IOCB_CMD_FSYNC, aio_fildes=3}, 0x2000".
Proof. repeat split; vm_compute; reflexivity. Qed.
