(** C16: hex dumps. *)
From Verif Require Import Base QuoteModel QuoteSpec Printf DumpModel DumpSpec DumpProofs.
Local Open Scope N_scope.

(** For a readable buffer the dump consists of one line per sixteen bytes; line t shows
    offset 16t and exactly the t-th sixteen bytes, in hex and in ASCII, with blanks in all
    other columns; offsets have the same width on all lines. *)
Theorem C16_dump_lossless : forall m ob addr bytes,
  mem_bytes m -> outbuf_ok ob -> bytes_at m addr bytes ->
  N.of_nat (length bytes) + 16 < 2^64 -> addr + N.of_nat (length bytes) < 2^64 ->
  exists texts ob', dumpstr m ob addr (N.of_nat (length bytes)) = Ok (map DLine texts, ob') /\ outbuf_ok ob' /\
    length texts = ((length bytes + 15) / 16)%nat /\
    exists w, (5 <= w)%nat /\
    forall t text, nth_error texts t = Some text -> line_shows w text (16 * N.of_nat t) (chunk t bytes).
Proof.
  intros m ob addr bytes HM HO HB HL HA.
  destruct (dumpstr_spec m ob addr (N.of_nat (length bytes)) HM ltac:(lia) ltac:(lia) HO)
    as (texts & tail & bytes' & ob' & E & O & _ & R). destruct (R HL HA) as (B & L & S & EN).
  assert (PRE : forall i, (i < length bytes')%nat -> (i < length bytes)%nat -> nth_error bytes' i = nth_error bytes i).
  { intros i H1 H2. destruct (nth_error bytes' i) as [x|] eqn:E1; [|apply nth_error_None in E1; lia].
    destruct (nth_error bytes i) as [y|] eqn:E2; [|apply nth_error_None in E2; lia].
    pose proof (B _ _ E1). pose proof (HB _ _ E2). congruence. }
  destruct EN as [(-> & EL)|(Hlt & _ & _ & EU)].
  - assert (bytes' = bytes).
    { assert (LE : length bytes' = length bytes) by lia. clear - PRE LE.
      revert bytes PRE LE. induction bytes' as [|x l IH]; intros [|y r] PRE LE; try discriminate; [reflexivity|].
      pose proof (PRE 0%nat) as P0. cbn in P0. injection P0 as ->; try lia. f_equal. apply IH; [|cbn in LE; lia].
      intros i H1 H2. apply (PRE (S i)); cbn; lia. }
    subst bytes'. rewrite app_nil_r in E. exists texts, ob'. split; [exact E|]. split; [exact O|]. split; [exact L|].
    exists (offs_chars (N.of_nat (length bytes))). split; [apply offs_chars_ok; lia|exact S].
  - exfalso. set (p := length bytes') in *.
    assert (EB : exists q, umoven m (addr + N.of_nat p) (N.to_nat (N.min (N.of_nat (length bytes) - N.of_nat p) 65536)) = Some q).
    { set (n := N.to_nat (N.min (N.of_nat (length bytes) - N.of_nat p) 65536)).
      exists (firstn n (skipn p bytes)). assert (LN : length (firstn n (skipn p bytes)) = n) by (rewrite firstn_length, skipn_length; lia).
      rewrite <- LN at 1. apply umoven_total. intros i b Hi.
      assert (Hin : (i < n)%nat) by (rewrite <- LN; apply nth_error_Some; congruence).
      assert (Hi2 : nth_error bytes (p + i) = Some b).
      { rewrite <- Hi. rewrite <- (firstn_skipn p bytes) at 1. rewrite nth_error_app2 by (rewrite firstn_length; lia).
        rewrite firstn_length. replace (p + i - Nat.min p (length bytes))%nat with i by lia.
        rewrite <- (firstn_skipn n (skipn p bytes)) at 1. rewrite nth_error_app1; [reflexivity|lia]. }
      specialize (HB _ _ Hi2). rewrite Nat2N.inj_add in HB. rewrite <- N.add_assoc. exact HB. }
    destruct EB as [q EB]. congruence.
Qed.
Print Assumptions C16_dump_lossless.

Lemma skipn_skipn' {A} (l : list A) a b : skipn a (skipn b l) = skipn (a + b) l.
Proof.
  revert l; induction b as [|b IH]; intros l; [rewrite Nat.add_0_r; reflexivity|].
  destruct l as [|x l]; [rewrite !skipn_nil; reflexivity|]. rewrite Nat.add_succ_r. cbn [skipn]. apply IH.
Qed.
(** The groups of sixteen put together are the buffer. *)
Theorem C16_lines_make_up_buffer : forall bytes, concat (map (fun t => chunk t bytes) (seq 0 ((length bytes + 15) / 16))) = bytes.
Proof.
  intros bytes. remember ((length bytes + 15) / 16)%nat as n eqn:En.
  assert (H : (length bytes <= 16 * n)%nat).
  { pose proof (Nat.div_mod (length bytes + 15) 16 ltac:(lia)). pose proof (Nat.mod_upper_bound (length bytes + 15) 16 ltac:(lia)). lia. }
  clear En. revert bytes H. induction n as [|n IH]; intros bytes H.
  - destruct bytes; [reflexivity|cbn in H; lia].
  - cbn [seq map concat]. rewrite <- seq_shift, map_map.
    rewrite (map_ext _ (fun t => chunk t (skipn 16 bytes))).
    + rewrite IH by (rewrite skipn_length; lia). unfold chunk. change (16 * 0)%nat with 0%nat. cbn [skipn]. apply firstn_skipn.
    + intros t. unfold chunk. rewrite skipn_skipn'. f_equal. f_equal. lia.
Qed.
Print Assumptions C16_lines_make_up_buffer.

(** What happens with memory that cannot be read: the lines shown are those of a readable
    prefix, of a multiple of 65536 bytes, and the dump then says it could not fetch more
    (unless nothing has been shown); an address range that wraps around is not dumped. *)
Theorem C16_dump_general : forall m ob addr len, mem_bytes m -> addr < 2^64 -> len < 2^64 -> outbuf_ok ob ->
  exists texts tail bytes ob', dumpstr m ob addr len = Ok (map DLine texts ++ tail, ob') /\ outbuf_ok ob' /\
    (2^64 <= len + 16 \/ 2^64 <= addr + len -> texts = [] /\ tail = []) /\
    (len + 16 < 2^64 -> addr + len < 2^64 ->
      bytes_at m addr bytes /\
      length texts = ((length bytes + 15) / 16)%nat /\
      (forall t text, nth_error texts t = Some text -> line_shows (offs_chars len) text (16 * N.of_nat t) (chunk t bytes)) /\
      ending m addr len (N.of_nat (length bytes)) tail).
Proof. exact dumpstr_spec. Qed.
Print Assumptions C16_dump_general.

Definition ex_mem : memory := fun a => if (4096 <=? a) && (a <? 8192) then Some (a mod 256) else None.
Example ex_dump_hyps : mem_bytes ex_mem /\ outbuf_ok (repeat 32 66 ++ [0]).
Proof.
  split.
  - intros a b H. unfold ex_mem in H. destruct (_ && _); [|discriminate]. injection H as <-. apply N.mod_lt. lia.
  - split; [reflexivity|]. intros p H. destruct (gap_free p H) as [P _]. do 50 (destruct p as [|p]; [reflexivity|]). lia.
Qed.
Example ex_dump : fst (match dumpstr ex_mem (repeat 32 66 ++ [0]) 4160 18 with Ok r => r | _ => ([], []) end) =
  [DLine (bs " | 00000  40 41 42 43 44 45 46 47  48 49 4a 4b 4c 4d 4e 4f  @ABCDEFGHIJKLMNO |" ++ [10]);
   DLine (bs " | 00010  50 51                                             PQ               |" ++ [10])].
Proof. vm_compute. reflexivity. Qed.
