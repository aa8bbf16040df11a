(** C50: vector I/O data limits. *)
From Verif Require Import Base IovModel IovSpec IovProofs.
Local Open Scope N_scope.

(** Decoding: the data shown for the buffers is the first n bytes of the concatenation. *)
Theorem C50_vector_data : forall n v, n < 2^64 - 1 ->
  stream (tprint_iov_upto n v) = firstn (N.to_nat n) (stream v) /\ map fst (tprint_iov_upto n v) = map fst v.
Proof. intros. split; [apply tprint_stream; auto|apply tprint_shape]. Qed.
Print Assumptions C50_vector_data.
Theorem C50_vector_total : forall n v, n < 2^64 - 1 -> total (tprint_iov_upto n v) <= n.
Proof. intros n v H. rewrite <- stream_len, tprint_stream by auto. rewrite firstn_length. lia. Qed.
Print Assumptions C50_vector_total.
(** -1 means no limit *)
Theorem C50_unlimited : forall v, Forall (fun x => snd x < 2^64) v -> tprint_iov_upto (2^64 - 1) v = v.
Proof. exact tprint_nolimit. Qed.
Print Assumptions C50_unlimited.
(** Dumping (-e read=, -e write=) never shows more than n bytes, and shows the first n bytes
    if no empty buffer precedes the end of the data. *)
Theorem C50_dump_total : forall v n, total (map snd (dump_iov_loop 0 n v)) <= n.
Proof. intros. apply dump_total. Qed.
Print Assumptions C50_dump_total.
(** Partial: no buffer of length 0 before the end of the data (see the refuted theorem). *)
Theorem C50_dump_data_partial : forall v n, (forall a b c, v = a ++ (b, 0) :: c -> n <= total a) ->
  stream (map snd (dump_iov_loop 0 n v)) = firstn (N.to_nat n) (stream v) /\
  exists k, map fst (dump_iov_loop 0 n v) = seq 0 k.
Proof. intros v n H. split; [apply dump_stream; intros a b l c E ->; eauto|apply dump_index]. Qed.
Print Assumptions C50_dump_data_partial.
(** An empty buffer ends the dump although data follows. *)
Theorem C50_dump_data_refuted : exists v n, n <= total v /\
  stream (map snd (dump_iov_loop 0 n v)) <> firstn (N.to_nat n) (stream v).
Proof. exists [(1000, 0); (2000, 5)], 5. split; [cbn; lia|vm_compute; discriminate]. Qed.
Print Assumptions C50_dump_data_refuted.
(** The vector is fetched only if its size in bytes is computed without wrap-around. *)
Theorem C50_dump_size : forall sz len size, 1 <= sz -> len < 2^32 -> dumpiov_size sz len = Some size -> size = sz * len.
Proof.
  intros sz len size Hs Hl H. unfold dumpiov_size in H. destruct (N.eqb_spec (u32 (sz * len) / sz) len) as [E|]; [|discriminate].
  injection H as <-. unfold u32 in *. assert (B : sz * len mod 2^32 <= sz * len) by (apply N.mod_le; lia).
  pose proof (N.mul_div_le (sz * len mod 2^32) sz ltac:(lia)). rewrite E in H. lia.
Qed.
Print Assumptions C50_dump_size.
Example ex_iov : tprint_iov_upto 7 [(1000, 4); (2000, 5); (3000, 1)] = [(1000, 4); (2000, 3); (3000, 0)] /\
  dump_iov_loop 0 7 [(1000, 4); (2000, 5); (3000, 1)] = [(0%nat, (1000, 4)); (1%nat, (2000, 3))] /\
  (forall a b c, [(1000, 4); (2000, 5); (3000, 1)] = a ++ (b, 0) :: c -> 7 <= total a).
Proof.
  split; [reflexivity|]. split; [reflexivity|]. intros a b c H.
  do 3 (destruct a as [|? a]; [discriminate|injection H as <- H]). destruct a; discriminate.
Qed.
