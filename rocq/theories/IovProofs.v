From Verif Require Import Base IovModel IovSpec.
Local Open Scope N_scope.

Lemma buf_bytes_len v : length (buf_bytes v) = N.to_nat (snd v).
Proof. unfold buf_bytes. rewrite map_length, seq_length. reflexivity. Qed.
Lemma stream_len v : N.of_nat (length (stream v)) = total v.
Proof. induction v as [|x v IH]; [reflexivity|]. cbn [stream flat_map total fold_right]. rewrite app_length, buf_bytes_len, Nat2N.inj_add, N2Nat.id. unfold stream, total in IH. lia. Qed.
Lemma firstn_seq k n s : firstn k (seq s n) = seq s (Nat.min k n).
Proof. revert k s; induction n as [|n IH]; intros [|k] s; cbn; try reflexivity. rewrite IH. reflexivity. Qed.
Lemma buf_bytes_cut b l n : buf_bytes (b, N.min n l) = firstn (N.to_nat n) (buf_bytes (b, l)).
Proof. unfold buf_bytes. rewrite firstn_map, firstn_seq. cbn [fst snd]. rewrite N2Nat.inj_min. reflexivity. Qed.
Lemma min_if n l : (if n <? l then n else l) = N.min n l.
Proof. destruct (N.ltb_spec n l); lia. Qed.

Lemma tprint_stream v : forall n, n < NOLIMIT -> stream (tprint_iov_upto n v) = firstn (N.to_nat n) (stream v).
Proof.
  induction v as [|[b l] v IH]; intros n Hn; [cbn; rewrite firstn_nil; reflexivity|].
  cbn [tprint_iov_upto]. unfold print_iovec_klong. rewrite min_if. replace (n =? NOLIMIT) with false by lia. cbn [negb].
  cbn [stream flat_map]. change (flat_map buf_bytes v) with (stream v). fold (stream (tprint_iov_upto (n - N.min n l) v)).
  rewrite IH by (unfold NOLIMIT in *; lia). rewrite buf_bytes_cut, firstn_app, buf_bytes_len. f_equal. f_equal. cbn [snd]. lia.
Qed.
Lemma tprint_shape v : forall n, map fst (tprint_iov_upto n v) = map fst v.
Proof.
  induction v as [|[b l] v IH]; intros n; [reflexivity|]. cbn [tprint_iov_upto]. unfold print_iovec_klong. cbn [map fst]. rewrite IH. reflexivity.
Qed.
Lemma tprint_nolimit v : Forall (fun x => snd x < 2^64) v -> tprint_iov_upto NOLIMIT v = v.
Proof.
  induction v as [|[b l] v IH]; intros H; [reflexivity|]. inversion H; subst. cbn [tprint_iov_upto]. unfold print_iovec_klong.
  rewrite min_if, N.eqb_refl. cbn [negb]. rewrite IH by auto. cbn [snd] in *. unfold NOLIMIT in *. do 2 f_equal. lia.
Qed.

Lemma dump_stream v : forall i n, (forall a b l c, v = a ++ (b, l) :: c -> l = 0 -> n <= total a) ->
  stream (map snd (dump_iov_loop i n v)) = firstn (N.to_nat n) (stream v).
Proof.
  induction v as [|[b l] v IH]; intros i n Hz; [cbn; rewrite firstn_nil; reflexivity|].
  cbn [dump_iov_loop]. rewrite min_if. destruct (N.eqb_spec (N.min n l) 0) as [E|E].
  - assert (n = 0) as ->.
    { destruct (N.eq_dec l 0) as [->|]; [|lia]. specialize (Hz [] b 0 v eq_refl eq_refl). cbn in Hz. lia. }
    reflexivity.
  - cbn [map snd stream flat_map]. change (flat_map buf_bytes v) with (stream v).
    fold (stream (map snd (dump_iov_loop (S i) (n - N.min n l) v))).
    rewrite IH.
    + rewrite buf_bytes_cut, firstn_app, buf_bytes_len. f_equal. f_equal. cbn [snd]. lia.
    + intros a b' l' c -> Hl. specialize (Hz ((b, l) :: a) b' l' c eq_refl Hl). cbn [total fold_right snd] in Hz. unfold total. lia.
Qed.
Lemma dump_index v : forall i n, exists k, map fst (dump_iov_loop i n v) = seq i k.
Proof.
  induction v as [|[b l] v IH]; intros i n; [exists 0%nat; reflexivity|]. cbn [dump_iov_loop]. destruct (_ =? 0); [exists 0%nat; reflexivity|].
  destruct (IH (S i) (n - (if n <? l then n else l))) as [k E]. exists (S k). cbn [map fst seq]. rewrite E. reflexivity.
Qed.
Lemma dump_total v : forall i n, total (map snd (dump_iov_loop i n v)) <= n.
Proof.
  induction v as [|[b l] v IH]; intros i n; [cbn; lia|]. cbn [dump_iov_loop]. rewrite min_if. destruct (_ =? 0); [cbn; lia|].
  cbn [map snd total fold_right]. specialize (IH (S i) (n - N.min n l)). unfold total in IH. lia.
Qed.
