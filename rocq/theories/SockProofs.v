(** Proofs about the printing of socket addresses. *)
From Verif Require Import Base QuoteModel QuoteSpec QuoteProofs SockModel SockSpec.
Local Open Scope N_scope.

Lemma rd_ok buf off len : (off + len <= length buf)%nat -> rd buf off len = Ok (cut buf off len).
Proof. intros H. unfold rd. apply Nat.leb_le in H. rewrite H. reflexivity. Qed.
Lemma fld_ok n buf off len : (off + len <= length buf)%nat -> fld n buf off len = Ok [SField n (cut buf off len)].
Proof. intros H. unfold fld. rewrite rd_ok; [reflexivity|exact H]. Qed.
Lemma rdn_ok buf off len : (off + len <= length buf)%nat -> rdn buf off len = Ok (le_val (cut buf off len)).
Proof. intros H. unfold rdn. rewrite rd_ok; [reflexivity|exact H]. Qed.
Lemma le_val_zero v : (le_val v =? 0) = zero v.
Proof.
  induction v as [|c v IH]; [reflexivity|]. cbn [le_val zero forallb]. fold (zero v). rewrite <- IH.
  destruct (N.eqb_spec 0 c) as [E|E]; destruct (N.eqb_spec (le_val v) 0) as [F|F]; cbn [andb]; apply N.eqb_eq || apply N.eqb_neq; lia.
Qed.
Lemma fld_nz_ok n buf off len : (off + len <= length buf)%nat ->
  fld_nz n buf off len = Ok (if zero (cut buf off len) then [] else [SField n (cut buf off len)]).
Proof. intros H. unfold fld_nz. rewrite rd_ok by exact H. cbn [rbind]. rewrite le_val_zero. reflexivity. Qed.

Lemma skipn_app_le {A} n (l1 l2 : list A) : (n <= length l1)%nat -> skipn n (l1 ++ l2) = skipn n l1 ++ l2.
Proof. revert l1; induction n as [|n IH]; intros [|x l1] H; simpl in *; try lia; auto. apply IH. lia. Qed.
Lemma cut_firstn m len off n r : (off + n <= len)%nat -> (len <= length m)%nat ->
  cut (firstn len m ++ r) off n = cut m off n.
Proof.
  intros H1 H2. unfold cut. rewrite skipn_app_le by (rewrite firstn_length; lia).
  rewrite firstn_app_le by (rewrite skipn_length, firstn_length; lia).
  rewrite skipn_firstn_comm, firstn_firstn. f_equal. lia.
Qed.

(** the buffer decode_sockaddr prints *)
Definition padded (m : list N) (len : nat) : list N := firstn len m ++ repeat 0 (129 - len).
Lemma padded_length m len : (len <= length m)%nat -> (len <= 128)%nat -> length (padded m len) = 129%nat.
Proof. intros H1 H2. unfold padded. rewrite app_length, firstn_length, repeat_length. lia. Qed.
Lemma padded_bytes m len : bytes_ok m -> bytes_ok (padded m len).
Proof.
  intros H. unfold padded. apply Forall_app; split; [apply bytes_firstn; exact H|].
  apply Forall_forall. intros x Hx. apply repeat_spec in Hx. subst. unfold is_byte. lia.
Qed.
Lemma decode_eq xf w8 m addrlen old : (2 <= addrlen)%Z -> (given addrlen <= length m)%nat ->
  decode_sockaddr xf w8 m addrlen old =
  (rlet l := print_sockaddr xf w8 (padded m (given addrlen)) (given addrlen) in
   Ok (SaStruct l, Some (le_val (cut m 0 2)))).
Proof.
  intros H1 H2. unfold decode_sockaddr. destruct (Z.ltb_spec addrlen 2) as [H|_]; [lia|].
  assert (Hg : (if (128 <? addrlen)%Z then 128%nat else Z.to_nat addrlen) = given addrlen).
  { unfold given. destruct (Z.ltb_spec 128 addrlen); [rewrite Z.min_r by lia|rewrite Z.min_l by lia]; reflexivity. }
  rewrite Hg. unfold fetch. destruct (Nat.leb_spec (given addrlen) (length m)) as [_|H]; [|lia].
  rewrite firstn_app_le by (rewrite firstn_length; lia).
  rewrite firstn_firstn, Nat.min_id. fold (padded m (given addrlen)).
  assert (Hg2 : (2 <= given addrlen <= 128)%nat) by (unfold given; lia).
  destruct (print_sockaddr xf w8 (padded m (given addrlen)) (given addrlen)); [|reflexivity|reflexivity]. cbn [rbind].
  rewrite rdn_ok by (rewrite padded_length; lia). cbn [rbind]. unfold padded. rewrite cut_firstn by lia. reflexivity.
Qed.

Lemma decode_layout xf w8 m addrlen old lay : (2 <= addrlen)%Z -> (given addrlen <= length m)%nat ->
  layout (le_val (cut m 0 2)) (given addrlen) = Some lay ->
  exists toks, decode_sockaddr xf w8 m addrlen old
                 = Ok (SaStruct (SField (bs "sa_family") (cut m 0 2) :: toks), Some (le_val (cut m 0 2)))
    /\ fields toks = Some (expected m lay).
Proof.
  intros H1 H2 HL. rewrite decode_eq by assumption.
  assert (Hg2 : (2 <= given addrlen <= 128)%nat) by (unfold given; lia).
  assert (Hlen : length (padded m (given addrlen)) = 129%nat) by (apply padded_length; lia).
  unfold print_sockaddr. rewrite rdn_ok by lia. cbn [rbind].
  assert (Hcut : forall o n, (o + n <= given addrlen)%nat -> cut (padded m (given addrlen)) o n = cut m o n)
    by (intros; apply cut_firstn; lia).
  rewrite fld_ok by lia. rewrite Hcut by lia.
  set (B := padded m (given addrlen)) in *. set (len := given addrlen) in *. set (fam := le_val (cut m 0 2)) in *. clearbody fam.
  assert (Hmain : exists toks,
     (if (2 <? len)%nat then
         match sa_printer xf w8 fam with
         | Some (min_len, pr) => if (min_len <=? len)%nat then pr B len else sa_raw xf B len
         | None => sa_raw xf B len
         end
       else Ok []) = Ok toks /\ fields toks = Some (expected m lay)).
  { clearbody B len. clear - HL Hcut Hlen Hg2.
    destruct fam as [|p]; [discriminate|]; do 6 (try (destruct p as [p|p|]); try discriminate HL);
    cbn [layout] in HL;
    repeat match type of HL with
           | (if (?a <=? ?b)%nat then _ else _) = _ => destruct (Nat.leb_spec a b); [|discriminate HL]
           | (if (?a =? ?b)%nat then _ else _) = _ => destruct (Nat.eqb_spec a b)
           end;
    do 15 (try (match type of HL with match _ with _ => _ end = _ => destruct len as [|len] end); try discriminate HL);
    injection HL as <-;
    match goal with |- context [(2 <? ?n)%nat] => destruct (Nat.ltb_spec 2 n); [|lia] end;
    cbn [sa_printer];
    match goal with |- context [if (?a <=? ?b)%nat then _ else _] =>
      let E := fresh in destruct (Nat.leb_spec a b) as [E|E]; [|try (unfold SIN6_MIN_LEN in E); lia] end;
    try (unfold SIN6_MIN_LEN in *);
    cbv beta delta [sa_in sa_ipx sa_in6 sa_nl sa_bt sa_ieee802154 sa_vsock sa_qrtr sa_xdp sa_mctp SIN6_MIN_LEN];
    rewrite ?rdn_ok by lia; cbn [rbind];
    rewrite ?fld_ok, ?fld_nz_ok by lia; rewrite ?Hcut by lia;
    repeat match goal with |- context [if (?a <=? ?b)%nat then _ else _] =>
      destruct (Nat.leb_spec a b); [try lia|try lia] end;
    rewrite ?fld_ok, ?fld_nz_ok by lia; rewrite ?Hcut by lia;
    unfold andthen, expected, always, pad, app; cbn [flat_map lskip lname loff lsize rbind];
    rewrite ?N.bit0_odd;
    repeat match goal with
           | |- context [if N.odd ?a then _ else _] => destruct (N.odd a)
           | |- context [N.odd ?a] => destruct (N.odd a)
           | |- context [zero ?a] => destruct (zero a)
           | |- context [?a =? 0] => destruct (N.eqb_spec a 0)
           | |- context [?a =? 2] => destruct (N.eqb_spec a 2)
           end;
    rewrite ?fld_ok by lia; rewrite ?Hcut by lia;
    try (eexists; split; [reflexivity|reflexivity]); try congruence. }
  destruct Hmain as (toks & E & F). rewrite E. unfold andthen. cbn [rbind app].
  exists toks. split; [reflexivity|exact F].
Qed.

(** ---- strings ---- *)
Lemma alloc_ok size st : size < 2^30 -> exists a, quote_alloc_size size st = Some a.
Proof.
  intros H. unfold quote_alloc_size. assert (u32 (4 * size) = 4 * size) as -> by (unfold u32; apply N.mod_small; lia).
  rewrite N.mul_comm, N.div_mul by lia. rewrite N.eqb_refl. cbn [negb]. eauto.
Qed.
Lemma quoted_bytes h xf e buf off size : bytes_ok buf -> rule_ok h (qst false e xf) ->
  (off + size <= length buf)%nat -> N.of_nat size < 2^30 ->
  exists body, quoted false e xf buf off size = Ok (PText (bs """" ++ body ++ bs """") false)
            /\ unquote h Plain body = Some (cut buf off size).
Proof.
  intros HB HR HL HS. unfold quoted, print_quoted_string_ex. cbn [q0term qst]. rewrite andb_false_r.
  destruct (alloc_ok (N.of_nat size) (qst false e xf)) as [a ->]; [lia|]. rewrite Nnat.Nat2N.id.
  destruct (bytes_quote h (qst false e xf) size None (skipn off buf)) as (body & E & U);
    [reflexivity|reflexivity|apply bytes_skipn; exact HB|exact HR|rewrite skipn_length; lia|].
  rewrite E. cbn [rbind]. exists body. split; [reflexivity|exact U].
Qed.
Lemma quoted_term h xf e buf off size s r : bytes_ok buf -> rule_ok h (qst true e xf) ->
  skipn off buf = s ++ 0 :: r -> ~ In 0 s -> (length s < size)%nat -> N.of_nat size < 2^30 ->
  exists body, quoted true e xf buf off size = Ok (PText (bs """" ++ body ++ bs """") false)
            /\ unquote h Plain body = Some s.
Proof.
  intros HB HR HE HN HL HS. unfold quoted, print_quoted_string_ex. cbn [q0term qst]. rewrite andb_true_r.
  destruct (N.eqb_spec (N.of_nat size) 0) as [C|_]; [lia|]. cbn [negb].
  destruct (alloc_ok (N.of_nat size - 1) (qst true e xf)) as [a ->]; [lia|].
  destruct (cstr_terminated h (qst true e xf) (N.to_nat (N.of_nat size - 1)) None s r) as (body & E & U);
    [reflexivity|rewrite <- HE; apply bytes_skipn; exact HB|exact HR|exact HN|lia|].
  rewrite HE, E. cbn [rbind]. exists body. split; [cbn [expect0 qst]; rewrite !andb_false_r; reflexivity|exact U].
Qed.
Lemma quoted_total z e xf buf off size : bytes_ok buf -> (0 < size)%nat \/ z = false ->
  (if z then (exists i, (i < size)%nat /\ nth_error buf (off + i) = Some 0) \/ (off + size <= length buf)%nat
   else (off + size <= length buf)%nat) ->
  exists p, quoted z e xf buf off size = Ok p.
Proof.
  intros HB Hp HR. unfold quoted, print_quoted_string_ex. cbn [q0term qst].
  set (sz := if negb (N.of_nat size =? 0) && z then N.of_nat size - 1 else N.of_nat size).
  destruct (quote_alloc_size sz (qst z e xf)) as [a|]; [|cbn [rbind]; eauto].
  destruct (string_quote_total (skipn off buf) (N.to_nat sz) (qst z e xf) None) as (out & rc & ->).
  - apply bytes_skipn; exact HB.
  - unfold readable. cbn [q0term qst]. destruct z.
    + assert (sz = N.of_nat size - 1) as ->.
      { subst sz. destruct (N.eqb_spec (N.of_nat size) 0); cbn [negb andb]; lia. }
      assert (0 < size)%nat by (destruct Hp; [assumption|discriminate]).
      destruct HR as [(i & Hi & Hz)|HR].
      * destruct (Nat.eq_dec (S i) size) as [Ei|Ei].
        -- right. rewrite skipn_length. assert (off + i < length buf)%nat by (apply nth_error_Some; congruence). lia.
        -- left. apply (nth_error_In _ i). rewrite <- (firstn_skipn (off + (size - 1)) buf) in Hz.
           replace (N.to_nat (N.of_nat size - 1)) with (size - 1)%nat by lia.
           assert (Hl : (off + i < length buf)%nat).
           { rewrite <- (firstn_skipn (off + (size - 1)) buf). apply nth_error_Some. congruence. }
           rewrite nth_error_app1 in Hz by (rewrite firstn_length; lia).
           rewrite firstn_skipn_comm. rewrite <- Hz. clear -Hl.
           assert (G : forall (l : list N) o j, nth_error (skipn o l) j = nth_error l (o + j)).
           { intros l o. revert l. induction o as [|o IH]; intros [|x l] j; cbn; auto. destruct j; reflexivity. }
           rewrite G. reflexivity.
      * right. rewrite skipn_length. lia.
    + assert (sz = N.of_nat size) as -> by (subst sz; rewrite andb_false_r; reflexivity). rewrite skipn_length. lia.
  - cbn [rbind]. eauto.
Qed.

(** ---- no read outside ---- *)
Definition okr (r : res (list stok)) : Prop := exists l, r = Ok l.
Lemma okr_ok l : okr (Ok l).
Proof. exists l; reflexivity. Qed.
Lemma okr_then a b : okr a -> okr b -> okr (a +++ b).
Proof. intros [x ->] [y ->]. exists (x ++ y). reflexivity. Qed.
Lemma okr_fld n buf off len : (off + len <= length buf)%nat -> okr (fld n buf off len).
Proof. intros H. rewrite fld_ok by exact H. eexists; reflexivity. Qed.
Lemma okr_fld_nz n buf off len : (off + len <= length buf)%nat -> okr (fld_nz n buf off len).
Proof. intros H. rewrite fld_nz_ok by exact H. eexists; reflexivity. Qed.
Lemma okr_quoted z e xf buf off size n : bytes_ok buf -> (0 < size)%nat \/ z = false ->
  (off + size <= length buf)%nat -> okr (rlet p := quoted z e xf buf off size in Ok [SText n p]).
Proof.
  intros HB Hp HR. destruct (quoted_total z e xf buf off size HB Hp) as [p ->]; [destruct z; auto|].
  eexists; reflexivity.
Qed.
Lemma elems_ok buf off sz n : (off + sz * n <= length buf)%nat -> exists l, elems buf off sz n = Ok l.
Proof.
  revert off; induction n as [|n IH]; intros off H; cbn [elems]; [eauto|].
  rewrite rd_ok by nia. cbn [rbind]. destruct (IH (off + sz)%nat) as [l ->]; [nia|]. cbn [rbind]. eauto.
Qed.
Lemma ll_loop_ok buf oob i n : (12 + oob <= length buf)%nat -> exists r, ll_loop buf oob i n = Ok r.
Proof.
  intros H. revert i; induction n as [|n IH]; intros i; cbn [ll_loop]; [eauto|].
  destruct (Nat.leb_spec oob i); [eauto|]. rewrite rd_ok by lia. cbn [rbind].
  destruct (IH (S i)) as [[l m] ->]. cbn [rbind]. eauto.
Qed.

Ltac okr_step :=
  first [ apply okr_ok | apply okr_fld; lia | apply okr_fld_nz; lia
        | apply okr_quoted; [assumption|auto; left; lia|lia]
        | apply okr_then
        | match goal with |- okr (if ?b then _ else _) => destruct b eqn:? end ].

(** The families whose printer may read beyond the address: an AF_UNIX path without
    a terminating NUL, and an AF_INET6 address with a part of sin6_scope_id. *)
Definition overreads (buf : list N) (addrlen : nat) : Prop :=
  (le_val (cut buf 0 2) = 1 /\ (3 <= addrlen <= 110)%nat /\ ~ In 0 (firstn (addrlen - 2) (skipn 2 buf))) \/
  (le_val (cut buf 0 2) = 10 /\ (25 <= addrlen <= 27)%nat).

Lemma cut_length buf off n : (off + n <= length buf)%nat -> length (cut buf off n) = n.
Proof. intros H. unfold cut. rewrite firstn_length, skipn_length. lia. Qed.
Lemma le_val_lt l : bytes_ok l -> le_val l < 256 ^ N.of_nat (length l).
Proof.
  intros H. induction H as [|c l Hc _ IH]; cbn [le_val length]; [cbn; lia|]. unfold is_byte in Hc.
  rewrite Nnat.Nat2N.inj_succ, N.pow_succ_r'. lia.
Qed.

Lemma print_total xf w8 buf addrlen : bytes_ok buf -> (2 <= addrlen <= 128)%nat -> (addrlen <= length buf)%nat ->
  (overreads buf addrlen -> (addrlen < length buf)%nat /\ (le_val (cut buf 0 2) = 10 -> (28 <= length buf)%nat)) ->
  okr (print_sockaddr xf w8 buf addrlen).
Proof.
  intros HB HA HL HO. unfold print_sockaddr. rewrite rdn_ok by lia. cbn [rbind].
  unfold overreads in HO. remember (le_val (cut buf 0 2)) as fam eqn:Hfam.
  apply okr_then; [apply okr_fld; lia|]. destruct (Nat.ltb_spec 2 addrlen) as [H2|_]; [|apply okr_ok].
  assert (HRaw : okr (sa_raw xf buf addrlen)) by (unfold sa_raw; apply okr_quoted; [assumption|auto|lia]).
  destruct (sa_printer xf w8 fam) as [[ml pr]|] eqn:EP; [|exact HRaw].
  destruct (Nat.leb_spec ml addrlen) as [Hml|_]; [|exact HRaw].
  clear Hfam. destruct fam as [|q]; [discriminate|]. do 6 (try (destruct q as [q|q|]); try discriminate EP);
    cbn [sa_printer] in EP; injection EP as <- <-; try (unfold SIN6_MIN_LEN in * ).
  all: try (cbv beta delta [sa_in sa_ipx sa_nl sa_vsock sa_qrtr sa_mctp]; repeat okr_step; fail).
  - (* BT *)
    unfold sa_bt. do 15 (destruct addrlen as [|addrlen]; [repeat okr_step; try assumption; lia|]). exact HRaw.
  - (* NFC *)
    unfold sa_nfc. repeat first [ apply okr_ok | apply okr_fld; lia | apply okr_then ].
    destruct (Nat.ltb_spec addrlen (if w8 then 96 else 88)) as [_|Hn]; [repeat okr_step|].
    rewrite rdn_ok by (destruct w8; lia). cbn [rbind].
    repeat first [ apply okr_ok | apply okr_fld; destruct w8; lia | apply okr_then ].
    apply okr_quoted; [assumption|auto|destruct w8; lia].
  - (* RXRPC *)
    unfold sa_rxrpc. rewrite !rdn_ok by lia. cbn [rbind].
    assert (Ht : le_val (cut buf 6 2) < 65536).
    { assert (HC : bytes_ok (cut buf 6 2)) by (unfold cut; apply bytes_firstn, bytes_skipn; exact HB).
      apply le_val_lt in HC. rewrite cut_length in HC by lia. exact HC. }
    set (tl := le_val (cut buf 6 2)) in *. clearbody tl.
    assert (HS8 : (length (skipn 8 buf) = length buf - 8)%nat) by apply skipn_length.
    assert (HRaw2 : okr (if (0 <? Nat.min (N.to_nat tl) (addrlen - 8) - 2)%nat
                         then rlet p := quoted false false xf buf 10 (Nat.min (N.to_nat tl) (addrlen - 8) - 2) in Ok [SText [] p]
                         else Ok [])).
    { destruct (0 <? _)%nat; [|apply okr_ok]. apply okr_quoted; [assumption|auto|lia]. }
    repeat first [ apply okr_ok | apply okr_fld; lia | exact HRaw2 | apply okr_then ].
    destruct (_ =? 2); [|destruct (_ =? 10)];
      repeat first [ apply okr_ok | apply okr_fld; lia | exact HRaw2 | apply okr_then ].
    + destruct (16 <=? tl); [|exact HRaw2]. unfold sa_in. repeat okr_step.
    + destruct (_ <=? tl); [|exact HRaw2]. unfold sa_in6. repeat okr_step.
  - (* PACKET *)
    unfold sa_ll. repeat first [ apply okr_ok | apply okr_fld; lia | apply okr_then ].
    rewrite rdn_ok by lia. cbn [rbind]. destruct (_ =? 0); [apply okr_ok|].
    destruct (ll_loop_ok buf (addrlen - 12) 0 (N.to_nat (le_val (cut buf 11 1)))) as [[l m] ->]; [lia|].
    cbn [rbind]. apply okr_ok.
  - (* X25 *)
    unfold sa_x25, print_quoted_cstring, print_quoted_string_ex. cbn [q0term negb andb].
    change (negb (16 =? 0) && true) with true. cbv iota.
    destruct (alloc_ok (16 - 1) {| q0term := true; omit_quotes := false; omit0 := false; expect0 := false;
        comment := false; xstyle := xf |}) as [a ->]; [lia|].
    destruct (string_quote_total (skipn 2 buf) (N.to_nat (16 - 1)) {| q0term := true; omit_quotes := false; omit0 := false;
        expect0 := false; comment := false; xstyle := xf |} None) as (out & rc & ->);
      [apply bytes_skipn; exact HB|right; rewrite skipn_length; lia|]. cbn [rbind]. apply okr_ok.
  - (* AX25 *)
    unfold sa_ax25. rewrite rdn_ok by lia. cbn [rbind].
    set (full := negb _ || _). clearbody full.
    repeat first [ apply okr_ok | apply okr_fld; lia | apply okr_then ].
    + destruct full; apply okr_ok.
    + destruct (negb full); [apply okr_ok|].
      repeat first [ apply okr_ok | apply okr_fld; lia | apply okr_then ].
      destruct (_ =? 0)%nat; [apply okr_ok|].
      match goal with |- okr (rlet l := elems buf 16 7 ?n in _) => destruct (elems_ok buf 16 7 n) as [l ->] end;
        [|cbn [rbind]; apply okr_ok].
      pose proof (Nat.mul_div_le (addrlen - 16) 7 ltac:(lia)). nia.
  - (* INET6 *)
    unfold sa_in6. repeat first [ apply okr_ok | apply okr_fld; lia | apply okr_then ].
    destruct (Nat.leb_spec addrlen SIN6_MIN_LEN) as [_|H6]; [apply okr_ok|]. apply okr_fld.
    unfold SIN6_MIN_LEN in H6. destruct (Nat.le_gt_cases 28 addrlen) as [C|C]; [lia|].
    destruct HO as [_ HO]; [right; split; [reflexivity|lia]|]. specialize (HO eq_refl). lia.
  - (* XDP *)
    unfold sa_xdp. rewrite rdn_ok by lia. cbn [rbind]. repeat okr_step.
  - (* IEEE802154 *)
    unfold sa_ieee802154. rewrite rdn_ok by lia. cbn [rbind]. repeat okr_step.
  - (* UNIX *)
    unfold sa_un. rewrite rdn_ok by lia. cbn [rbind].
    set (ul := if (110 <? addrlen)%nat then 110%nat else addrlen).
    assert (Hul : (3 <= ul <= addrlen)%nat /\ (ul <= 110)%nat /\ (addrlen <= 110 -> ul = addrlen)%nat)
      by (subst ul; destruct (Nat.ltb_spec 110 addrlen); lia). clearbody ul.
    destruct (negb (_ =? 0)).
    + destruct (quoted_total true false xf buf 2 (ul - 2 + 1)) as [p ->]; [assumption|left; lia| |cbn [rbind]; apply okr_ok].
      destruct (Nat.le_gt_cases addrlen 110) as [C|C].
      * destruct (in_dec N.eq_dec 0 (firstn (addrlen - 2) (skipn 2 buf))) as [Hi|Hi].
        -- left. apply In_nth_error in Hi as [i Hi]. exists i.
           assert (Hlt : (i < length (firstn (addrlen - 2) (skipn 2 buf)))%nat) by (apply nth_error_Some; congruence).
           rewrite firstn_length, skipn_length in Hlt. split; [lia|].
           rewrite <- (firstn_skipn (addrlen - 2) (skipn 2 buf)) in *.
           assert (Hx : nth_error (skipn 2 buf) i = Some 0).
           { rewrite <- (firstn_skipn (addrlen - 2) (skipn 2 buf)). rewrite nth_error_app1 by (rewrite firstn_length, skipn_length; lia).
             rewrite firstn_skipn in Hi. exact Hi. }
           destruct buf as [|b0 [|b1 buf]]; cbn [length] in *; try lia. exact Hx.
        -- right. destruct HO as [HO _]; [left; repeat split; auto; lia|lia].
      * right. lia.
    + destruct (quoted_total false false xf buf 3 (ul - 2 - 1)) as [p ->]; [assumption|auto|lia|cbn [rbind]; apply okr_ok].
Qed.

Lemma decode_total xf w8 m addrlen old : bytes_ok m -> exists o, decode_sockaddr xf w8 m addrlen old = Ok o.
Proof.
  intros HB. destruct (Z.lt_ge_cases addrlen 2) as [H|H].
  { unfold decode_sockaddr. destruct (Z.ltb_spec addrlen 2); [eauto|lia]. }
  assert (Hg2 : (2 <= given addrlen <= 128)%nat) by (unfold given; lia).
  destruct (Nat.le_gt_cases (given addrlen) (length m)) as [L|L].
  - rewrite decode_eq by assumption.
    destruct (print_total xf w8 (padded m (given addrlen)) (given addrlen)) as [l ->];
      [apply padded_bytes; exact HB|exact Hg2|rewrite padded_length; lia|rewrite padded_length; lia|].
    cbn [rbind]. eauto.
  - unfold decode_sockaddr. destruct (Z.ltb_spec addrlen 2); [lia|].
    replace (if (128 <? addrlen)%Z then 128%nat else Z.to_nat addrlen) with (given addrlen)
      by (unfold given; destruct (Z.ltb_spec 128 addrlen); [rewrite Z.min_r by lia|rewrite Z.min_l by lia]; reflexivity).
    unfold fetch. destruct (Nat.leb_spec (given addrlen) (length m)); [lia|]. eauto.
Qed.

Lemma decode_given xf w8 m1 m2 addrlen old1 old2 :
  firstn (given addrlen) m1 = firstn (given addrlen) m2 ->
  decode_sockaddr xf w8 m1 addrlen old1 = decode_sockaddr xf w8 m2 addrlen old2.
Proof.
  intros HF. destruct (Z.lt_ge_cases addrlen 2) as [H|H].
  { unfold decode_sockaddr. destruct (Z.ltb_spec addrlen 2); [reflexivity|lia]. }
  assert (Hg2 : (2 <= given addrlen <= 128)%nat) by (unfold given; lia).
  assert (HLL : (given addrlen <= length m1)%nat <-> (given addrlen <= length m2)%nat).
  { apply (f_equal (@length N)) in HF. rewrite !firstn_length in HF. lia. }
  destruct (Nat.le_gt_cases (given addrlen) (length m1)) as [L|L].
  - rewrite !decode_eq by (try assumption; tauto). unfold padded. rewrite HF.
    assert (E : cut m1 0 2 = cut m2 0 2).
    { unfold cut. cbn [skipn]. rewrite <- (Nat.min_l 2 (given addrlen)) by lia. rewrite <- !firstn_firstn, HF. reflexivity. }
    rewrite E. reflexivity.
  - assert (HN : forall m old, (length m < given addrlen)%nat -> decode_sockaddr xf w8 m addrlen old = Ok (SaAddr, None)).
    { intros m old Hm. unfold decode_sockaddr. destruct (Z.ltb_spec addrlen 2); [lia|].
      replace (if (128 <? addrlen)%Z then 128%nat else Z.to_nat addrlen) with (given addrlen)
        by (unfold given; destruct (Z.ltb_spec 128 addrlen); [rewrite Z.min_r by lia|rewrite Z.min_l by lia]; reflexivity).
      unfold fetch. destruct (Nat.leb_spec (given addrlen) (length m)); [lia|]. reflexivity. }
    rewrite !HN by lia. reflexivity.
Qed.

Lemma print_eq xf w8 buf addrlen ml pr : (2 < addrlen <= length buf)%nat ->
  sa_printer xf w8 (le_val (cut buf 0 2)) = Some (ml, pr) -> (ml <= addrlen)%nat ->
  print_sockaddr xf w8 buf addrlen = (rlet l := pr buf addrlen in Ok (SField (bs "sa_family") (cut buf 0 2) :: l)).
Proof.
  intros H EP Hml. unfold print_sockaddr. rewrite rdn_ok by lia. cbn [rbind]. rewrite fld_ok by lia.
  destruct (Nat.ltb_spec 2 addrlen); [|lia]. rewrite EP. destruct (Nat.leb_spec ml addrlen); [|lia].
  unfold andthen. cbn [rbind]. destruct (pr buf addrlen); reflexivity.
Qed.

Lemma rule_two xf z e : rule_ok Two (qst z e xf).
Proof. left; reflexivity. Qed.

Lemma skipn_padded m len k : (k <= len)%nat -> (len <= length m)%nat ->
  skipn k (padded m len) = firstn (len - k) (skipn k m) ++ repeat 0 (129 - len).
Proof.
  intros H1 H2. unfold padded. rewrite skipn_app_le by (rewrite firstn_length; lia). f_equal.
  apply skipn_firstn_comm.
Qed.

(** AF_UNIX, a path that is a string of [p], ended by a NUL or by the end of the address *)
Lemma decode_unix xf w8 h addrlen old p r : bytes_ok (1 :: 0 :: p ++ r) -> rule_ok h (qst true false xf) ->
  p <> [] -> ~ In 0 p -> (length p <= 108)%nat ->
  addrlen = (2 + Z.of_nat (length p))%Z \/ ((2 + Z.of_nat (length p) < addrlen)%Z /\
     (exists r', r = 0 :: r') /\ (given addrlen <= length (1%N :: 0%N :: p ++ r))%nat) ->
  exists body, decode_sockaddr xf w8 (1 :: 0 :: p ++ r) addrlen old =
    Ok (SaStruct [SField (bs "sa_family") [1; 0]; SText (bs "sun_path") (PText (bs """" ++ body ++ bs """") false)], Some 1)
    /\ unquote h Plain body = Some p.
Proof.
  intros HB HR Hp HN HL HA.
  set (m := 1 :: 0 :: p ++ r) in *.
  assert (Hpl : (1 <= length p)%nat) by (destruct p; [congruence|cbn; lia]).
  assert (Hg : (2 + length p <= given addrlen)%nat /\ (2 <= given addrlen <= 128)%nat /\ (2 <= addrlen)%Z) by (unfold given; lia).
  assert (Hlm : length m = (2 + length p + length r)%nat) by (subst m; cbn [length]; rewrite app_length; lia).
  assert (Hgl : (given addrlen <= length m)%nat).
  { destruct HA as [->|(_ & _ & HA)]; [unfold given; lia|exact HA]. }
  rewrite decode_eq by (tauto || lia).
  assert (Hfam : le_val (cut m 0 2) = 1) by reflexivity.
  assert (Hcut : cut (padded m (given addrlen)) 0 2 = [1; 0]).
  { unfold padded. rewrite cut_firstn by lia. reflexivity. }
  rewrite (print_eq xf w8 _ _ 3 (sa_un xf)); [|rewrite padded_length; lia|rewrite Hcut; reflexivity|lia].
  unfold sa_un. rewrite rdn_ok by (rewrite padded_length; lia). cbn [rbind].
  assert (Hc : negb (le_val (cut (padded m (given addrlen)) 2 1) =? 0) = true).
  { unfold padded. rewrite cut_firstn by lia. subst m. unfold cut. cbn [skipn].
    destruct p as [|c p]; [congruence|]. cbn [app firstn le_val].
    destruct (N.eqb_spec (c + 256 * 0) 0) as [C|C]; [|reflexivity]. exfalso. apply HN. left. lia. }
  rewrite Hc.
  set (ul := if (110 <? given addrlen)%nat then 110%nat else given addrlen).
  assert (Hul : (2 + length p <= ul <= 110)%nat) by (subst ul; destruct (Nat.ltb_spec 110 (given addrlen)); lia).
  assert (HS : exists r0, skipn 2 (padded m (given addrlen)) = p ++ 0 :: r0).
  { rewrite skipn_padded by lia. subst m. cbn [skipn].
    destruct HA as [->|(HA & [r' ->] & _)].
    - replace (given _) with (2 + length p)%nat by (unfold given; lia).
      replace (2 + length p - 2)%nat with (length p) by lia.
      rewrite firstn_app_le by lia. rewrite firstn_all.
      replace (129 - (2 + length p))%nat with (S (126 - length p)) by lia. cbn [repeat]. eauto.
    - assert (given addrlen - 2 = length p + S (given addrlen - 3 - length p))%nat as -> by (unfold given in *; lia).
      rewrite firstn_app_2. cbn [firstn]. rewrite <- app_assoc. cbn [app]. eauto. }
  destruct HS as [r0 HS].
  destruct (quoted_term h xf false (padded m (given addrlen)) 2 (ul - 2 + 1) p r0) as (body & E & U);
    [apply padded_bytes; exact HB|exact HR|exact HS|exact HN|lia|lia|].
  rewrite E. cbn [rbind]. rewrite Hcut. exists body. split; [|exact U]. reflexivity.
Qed.

(** AF_UNIX, an abstract name *)
Lemma decode_abstract xf w8 h addrlen old p r : bytes_ok (1 :: 0 :: 0 :: p ++ r) -> rule_ok h (qst false false xf) ->
  (length p <= 107)%nat -> addrlen = (3 + Z.of_nat (length p))%Z ->
  exists body, decode_sockaddr xf w8 (1 :: 0 :: 0 :: p ++ r) addrlen old =
    Ok (SaStruct [SField (bs "sa_family") [1; 0]; SAbstract (bs "sun_path") (PText (bs """" ++ body ++ bs """") false)], Some 1)
    /\ unquote h Plain body = Some p.
Proof.
  intros HB HR HL HA. set (m := 1 :: 0 :: 0 :: p ++ r) in *.
  assert (Hg : given addrlen = (3 + length p)%nat) by (unfold given; lia).
  assert (Hlm : length m = (3 + length p + length r)%nat) by (subst m; cbn [length]; rewrite app_length; lia).
  rewrite decode_eq by lia. rewrite Hg.
  assert (Hcut : forall o n, (o + n <= 3 + length p)%nat -> cut (padded m (3 + length p)) o n = cut m o n)
    by (intros; apply cut_firstn; lia).
  rewrite (print_eq xf w8 _ _ 3 (sa_un xf)); [|rewrite padded_length; lia|rewrite Hcut by lia; reflexivity|lia].
  unfold sa_un. rewrite rdn_ok by (rewrite padded_length; lia). cbn [rbind]. rewrite !Hcut by lia.
  change (le_val (cut m 2 1)) with 0. change (negb (0 =? 0)) with false. cbv iota.
  destruct (Nat.ltb_spec 110 (3 + length p)); [lia|].
  destruct (quoted_bytes h xf false (padded m (3 + length p)) 3 (3 + length p - 2 - 1)) as (body & E & U);
    [apply padded_bytes; exact HB|exact HR|rewrite padded_length; lia|lia|].
  rewrite E. cbn [rbind]. exists body. split; [reflexivity|]. rewrite U. rewrite Hcut by lia. subst m.
  unfold cut. cbn [skipn]. replace (3 + length p - 2 - 1)%nat with (length p) by lia.
  rewrite firstn_app_le, firstn_all by lia. reflexivity.
Qed.

(** AF_PACKET *)
Lemma ll_loop_spec buf oob n : forall i, (12 + oob <= length buf)%nat -> (i <= oob)%nat ->
  ll_loop buf oob i n = Ok (map (fun c => [c]) (cut buf (12 + i) (Nat.min n (oob - i))), (oob - i <? n)%nat).
Proof.
  induction n as [|n IH]; intros i HL Hi.
  { cbn [ll_loop]. reflexivity. }
  cbn [ll_loop]. destruct (Nat.leb_spec oob i) as [H|H].
  - replace (oob - i)%nat with 0%nat by lia. rewrite Nat.min_0_r. reflexivity.
  - rewrite rd_ok by lia. cbn [rbind]. rewrite IH by lia. cbn [rbind].
    replace (oob - i)%nat with (S (oob - S i)) by lia. cbn [Nat.min].
    f_equal. f_equal.
    + unfold cut. remember (skipn (12 + i) buf) as t eqn:Et.
      assert (Hlt : (length t = length buf - (12 + i))%nat) by (subst t; apply skipn_length).
      destruct t as [|c t]; [cbn in Hlt; lia|].
      assert (skipn (12 + S i) buf = t) as ->.
      { replace (12 + S i)%nat with (S (12 + i)) by lia. clear -Et. revert buf Et. generalize (12 + i)%nat as k.
        induction k as [|k IHk]; intros [|b buf] Et; cbn in *; try discriminate; [injection Et as _ ->; reflexivity|].
        apply (IHk buf). exact Et. }
      reflexivity.
Qed.
Lemma decode_packet xf w8 m addrlen old : (20 <= addrlen)%Z -> (given addrlen <= length m)%nat ->
  cut m 0 2 = [17; 0] ->
  decode_sockaddr xf w8 m addrlen old =
    Ok (SaStruct ([SField (bs "sa_family") (cut m 0 2); SField (bs "sll_protocol") (cut m 2 2);
                  SField (bs "sll_ifindex") (cut m 4 4); SField (bs "sll_hatype") (cut m 8 2);
                  SField (bs "sll_pkttype") (cut m 10 1); SField (bs "sll_halen") (cut m 11 1)] ++
                  let halen := N.to_nat (le_val (cut m 11 1)) in
                  if (halen =? 0)%nat then []
                  else [SArr (bs "sll_addr") (map (fun c => [c]) (cut m 12 (Nat.min halen (given addrlen - 12))))
                             (given addrlen - 12 <? halen)%nat]), Some 17).
Proof.
  intros H1 H2 H3. assert (Hg : (20 <= given addrlen <= 128)%nat) by (unfold given; lia).
  rewrite decode_eq by lia. rewrite H3.
  assert (Hcut : forall o n, (o + n <= given addrlen)%nat -> cut (padded m (given addrlen)) o n = cut m o n)
    by (intros; apply cut_firstn; lia).
  rewrite (print_eq xf w8 _ _ 20 sa_ll); [|rewrite padded_length; lia|rewrite Hcut, H3 by lia; reflexivity|lia].
  unfold sa_ll. rewrite !fld_ok by (rewrite padded_length; lia). rewrite rdn_ok by (rewrite padded_length; lia).
  rewrite !Hcut by lia. rewrite H3. cbn [rbind].
  destruct (N.eqb_spec (le_val (cut m 11 1)) 0) as [E|E].
  - rewrite E. reflexivity.
  - rewrite ll_loop_spec by (rewrite ?padded_length; lia). cbn [rbind].
    rewrite Nat.sub_0_r, Nat.add_0_r. rewrite Hcut by lia.
    destruct (Nat.eqb_spec (N.to_nat (le_val (cut m 11 1))) 0); [lia|]. reflexivity.
Qed.

(** no structure known for the family: the bytes *)
Lemma decode_raw xf w8 h m addrlen old : bytes_ok m -> rule_ok h (qst false false xf) ->
  (3 <= addrlen)%Z -> (given addrlen <= length m)%nat ->
  match sa_printer xf w8 (le_val (cut m 0 2)) with None => True | Some (ml, _) => (given addrlen < ml)%nat end ->
  exists body, decode_sockaddr xf w8 m addrlen old =
    Ok (SaStruct [SField (bs "sa_family") (cut m 0 2); SText (bs "sa_data") (PText (bs """" ++ body ++ bs """") false)],
        Some (le_val (cut m 0 2)))
    /\ unquote h Plain body = Some (cut m 2 (given addrlen - 2)).
Proof.
  intros HB HR H1 H2 H3. assert (Hg : (3 <= given addrlen <= 128)%nat) by (unfold given; lia).
  rewrite decode_eq by lia.
  assert (Hcut : forall o n, (o + n <= given addrlen)%nat -> cut (padded m (given addrlen)) o n = cut m o n)
    by (intros; apply cut_firstn; lia).
  destruct (quoted_bytes h xf false (padded m (given addrlen)) 2 (given addrlen - 2)) as (body & E & U);
    [apply padded_bytes; exact HB|exact HR|rewrite padded_length; lia|lia|].
  assert (ER : sa_raw xf (padded m (given addrlen)) (given addrlen) = Ok [SText (bs "sa_data") (PText (bs """" ++ body ++ bs """") false)])
    by (unfold sa_raw; rewrite E; reflexivity).
  exists body. rewrite Hcut in U by lia. split; [|exact U].
  unfold print_sockaddr. rewrite rdn_ok by (rewrite padded_length; lia). cbn [rbind].
  rewrite fld_ok by (rewrite padded_length; lia). rewrite Hcut by lia.
  destruct (Nat.ltb_spec 2 (given addrlen)); [|lia].
  destruct (sa_printer xf w8 (le_val (cut m 0 2))) as [[ml pr]|]; [|rewrite ER; reflexivity].
  destruct (Nat.leb_spec ml (given addrlen)); [lia|]. rewrite ER. reflexivity.
Qed.
Lemma struct_size_eq xf w8 fam : struct_size fam = option_map fst (sa_printer xf w8 fam).
Proof. destruct fam as [|q]; [reflexivity|]. do 6 (try (destruct q as [q|q|]); try reflexivity). Qed.

(** ---- AF_AX25 ---- *)
Lemma elems_cut buf sz n : forall off, (off + sz * n <= length buf)%nat ->
  elems buf off sz n = Ok (map (fun i => cut buf (off + sz * i) sz) (seq 0 n)).
Proof.
  induction n as [|n IH]; intros off H; cbn [elems seq map]; [reflexivity|].
  rewrite rd_ok by lia. cbn [rbind]. rewrite IH by lia. cbn [rbind]. rewrite Nat.mul_0_r, Nat.add_0_r. do 2 f_equal.
  rewrite <- seq_shift, map_map. apply map_ext. intros i. f_equal. lia.
Qed.
Lemma decode_ax25 xf w8 m addrlen old : bytes_ok m -> (16 <= addrlen)%Z -> (given addrlen <= length m)%nat -> cut m 0 2 = [3; 0] ->
  decode_sockaddr xf w8 m addrlen old =
    let said := le_val (cut m 12 4) in
    let want := if said <? 2^31 then Nat.min (N.to_nat said) 8 else O in
    let room := Nat.min ((given addrlen - 16) / 7) 8 in
    let base := [SField (bs "sax25_call") (cut m 2 7); SField (bs "sax25_ndigis") (cut m 12 4)] in
    Ok (SaStruct (SField (bs "sa_family") [3; 0] ::
          if (said =? 0) && (given addrlen =? 16)%nat then base
          else [SOpen (bs "fsa_ax25")] ++ base ++ [SClose] ++
               (if (want =? 0)%nat then []
                else [SArr (bs "fsa_digipeater") (map (fun i => cut m (16 + 7 * i) 7) (seq 0 (Nat.min room want))) (room <? want)%nat]) ++
               (if (16 + 7 * room <? given addrlen)%nat then [SMore] else [])), Some 3).
Proof.
  intros HB H1 H2 H3. assert (Hg : (16 <= given addrlen <= 128)%nat) by (unfold given; lia).
  rewrite decode_eq by lia. rewrite H3.
  assert (Hcut : forall o n, (o + n <= given addrlen)%nat -> cut (padded m (given addrlen)) o n = cut m o n)
    by (intros; apply cut_firstn; lia).
  rewrite (print_eq xf w8 _ _ 16 sa_ax25); [|rewrite padded_length; lia|rewrite Hcut, H3 by lia; reflexivity|lia].
  unfold sa_ax25. rewrite rdn_ok by (rewrite padded_length; lia). rewrite !fld_ok by (rewrite padded_length; lia). rewrite !Hcut by lia. rewrite H3. cbn [rbind]. cbv zeta.
  assert (EW : Nat.min (Z.to_nat (Z.max (s32 (le_val (cut m 12 4))) 0)) 8 = if le_val (cut m 12 4) <? 2 ^ 31 then Nat.min (N.to_nat (le_val (cut m 12 4))) 8 else 0%nat).
  { unfold s32. pose proof (le_val_lt (cut m 12 4) ltac:(unfold cut; apply bytes_firstn, bytes_skipn, HB)) as L. rewrite cut_length in L by lia. change (256 ^ N.of_nat 4) with (2^32) in L. destruct (_ <? _) eqn:E; lia. }
  rewrite EW. clear EW. set (want := if _ <? _ then _ else _). set (room := Nat.min ((given addrlen - 16) / 7) 8).
  assert (R : (16 + 7 * room <= given addrlen)%nat) by (pose proof (Nat.mul_div_le (given addrlen - 16) 7 ltac:(lia)); lia).
  assert (EF : negb (le_val (cut m 12 4) =? 0) || (16 <? given addrlen)%nat = negb ((le_val (cut m 12 4) =? 0) && (given addrlen =? 16)%nat)) by (destruct (_ =? 0); lia).
  rewrite EF. destruct ((le_val (cut m 12 4) =? 0) && (given addrlen =? 16)%nat); cbn [negb]; [reflexivity|].
  assert (EL : forall n, (n <= room)%nat -> elems (padded m (given addrlen)) 16 7 n = Ok (map (fun i => cut m (16 + 7 * i) 7) (seq 0 n))).
  { intros n Hn. rewrite elems_cut by (rewrite padded_length; lia). f_equal. apply map_ext_in. intros i Hi. apply in_seq in Hi. apply Hcut. lia. }
  rewrite EL by lia. cbn [rbind]. replace (room * 7 + 16)%nat with (16 + 7 * room)%nat by lia. destruct (want =? 0)%nat; destruct (_ <? given addrlen)%nat; reflexivity.
Qed.
