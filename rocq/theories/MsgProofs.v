(** Proofs about the printing of control messages. *)
From Verif Require Import Base QuoteModel QuoteSpec QuoteProofs SockModel SockSpec SockProofs MsgModel MsgSpec.
Local Open Scope N_scope.

(** ---- more bytes after the buffer change nothing ---- *)
Definition mono {A} (f : list N -> res A) : Prop := forall b r x, f b = Ok x -> f (b ++ r) = Ok x.
Lemma mono_ret {A} (x : res A) : mono (fun _ => x).
Proof. intros b r y H. exact H. Qed.
Lemma mono_bind {A B} (f : list N -> res A) (g : A -> list N -> res B) :
  mono f -> (forall a, mono (g a)) -> mono (fun b => rlet x := f b in g x b).
Proof.
  intros Hf Hg b r y H. destruct (f b) as [a| |] eqn:E; try discriminate. cbn [rbind] in H.
  rewrite (Hf b r a E). cbn [rbind]. apply Hg. exact H.
Qed.
Lemma mono_if {A} (c : bool) (f g : list N -> res A) : mono f -> mono g -> mono (fun b => if c then f b else g b).
Proof. intros Hf Hg. destruct c; assumption. Qed.
Lemma mono_rd o n : mono (fun b => rd b o n).
Proof.
  intros b r x H. unfold rd in *. destruct (Nat.leb_spec (o + n) (length b)) as [L|L]; [|discriminate].
  injection H as <-. rewrite app_length. destruct (Nat.leb_spec (o + n) (length b + length r)) as [_|C]; [|lia].
  f_equal. rewrite skipn_app_le by lia. apply firstn_app_le. rewrite skipn_length. lia.
Qed.
Lemma mono_rdn o n : mono (fun b => rdn b o n).
Proof. unfold rdn. apply (mono_bind (fun b => rd b o n)); [apply mono_rd|intros; apply mono_ret]. Qed.
Lemma mono_fld n o k : mono (fun b => fld n b o k).
Proof. unfold fld. apply (mono_bind (fun b => rd b o k)); [apply mono_rd|intros; apply mono_ret]. Qed.
Lemma mono_fld_nz n o k : mono (fun b => fld_nz n b o k).
Proof. unfold fld_nz. apply (mono_bind (fun b => rd b o k)); [apply mono_rd|intros; apply mono_ret]. Qed.
Lemma mono_then f g : mono f -> mono g -> mono (fun b => f b +++ g b).
Proof.
  intros Hf Hg. unfold andthen. apply (mono_bind f); [exact Hf|]. intros a.
  apply (mono_bind g); [exact Hg|]. intros; apply mono_ret.
Qed.
Lemma mono_skipn {A} (f : list N -> res A) k : mono f -> mono (fun b => f (skipn k b)).
Proof. intros H b r x E. rewrite skipn_app. apply H. exact E. Qed.

Lemma mono_scan z n : mono (scan_hex z n).
Proof.
  induction n as [|n IH]; intros b r x H; [exact H|]. destruct b as [|c b]; [discriminate|]. cbn [app scan_hex] in *.
  destruct (z && (c =? 0)); [exact H|]. destruct (126 <? c); [exact H|]. destruct (_ && _); [exact H|]. apply IH. exact H.
Qed.
Definition grow_end (r : list N) (e : qend) : qend :=
  match e with asciz_ended => asciz_ended | string_ended rest => string_ended (rest ++ r) end.
Lemma hex_loop_grow z n : forall b r o e, hex_loop z n b = Ok (o, e) -> hex_loop z n (b ++ r) = Ok (o, grow_end r e).
Proof.
  induction n as [|n IH]; intros b r o e H; [cbn in *; injection H as <- <-; reflexivity|].
  destruct b as [|c b]; [discriminate|]. cbn [app hex_loop] in *.
  destruct (z && (c =? 0)); [injection H as <- <-; reflexivity|].
  destruct (hex_loop z n b) as [[o' e']| |] eqn:E; try discriminate. cbn [rbind] in H. injection H as <- <-.
  rewrite (IH _ r _ _ E). reflexivity.
Qed.
Lemma quote_loop_grow st esc n : forall b r o e, quote_loop st esc n b = Ok (o, e) -> quote_loop st esc n (b ++ r) = Ok (o, grow_end r e).
Proof.
  induction n as [|n IH]; intros b r o e H; [cbn in *; injection H as <- <-; reflexivity|].
  destruct b as [|c b]; [discriminate|]. cbn [app quote_loop] in *.
  destruct (_ && (c =? 0)); [injection H as <- <-; reflexivity|].
  destruct (_ && (c =? 0)); [injection H as <- <-; reflexivity|].
  destruct (next_is_octal n b) as [nx| |] eqn:EN; try discriminate. cbn [rbind] in H.
  assert (next_is_octal n (b ++ r) = Ok nx) as ->.
  { unfold next_is_octal in *. destruct n; [exact EN|]. destruct b; [discriminate|]. exact EN. }
  destruct (quote_loop st esc n b) as [[o' e']| |] eqn:E; try discriminate. cbn [rbind] in H |- *. injection H as <- <-.
  rewrite (IH _ r _ _ E). reflexivity.
Qed.
Lemma mono_string_quote size st esc : mono (fun s => string_quote s size st esc).
Proof.
  intros b r x H. unfold string_quote in *.
  destruct (usehex st size b) as [hx| |] eqn:EU; try discriminate. cbn [rbind] in H.
  assert (usehex st size (b ++ r) = Ok hx) as -> by (unfold usehex in *; destruct (xstyle st); try exact EU; apply mono_scan; exact EU).
  cbn [rbind].
  destruct (if hx then hex_loop (q0term st) size b else quote_loop st esc size b) as [[o e]| |] eqn:EL; try discriminate.
  assert ((if hx then hex_loop (q0term st) size (b ++ r) else quote_loop st esc size (b ++ r)) = Ok (o, grow_end r e)) as ->.
  { destruct hx; [apply hex_loop_grow|apply quote_loop_grow]; exact EL. }
  cbn [rbind] in *. destruct e as [|rest]; [exact H|]. cbn [grow_end]. destruct (q0term st); [|exact H].
  destruct rest; [discriminate|exact H].
Qed.
Lemma mono_pqs size st esc : mono (fun s => print_quoted_string_ex s size st esc).
Proof.
  unfold print_quoted_string_ex. cbv zeta. set (sz := if negb (size =? 0) && q0term st then size - 1 else size). destruct (quote_alloc_size sz st); [|apply mono_ret].
  intros b r x H. destruct (string_quote b (N.to_nat sz) st esc) as [[o rc]| |] eqn:E; try discriminate.
  rewrite (mono_string_quote _ _ _ b r _ E). exact H.
Qed.
Lemma mono_quoted z e xf off size : mono (fun b => quoted z e xf b off size).
Proof.
  unfold quoted. intros b r x H. rewrite skipn_app.
  destruct (print_quoted_string_ex (skipn off b) (N.of_nat size) (qst z e xf) None) as [[p rc]| |] eqn:E; try discriminate.
  rewrite (mono_pqs _ _ _ _ _ _ E). exact H.
Qed.
Lemma mono_elems sz n : forall off, mono (fun b => elems b off sz n).
Proof.
  induction n as [|n IH]; intros off; cbn [elems]; [apply mono_ret|].
  apply (mono_bind (fun b => rd b off sz)); [apply mono_rd|]. intros v.
  apply (mono_bind (fun b => elems b (off + sz) sz n)); [apply IH|]. intros; apply mono_ret.
Qed.
Lemma mono_ll oob n : forall i, mono (fun b => ll_loop b oob i n).
Proof.
  induction n as [|n IH]; intros i; cbn [ll_loop]; [apply mono_ret|]. apply mono_if; [apply mono_ret|].
  apply (mono_bind (fun b => rd b (12 + i) 1)); [apply mono_rd|]. intros v.
  intros b r x H. destruct (ll_loop b oob (S i) n) as [[l m]| |] eqn:E; try discriminate. rewrite (IH _ b r _ E). exact H.
Qed.
Lemma mono_cstring xf size : mono (fun b => print_quoted_cstring xf b size).
Proof.
  intros b r x H. unfold print_quoted_cstring in *.
  destruct (print_quoted_string_ex b size _ None) as [[p rc]| |] eqn:E; try discriminate.
  rewrite (mono_pqs _ _ _ _ r _ E). exact H.
Qed.

Ltac mono_step :=
  first
  [ apply mono_ret | apply mono_rd | apply mono_rdn | apply mono_fld | apply mono_fld_nz | apply mono_quoted
  | apply mono_elems | apply mono_ll
  | match goal with |- mono (fun b => @?f b +++ @?g b) => apply (mono_then f g) end
  | match goal with |- mono (fun b => if ?c then @?f b else @?g b) => apply (mono_if c f g) end
  | match goal with |- mono (fun b => rbind (@?f b) (fun x => @?g b x)) =>
      apply (mono_bind f (fun x b => g b x)); [|intros ?] end ].

Lemma mono_in : mono sa_in.
Proof. unfold sa_in. repeat mono_step. Qed.
Lemma mono_in6 n : mono (fun b => sa_in6 b n).
Proof. unfold sa_in6. repeat mono_step. Qed.
Lemma mono_raw xf n : mono (fun b => sa_raw xf b n).
Proof. unfold sa_raw. repeat mono_step. Qed.

Lemma mono_sockaddr xf w8 n : mono (fun b => print_sockaddr xf w8 b n).
Proof.
  unfold print_sockaddr. apply (mono_bind (fun b => rdn b 0 2)); [apply mono_rdn|]. intros fam.
  match goal with |- mono (fun b => @?f b +++ @?g b) => apply (mono_then f g) end; [apply mono_fld|].
  apply mono_if; [|apply mono_ret].
  destruct (sa_printer xf w8 fam) as [[ml pr]|] eqn:EP; [|apply mono_raw].
  apply (mono_if _ (fun b => pr b n)); [|apply mono_raw].
  destruct fam as [|q]; [discriminate|]. do 6 (try (destruct q as [q|q|]); try discriminate EP);
    cbn [sa_printer] in EP; injection EP as <- <-; try exact mono_in; try apply mono_in6.
  all: try (cbv beta delta [sa_ipx sa_nl sa_vsock sa_qrtr sa_mctp sa_xdp sa_ieee802154 sa_alg sa_nfc sa_ll]; repeat mono_step;
    try (intros b r x H; destruct (ll_loop b (n - 12) 0 (N.to_nat a)) as [[l m]| |] eqn:E; try discriminate;
         rewrite (mono_ll _ _ _ b r _ E); exact H); fail).
  - (* BT *) do 15 (destruct n as [|n]; [cbn [sa_bt]; try apply mono_raw; repeat mono_step|]). apply mono_raw.
  - (* NFC *) unfold sa_nfc. cbv zeta. repeat mono_step.
  - (* RXRPC *)
    unfold sa_rxrpc. cbv zeta. repeat mono_step; try (apply (mono_skipn sa_in); exact mono_in).
    + apply (mono_skipn (fun b => sa_in6 b _)). apply mono_in6.
  - (* X25 *) unfold sa_x25. apply (mono_bind (fun b => print_quoted_cstring xf (skipn 2 b) 16)); [|intros; apply mono_ret].
    apply (mono_skipn (fun b => print_quoted_cstring xf b 16)). apply mono_cstring.
  - (* AX25 *) unfold sa_ax25. cbv zeta. repeat mono_step.
  - (* UNIX *) unfold sa_un. cbv zeta. repeat mono_step.
Qed.

Lemma mono_fields_at l : mono (fun b => fields_at b l).
Proof.
  induction l as [|f l IH]; unfold fields_at in *; cbn [fold_right]; [apply mono_ret|].
  apply (mono_bind (fun b => rd b _ _)); [apply mono_rd|]. intros v. apply (mono_bind (fun b => fold_right _ _ l)); [exact IH|].
  intros; apply mono_ret.
Qed.
Ltac mono_step2 := first [ mono_step | apply mono_fields_at | apply mono_sockaddr ].
Lemma mono_printer c lv ty ml pr n : cmsg_printer c lv ty = Some (ml, pr) -> mono (fun b => pr b n).
Proof.
  intros H. unfold cmsg_printer in H. destruct (lv =? 1); [|destruct (lv =? 0); [|discriminate]];
    (destruct ty as [|q]; [discriminate|]; do 7 (try (destruct q as [q|q|]); try discriminate H));
    injection H as <- <-; cbv beta delta [p_array p_creds p_security p_int p_time p_time3 time_at p_pktinfo p_recverr p_origdstaddr];
    cbv zeta; repeat mono_step2.
  apply (mono_skipn (fun b => print_sockaddr (xf c) (w8 c) b 16)). apply mono_sockaddr.
Qed.
Lemma mono_data c lv ty n : mono (fun b => print_cmsg_type_data c lv ty b n).
Proof.
  unfold print_cmsg_type_data. cbv zeta. destruct (cmsg_printer c lv ty) as [[ml pr]|] eqn:E.
  - apply mono_if; [|repeat mono_step]. apply (mono_bind (fun b => pr b n)); [eapply mono_printer; exact E|intros; apply mono_ret].
  - repeat mono_step.
Qed.

(** ---- the data alone suffices ---- *)
Lemma fields_at_ok b l : Forall (fun f => (fst (snd f) + snd (snd f) <= length b)%nat) l -> exists k, fields_at b l = Ok k.
Proof.
  intros H. induction H as [|f l Hf _ [k IH]]; [exists []; reflexivity|]. unfold fields_at in *. cbn [fold_right].
  rewrite rd_ok by exact Hf. cbn [rbind]. rewrite IH. cbn [rbind]. eauto.
Qed.
Lemma cut_overreads a n : (n <= length a)%nat -> overreads a n -> cut_address (firstn n a).
Proof.
  intros Hn. assert (E : (2 <= n)%nat -> cut (firstn n a) 0 2 = cut a 0 2).
  { intros H2. pose proof (cut_firstn a n 0 2 [] ltac:(lia) Hn) as X. rewrite app_nil_r in X. exact X. }
  intros [(F & L & N0)|(F & L)]; [left|right]; rewrite E, firstn_length by lia.
  - split; [exact F|]. split; [lia|]. rewrite skipn_firstn_comm. exact N0.
  - split; [exact F|lia].
Qed.
Lemma sock_exact xf w8 a n : bytes_ok a -> (2 <= n <= 128)%nat -> (n <= length a)%nat -> ~ cut_address (firstn n a) ->
  exists l, print_sockaddr xf w8 (firstn n a) n = Ok l /\ print_sockaddr xf w8 a n = Ok l.
Proof.
  intros HB Hn HL HC.
  destruct (print_total xf w8 (firstn n a) n) as [l E]; [apply bytes_firstn; exact HB|exact Hn|rewrite firstn_length; lia| |].
  - intros O. exfalso. apply HC. apply cut_overreads in O; [|rewrite firstn_length; lia].
    rewrite firstn_firstn, Nat.min_id in O. exact O.
  - exists l. split; [exact E|]. rewrite <- (firstn_skipn n a). apply (mono_sockaddr xf w8 n). exact E.
Qed.
Lemma data_exact c m : bytes_ok (m_data m) -> ~ odd_message m ->
  exists d, print_cmsg_type_data c (m_level m) (m_type m) (m_data m) (length (m_data m)) = Ok d.
Proof.
  intros HB HO. unfold print_cmsg_type_data.
  set (d := m_data m) in *.
  assert (HH : forall x, exists p, quoted false false x d 0 (length d) = Ok p)
    by (intros x; apply quoted_total; auto).
  assert (HX : exists r, (if (length d =? 0)%nat then Ok None
             else rlet p := quoted false false HEXSTR_ALL d 0 (length d) in Ok (Some (DStr p))) = Ok r).
  { destruct (length d =? 0)%nat; [eauto|]. destruct (HH HEXSTR_ALL) as [p ->]. cbn [rbind]. eauto. }
  destruct (cmsg_printer c (m_level m) (m_type m)) as [[ml pr]|] eqn:EP; [|exact HX].
  destruct (Nat.leb_spec ml (length d)) as [Hml|_]; [|exact HX].
  assert (HP : exists x, pr d (length d) = Ok x); [|destruct HP as [x ->]; cbn [rbind]; eauto].
  assert (HA : forall sz, (0 < sz)%nat -> exists x, p_array sz d (length d) = Ok x).
  { intros sz Hs. unfold p_array. destruct (elems_ok d 0 sz (length d / sz)) as [l ->]; [|cbn [rbind]; eauto].
    rewrite Nat.add_0_l. apply Nat.mul_div_le. lia. }
  assert (HT : forall f w, exists x, p_time f w d (length d) = Ok x).
  { intros f w. unfold p_time, time_at. destruct (Nat.ltb_spec (length d) (2 * w)); [eauto|].
    match goal with |- context [fields_at ?dd ?l] => destruct (fields_at_ok dd l) as [k ->] end;
      [repeat constructor; cbn [fst snd]; lia|cbn [rbind]; eauto]. }
  assert (HT3 : forall f w, (0 < w)%nat -> exists x, p_time3 f w d (length d) = Ok x).
  { intros f w Hw. unfold p_time3, time_at. destruct (Nat.ltb_spec (length d / (2 * w)) 3) as [_|C]; [eauto|].
    assert (3 * (2 * w) <= length d)%nat.
    { pose proof (Nat.mul_div_le (length d) (2 * w) ltac:(lia)). nia. }
    repeat (match goal with |- context [fields_at ?dd ?l] => destruct (fields_at_ok dd l) as [? ->] end;
      [repeat constructor; cbn [fst snd]; lia|cbn [rbind]]). eauto. }
  unfold cmsg_printer in EP. unfold odd_message in HO. fold d in HO.
  destruct (N.eqb_spec (m_level m) 1) as [E1|E1]; [|destruct (N.eqb_spec (m_level m) 0) as [E0|_]; [|discriminate]];
    (destruct (m_type m) as [|q]; [discriminate|]; do 7 (try (destruct q as [q|q|]); try discriminate EP));
    injection EP as <- <-; try (apply HA; lia); try apply HT; try (apply HT3; destruct (k8 c); lia).
  all: try (unfold p_security; destruct (HH (xf c)) as [p ->]; cbn [rbind]; eauto; fail).
  all: try (unfold p_int; rewrite rd_ok by lia; cbn [rbind]; eauto; fail).
  all: try (unfold p_creds, p_pktinfo; match goal with |- context [fields_at ?dd ?l] => destruct (fields_at_ok dd l) as [? ->] end;
      [repeat constructor; cbn [fst snd]; lia|cbn [rbind]; eauto]; fail).
  - (* IP_RECVERR *)
    unfold p_recverr. match goal with |- context [fields_at ?dd ?l] => destruct (fields_at_ok dd l) as [? ->] end;
      [repeat constructor; cbn [fst snd]; lia|cbn [rbind]].
    destruct (sock_exact (xf c) (w8 c) (skipn 16 d) 16) as (l & _ & ->);
      [apply bytes_skipn; exact HB|lia|rewrite skipn_length; lia| |cbn [rbind]; eauto].
    intros C. apply HO. split; [exact E0|]. right. split; [reflexivity|]. split; [lia|exact C].
  - (* IP_ORIGDSTADDR *)
    unfold p_origdstaddr. set (n := if (128 <? length d)%nat then 128%nat else length d).
    assert (Hn : (16 <= n <= 128)%nat /\ (n <= length d)%nat /\ (n < length d -> n = 128)%nat)
      by (subst n; destruct (Nat.ltb_spec 128 (length d)); lia).
    destruct (sock_exact (xf c) (w8 c) d n) as (l & _ & ->); [exact HB|lia|lia| |cbn [rbind]; eauto].
    intros C. apply HO. split; [exact E0|]. left. split; [reflexivity|]. split; [lia|].
    assert (n = length d); [|subst n; rewrite H, firstn_all in C; exact C].
    destruct (Nat.eq_dec n (length d)) as [E|E]; [exact E|]. exfalso. assert (n = 128)%nat by lia.
    unfold cut_address in C. rewrite firstn_length in C. lia.
Qed.

(** ---- the walk ---- *)
Lemma round_ge ws n : 0 < ws -> n <= round_up ws n.
Proof.
  intros H. unfold round_up. pose proof (N.div_mod (n + ws - 1) ws ltac:(lia)). pose proof (N.mod_lt (n + ws - 1) ws ltac:(lia)). nia.
Qed.
Lemma walk_exists hs ls ws b : (0 < hs)%nat -> 0 < ws -> exists l k, walk hs ls ws b l k.
Proof.
  intros Hh Hw. remember (length b) as n eqn:En. revert b En. induction n as [n IH] using lt_wf_ind. intros b En.
  destruct (Nat.lt_ge_cases (length b) hs) as [L|L]; [exists [], (length b); constructor; exact L|].
  destruct (N.lt_ge_cases (m_len (cmsg_at hs ls b)) (N.of_nat hs)) as [M|M];
    [eexists; eexists; apply walk_bad; assumption|].
  set (r := round_up ws (m_len (cmsg_at hs ls b))).
  destruct (N.le_gt_cases (N.of_nat (length b)) r) as [R|R]; [eexists; eexists; apply walk_last; assumption|].
  assert (N.of_nat hs <= r) by (pose proof (round_ge ws (m_len (cmsg_at hs ls b)) Hw); subst r; lia).
  destruct (IH (length (skipn (N.to_nat r) b))) with (b := skipn (N.to_nat r) b) as (l & k & W);
    [rewrite skipn_length; lia|reflexivity|].
  exists (cmsg_at hs ls b :: l), k. apply walk_next; assumption.
Qed.
Lemma land_high x k : x < 2^64 -> k <= 64 -> N.land x (2^64 - 2^k) = x / 2^k * 2^k.
Proof.
  intros Hx Hk. assert (E : 2^64 - 2^k = N.shiftl (N.ones (64 - k)) k).
  { rewrite N.shiftl_mul_pow2, N.ones_equiv, <- N.sub_1_r, N.mul_sub_distr_r, <- N.pow_add_r.
    replace (64 - k + k) with 64 by lia. lia. }
  rewrite E. rewrite <- N.shiftr_div_pow2, <- N.shiftl_mul_pow2. apply N.bits_inj. intros i. rewrite N.land_spec.
  destruct (N.lt_ge_cases i k) as [C|C].
  - rewrite !N.shiftl_spec_low by exact C. apply andb_false_r.
  - rewrite !N.shiftl_spec_high' by exact C. rewrite N.shiftr_spec', N.sub_add by exact C.
    destruct (N.lt_ge_cases i 64) as [D|D].
    + rewrite N.ones_spec_low by lia. apply andb_true_r.
    + destruct (N.eq_dec x 0) as [->|Z]; [rewrite N.bits_0; reflexivity|].
      rewrite N.bits_above_log2; [reflexivity|]. apply N.log2_lt_pow2; [lia|]. apply N.lt_le_trans with (2^64); [exact Hx|]. apply N.pow_le_mono_r; lia.
Qed.
Lemma align_round c n : n + wordsize c <= 2^64 -> align c n = round_up (wordsize c) n.
Proof.
  intros H. unfold align, round_up. assert (Hw : exists k, wordsize c = 2^k /\ k <= 64).
  { unfold wordsize. destruct (w8 c); [exists 3|exists 2]; split; try reflexivity; lia. }
  destruct Hw as (k & Ek & Hk). rewrite Ek in *. unfold u64. assert (0 < 2^k) by (apply N.neq_0_lt_0, N.pow_nonzero; lia).
  rewrite N.mod_small by lia. apply land_high; lia.
Qed.

(** a message that does not trip the decoder: its length does not wrap when rounded
    up, and it is not one of [odd_message] *)

Lemma ctl_loop_walk c : forall b l k, walk (cmsg_size c) (len_size c) (wordsize c) b l k -> bytes_ok b -> Forall (plain c) l ->
  forall fuel, (length b < fuel)%nat ->
  exists items, ctl_loop c fuel b (length b) = Some (Ok (items, k)) /\ Forall2 (shown c) items l.
Proof.
  assert (Hls : (len_size c + 8 = cmsg_size c)%nat) by (unfold len_size, cmsg_size; destruct (w8 c); reflexivity).
  assert (Hws : 0 < wordsize c) by (unfold wordsize; destruct (w8 c); reflexivity).
  set (hs := cmsg_size c) in *. set (ls := len_size c) in *.
  assert (Hhs : (0 < hs)%nat) by lia.
  (* one message *)
  assert (ONE : forall b, (hs <= length b)%nat -> bytes_ok b -> plain c (cmsg_at hs ls b) -> exists it,
     (let bl := length b in
      rlet l := rdn b 0 ls in
      rlet lv := rdn b ls 4 in
      rlet ty := rdn b (ls + 4) 4 in
      let len := if N.of_nat bl <? l then bl else N.to_nat l in
      rlet d := print_cmsg_type_data c lv ty (skipn hs b) (if (hs <? len)%nat then (len - hs)%nat else 0%nat) in
      Ok (l, len, {| i_len := l; i_level := lv; i_type := ty; i_data := d |}))
     = Ok (m_len (cmsg_at hs ls b), N.to_nat (N.min (m_len (cmsg_at hs ls b)) (N.of_nat (length b))), it) /\ shown c it (cmsg_at hs ls b)).
  { intros b HL HB [_ HO]. cbv zeta. rewrite !rdn_ok by lia. cbn [rbind].
    set (m := cmsg_at hs ls b) in *.
    assert (Hlen : (if N.of_nat (length b) <? m_len m then length b else N.to_nat (m_len m)) = N.to_nat (N.min (m_len m) (N.of_nat (length b)))).
    { destruct (N.ltb_spec (N.of_nat (length b)) (m_len m)); [rewrite N.min_r by lia|rewrite N.min_l by lia]; lia. }
    change (le_val (cut b 0 ls)) with (m_len m). rewrite Hlen.
    set (len := N.to_nat (N.min (m_len m) (N.of_nat (length b)))) in *.
    assert (Hmd : m_data m = skipn hs (firstn len b)) by reflexivity.
    assert (Hml : length (m_data m) = (if (hs <? len)%nat then (len - hs)%nat else 0%nat)).
    { rewrite Hmd, skipn_length, firstn_length. subst len. destruct (Nat.ltb_spec hs (N.to_nat (N.min (m_len m) (N.of_nat (length b))))); lia. }
    destruct (data_exact c m) as [d Ed]; [rewrite Hmd; apply bytes_skipn, bytes_firstn; exact HB|exact HO|].
    rewrite <- Hml.
    assert (Hsk : exists r, skipn hs b = m_data m ++ r).
    { rewrite Hmd. destruct (Nat.le_gt_cases hs len) as [C|C].
      - exists (skipn len b). rewrite <- (firstn_skipn len b) at 1. rewrite skipn_app.
        replace (hs - length (firstn len b))%nat with 0%nat; [reflexivity|]. rewrite firstn_length. subst len. lia.
      - exists (skipn hs b). rewrite (skipn_all2 (firstn len b)); [reflexivity|]. rewrite firstn_length. lia. }
    destruct Hsk as [r ->]. change (le_val (cut b ls 4)) with (m_level m). change (le_val (cut b (ls + 4) 4)) with (m_type m).
    rewrite (mono_data c _ _ _ _ r _ Ed). cbn [rbind]. eexists. split; [reflexivity|].
    unfold shown. cbn [i_len i_level i_type i_data]. auto. }
  intros b l k W. induction W as [b HL|b HL HM|b HL HM HR|b l k HL HM HR W IH]; intros HB HP fuel HF;
    (destruct fuel as [|f]; [lia|]); cbn [ctl_loop]; fold hs; fold ls.
  - destruct (Nat.ltb_spec (length b) hs); [|lia]. exists []. split; [reflexivity|constructor].
  - destruct (Nat.ltb_spec (length b) hs); [lia|]. inversion HP as [|? ? HP1 HP2]; subst.
    destruct (ONE b HL HB HP1) as (it & E & S). cbv zeta in E. rewrite E.
    match goal with |- context [(?x <? hs)%nat] => destruct (Nat.ltb_spec x hs); [|lia] end.
    exists [it]. split; [reflexivity|]. constructor; [exact S|constructor].
  - destruct (Nat.ltb_spec (length b) hs); [lia|]. inversion HP as [|? ? HP1 HP2]; subst.
    destruct (ONE b HL HB HP1) as (it & E & S). cbv zeta in E. rewrite E.
    match goal with |- context [(?x <? hs)%nat] => destruct (Nat.ltb_spec x hs); [lia|] end.
    rewrite align_round by (destruct HP1; assumption).
    match goal with |- context [?x <=? ?y] => destruct (N.leb_spec x y); [|lia] end.
    exists [it]. split; [reflexivity|]. constructor; [exact S|constructor].
  - destruct (Nat.ltb_spec (length b) hs); [lia|]. inversion HP as [|? ? HP1 HP2]; subst.
    destruct (ONE b HL HB HP1) as (it & E & S). cbv zeta in E. rewrite E.
    match goal with |- context [(?x <? hs)%nat] => destruct (Nat.ltb_spec x hs); [lia|] end.
    rewrite align_round by (destruct HP1; assumption).
    match goal with |- context [?x <=? ?y] => destruct (N.leb_spec x y); [lia|] end.
    pose proof (round_ge (wordsize c) (m_len (cmsg_at hs ls b)) Hws) as RG.
    destruct (IH (bytes_skipn _ _ HB) HP2 f) as (items & EI & FI); [rewrite skipn_length; lia|].
    rewrite skipn_length in EI. rewrite EI. exists (it :: items). split; [reflexivity|]. constructor; assumption.
Qed.

Lemma walk_det hs ls ws b l1 k1 : walk hs ls ws b l1 k1 -> forall l2 k2, walk hs ls ws b l2 k2 -> l1 = l2 /\ k1 = k2.
Proof.
  intros W. induction W as [b HL|b HL HM|b HL HM HR|b l k HL HM HR W IH]; intros l2 k2 W2; inversion W2; subst; try lia; auto.
  destruct (IH _ _ H2) as [-> ->]. auto.
Qed.
Lemma walk_parts hs ls ws b l k : walk hs ls ws b l k -> bytes_ok b -> (0 < ls)%nat -> (ls <= hs)%nat ->
  Forall (fun m => m_len m < 256 ^ N.of_nat ls /\ bytes_ok (m_data m)) l.
Proof.
  assert (ONE : forall b, bytes_ok b -> (hs <= length b)%nat -> (ls <= hs)%nat ->
            m_len (cmsg_at hs ls b) < 256 ^ N.of_nat ls /\ bytes_ok (m_data (cmsg_at hs ls b))).
  { intros b0 HB HL Hls. split.
    - cbn [m_len cmsg_at]. replace ls with (length (cut b0 0 ls)) at 2 by (apply cut_length; lia).
      apply le_val_lt. unfold cut. apply bytes_firstn, bytes_skipn. exact HB.
    - cbn [m_data cmsg_at]. apply bytes_skipn, bytes_firstn. exact HB. }
  intros W. induction W as [b HL|b HL HM|b HL HM HR|b l k HL HM HR W IH]; intros HB Hl1 Hl2; repeat constructor; try (apply ONE; assumption).
  apply IH; try assumption. apply bytes_skipn. exact HB.
Qed.
Lemma decode_messages c m addr inlen n l k : bytes_ok m -> inlen <> 0 ->
  n = N.to_nat (N.min inlen (optmem_max c)) -> (cmsg_size c <= n <= length m)%nat ->
  walk (cmsg_size c) (len_size c) (wordsize c) (firstn n m) l k -> Forall (plain c) l ->
  exists items, Forall2 (shown c) items l /\
  forall fuel, (n < fuel)%nat ->
    decode_msg_control c fuel m addr inlen =
    Some (Ok (CList items (if (0 <? k)%nat then CMoreAt (u64 (addr + N.of_nat (n - k)))
                           else if N.of_nat n <? inlen then CMore else CNone))).
Proof.
  intros HB H0 Hn HL W HP.
  assert (EC : (if optmem_max c <? inlen then optmem_max c else inlen) = N.of_nat n).
  { subst n. rewrite Nnat.N2Nat.id. destruct (N.ltb_spec (optmem_max c) inlen); [rewrite N.min_r by lia|rewrite N.min_l by lia]; reflexivity. }
  assert (Hlen : length (firstn n m) = n) by (rewrite firstn_length; lia).
  destruct (ctl_loop_walk c _ _ _ W (bytes_firstn _ _ HB) HP (S n)) as (items & EI & FI); [lia|].
  exists items. split; [exact FI|]. intros fuel HF.
  destruct (ctl_loop_walk c _ _ _ W (bytes_firstn _ _ HB) HP fuel) as (items' & EI' & FI'); [lia|].
  assert (items' = items) as ->.
  { clear - FI FI'. revert items' FI'. induction FI as [|i mm items l (S1 & S2 & S3 & S4) _ IH]; intros items' FI'; inversion FI' as [|i' m' items2 l' (T1 & T2 & T3 & T4) FI2]; subst; [reflexivity|].
    rewrite (IH _ FI2). f_equal. destruct i, i'. cbn in *. congruence. }
  unfold decode_msg_control. destruct (N.eqb_spec inlen 0); [contradiction|]. cbv zeta. rewrite EC, Nnat.Nat2N.id.
  destruct (Nat.ltb_spec n (cmsg_size c)); [lia|].
  unfold fetch. destruct (Nat.leb_spec n (length m)); [|lia]. rewrite skipn_nil, app_nil_r.
  rewrite Hlen in EI'. rewrite EI'. destruct k; reflexivity.
Qed.

Lemma elems_spec b sz n : forall off, (off + sz * n <= length b)%nat ->
  exists l, elems b off sz n = Ok l /\ Forall (fun e => length e = sz) l /\ concat l = cut b off (sz * n).
Proof.
  induction n as [|n IH]; intros off H; cbn [elems].
  - exists []. rewrite Nat.mul_0_r. auto.
  - rewrite rd_ok by nia. cbn [rbind]. destruct (IH (off + sz)%nat) as (l & -> & F & C); [nia|]. cbn [rbind].
    exists (cut b off sz :: l). split; [reflexivity|]. split; [constructor; [apply cut_length; nia|exact F]|].
    cbn [concat]. rewrite C. unfold cut. replace (sz * S n)%nat with (sz + sz * n)%nat by lia.
    rewrite Nat.add_comm. clear.
    assert (G : forall (t : list N) a z, firstn a t ++ firstn z (skipn a t) = firstn (a + z) t).
    { intros t a z. revert t. induction a as [|a IH]; intros [|x t]; cbn; rewrite ?firstn_nil; auto. f_equal. apply IH. }
    assert (D : forall (t : list N) a z, skipn (a + z) t = skipn a (skipn z t)).
    { intros t a z. revert t. induction z as [|z IH]; intros t; [rewrite Nat.add_0_r; reflexivity|].
      rewrite Nat.add_succ_r. destruct t; [rewrite !skipn_nil; reflexivity|]. cbn. apply IH. }
    rewrite D. apply G.
Qed.
Lemma data_arrays c level type sz d : data_array level type = Some sz -> (sz <= length d)%nat ->
  exists l, print_cmsg_type_data c level type d (length d) = Ok (Some (DArr l)) /\
    Forall (fun e => length e = sz) l /\ concat l = firstn (sz * (length d / sz)) d.
Proof.
  intros H HL. assert (Hs : (0 < sz)%nat /\ cmsg_printer c level type = Some (sz, p_array sz)).
  { unfold data_array in H. unfold cmsg_printer.
    destruct level as [|[]]; try discriminate; (destruct type as [|q]; [discriminate|]; do 5 (try (destruct q as [q|q|]); try discriminate H));
      injection H as <-; split; try lia; reflexivity. }
  destruct Hs as [Hs EP]. unfold print_cmsg_type_data. rewrite EP. destruct (Nat.leb_spec sz (length d)); [|lia].
  unfold p_array. destruct (elems_spec d sz (length d / sz) 0) as (l & -> & F & C).
  - rewrite Nat.add_0_l. apply Nat.mul_div_le. lia.
  - cbn [rbind]. exists l. auto.
Qed.
Lemma fields_at_spec b l : Forall (fun f => (fst (snd f) + snd (snd f) <= length b)%nat) l ->
  fields_at b l = Ok (map (fun f => (fst f, cut b (fst (snd f)) (snd (snd f)))) l).
Proof.
  intros H. induction H as [|f l Hf _ IH]; [reflexivity|]. unfold fields_at in *. cbn [fold_right map].
  rewrite rd_ok by exact Hf. cbn [rbind]. rewrite IH. reflexivity.
Qed.
Lemma data_structs c level type sz fl d : data_struct (if k8 c then 8 else 4) level type = Some (sz, fl) -> (sz <= length d)%nat ->
  print_cmsg_type_data c level type d (length d) =
  Ok (Some (DFields (map (fun f => (fst f, cut d (fst (snd f)) (snd (snd f)))) fl))).
Proof.
  intros H HL. unfold data_struct in H. unfold print_cmsg_type_data, cmsg_printer.
  destruct level as [|[]]; try discriminate; (destruct type as [|q]; [discriminate|]; do 7 (try (destruct q as [q|q|]); try discriminate H));
    injection H as <- <-; cbn [N.eqb Pos.eqb];
    match goal with |- context [(?a <=? length d)%nat] => destruct (Nat.leb_spec a (length d)); [|lia || (destruct (k8 c); lia)] end;
    unfold p_creds, p_pktinfo, p_time, time_at;
    try (match goal with |- context [(length d <? ?a)%nat] => destruct (Nat.ltb_spec (length d) a); [lia|] end);
    rewrite fields_at_spec by (repeat constructor; cbn [fst snd]; lia); reflexivity.
Qed.
Lemma data_other c level type d : bytes_ok d -> N.of_nat (length d) < 2^30 -> d <> [] ->
  level <> 0 -> level <> 1 ->
  exists body, print_cmsg_type_data c level type d (length d) = Ok (Some (DStr (PText (bs """" ++ body ++ bs """") false)))
    /\ unquote AllDigits Plain body = Some d.
Proof.
  intros HB HL Hd L0 L1. unfold print_cmsg_type_data, cmsg_printer.
  destruct (N.eqb_spec level 1); [contradiction|]. destruct (N.eqb_spec level 0); [contradiction|].
  destruct (Nat.eqb_spec (length d) 0) as [C|_]; [destruct d; [congruence|discriminate C]|].
  destruct (quoted_bytes AllDigits HEXSTR_ALL false d 0 (length d)) as (body & -> & U);
    [exact HB|right; discriminate|lia|exact HL|].
  cbn [rbind]. exists body. split; [reflexivity|]. rewrite U. unfold cut. cbn [skipn]. rewrite firstn_all. reflexivity.
Qed.
