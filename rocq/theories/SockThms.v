(** C62: socket addresses are shown as the tracee passed them. *)
From Verif Require Import Base QuoteModel QuoteSpec SockModel SockSpec SockProofs.
Local Open Scope N_scope.

(** For every address (any bytes [m], any length the tracee gives, any garbage in
    strace's buffer) decoding reads nothing outside the buffer. *)
Theorem C62_safe : forall xf w8 m addrlen old, bytes_ok m ->
  exists o, decode_sockaddr xf w8 m addrlen old = Ok o.
Proof. exact decode_total. Qed.
Print Assumptions C62_safe.

(** What is shown is determined by the bytes of the address: by nothing after the
    given length, and not by what strace's buffer held before. *)
Theorem C62_given_only : forall xf w8 m1 m2 addrlen old1 old2,
  firstn (given addrlen) m1 = firstn (given addrlen) m2 ->
  decode_sockaddr xf w8 m1 addrlen old1 = decode_sockaddr xf w8 m2 addrlen old2.
Proof. exact decode_given. Qed.
Print Assumptions C62_given_only.

(** An address with one of the fixed structures is shown as its fields, each with the
    bytes at its place, none missing but zero padding.  Partial: AF_INET6 addresses of
    25 to 27 bytes are excluded ([layout] has no structure for them); they are shown
    with a field the tracee did not pass, see [C62_scope_refuted].  AF_AX25, AF_X25,
    AF_RXRPC, AF_ALG and AF_NFC are covered only by the two theorems above. *)
Theorem C62_fields_partial : forall xf w8 m addrlen old lay,
  (2 <= addrlen)%Z -> (given addrlen <= length m)%nat ->
  layout (le_val (cut m 0 2)) (given addrlen) = Some lay ->
  exists toks, decode_sockaddr xf w8 m addrlen old
                 = Ok (SaStruct (SField (bs "sa_family") (cut m 0 2) :: toks), Some (le_val (cut m 0 2)))
    /\ fields toks = Some (expected m lay).
Proof. exact decode_layout. Qed.
Print Assumptions C62_fields_partial.
Example ex_in6 : exists m, length m = 28%nat /\ bytes_ok m /\ layout (le_val (cut m 0 2)) (given 28) <> None.
Proof. exists (10 :: repeat 0 27). split; [reflexivity|]. split; [repeat constructor|discriminate]. Qed.
Example ex_vsock : fields (match decode_sockaddr HEXSTR_NONE true [40;0;0;0;1;2;0;0;2;0;0;0;1;0;0;9] 16 [] with
    Ok (SaStruct (_ :: l), _) => l | _ => [SMore] end) =
  Some [(bs "svm_cid", [2;0;0;0]); (bs "svm_port", [1;2;0;0]); (bs "svm_flags", [1]); (bs "svm_zero", [0;0;9])].
Proof. vm_compute. reflexivity. Qed.
(** The full statement -- every field shown has the bytes the address has at its
    place -- fails: an AF_INET6 address of 26 bytes is shown with a sin6_scope_id whose
    last two bytes are not the tracee's. *)
Theorem C62_scope_refuted : exists m addrlen old toks v,
  (given addrlen <= length m)%nat /\
  decode_sockaddr HEXSTR_NONE true m addrlen old = Ok (SaStruct toks, Some 10) /\
  In (SField (bs "sin6_scope_id") v) toks /\ v <> cut m 24 4.
Proof.
  exists (10 :: 0 :: repeat 7 26), 26%Z, [].
  eexists; exists [7;7;0;0].
  split; [vm_compute; lia|]. split; [vm_compute; reflexivity|]. split; [|discriminate].
  vm_compute. tauto.
Qed.
Print Assumptions C62_scope_refuted.

(** AF_UNIX: a path -- ended by a NUL, or by the end of the address -- is shown in
    full: the text reads back as the path. *)
Theorem C62_unix_path : forall xf w8 h addrlen old p r,
  bytes_ok (1 :: 0 :: p ++ r) -> (h = Two \/ xf <> HEXSTR_NON_ASCII_CHARS) ->
  p <> [] -> ~ In 0 p -> (length p <= 108)%nat ->
  addrlen = (2 + Z.of_nat (length p))%Z \/ ((2 + Z.of_nat (length p) < addrlen)%Z /\
     (exists r', r = 0 :: r') /\ (given addrlen <= length (1%N :: 0%N :: p ++ r))%nat) ->
  exists body, decode_sockaddr xf w8 (1 :: 0 :: p ++ r) addrlen old =
    Ok (SaStruct [SField (bs "sa_family") [1; 0]; SText (bs "sun_path") (PText (bs """" ++ body ++ bs """") false)], Some 1)
    /\ unquote h Plain body = Some p.
Proof. intros. eapply decode_unix; eauto. Qed.
Print Assumptions C62_unix_path.
Example ex_unix : decode_sockaddr HEXSTR_NONE true ([1;0] ++ bs "/run/x" ++ [99;99]) 8 [] =
  Ok (SaStruct [SField (bs "sa_family") [1;0]; SText (bs "sun_path") (PText (bs """/run/x""") false)], Some 1).
Proof. vm_compute. reflexivity. Qed.

(** AF_UNIX: an abstract name is shown in full, NULs and all. *)
Theorem C62_unix_abstract : forall xf w8 h addrlen old p r,
  bytes_ok (1 :: 0 :: 0 :: p ++ r) -> (h = Two \/ xf <> HEXSTR_NON_ASCII_CHARS) ->
  (length p <= 107)%nat -> addrlen = (3 + Z.of_nat (length p))%Z ->
  exists body, decode_sockaddr xf w8 (1 :: 0 :: 0 :: p ++ r) addrlen old =
    Ok (SaStruct [SField (bs "sa_family") [1; 0]; SAbstract (bs "sun_path") (PText (bs """" ++ body ++ bs """") false)], Some 1)
    /\ unquote h Plain body = Some p.
Proof. intros. eapply decode_abstract; eauto. Qed.
Print Assumptions C62_unix_abstract.
Example ex_abstract : decode_sockaddr HEXSTR_NONE true [1;0;0;97;0;98;99] 6 [] =
  Ok (SaStruct [SField (bs "sa_family") [1;0]; SAbstract (bs "sun_path") (PText (bs """a\0b""") false)], Some 1).
Proof. vm_compute. reflexivity. Qed.

(** AF_PACKET: the hardware address is shown up to sll_halen bytes or the end of the
    address, and "..." follows exactly when the address ends first. *)
Theorem C62_packet : forall xf w8 m addrlen old,
  (20 <= addrlen)%Z -> (given addrlen <= length m)%nat -> cut m 0 2 = [17; 0] ->
  decode_sockaddr xf w8 m addrlen old =
    Ok (SaStruct ([SField (bs "sa_family") (cut m 0 2); SField (bs "sll_protocol") (cut m 2 2);
                  SField (bs "sll_ifindex") (cut m 4 4); SField (bs "sll_hatype") (cut m 8 2);
                  SField (bs "sll_pkttype") (cut m 10 1); SField (bs "sll_halen") (cut m 11 1)] ++
                  let halen := N.to_nat (le_val (cut m 11 1)) in
                  if (halen =? 0)%nat then []
                  else [SArr (bs "sll_addr") (map (fun c => [c]) (cut m 12 (Nat.min halen (given addrlen - 12))))
                             (given addrlen - 12 <? halen)%nat]), Some 17).
Proof. exact decode_packet. Qed.
Print Assumptions C62_packet.
Example ex_packet : exists m, (given 20 <= length m)%nat /\ cut m 0 2 = [17; 0] /\ le_val (cut m 11 1) = 9.
Proof. exists ([17;0;0;0;0;0;0;0;0;0;0;9] ++ repeat 5 8). vm_compute. auto. Qed.

(** AF_AX25: the digipeaters are the announced ones, at most 8, as far as the address holds them; "..." inside the
    list when it holds fewer, behind the structure when the address goes on. *)
Theorem C62_ax25 : forall xf w8 m addrlen old, bytes_ok m -> (16 <= addrlen)%Z -> (given addrlen <= length m)%nat -> cut m 0 2 = [3; 0] ->
  decode_sockaddr xf w8 m addrlen old =
    let said := le_val (cut m 12 4) in
    let want := if said <? 2^31 then Nat.min (N.to_nat said) 8 else O in
    let room := Nat.min ((given addrlen - 16) / 7) 8 in
    let base := [SField (bs "sax25_call") (cut m 2 7); SField (bs "sax25_ndigis") (cut m 12 4)] in
    Ok (SaStruct (SField (bs "sa_family") [3; 0] ::
          if (said =? 0) && (given addrlen =? 16)%nat then base
          else [SOpen (bs "fsa_ax25")] ++ base ++ [SClose] ++
               (if (want =? 0)%nat then []
                else [SArr (bs "fsa_digipeater") (map (fun i => cut m (16 + 7 * i) 7) (seq 0 (Nat.min room want))) (room <? want)%nat]) ++
               (if (16 + 7 * room <? given addrlen)%nat then [SMore] else [])), Some 3).
Proof. exact decode_ax25. Qed.
Print Assumptions C62_ax25.
Example ex_ax25 : exists m, (given 100 <= length m)%nat /\ bytes_ok m /\ cut m 0 2 = [3; 0] /\ le_val (cut m 12 4) = 200.
Proof. exists ([3;0;1;2;3;4;5;6;7;0;0;0;200;0;0;0] ++ repeat 5 90). split; [vm_compute; lia|]. split; [repeat constructor|]. vm_compute. auto. Qed.

(** An address of a family without known structure, or too short for it, is shown as
    its bytes: the text of sa_data reads back as all bytes after the family. *)
Theorem C62_raw : forall xf w8 h m addrlen old,
  bytes_ok m -> (h = Two \/ xf <> HEXSTR_NON_ASCII_CHARS) ->
  (3 <= addrlen)%Z -> (given addrlen <= length m)%nat ->
  (forall n, struct_size (le_val (cut m 0 2)) = Some n -> (given addrlen < n)%nat) ->
  exists body, decode_sockaddr xf w8 m addrlen old =
    Ok (SaStruct [SField (bs "sa_family") (cut m 0 2); SText (bs "sa_data") (PText (bs """" ++ body ++ bs """") false)],
        Some (le_val (cut m 0 2)))
    /\ unquote h Plain body = Some (cut m 2 (given addrlen - 2)).
Proof.
  intros xf w8 h m addrlen old HB HR H1 H2 H3. apply decode_raw; try assumption.
  specialize (struct_size_eq xf w8 (le_val (cut m 0 2))) as E.
  destruct (sa_printer xf w8 (le_val (cut m 0 2))) as [[ml pr]|]; [|exact I]. cbn in E. auto.
Qed.
Print Assumptions C62_raw.
Example ex_raw : forall n, struct_size (le_val (cut [2;0;1;2;3] 0 2)) = Some n -> (given 5 < n)%nat.
Proof. intros n H. vm_compute in H. injection H as <-. vm_compute. lia. Qed.
