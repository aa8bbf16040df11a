(** C61: the control messages of sendmsg and recvmsg. *)
From Verif Require Import Base QuoteModel QuoteSpec SockModel SockSpec SockProofs MsgModel MsgSpec MsgProofs.
Local Open Scope N_scope.

(** Every buffer holds exactly one list of control messages. *)
Theorem C61_messages hs ls ws b : (0 < hs)%nat -> 0 < ws ->
  exists l k, walk hs ls ws b l k /\ forall l' k', walk hs ls ws b l' k' -> l' = l /\ k' = k.
Proof.
  intros H1 H2. destruct (walk_exists hs ls ws b H1 H2) as (l & k & W). exists l, k. split; [exact W|].
  intros l' k' W'. exact (walk_det _ _ _ _ _ _ W' _ _ W).
Qed.
Print Assumptions C61_messages.

(** The messages in the buffer, and only they, are shown, in order, each printed from
    its own bytes; bytes left over at the end are announced with their address, and a
    buffer longer than the kernel accepts with an ellipsis.
    Partial: not for a message whose length wraps around when rounded up
    (C61_hang_refuted) nor for a message with a cut-off socket address
    (C61_overread_refuted). *)
Theorem C61_shown_partial c m addr inlen n l k : bytes_ok m -> inlen <> 0 ->
  n = N.to_nat (N.min inlen (optmem_max c)) -> (cmsg_size c <= n <= length m)%nat ->
  walk (cmsg_size c) (len_size c) (wordsize c) (firstn n m) l k -> Forall (plain c) l ->
  exists items, Forall2 (shown c) items l /\
  forall fuel, (n < fuel)%nat ->
    decode_msg_control c fuel m addr inlen =
    Some (Ok (CList items (if (0 <? k)%nat then CMoreAt (u64 (addr + N.of_nat (n - k)))
                           else if N.of_nat n <? inlen then CMore else CNone))).
Proof. apply decode_messages. Qed.
Print Assumptions C61_shown_partial.

(** A 32-bit tracee cannot make a length wrap. *)
Theorem C61_no_wrap c b l k : w8 c = false -> bytes_ok b ->
  walk (cmsg_size c) (len_size c) (wordsize c) b l k -> Forall (fun m => m_len m + wordsize c <= 2^64) l.
Proof.
  intros Hw HB W. unfold cmsg_size, len_size, wordsize in *. rewrite Hw in *.
  eapply Forall_impl; [|apply (walk_parts _ _ _ _ _ _ W HB); lia].
  cbv beta. intros m [H _]. change (256 ^ N.of_nat 4) with (2^32) in H. lia.
Qed.
Print Assumptions C61_no_wrap.

(** Nothing is shown of an empty buffer, and only the address of one that is too short
    or cannot be read. *)
Theorem C61_otherwise c fuel m addr inlen n : n = N.to_nat (N.min inlen (optmem_max c)) ->
  (inlen = 0 -> decode_msg_control c fuel m addr inlen = Some (Ok CNothing)) /\
  (inlen <> 0 -> (n < cmsg_size c \/ length m < n)%nat -> decode_msg_control c fuel m addr inlen = Some (Ok (CAddr addr))).
Proof.
  intros ->. unfold decode_msg_control. split.
  - intros ->. reflexivity.
  - intros H0 H. destruct (N.eqb_spec inlen 0); [contradiction|]. cbv zeta.
    assert ((if optmem_max c <? inlen then optmem_max c else inlen) = N.min inlen (optmem_max c)) as ->.
    { destruct (N.ltb_spec (optmem_max c) inlen); [rewrite N.min_r by lia|rewrite N.min_l by lia]; reflexivity. }
    destruct (Nat.ltb_spec (N.to_nat (N.min inlen (optmem_max c))) (cmsg_size c)); [reflexivity|].
    unfold fetch. destruct (Nat.leb_spec (N.to_nat (N.min inlen (optmem_max c))) (length m)); [lia|reflexivity].
Qed.
Print Assumptions C61_otherwise.

(** Every whole element of an array (the descriptors of SCM_RIGHTS, ...) is shown, in order. *)
Theorem C61_arrays c level type sz d : data_array level type = Some sz -> (sz <= length d)%nat ->
  exists l, print_cmsg_type_data c level type d (length d) = Ok (Some (DArr l)) /\
    Forall (fun e => length e = sz) l /\ concat l = firstn (sz * (length d / sz)) d.
Proof. apply data_arrays. Qed.
Print Assumptions C61_arrays.

(** Credentials, packet information and timestamps are shown field by field. *)
Theorem C61_structs c level type sz fl d : data_struct (if k8 c then 8 else 4) level type = Some (sz, fl) -> (sz <= length d)%nat ->
  print_cmsg_type_data c level type d (length d) =
  Ok (Some (DFields (map (fun f => (fst f, cut d (fst (snd f)) (snd (snd f)))) fl))).
Proof. apply data_structs. Qed.
Print Assumptions C61_structs.

(** The data of a message of another level is shown as a string that reads back as the data. *)
Theorem C61_other_levels c level type d : bytes_ok d -> N.of_nat (length d) < 2^30 -> d <> [] ->
  level <> 0 -> level <> 1 ->
  exists body, print_cmsg_type_data c level type d (length d) = Ok (Some (DStr (PText (bs """" ++ body ++ bs """") false)))
    /\ unquote AllDigits Plain body = Some d.
Proof. apply data_other. Qed.
Print Assumptions C61_other_levels.

(** Non-vacuity: two descriptors, credentials, and 3 bytes left over. *)
Definition ex_c : mcfg := {| w8 := true; k8 := true; xf := HEXSTR_NONE; optmem_max := 20480 |}.
Definition le (n : nat) (v : N) : list N := map (fun i => v / 256 ^ N.of_nat i mod 256) (seq 0 n).
Definition hdr (len level type : N) : list N := le 8 len ++ le 4 level ++ le 4 type.
Definition ex_rights : list N := hdr 24 1 1 ++ le 4 5 ++ le 4 7.
Definition ex_creds : list N := hdr 28 1 2 ++ le 4 100 ++ le 4 1000 ++ le 4 1001 ++ le 4 0.
Definition ex_buf : list N := ex_rights ++ ex_creds ++ [1; 2; 3].
Example ex_walk :
  walk 16 8 8 ex_buf
    [{| m_len := 24; m_level := 1; m_type := 1; m_data := le 4 5 ++ le 4 7 |};
     {| m_len := 28; m_level := 1; m_type := 2; m_data := le 4 100 ++ le 4 1000 ++ le 4 1001 |}] 3.
Proof.
  apply (walk_next 16 8 8 ex_buf); [vm_compute; lia|vm_compute; discriminate|vm_compute; reflexivity|].
  apply (walk_next 16 8 8 (ex_creds ++ [1; 2; 3])); [vm_compute; lia|vm_compute; discriminate|vm_compute; reflexivity|].
  apply (walk_end 16 8 8 [1; 2; 3]). vm_compute. lia.
Qed.
Example ex_shown :
  decode_msg_control ex_c 100 (ex_buf ++ [9; 9]) 4096 59 =
  Some (Ok (CList [{| i_len := 24; i_level := 1; i_type := 1; i_data := Some (DArr [le 4 5; le 4 7]) |};
                   {| i_len := 28; i_level := 1; i_type := 2;
                      i_data := Some (DFields [(bs "pid", le 4 100); (bs "uid", le 4 1000); (bs "gid", le 4 1001)]) |}]
                  (CMoreAt (4096 + 56)))).
Proof. vm_compute. reflexivity. Qed.
Example ex_plain : Forall (plain ex_c) [{| m_len := 24; m_level := 1; m_type := 1; m_data := le 4 5 ++ le 4 7 |};
     {| m_len := 28; m_level := 1; m_type := 2; m_data := le 4 100 ++ le 4 1000 ++ le 4 1001 |}].
Proof.
  repeat constructor; try (vm_compute; discriminate); intros [H _]; discriminate H.
Qed.

(** A message of a 64-bit tracee with cmsg_len = 2^64-1 makes strace show it again and
    again, forever. *)
Definition endless : list N := hdr (2^64 - 1) 1 1 ++ le 4 5.
Theorem C61_hang_refuted : forall fuel, decode_msg_control ex_c fuel endless 4096 20 = None.
Proof.
  intros fuel.
  assert (L : ctl_loop ex_c fuel endless 20 = None).
  { induction fuel as [|f IH]; [reflexivity|].
    assert (E : ctl_loop ex_c (S f) endless 20 =
                match ctl_loop ex_c f endless 20 with
                | Some (Ok (l, k)) => Some (Ok ({| i_len := 2^64 - 1; i_level := 1; i_type := 1; i_data := Some (DArr [le 4 5]) |} :: l, k))
                | r => r
                end) by reflexivity.
    rewrite E, IH. reflexivity. }
  change (decode_msg_control ex_c fuel endless 4096 20) with
    (match ctl_loop ex_c fuel endless 20 with
     | None => None
     | Some (Ok (l, k)) => Some (Ok (CList l (if negb (k =? 0)%nat then CMoreAt (u64 (4096 + N.of_nat (20 - k)))
                                              else if 20 <? 20 then CMore else CNone)))
     | Some Die => Some Die
     | Some Undef => Some Undef
     end).
  rewrite L. reflexivity.
Qed.
Print Assumptions C61_hang_refuted.

(** An IP_ORIGDSTADDR message with an AF_UNIX address without NUL at the end of the
    buffer makes strace read past the end of its buffer. *)
Definition overread : list N := hdr 32 0 20 ++ le 2 1 ++ repeat 97 14.
Theorem C61_overread_refuted : decode_msg_control ex_c 100 overread 4096 32 = Some Undef.
Proof. vm_compute. reflexivity. Qed.
Print Assumptions C61_overread_refuted.

(** An error of a socket is shown member by member, and with the address of the offender. *)
Theorem C61_recverr c d s : (32 <= length d)%nat -> print_sockaddr (xf c) (w8 c) (skipn 16 d) 16 = Ok s ->
  print_cmsg_type_data c 0 11 d (length d) =
  Ok (Some (DSock [(bs "ee_errno", cut d 0 4); (bs "ee_origin", cut d 4 1); (bs "ee_type", cut d 5 1); (bs "ee_code", cut d 6 1); (bs "ee_info", cut d 8 4); (bs "ee_data", cut d 12 4)] s)).
Proof.
  intros L E. unfold print_cmsg_type_data, cmsg_printer. change (0 =? 1) with false. change (0 =? 0) with true. cbv iota. destruct (Nat.leb_spec 32 (length d)); [|lia].
  unfold p_recverr, fields_at. cbn [fold_right fst snd]. rewrite !rd_ok by lia. cbn [rbind]. rewrite E. reflexivity.
Qed.
Print Assumptions C61_recverr.
