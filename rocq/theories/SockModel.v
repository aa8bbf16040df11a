(** Printing of socket addresses: print_sockaddr and decode_sockaddr.
    Simplifications, all of them about how a value is spelled: a field is shown here
    as its name and the bytes of its value (the tables of names, inet_ntop, htons,
    interface names, xlat styles and the associated information of -Y, -y and
    --secontext are left out); strings are the text print_quoted_string makes
    (QuoteModel).  Little-endian; the structures have the layout of the Linux ABI.
    selinux_printfilecon is left out. *)
From Verif Require Import Base QuoteModel.
Local Open Scope N_scope.

(** What is printed.  [SField n v]: field [n] with the value whose bytes are [v];
    [SText n p]: field [n] with a quoted string; [SAbstract n p]: the same after "@";
    [SArr n l more]: field [n], an array, elements [l], [more] tells whether "..."
    ends it; [SMore]: "..."; [SOpen n], [SClose]: a nested structure. *)
Inductive stok :=
| SField (n : list N) (v : list N)
| SText (n : list N) (p : printed)
| SAbstract (n : list N) (p : printed)
| SArr (n : list N) (l : list (list N)) (more : bool)
| SMore
| SOpen (n : list N)
| SClose.

(** Reading [len] bytes at [buf + off]; outside the buffer it is undefined. *)
Definition rd (buf : list N) (off len : nat) : res (list N) :=
  if (off + len <=? length buf)%nat then Ok (firstn len (skipn off buf)) else Undef.
(** the value of little-endian bytes *)
Fixpoint le_val (l : list N) : N := match l with [] => 0 | c :: r => c + 256 * le_val r end.
Definition rdn (buf : list N) (off len : nat) : res N := rlet v := rd buf off len in Ok (le_val v).
(** PRINT_FIELD_* of a field of [len] bytes at [off] (src/print_fields.h) *)
Definition fld (n : list N) (buf : list N) (off len : nat) : res (list stok) :=
  rlet v := rd buf off len in Ok [SField n v].
(** one after the other *)
Definition andthen (a b : res (list stok)) : res (list stok) :=
  rlet x := a in rlet y := b in Ok (x ++ y).
Infix "+++" := andthen (at level 60, right associativity).
(** a field printed only when it is not zero *)
Definition fld_nz (n : list N) (buf : list N) (off len : nat) : res (list stok) :=
  rlet v := rd buf off len in Ok (if le_val v =? 0 then [] else [SField n v]).

(** print_quoted_string (src/util.c:1342-1347); [z]: QUOTE_0_TERMINATED, [e]: also QUOTE_EXPECT_TRAILING_0 *)
Definition qst (z e : bool) (xf : xflag_opts) : qstyle :=
  {| q0term := z; omit_quotes := false; omit0 := false; expect0 := e; comment := false; xstyle := xf |}.
Definition quoted (z e : bool) (xf : xflag_opts) (buf : list N) (off : nat) (size : nat) : res printed :=
  rlet (p, _) := print_quoted_string_ex (skipn off buf) (N.of_nat size) (qst z e xf) None in Ok p.

(** src/sockaddr.c:108-125 print_sockaddr_data_un *)
Definition sa_un (xf : xflag_opts) (buf : list N) (addrlen : nat) : res (list stok) :=
  let un_len := if (110 <? addrlen)%nat then 110%nat else addrlen in
  let path_len := (un_len - 2)%nat in
  rlet c := rdn buf 2 1 in
  if negb (c =? 0) then
    rlet p := quoted true false xf buf 2 (path_len + 1) in Ok [SText (bs "sun_path") p]
  else
    rlet p := quoted false false xf buf 3 (path_len - 1) in Ok [SAbstract (bs "sun_path") p].

(** src/sockaddr.c:241-250 print_sockaddr_data_in *)
Definition sa_in (buf : list N) : res (list stok) :=
  fld (bs "sin_port") buf 2 2 +++ fld (bs "sin_addr") buf 4 4.

(** src/sockaddr.c:252 SIN6_MIN_LEN *)
Definition SIN6_MIN_LEN : nat := 24.
(** src/sockaddr.c:254-297 print_sockaddr_data_in6 *)
Definition sa_in6 (buf : list N) (addrlen : nat) : res (list stok) :=
  fld (bs "sin6_port") buf 2 2 +++ fld (bs "sin6_flowinfo") buf 4 4 +++ fld (bs "sin6_addr") buf 8 16
  +++ (if (addrlen <=? SIN6_MIN_LEN)%nat then Ok [] else fld (bs "sin6_scope_id") buf 24 4).

(** the [n] elements of [sz] bytes from [off] on *)
Fixpoint elems (buf : list N) (off sz n : nat) : res (list (list N)) :=
  match n with
  | O => Ok []
  | S n' => rlet v := rd buf off sz in rlet r := elems buf (off + sz) sz n' in Ok (v :: r)
  end.

(** the value of a C int of 4 bytes *)
Definition s32 (v : N) : Z := if v <? 2^31 then Z.of_N v else (Z.of_N v - 2^32)%Z.

(** src/sockaddr.c:417-465 print_sockaddr_data_ax25 *)
Definition sa_ax25 (buf : list N) (addrlen : nat) : res (list stok) :=
  rlet nd := rdn buf 12 4 in
  let full := negb (nd =? 0) || (16 <? addrlen)%nat in
  (if full then Ok [SOpen (bs "fsa_ax25")] else Ok [])
  +++ fld (bs "sax25_call") buf 2 7 +++ fld (bs "sax25_ndigis") buf 12 4
  +++ (if negb full then Ok []
       else
         let has := Nat.min ((addrlen - 16) / 7) 8 in
         let want := Nat.min (Z.to_nat (Z.max (s32 nd) 0)) 8 in
         let digis := Nat.min has want in
         Ok [SClose]
         +++ (if (want =? 0)%nat then Ok []
              else rlet l := elems buf 16 7 digis in Ok [SArr (bs "fsa_digipeater") l (has <? want)%nat])
         +++ Ok (if (has * 7 + 16 <? addrlen)%nat then [SMore] else [])).

(** src/sockaddr.c:467-487 print_sockaddr_data_ipx *)
Definition sa_ipx (buf : list N) : res (list stok) :=
  fld (bs "sipx_port") buf 2 2 +++ fld (bs "sipx_network") buf 4 4 +++ fld (bs "sipx_node") buf 8 6
  +++ fld (bs "sipx_type") buf 14 1 +++ fld_nz (bs "sipx_zero") buf 15 1.

(** src/sockaddr.c:489-506 print_x25_addr, print_sockaddr_data_x25 *)
Definition sa_x25 (xf : xflag_opts) (buf : list N) : res (list stok) :=
  rlet p := print_quoted_cstring xf (skipn 2 buf) 16 in
  Ok [SOpen (bs "sx25_addr"); SText (bs "x25_addr") p; SClose].

(** src/sockaddr.c:508-520 print_sockaddr_data_nl *)
Definition sa_nl (buf : list N) : res (list stok) :=
  fld_nz (bs "nl_pad") buf 2 2 +++ fld (bs "nl_pid") buf 4 4 +++ fld (bs "nl_groups") buf 8 4.

(** src/sockaddr.c:570-578, the loop over sll_addr; [n] = sll_halen - i *)
Fixpoint ll_loop (buf : list N) (oob_halen i n : nat) : res (list (list N) * bool) :=
  match n with
  | O => Ok ([], false)
  | S n' => if (oob_halen <=? i)%nat then Ok ([], true)
            else rlet v := rd buf (12 + i) 1 in
                 rlet (l, m) := ll_loop buf oob_halen (S i) n' in Ok (v :: l, m)
  end.
(** src/sockaddr.c:548-581 print_sockaddr_data_ll *)
Definition sa_ll (buf : list N) (addrlen : nat) : res (list stok) :=
  fld (bs "sll_protocol") buf 2 2 +++ fld (bs "sll_ifindex") buf 4 4 +++ fld (bs "sll_hatype") buf 8 2
  +++ fld (bs "sll_pkttype") buf 10 1 +++ fld (bs "sll_halen") buf 11 1
  +++ (rlet h := rdn buf 11 1 in
       if h =? 0 then Ok []
       else rlet (l, m) := ll_loop buf (addrlen - 12) 0 (N.to_nat h) in Ok [SArr (bs "sll_addr") l m]).

(** src/sockaddr.c:583-591 print_sockaddr_data_raw *)
Definition sa_raw (xf : xflag_opts) (buf : list N) (addrlen : nat) : res (list stok) :=
  rlet p := quoted false false xf buf 2 (addrlen - 2) in Ok [SText (bs "sa_data") p].

(** src/sockaddr.c:676-765 print_sockaddr_data_bt *)
Definition sa_bt (xf : xflag_opts) (buf : list N) (addrlen : nat) : res (list stok) :=
  match addrlen with
  | 4%nat => fld (bs "hci_dev") buf 2 2
  | 6%nat => fld (bs "hci_dev") buf 2 2 +++ fld (bs "hci_channel") buf 4 2
  | 8%nat => fld (bs "sco_bdaddr") buf 2 6
  | 10%nat => fld (bs "rc_bdaddr") buf 2 6 +++ fld (bs "rc_channel") buf 8 1
  | 12%nat => fld (bs "l2_psm") buf 2 2 +++ fld (bs "l2_bdaddr") buf 4 6 +++ fld (bs "l2_cid") buf 10 2
  | 14%nat => fld (bs "l2_psm") buf 2 2 +++ fld (bs "l2_bdaddr") buf 4 6 +++ fld (bs "l2_cid") buf 10 2
              +++ fld (bs "l2_bdaddr_type") buf 12 1
  | _ => sa_raw xf buf addrlen
  end.

(** src/sockaddr.c:767-834 print_sockaddr_data_rxrpc; the nested sockaddr printers
    get &sa->transport, offset 8 *)
Definition sa_rxrpc (xf : xflag_opts) (buf : list N) (len : nat) : res (list stok) :=
  rlet tl := rdn buf 6 2 in
  rlet fam := rdn buf 8 2 in
  let transport_len := Nat.min (N.to_nat tl) (len - 8) in
  let rest := (transport_len - 2)%nat in
  let raw := if (0 <? rest)%nat then rlet p := quoted false false xf buf 10 rest in Ok [SText [] p] else Ok [] in
  fld (bs "srx_service") buf 2 2 +++ fld (bs "transport_type") buf 4 2 +++ fld (bs "transport_len") buf 6 2
  +++ Ok [SOpen (bs "transport")]
  +++ (if fam =? 2 then
         Ok [SOpen (bs "sin")] +++ fld (bs "sin_family") buf 8 2
         +++ (if 16 <=? tl then sa_in (skipn 8 buf) else raw) +++ Ok [SClose]
       else if fam =? 10 then
         Ok [SOpen (bs "sin6")] +++ fld (bs "sin6_family") buf 8 2
         +++ (if N.of_nat SIN6_MIN_LEN <=? tl then sa_in6 (skipn 8 buf) transport_len else raw) +++ Ok [SClose]
       else fld (bs "family") buf 8 2 +++ raw)
  +++ Ok [SClose].

(** src/sockaddr.c:836-863 print_sockaddr_data_ieee802154; IEEE802154_ADDR_NONE = 0,
    IEEE802154_ADDR_SHORT = 2 *)
Definition sa_ieee802154 (buf : list N) : res (list stok) :=
  rlet t := rdn buf 4 4 in
  Ok [SOpen (bs "addr")] +++ fld (bs "addr_type") buf 4 4 +++ fld (bs "pan_id") buf 8 2
  +++ (if t =? 0 then Ok []
       else if t =? 2 then fld (bs "short_addr") buf 10 2
       else fld (bs "hwaddr") buf 10 8)
  +++ Ok [SClose].

(** src/sockaddr.c:865-883 print_sockaddr_data_alg *)
Definition sa_alg (xf : xflag_opts) (buf : list N) (len : nat) : res (list stok) :=
  (rlet p := quoted true true xf buf 2 14 in Ok [SText (bs "salg_type") p])
  +++ fld (bs "salg_feat") buf 16 4 +++ fld (bs "salg_mask") buf 20 4
  +++ (rlet p := quoted true true xf buf 24 (len - 24) in Ok [SText (bs "salg_name") p]).

(** src/sockaddr.c:885-944 print_sockaddr_data_nfc; [w8]: current_wordsize == 8 *)
Definition sa_nfc (xf : xflag_opts) (w8 : bool) (buf : list N) (addrlen : nat) : res (list stok) :=
  fld (bs "dev_idx") buf 4 4 +++ fld (bs "target_idx") buf 8 4 +++ fld (bs "nfc_protocol") buf 12 4
  +++ (if (addrlen <? (if w8 then 96 else 88))%nat then Ok (if (16 <? addrlen)%nat then [SMore] else [])
       else
         let f_off := if w8 then 88%nat else 84%nat in
         let f_len := if w8 then 8%nat else 4%nat in
         rlet snsz := rdn buf f_off f_len in
         fld (bs "dsap") buf 16 1 +++ fld (bs "ssap") buf 17 1
         +++ (rlet p := quoted false false xf buf 18 (N.to_nat (N.min 63 snsz)) in Ok [SText (bs "service_name") p])
         +++ fld (bs "service_name_len") buf f_off f_len).

(** src/sockaddr.c:946-965 print_sockaddr_data_vsock *)
Definition sa_vsock (buf : list N) : res (list stok) :=
  fld_nz (bs "svm_reserved1") buf 2 2 +++ fld (bs "svm_cid") buf 8 4 +++ fld (bs "svm_port") buf 4 4
  +++ fld (bs "svm_flags") buf 12 1 +++ fld_nz (bs "svm_zero") buf 13 3.

(** src/sockaddr.c:967-976 print_sockaddr_data_qrtr *)
Definition sa_qrtr (buf : list N) : res (list stok) :=
  fld (bs "sq_node") buf 4 4 +++ fld (bs "sq_port") buf 8 4.

(** src/sockaddr.c:978-997 print_sockaddr_data_xdp; XDP_SHARED_UMEM = 1 *)
Definition sa_xdp (buf : list N) : res (list stok) :=
  fld (bs "sxdp_flags") buf 2 2 +++ fld (bs "sxdp_ifindex") buf 4 4 +++ fld (bs "sxdp_queue_id") buf 8 4
  +++ (rlet f := rdn buf 2 2 in
       if N.testbit f 0 then fld (bs "sxdp_shared_umem_fd") buf 12 4
       else fld_nz (bs "sxdp_shared_umem_fd") buf 12 4).

(** src/sockaddr.c:999-1024 print_sockaddr_data_mctp *)
Definition sa_mctp (buf : list N) : res (list stok) :=
  fld_nz (bs "__smctp_pad0") buf 2 2 +++ fld (bs "smctp_network") buf 4 4
  +++ Ok [SOpen (bs "smctp_addr")] +++ fld (bs "s_addr") buf 8 1 +++ Ok [SClose]
  +++ fld (bs "smctp_type") buf 9 1 +++ fld (bs "smctp_tag") buf 10 1 +++ fld_nz (bs "__smctp_pad1") buf 11 1.

(** src/sockaddr.c:1028-1051 sa_printers: the printer and min_len of a family, AF_*
    numbers of the Linux ABI. *)
Definition sa_printer (xf : xflag_opts) (w8 : bool) (fam : N)
  : option (nat * (list N -> nat -> res (list stok))) :=
  match fam with
  | 1 => Some (3%nat, sa_un xf)
  | 2 => Some (16%nat, fun b _ => sa_in b)
  | 3 => Some (16%nat, sa_ax25)
  | 4 => Some (16%nat, fun b _ => sa_ipx b)
  | 9 => Some (18%nat, fun b _ => sa_x25 xf b)
  | 10 => Some (SIN6_MIN_LEN, sa_in6)
  | 16 => Some (12%nat, fun b _ => sa_nl b)
  | 17 => Some (20%nat, sa_ll)
  | 31 => Some (3%nat, sa_bt xf)
  | 33 => Some (36%nat, sa_rxrpc xf)
  | 36 => Some (20%nat, fun b _ => sa_ieee802154 b)
  | 38 => Some (25%nat, sa_alg xf)
  | 39 => Some (16%nat, sa_nfc xf w8)
  | 40 => Some (16%nat, fun b _ => sa_vsock b)
  | 42 => Some (12%nat, fun b _ => sa_qrtr b)
  | 44 => Some (16%nat, fun b _ => sa_xdp b)
  | 45 => Some (12%nat, fun b _ => sa_mctp b)
  | _ => None
  end.

(** src/sockaddr.c:1053-1074 print_sockaddr *)
Definition print_sockaddr (xf : xflag_opts) (w8 : bool) (buf : list N) (addrlen : nat) : res (list stok) :=
  rlet fam := rdn buf 0 2 in
  fld (bs "sa_family") buf 0 2
  +++ (if (2 <? addrlen)%nat then
         match sa_printer xf w8 fam with
         | Some (min_len, pr) => if (min_len <=? addrlen)%nat then pr buf addrlen else sa_raw xf buf addrlen
         | None => sa_raw xf buf addrlen
         end
       else Ok []).

(** What decode_sockaddr prints: the address, or the structure. *)
Inductive sa_out := SaAddr | SaStruct (l : list stok).

(** src/sockaddr.c:1076-1101 decode_sockaddr; [m]: the readable bytes of the tracee
    from addr on; [old]: what addrbuf (129 bytes) holds before.  The value returned
    is the family, or [None] for -1. *)
Definition decode_sockaddr (xf : xflag_opts) (w8 : bool) (m : list N) (addrlen : Z) (old : list N)
  : res (sa_out * option N) :=
  if (addrlen <? 2)%Z then Ok (SaAddr, None)
  else
    let len := if (128 <? addrlen)%Z then 128%nat else Z.to_nat addrlen in
    match fetch m len old with
    | None => Ok (SaAddr, None)
    | Some b =>
        let buf := firstn len b ++ repeat 0 (129 - len) in
        rlet l := print_sockaddr xf w8 buf len in
        rlet fam := rdn buf 0 2 in
        Ok (SaStruct l, Some fam)
    end.
