(** Printing of the control messages of sendmsg and recvmsg: decode_msg_control.
    A 64-bit strace on a little-endian machine.  Values are shown as their bytes (see
    SockModel), arrays as the elements handed to the array printer (C49). *)
From Verif Require Import Base QuoteModel SockModel.
Local Open Scope N_scope.

(** The tracee: [w8]: current_wordsize == 8; [k8]: current_klongsize == 8. *)
Record mcfg := { w8 : bool; k8 : bool; xf : xflag_opts; optmem_max : N }.

(** src/msghdr.c:26-32, 332-336: sizeof(struct cmsghdr32) or sizeof(struct cmsghdr) *)
Definition cmsg_size (c : mcfg) : nat := if w8 c then 16 else 12.
(** size of cmsg_len *)
Definition len_size (c : mcfg) : nat := if w8 c then 8 else 4.
Definition wordsize (c : mcfg) : N := if w8 c then 8 else 4.

(** What is shown after "cmsg_data=". *)
Inductive cdata :=
| DArr (l : list (list N))                                (* array of values *)
| DVal (v : list N)                                       (* one value *)
| DFields (l : list (list N * list N))                    (* structure *)
| DStructs (l : list (list (list N * list N)))            (* array of structures *)
| DStr (p : printed)                                      (* quoted string *)
| DSock (l : list (list N * list N)) (s : list stok)      (* [l], then a socket address *)
| DUnavailable.                                           (* "???" *)

Definition fields_at (b : list N) (l : list (list N * (nat * nat))) : res (list (list N * list N)) :=
  fold_right (fun f r => rlet v := rd b (fst (snd f)) (snd (snd f)) in rlet k := r in Ok ((fst f, v) :: k)) (Ok []) l.

(** Printers get [b], the bytes from cmsg_data to the end of the buffer, and data_len. *)

(** src/msghdr.c:42-52 print_scm_rights, 161-169 print_cmsg_uint, 171-177 print_cmsg_xint8_t *)
Definition p_array (sz : nat) (b : list N) (data_len : nat) : res cdata :=
  rlet l := elems b 0 sz (data_len / sz) in Ok (DArr l).
(** src/msghdr.c:54-67 print_scm_creds *)
Definition p_creds (b : list N) (_ : nat) : res cdata :=
  rlet l := fields_at b [(bs "pid", (0, 4)); (bs "uid", (4, 4)); (bs "gid", (8, 4))]%nat in Ok (DFields l).
(** src/msghdr.c:69-74 print_scm_security *)
Definition p_security (x : xflag_opts) (b : list N) (data_len : nat) : res cdata :=
  rlet p := quoted false false x b 0 data_len in Ok (DStr p).
(** src/msghdr.c:76-83 print_scm_pidfd, 224-233 print_cmsg_ip_protocol *)
Definition p_int (b : list N) (_ : nat) : res cdata := rlet v := rd b 0 4 in Ok (DVal v).
(** src/print_timespec.h:29-62, src/print_timeval.c:49-58: a time of two words of [w]
    bytes; [f]: name of the second *)
Definition time_at (f : list N) (w : nat) (b : list N) (off : nat) : res (list (list N * list N)) :=
  fields_at b [(bs "tv_sec", (off, w)); (f, (off + w, w))]%nat.
Definition p_time (f : list N) (w : nat) (b : list N) (data_len : nat) : res cdata :=
  if (data_len <? 2 * w)%nat then Ok DUnavailable
  else rlet l := time_at f w b 0 in Ok (DFields l).
(** src/print_timespec.h:64-84, with nmemb = 3 (src/msghdr.c:122, 143) *)
Definition p_time3 (f : list N) (w : nat) (b : list N) (data_len : nat) : res cdata :=
  if (data_len / (2 * w) <? 3)%nat then Ok DUnavailable
  else rlet x := time_at f w b 0 in
       rlet y := time_at f w b (2 * w) in
       rlet z := time_at f w b (4 * w) in Ok (DStructs [x; y; z]).
(** src/msghdr.c:146-159 print_cmsg_ip_pktinfo *)
Definition p_pktinfo (b : list N) (_ : nat) : res cdata :=
  rlet l := fields_at b [(bs "ipi_ifindex", (0, 4)); (bs "ipi_spec_dst", (4, 4)); (bs "ipi_addr", (8, 4))]%nat in Ok (DFields l).
(** src/msghdr.c:190-211 print_cmsg_ip_recverr *)
Definition p_recverr (x : xflag_opts) (w : bool) (b : list N) (_ : nat) : res cdata :=
  rlet l := fields_at b [(bs "ee_errno", (0, 4)); (bs "ee_origin", (4, 1)); (bs "ee_type", (5, 1)); (bs "ee_code", (6, 1));
                         (bs "ee_info", (8, 4)); (bs "ee_data", (12, 4))]%nat in
  rlet s := print_sockaddr x w (skipn 16 b) 16 in Ok (DSock l s).
(** src/msghdr.c:213-222 print_cmsg_ip_origdstaddr *)
Definition p_origdstaddr (x : xflag_opts) (w : bool) (b : list N) (data_len : nat) : res cdata :=
  let addr_len := if (128 <? data_len)%nat then 128%nat else data_len in
  rlet s := print_sockaddr x w b addr_len in Ok (DSock [] s).

(** src/msghdr.c:237-262 the tables: printer and min_len of a cmsg_level and cmsg_type;
    SOL_SOCKET = 1, SOL_IP = 0. *)
Definition cmsg_printer (c : mcfg) (level type : N) : option (nat * (list N -> nat -> res cdata)) :=
  let ow := if k8 c then 8%nat else 4%nat in
  if level =? 1 then
    match type with
    | 1 => Some (4%nat, p_array 4)
    | 2 => Some (12%nat, p_creds)
    | 3 => Some (1%nat, p_security (xf c))
    | 4 => Some (4%nat, p_int)
    | 29 => Some (1%nat, p_time (bs "tv_usec") ow)
    | 35 => Some (1%nat, p_time (bs "tv_nsec") ow)
    | 37 => Some (1%nat, p_time3 (bs "tv_nsec") ow)
    | 63 => Some (1%nat, p_time (bs "tv_usec") 8)
    | 64 => Some (1%nat, p_time (bs "tv_nsec") 8)
    | 65 => Some (1%nat, p_time3 (bs "tv_nsec") 8)
    | _ => None
    end
  else if level =? 0 then
    match type with
    | 1 => Some (1%nat, p_array 1)
    | 2 => Some (4%nat, p_array 4)
    | 3 => Some (1%nat, p_security (xf c))
    | 6 => Some (1%nat, p_array 1)
    | 7 => Some (1%nat, p_array 1)
    | 8 => Some (12%nat, p_pktinfo)
    | 11 => Some (32%nat, p_recverr (xf c) (w8 c))
    | 20 => Some (16%nat, p_origdstaddr (xf c) (w8 c))
    | 23 => Some (4%nat, p_array 4)
    | 52 => Some (4%nat, p_int)
    | _ => None
    end
  else None.

(** src/msghdr.c:264-303 print_cmsg_type_data: what is shown of the data; the last
    alternative is print_quoted_string with QUOTE_FORCE_HEX *)
Definition print_cmsg_type_data (c : mcfg) (level type : N) (b : list N) (data_len : nat) : res (option cdata) :=
  let hex := if (data_len =? 0)%nat then Ok None
             else rlet p := quoted false false HEXSTR_ALL b 0 data_len in Ok (Some (DStr p)) in
  match cmsg_printer c level type with
  | Some (min_len, pr) => if (min_len <=? data_len)%nat then rlet d := pr b data_len in Ok (Some d) else hex
  | None => hex
  end.

(** One control message as shown. *)
Record citem := { i_len : N; i_level : N; i_type : N; i_data : option cdata }.

(** src/msghdr.c:390-391 *)
Definition align (c : mcfg) (cmsg_len : N) : N :=
  let w := wordsize c in N.land (u64 (cmsg_len + w - 1)) (2^64 - w).

(** src/msghdr.c:351-398 the loop: [buf]: the bytes from u.ptr to the end of the buffer, [buf_len].
    The outer option is the fuel; the result: the messages shown and buf_len at the end. *)
Fixpoint ctl_loop (c : mcfg) (fuel : nat) (buf : list N) (buf_len : nat) : option (res (list citem * nat)) :=
  match fuel with
  | O => None
  | S f =>
      if (buf_len <? cmsg_size c)%nat then Some (Ok ([], buf_len))
      else
        match (rlet l := rdn buf 0 (len_size c) in
               rlet lv := rdn buf (len_size c) 4 in
               rlet ty := rdn buf (len_size c + 4) 4 in
               let len := if N.of_nat buf_len <? l then buf_len else N.to_nat l in
               rlet d := print_cmsg_type_data c lv ty (skipn (cmsg_size c) buf)
                           (if (cmsg_size c <? len)%nat then (len - cmsg_size c)%nat else 0%nat) in
               Ok (l, len, {| i_len := l; i_level := lv; i_type := ty; i_data := d |})) with
        | Ok (l, len, it) =>
            if (len <? cmsg_size c)%nat then Some (Ok ([it], (buf_len - cmsg_size c)%nat))
            else
              let len := align c l in
              if N.of_nat buf_len <=? len then Some (Ok ([it], 0%nat))
              else match ctl_loop c f (skipn (N.to_nat len) buf) (buf_len - N.to_nat len) with
                   | Some (Ok (l, k)) => Some (Ok (it :: l, k))
                   | r => r
                   end
        | Die => Some Die
        | Undef => Some Undef
        end
  end.

(** What ends the list: nothing, "..." or "... /* address */". *)
Inductive ctail := CNone | CMore | CMoreAt (a : N).
Inductive cout := CNothing | CAddr (a : N) | CList (l : list citem) (t : ctail).

(** src/msghdr.c:323-409 decode_msg_control; [m]: the readable bytes of the tracee from
    [addr] on.  malloc succeeds. *)
Definition decode_msg_control (c : mcfg) (fuel : nat) (m : list N) (addr in_control_len : N) : option (res cout) :=
  if in_control_len =? 0 then Some (Ok CNothing)
  else
    let control_len := if optmem_max c <? in_control_len then optmem_max c else in_control_len in
    let n := N.to_nat control_len in
    if (n <? cmsg_size c)%nat then Some (Ok (CAddr addr))
    else match fetch m n [] with
         | None => Some (Ok (CAddr addr))
         | Some buf =>
             match ctl_loop c fuel buf n with
             | None => None
             | Some (Ok (l, k)) =>
                 Some (Ok (CList l (if negb (k =? 0)%nat then CMoreAt (u64 (addr + N.of_nat (n - k)))
                                    else if control_len <? in_control_len then CMore else CNone)))
             | Some Die => Some Die
             | Some Undef => Some Undef
             end
         end.
