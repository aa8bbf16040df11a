(** Decoding of sequences of netlink attributes and messages. *)
From Verif Require Import Base.
Import ListNotations.
Local Open Scope N_scope.

(** What is printed, with the parts of the tracee's memory read for it. *)
Inductive ntok :=
| NBegin | NNext | NEnd | NMore
| NAddr (a : N) | NAddrComment (a : N)
| NHex (a n : N)               (* printstr_ex of [n] bytes at [a] *)
| NHdr (h : list N)            (* a header that has been fetched *)
| NErr (h : list N)            (* the fields of struct nlmsgerr fetched *)
| NPay (a n : N).              (* the payload of [n] bytes at [a], handed to its decoder *)

(** Little-endian fields. *)
Definition le16 (h : list N) (o : nat) : N := nth o h 0 + 256 * nth (S o) h 0.
Definition le32 (h : list N) (o : nat) : N := le16 h o + 65536 * le16 h (S (S o)).

(** [fetch a n] is tfetch_mem. *)
Notation nmem := (N -> N -> option (list N)).

(** What the two sequence decoders have in common; [abbrev] and
    [max_strlen] are the options. *)
Record opts := mk_opts { abbrev : bool; max_strlen : N }.
(** src/util.c:2082-2086 *)
Definition sequence_truncation_needed (o : opts) (len : N) : bool :=
  abbrev o && (max_strlen o <? u32 len).

(** The loop of decode_nlattr (src/nlattr.c:129-165) and of decode_netlink
    (src/netlink.c:697-738), which are the same up to the following: the size
    of a header [hsz], the length [hlen h] in it, how that is aligned
    ([align], NLA_ALIGN or NLMSG_ALIGN), and the function [item] that shows
    an element given its header, its address and the length that remains
    (its result is what is printed and the parts of the memory fetched).
    fetch_nlattr (src/nlattr.c:21-43) and fetch_nlmsghdr are the same, too.
    [None] stands for running out of fuel. *)
Record kind := mk_kind {
  hsz : N; hlen : list N -> N; align : N -> N;
  item : list N -> N -> N -> option (list ntok * list (N * N)) }.

Fixpoint seq_loop (fuel : nat) (k : kind) (o : opts) (m : nmem) (addr len elt : N) (is_array : bool)
  : option (list ntok * list (N * N) * bool) :=
  match fuel with
  | O => None
  | S fuel' =>
      if len <? hsz k then Some ([NHex addr len], [], is_array)
      else
        match m addr (hsz k) with
        | None =>
            Some (if is_array then [NMore; NAddrComment addr] else [NAddr addr],
                  [(addr, hsz k)], is_array)
        | Some h =>
            if sequence_truncation_needed o (elt + 1) then
              Some ([NMore], [(addr, hsz k)], is_array)
            else
              let alen := align k (hlen k h) in
              let '(next_addr, next_len) :=
                if hsz k <=? hlen k h then
                  let next_len := if alen <=? len then len - alen else 0 in
                  (if negb (next_len =? 0) && (addr <? u64 (addr + alen))
                   then u64 (addr + alen) else 0, next_len)
                else (0, 0) in
              let begins := negb is_array && negb (next_addr =? 0) in
              let is_array := is_array || begins in
              match item k h addr len with
              | None => None
              | Some (t, f) =>
                  let t := (if begins then [NBegin] else []) ++ t in
                  if next_addr =? 0 then Some (t, (addr, hsz k) :: f, is_array)
                  else
                    match seq_loop fuel' k o m next_addr next_len (u32 (elt + 1)) is_array with
                    | None => None
                    | Some (t', f', a') => Some (t ++ [NNext] ++ t', ((addr, hsz k) :: f) ++ f', a')
                    end
              end
        end
  end.

Definition decode_seq (k : kind) (o : opts) (m : nmem) (addr len : N) : option (list ntok * list (N * N)) :=
  match seq_loop (S (N.to_nat len)) k o m addr len 0 false with
  | Some (t, f, a) => Some (t ++ (if (a : bool) then [NEnd] else []), f)
  | None => None
  end.

(** NLA_HDRLEN (src/netlink.h:22-23) is 4. *)
Definition NLA_HDRLEN : N := 4.
(** NLA_ALIGN: ((len) + 3) & ~3 of an unsigned short promoted to int. *)
Definition nla_align (n : N) : N := N.ldiff (n + 3) 3.

(** src/nlattr.c:71-107 decode_nlattr_with_data: the payload is handed to its
    decoder, or printed in hexadecimal if there is none or it refuses; which
    decoder that is is not modelled.  nla_type & NLA_TYPE_MASK selects it. *)
Definition decode_nlattr_with_data (h : list N) (addr len : N) : option (list ntok * list (N * N)) :=
  let nla_len := N.min (le16 h 0) len in
  Some (if NLA_HDRLEN <? nla_len
        then [NBegin; NHdr h; NNext; NPay (u64 (addr + NLA_HDRLEN)) (nla_len - NLA_HDRLEN); NEnd]
        else [NHdr h], []).

(** src/nlattr.c:109-170 decode_nlattr *)
Definition nlattr_kind : kind := mk_kind 4 (fun h => le16 h 0) nla_align decode_nlattr_with_data.
Definition decode_nlattr (o : opts) (m : nmem) (addr len : N) : option (list ntok * list (N * N)) :=
  decode_seq nlattr_kind o m addr len.

(** NLMSG_HDRLEN (src/netlink.h:19-20) is 16, sizeof(struct nlmsgerr) is 20. *)
Definition NLMSG_HDRLEN : N := 16.
Definition NLMSG_ERROR : N := 2.
Definition NLM_F_CAPPED : N := 256.
(** NLMSG_ALIGN: ((len) + 3) & ~3 of a 32-bit number. *)
Definition nlmsg_align (n : N) : N := N.ldiff (u32 (n + 3)) 3.

(** src/netlink.c:661-682 decode_nlmsghdr_with_payload, 619-659
    decode_payload and 541-608 decode_nlmsgerr, which call each other: an
    error message contains the message it is about, which may be an error
    message.  Payloads of other messages are handed to a decoder of the
    family, or printed in hexadecimal; which one is not modelled. *)
Fixpoint decode_nlmsg (fuel : nat) (o : opts) (m : nmem) (h : list N) (addr len : N)
  : option (list ntok * list (N * N)) :=
  match fuel with
  | O => None
  | S fuel' =>
      let nlmsg_len := N.min (le32 h 0) len in
      if NLMSG_HDRLEN <? nlmsg_len then
        let pa := u64 (addr + NLMSG_HDRLEN) in
        let pl := nlmsg_len - NLMSG_HDRLEN in
        if le16 h 4 =? NLMSG_ERROR then
          match decode_nlmsgerr fuel' o m pa pl
                  (negb (N.land (le16 h 6) NLM_F_CAPPED =? 0)) with
          | Some (t, f) => Some ([NBegin; NHdr h; NNext] ++ t ++ [NEnd], f)
          | None => None
          end
        else Some ([NBegin; NHdr h; NNext; NPay pa pl; NEnd], [])
      else Some ([NHdr h], [])
  end
with decode_nlmsgerr (fuel : nat) (o : opts) (m : nmem) (addr len : N) (capped : bool)
  : option (list ntok * list (N * N)) :=
  match fuel with
  | O => None
  | S fuel' =>
      if len <? 20 then Some ([NHex addr len], [])
      else
        match m addr 20 with
        | None => Some ([NAddr addr], [(addr, 20)])
        | Some e =>
            let h := skipn 4 e in
            let a1 := u64 (addr + 4) in
            let l1 := len - 4 in
            let nlmsg_len := N.max 16 (le32 h 0) in
            let payload := N.min l1 (if capped then 16 else nlmsg_len) in
            match decode_nlmsg fuel' o m h a1 payload with
            | None => None
            | Some (t, f) =>
                if payload <? l1 then
                  match decode_nlattr o m (u64 (a1 + payload)) (l1 - payload) with
                  | None => None
                  | Some (t2, f2) =>
                      Some ([NBegin; NErr e] ++ t ++ [NNext] ++ t2 ++ [NEnd],
                            (addr, 20) :: f ++ f2)
                  end
                else Some ([NErr e] ++ t, (addr, 20) :: f)
            end
        end
  end.

(** src/netlink.c:684-739 decode_netlink, for a socket of a family other than
    NETLINK_KOBJECT_UEVENT *)
Definition nlmsg_kind (o : opts) (m : nmem) : kind :=
  mk_kind 16 (fun h => le32 h 0) nlmsg_align
    (fun h addr len => decode_nlmsg (S (N.to_nat len)) o m h addr len).
Definition decode_netlink (o : opts) (m : nmem) (addr len : N) : option (list ntok * list (N * N)) :=
  decode_seq (nlmsg_kind o m) o m addr len.
