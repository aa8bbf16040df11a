(** Control messages (cmsg(3)) and what showing them means. *)
From Verif Require Import Base SockModel SockSpec MsgModel.
Local Open Scope N_scope.

(** A control message in a buffer: a header of [hs] bytes -- cmsg_len of [ls] bytes,
    cmsg_level, cmsg_type -- then the data; the next one begins at the next multiple
    of [ws] bytes. *)
Record cmsg := { m_len : N; m_level : N; m_type : N; m_data : list N }.
Definition cmsg_at (hs ls : nat) (b : list N) : cmsg :=
  {| m_len := le_val (cut b 0 ls); m_level := le_val (cut b ls 4); m_type := le_val (cut b (ls + 4) 4);
     m_data := skipn hs (firstn (N.to_nat (N.min (le_val (cut b 0 ls)) (N.of_nat (length b)))) b) |}.
(** the least multiple of [ws] that is at least [n] *)
Definition round_up (ws n : N) : N := (n + ws - 1) / ws * ws.

(** [walk b l k]: the messages in [b], in order, are [l]; [k] bytes are left over at
    the end: fewer than a header, or what follows the header of a message too short
    to be one. *)
Inductive walk (hs ls : nat) (ws : N) : list N -> list cmsg -> nat -> Prop :=
| walk_end b : (length b < hs)%nat -> walk hs ls ws b [] (length b)
| walk_bad b : (hs <= length b)%nat -> m_len (cmsg_at hs ls b) < N.of_nat hs ->
    walk hs ls ws b [cmsg_at hs ls b] (length b - hs)
| walk_last b : (hs <= length b)%nat -> N.of_nat hs <= m_len (cmsg_at hs ls b) ->
    N.of_nat (length b) <= round_up ws (m_len (cmsg_at hs ls b)) ->
    walk hs ls ws b [cmsg_at hs ls b] 0
| walk_next b l k : (hs <= length b)%nat -> N.of_nat hs <= m_len (cmsg_at hs ls b) ->
    round_up ws (m_len (cmsg_at hs ls b)) < N.of_nat (length b) ->
    walk hs ls ws (skipn (N.to_nat (round_up ws (m_len (cmsg_at hs ls b)))) b) l k ->
    walk hs ls ws b (cmsg_at hs ls b :: l) k.

(** A message is shown: its three numbers, and its data as printed from exactly the
    bytes of the data. *)
Definition shown (c : mcfg) (i : citem) (m : cmsg) : Prop :=
  i_len i = m_len m /\ i_level i = m_level m /\ i_type i = m_type m /\
  print_cmsg_type_data c (m_level m) (m_type m) (m_data m) (length (m_data m)) = Ok (i_data i).

(** The data of IP_ORIGDSTADDR, or the offender of IP_RECVERR, is an AF_UNIX address
    whose path has no NUL or an AF_INET6 address with only a part of sin6_scope_id. *)
Definition cut_address (a : list N) : Prop :=
  (le_val (cut a 0 2) = 1 /\ (3 <= length a <= 110)%nat /\ ~ In 0 (skipn 2 a)) \/
  (le_val (cut a 0 2) = 10 /\ (25 <= length a <= 27)%nat).
Definition odd_message (m : cmsg) : Prop :=
  m_level m = 0 /\
  ((m_type m = 20 /\ (16 <= length (m_data m))%nat /\ cut_address (m_data m)) \/
   (m_type m = 11 /\ (32 <= length (m_data m))%nat /\ cut_address (cut (m_data m) 16 16))).

(** A message whose length does not wrap when rounded up, and that is not odd. *)
Definition plain (c : mcfg) (m : cmsg) : Prop := m_len m + wordsize c <= 2^64 /\ ~ odd_message m.

(** What the data of some messages is: level, type, the least size and the fields
    (name, offset, size); [old]: size of the old time words. *)
Definition data_struct (old : nat) (level type : N) : option (nat * list (list N * (nat * nat))) :=
  let time (f : list N) w := Some ((2 * w)%nat, [(bs "tv_sec", (0%nat, w)); (f, (w, w))]) in
  match level, type with
  | 1, 2 => Some (12%nat, [(bs "pid", (0, 4)); (bs "uid", (4, 4)); (bs "gid", (8, 4))]%nat)   (* SCM_CREDENTIALS *)
  | 1, 29 => time (bs "tv_usec") old     (* SO_TIMESTAMP_OLD *)
  | 1, 35 => time (bs "tv_nsec") old     (* SO_TIMESTAMPNS_OLD *)
  | 1, 63 => time (bs "tv_usec") 8%nat   (* SO_TIMESTAMP_NEW *)
  | 1, 64 => time (bs "tv_nsec") 8%nat   (* SO_TIMESTAMPNS_NEW *)
  | 0, 8 => Some (12%nat, [(bs "ipi_ifindex", (0, 4)); (bs "ipi_spec_dst", (4, 4)); (bs "ipi_addr", (8, 4))]%nat) (* IP_PKTINFO *)
  | _, _ => None
  end.
(** the messages whose data is an array of values of this size *)
Definition data_array (level type : N) : option nat :=
  match level, type with
  | 1, 1 => Some 4%nat                                  (* SCM_RIGHTS *)
  | 0, 1 => Some 1%nat | 0, 6 => Some 1%nat | 0, 7 => Some 1%nat   (* IP_TOS, IP_RECVOPTS, IP_RETOPTS *)
  | 0, 2 => Some 4%nat | 0, 23 => Some 4%nat            (* IP_TTL, IP_CHECKSUM *)
  | _, _ => None
  end.
