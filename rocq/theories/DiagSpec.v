(** What is known of a socket: sock_diag(7), netlink(7), rtnetlink(7), unix(7), and the description of -yy in strace(1). *)
From Verif Require Import Base Printf QuoteModel QuoteSpec InfoSpec DiagModel.
Local Open Scope N_scope.

(** A datagram is a sequence of messages, a message ends with a sequence of attributes; each begins with
    its length ([w] bytes), the header of [h] bytes included, and is padded to a multiple of 4. *)
Definition padded (n : N) : N := 4 * ((n + 3) / 4).
Definition complete (w h : nat) (b : list N) : Prop :=
  (h <= length b)%nat /\ N.of_nat h <= number_at b 0 w <= N.of_nat (length b).
Definition after (w : nat) (b : list N) : list N := skipn (N.to_nat (padded (number_at b 0 w))) b.
Definition first (w : nat) (b : list N) : list N := firstn (N.to_nat (number_at b 0 w)) b.
(** [b] begins with the elements [l], and no further complete one *)
Inductive elements (w h : nat) : list N -> list (list N) -> Prop :=
| no_more b : ~ complete w h b -> elements w h b []
| one_more b l : complete w h b -> elements w h (after w b) l -> elements w h b (first w b :: l).
Definition messages := elements 4 16.
Definition attributes := elements 2 4.
Definition message_type (m : list N) : N := number_at m 4 2.
Definition attribute_type (a : list N) : N := number_at a 2 2.
Definition attribute_data (a : list N) : list N := skipn 4 a.

(** The protocols: name, address family and protocol number *)
Record proto := P { pname : list N; family : N; number : N }.
Definition protos : list proto :=
  [P (bs "UNIX") 1 0; P (bs "UNIX-STREAM") 1 0;
   P (bs "TCP") 2 6; P (bs "UDP") 2 17; P (bs "UDPLITE") 2 136; P (bs "DCCP") 2 33; P (bs "SCTP") 2 132; P (bs "L2TP/IP") 2 115;
   P (bs "PING") 2 1; P (bs "RAW") 2 255;
   P (bs "TCPv6") 10 6; P (bs "UDPv6") 10 17; P (bs "UDPLITEv6") 10 136; P (bs "DCCPv6") 10 33; P (bs "L2TP/IPv6") 10 115;
   P (bs "SCTPv6") 10 132; P (bs "PINGv6") 10 1; P (bs "RAWv6") 10 255;
   P (bs "NETLINK") 16 0].
(** number 0 is an unknown protocol: any is possible *)
Definition known (n : nat) : option proto := match n with O => None | S n => nth_error protos n end.
Definition possible (n : nat) (p : proto) : Prop := match n with O => In p protos | S n => nth_error protos n = Some p end.
(** The kernel is asked for all sockets of the protocol; for sockets of the family AF_UNIX, for the one
    (before Linux 4.4.4, for all). *)
Definition question (e : env) (p : proto) (inode : N) : request :=
  if family p =? 1 then ask_unix (os_release e <? 4 * 65536 + 4 * 256 + 4) (inode mod 2^32)
  else if family p =? 16 then ask_netlink
  else ask_inet (family p) (number p).

(** In a message, after its header: struct inet_diag_msg, struct unix_diag_msg, struct netlink_diag_msg. *)
Definition size_of (p : proto) : nat := if family p =? 1 then 16 else if family p =? 16 then 28 else 72.
Definition inode_of (p : proto) (m : list N) : N := number_at m (16 + (if family p =? 1 then 4 else if family p =? 16 then 16 else 68)) 4.
Definition family_of (m : list N) : N := nth 16 m 0.

(** Internet: addresses, ports (in network byte order); the peer only when there is one *)
Definition port (m : list N) (off : nat) : N := 256 * nth (16 + off) m 0 + nth (17 + off) m 0.
Definition dotted (m : list N) (off : nat) : list N :=
  let d k := pr_num 10 (nth (16 + off + k) m 0) in d 0%nat ++ bs "." ++ d 1%nat ++ bs "." ++ d 2%nat ++ bs "." ++ d 3%nat.
Definition address (e : env) (m : list N) (off : nat) : list N :=
  if family_of m =? 10 then bs "[" ++ ntop6 e (firstn 16 (skipn (16 + off) m)) ++ bs "]" else dotted m off.
Definition endpoint (e : env) (m : list N) (addr prt : nat) : list N := address e m addr ++ bs ":" ++ pr_num 10 (port m prt).
Definition has_peer (m : list N) : Prop :=
  port m 6 <> 0 \/ exists k, (k < (if (family_of m =? 10)%N then 16 else 4))%nat /\ nth (16 + 24 + k) m 0 <> 0.
Definition inet_text (e : env) (m t : list N) : Prop :=
  (has_peer m -> t = endpoint e m 8 4 ++ bs "->" ++ endpoint e m 24 6) /\ (~ has_peer m -> t = endpoint e m 8 4).

(** Unix: the inode of the peer, and the name: of the first attribute 0 that has data, at most 108 bytes;
    shown up to the first NUL, except for the one an abstract name begins with *)
Definition name_of (l : list (list N)) : list N :=
  firstn 108 (hd [] (filter (fun d => negb (length d =? 0)%nat) (map attribute_data (filter (fun a => attribute_type a =? 0) l)))).
Definition peer_of (l : list (list N)) : N :=
  last (map (fun a => number_at a 4 4) (filter (fun a => (attribute_type a =? 2) && (8 <=? length a)%nat) l)) 0.
Definition quoted (e : env) (s t : list N) : Prop :=
  exists body, t = bs """" ++ body ++ bs """" /\ Forall printable_ascii body /\
  forall h, h = Two \/ xflag e <> HEXSTR_NON_ASCII_CHARS -> unquote h Plain body = Some (before_nul s).
Definition unix_text (e : env) (m t : list N) : Prop :=
  exists l name, attributes (skipn 32 m) l /\ ~ (peer_of l = 0 /\ name_of l = []) /\
  t = pr_num 10 (inode_of (P [] 1 0) m) ++ (if peer_of l =? 0 then [] else bs "->" ++ pr_num 10 (peer_of l)) ++ name /\
  match name_of l with
  | [] => name = []
  | 0 :: r => exists q, name = bs ",@" ++ q /\ quoted e r q
  | _ => exists q, name = bs "," ++ q /\ quoted e (name_of l) q
  end.

(** Netlink: the protocol, and the port when the protocol is known *)
Definition netlink_names : list (N * list N) :=
  [(0, bs "ROUTE"); (1, bs "UNUSED"); (2, bs "USERSOCK"); (3, bs "FIREWALL"); (4, bs "SOCK_DIAG"); (5, bs "NFLOG");
   (6, bs "XFRM"); (7, bs "SELINUX"); (8, bs "ISCSI"); (9, bs "AUDIT"); (10, bs "FIB_LOOKUP"); (11, bs "CONNECTOR");
   (12, bs "NETFILTER"); (13, bs "IP6_FW"); (14, bs "DNRTMSG"); (15, bs "KOBJECT_UEVENT"); (16, bs "GENERIC");
   (18, bs "SCSITRANSPORT"); (19, bs "ECRYPTFS"); (20, bs "RDMA"); (21, bs "CRYPTO"); (22, bs "SMC")].
Definition netlink_text (m t : list N) : Prop :=
  (exists n, In (nth 18 m 0, n) netlink_names /\ t = n ++ bs ":" ++ pr_num 10 (number_at m 20 4)) \/
  (~ In (nth 18 m 0) (map fst netlink_names) /\ t = pr_num 10 (nth 18 m 0)).

(** What a message says of the socket [inode], as text. *)
Definition text_of (e : env) (p : proto) (m t : list N) : Prop :=
  if family p =? 1 then family_of m = 1 /\ unix_text e m t
  else if family p =? 16 then family_of m = 16 /\ netlink_text m t
  else (family_of m = 2 \/ family_of m = 10) /\ inet_text e m t.
Definition wellformed (p : proto) (m : list N) : Prop :=
  message_type m = 20 /\ (16 + size_of p <= length m)%nat /\ N.of_nat (length m) = number_at m 0 4.
Definition says (e : env) (p : proto) (m : list N) (inode : N) (d : list N) : Prop :=
  wellformed p m /\ inode_of p m = inode /\ exists t, text_of e p m t /\ d = pname p ++ bs ":[" ++ t ++ bs "]".

(** A datagram as it is received: at most 8192 bytes of it *)
Definition in_datagram (g m : list N) : Prop := exists l, messages (firstn (N.to_nat 8192) g) l /\ In m l.
(** The kernel told [d] of the socket asked for: a message in an answer to a question of this lookup says
    so; if the protocol is known, in an answer to the question about this protocol. *)
Definition told (e : env) (a : ask) (d : list N) : Prop :=
  exists p p' answer g m, possible (aproto a) p /\ possible (aproto a) p' /\ opened (aw a) = true /\
    reply (aw a) (question e p' (ainode a)) = Some answer /\ In g answer /\ in_datagram g m /\ says e p m (ainode a) d.

(** Datagrams made of messages *)
Definition pad (m : list N) : list N := m ++ repeat 0 (N.to_nat (padded (N.of_nat (length m))) - length m).
Definition datagram (l : list (list N)) : list N := concat (map pad l).
