(** Model of the lookup of the protocol details of a socket by its inode, src/socketutils.c.
    The bytes of a message are a list; reading outside it is [Undef].  What the kernel answers is
    arbitrary, and may differ from one lookup to the next.  inet_ntop for IPv6 is a parameter (it
    belongs to the C library).  Memory exhaustion is not modelled. *)
From Verif Require Import Base Printf QuoteModel InfoModel.
Local Open Scope N_scope.

(** cache, src/socketutils.c:33-40: the inode and the details of each of the 1024 entries *)
Definition cache := N -> N * option (list N).
Definition init : cache := fun _ => (0, None).
Definition CACHE_MASK : N := 1023.
(** cache_inode_details, src/socketutils.c:42-51 *)
Definition cache_inode_details (c : cache) (inode : N) (d : list N) : cache :=
  fun k => if k =? N.land inode CACHE_MASK then (inode, Some d) else c k.
(** get_sockaddr_by_inode_cached, src/socketutils.c:53-58 *)
Definition get_cached (c : cache) (inode : N) : option (list N) :=
  let e := c (N.land inode CACHE_MASK) in if inode =? fst e then snd e else None.

(** the [n] bytes at [off], and the number in them *)
Definition sub (m : list N) (off n : nat) : res (list N) :=
  if (off + n <=? length m)%nat then Ok (firstn n (skipn off m)) else Undef.
Definition get (m : list N) (off n : nat) : res N := rlet b := sub m off n in Ok (le_num b).
(** ntohs on a little-endian machine *)
Definition ntohs (v : N) : N := v / 256 + 256 * (v mod 256).

(** the result of a parser: negative, zero, positive (with the details put into the cache) *)
Inductive rc := Neg | Zero | Pos (d : list N).
Record env := { ntop6 : list N -> list N; xflag : xflag_opts; os_release : N }.

(** inet_ntop(3) for AF_INET *)
Definition ntop4 (a : list N) : list N :=
  match a with
  | [p; q; r; s] => pr_num 10 p ++ bs "." ++ pr_num 10 q ++ bs "." ++ pr_num 10 r ++ bs "." ++ pr_num 10 s
  | _ => []
  end.

(** inet_parse_response, src/socketutils.c:109-168; [m] is the message with its header of 16 bytes,
    its length is data_len; struct inet_diag_msg has 72 bytes *)
Definition inet_parse (e : env) (m : list N) (inode : N) (name : list N) : res rc :=
  if (length m <? 16 + 72)%nat then Ok Neg else
  rlet ino := get m (16 + 68) 4 in
  if negb (ino =? inode) then Ok Zero else
  rlet fam := get m 16 1 in
  match (if fam =? 2 then Some 4%nat else if fam =? 10 then Some 16%nat else None) with
  | None => Ok Neg
  | Some addr_size =>
      let ob := if fam =? 10 then bs "[" else [] in
      let cb := if fam =? 10 then bs "]" else [] in
      let ntop := if fam =? 10 then ntop6 e else ntop4 in
      rlet src := sub m (16 + 8) addr_size in
      rlet dst := sub m (16 + 24) addr_size in
      rlet sport := get m (16 + 4) 2 in
      rlet dport := get m (16 + 6) 2 in
      if negb (dport =? 0) || existsb (fun b => negb (b =? 0)) dst
      then Ok (Pos (name ++ bs ":[" ++ ob ++ ntop src ++ cb ++ bs ":" ++ pr_num 10 (ntohs sport) ++ bs "->"
                    ++ ob ++ ntop dst ++ cb ++ bs ":" ++ pr_num 10 (ntohs dport) ++ bs "]"))
      else Ok (Pos (name ++ bs ":[" ++ ob ++ ntop src ++ cb ++ bs ":" ++ pr_num 10 (ntohs sport) ++ bs "]"))
  end.

(** RTA_OK and RTA_NEXT, <linux/rtnetlink.h>: the attribute at the front of [b], of which rta_len bytes are left *)
Definition rta_ok (b : list N) : bool :=
  (4 <=? length b)%nat && (4 <=? ld b 0 2) && (ld b 0 2 <=? N.of_nat (length b)).
Definition align4 (n : N) : N := N.ldiff (n + 3) 3.
Definition UNIX_PATH_MAX : nat := 108.

(** src/socketutils.c:270-290, the loop over the attributes; [path] is what has been copied so far
    (path_len is its length) *)
Fixpoint unix_attrs (fuel : nat) (b path : list N) (peer : N) : res (list N * N) :=
  match fuel with
  | O => Undef
  | S fuel =>
      if rta_ok b then
        let len := N.to_nat (ld b 0 2) in
        let ty := ld b 2 2 in
        rlet (path, peer) :=
          (if ty =? 0 then
             if (length path =? 0)%nat then rlet p := sub b 4 (Nat.min (len - 4) UNIX_PATH_MAX) in Ok (p, peer)
             else Ok (path, peer)
           else if ty =? 2 then
             if (4 <=? len - 4)%nat then rlet p := get b 4 4 in Ok (path, p) else Ok (path, peer)
           else Ok (path, peer)) in
        unix_attrs fuel (skipn (N.to_nat (align4 (ld b 0 2))) b) path peer
      else Ok (path, peer)
  end.

(** the buffer of [size] bytes holds [s] and its NUL *)
Definition fits (size : nat) (s : list N) : res (list N) := if (length s <? size)%nat then Ok s else Undef.

(** unix_parse_response, src/socketutils.c:253-328; struct unix_diag_msg has 16 bytes *)
Definition unix_parse (e : env) (m : list N) (inode : N) (name : list N) : res rc :=
  if (length m <? 16 + 16)%nat then Ok Neg else
  rlet ino := get m (16 + 4) 4 in
  if negb (ino =? inode) then Ok Zero else
  rlet fam := get m 16 1 in
  if negb (fam =? 1) then Ok Neg else
  rlet (path, peer) := unix_attrs (S (length m)) (skipn (16 + 16) m) [] 0 in
  if (peer =? 0) && (length path =? 0)%nat then Ok Neg else
  rlet peer_str := (if peer =? 0 then Ok [] else fits 15 (bs "->" ++ pr_num 10 peer)) in
  let st := {| q0term := true; omit_quotes := false; omit0 := false; expect0 := false; comment := false; xstyle := xflag e |} in
  rlet path_str :=
    match path with
    | [] => Ok []
    | c :: r =>
        rlet s := (if c =? 0
                   then rlet (o, _) := string_quote (r ++ [0]) (length path - 1) st None in Ok (bs ",@" ++ o)
                   else rlet (o, _) := string_quote (path ++ [0]) (length path) st None in Ok (bs "," ++ o)) in
        fits (4 * length path + 4) s
    end in
  Ok (Pos (name ++ bs ":[" ++ pr_num 10 inode ++ peer_str ++ path_str ++ bs "]")).

(** src/xlat/netlink_protocols.in with the values of <linux/netlink.h>, "NETLINK_" stripped (STR_STRIP_PREFIX) *)
Definition netlink_protocols : list (N * list N) :=
  [(0, bs "ROUTE"); (1, bs "UNUSED"); (2, bs "USERSOCK"); (3, bs "FIREWALL"); (4, bs "SOCK_DIAG"); (5, bs "NFLOG");
   (6, bs "XFRM"); (7, bs "SELINUX"); (8, bs "ISCSI"); (9, bs "AUDIT"); (10, bs "FIB_LOOKUP"); (11, bs "CONNECTOR");
   (12, bs "NETFILTER"); (13, bs "IP6_FW"); (14, bs "DNRTMSG"); (15, bs "KOBJECT_UEVENT"); (16, bs "GENERIC");
   (18, bs "SCSITRANSPORT"); (19, bs "ECRYPTFS"); (20, bs "RDMA"); (21, bs "CRYPTO"); (22, bs "SMC")].
(** netlink_parse_response, src/socketutils.c:350-382; struct netlink_diag_msg has 28 bytes *)
Definition netlink_parse (m : list N) (inode : N) (name : list N) : res rc :=
  if (length m <? 16 + 28)%nat then Ok Neg else
  rlet ino := get m (16 + 16) 4 in
  if negb (ino =? inode) then Ok Zero else
  rlet fam := get m 16 1 in
  if negb (fam =? 16) then Ok Neg else
  rlet proto := get m (16 + 2) 1 in
  rlet portid := get m (16 + 4) 4 in
  match find (fun x => fst x =? proto) netlink_protocols with
  | Some (_, s) => Ok (Pos (name ++ bs ":[" ++ s ++ bs ":" ++ pr_num 10 portid ++ bs "]"))
  | None => Ok (Pos (name ++ bs ":[" ++ pr_num 10 proto ++ bs "]"))
  end.

(** the rows of protocols, src/socketutils.c:415-463, from 1 on: name, the function behind `get', family and protocol *)
Inductive getter := unix_get | inet_get | netlink_get.
Definition protocols : list (list N * getter * N * N) :=
  [(bs "UNIX", unix_get, 1, 0); (bs "UNIX-STREAM", unix_get, 1, 0);
   (bs "TCP", inet_get, 2, 6); (bs "UDP", inet_get, 2, 17); (bs "UDPLITE", inet_get, 2, 136); (bs "DCCP", inet_get, 2, 33);
   (bs "SCTP", inet_get, 2, 132); (bs "L2TP/IP", inet_get, 2, 115); (bs "PING", inet_get, 2, 1); (bs "RAW", inet_get, 2, 255);
   (bs "TCPv6", inet_get, 10, 6); (bs "UDPv6", inet_get, 10, 17); (bs "UDPLITEv6", inet_get, 10, 136);
   (bs "DCCPv6", inet_get, 10, 33); (bs "L2TP/IPv6", inet_get, 10, 115); (bs "SCTPv6", inet_get, 10, 132);
   (bs "PINGv6", inet_get, 10, 1); (bs "RAWv6", inet_get, 10, 255); (bs "NETLINK", netlink_get, 16, 0)].
(** protocols[i] *)
Definition protocol (i : nat) : option (list N * getter * N * N) :=
  match i with O => None | S i => nth_error protocols i end.
Definition parse (e : env) (g : getter) : list N -> N -> list N -> res rc :=
  match g with unix_get => unix_parse e | inet_get => inet_parse e | netlink_get => netlink_parse end.

(** is_nlmsg_ok, src/netlink.h:22-28, and NLMSG_NEXT, <linux/netlink.h>; [b] is what is left of the datagram *)
Definition nlmsg_ok (b : list N) : bool :=
  (16 <=? length b)%nat && (16 <=? ld b 0 4) && (ld b 0 4 <=? N.of_nat (length b)).
Definition SOCK_DIAG_BY_FAMILY : N := 20.
(** how the loop over the messages of a datagram ends *)
Inductive wend := Return (d : option (list N)) | Next.
(** src/socketutils.c:208-218 *)
Fixpoint walk (fuel : nat) (p : list N -> res rc) (b : list N) : res wend :=
  match fuel with
  | O => Undef
  | S fuel =>
      if nlmsg_ok b then
        if negb (ld b 4 2 =? SOCK_DIAG_BY_FAMILY) then Ok (Return None) else
        rlet r := p (firstn (N.to_nat (ld b 0 4)) b) in
        match r with
        | Pos d => Ok (Return (Some d))
        | Neg => Ok (Return None)
        | Zero => walk fuel p (skipn (N.to_nat (align4 (ld b 0 4))) b)
        end
      else Ok Next
  end.
(** receive_responses, src/socketutils.c:170-221; [q]: the datagrams that wait to be received, of each
    at most 8192 bytes are; when there are no more recvmsg fails.  The second result is what is left. *)
Fixpoint receive (p : list N -> res rc) (q : list (list N)) : res (option (list N) * list (list N)) :=
  match q with
  | [] => Ok (None, [])
  | g :: q =>
      let b := firstn (N.to_nat 8192) g in
      if negb (nlmsg_ok b) then Ok (None, q) else
      rlet w := walk (S (length b)) p b in
      match w with Return d => Ok (d, q) | Next => receive p q end
  end.

(** What is asked: inet_send_query, unix_send_query, netlink_send_query, src/socketutils.c:87-107, 223-251, 330-348 *)
Inductive request :=
| ask_inet (family proto : N)
| ask_unix (dump : bool) (ino : N)
| ask_netlink.
(** What the kernel does during one lookup: whether the socket can be created, and what arrives after a request ([None]: it cannot be sent) *)
Record world := { opened : bool; reply : request -> option (list (list N)) }.
Definition request_of (e : env) (g : getter) (family proto inode : N) : request :=
  match g with
  | inet_get => ask_inet family proto
  | unix_get => ask_unix (os_release e <? 263172) (u32 inode)
  | netlink_get => ask_netlink
  end.

(** unix_get, inet_get and netlink_get, src/socketutils.c:384-413: the cache, the datagrams that wait *)
Definition get_details (e : env) (w : world) (row : list N * getter * N * N) (inode : N) (c : cache) (q : list (list N))
  : res (option (list N) * cache * list (list N)) :=
  let '(name, g, family, proto) := row in
  match reply w (request_of e g family proto inode) with
  | None => Ok (None, c, q)
  | Some l =>
      rlet (d, q) := receive (fun m => parse e g m inode name) (q ++ l) in
      match d with
      | Some d => let c := cache_inode_details c inode d in Ok (get_cached c inode, c, q)
      | None => Ok (None, c, q)
      end
  end.
(** src/socketutils.c:502-515, the loop over all protocols *)
Fixpoint try_all (e : env) (w : world) (rows : list (list N * getter * N * N)) (inode : N) (c : cache) (q : list (list N))
  : res (option (list N) * cache) :=
  match rows with
  | [] => Ok (None, c)
  | row :: rows =>
      rlet (d, c, q) := get_details e w row inode c q in
      match d with Some d => Ok (Some d, c) | None => try_all e w rows inode c q end
  end.
(** get_sockaddr_by_inode_lookup, src/socketutils.c:485-519 *)
Definition lookup (e : env) (w : world) (inode : N) (proto : nat) (c : cache) : res (option (list N) * cache) :=
  if (S (length protocols) <=? proto)%nat then Ok (None, c)
  else if negb (opened w) then Ok (None, c)
  else match protocol proto with
       | Some row => rlet (d, c, _) := get_details e w row inode c [] in Ok (d, c)
       | None => try_all e w protocols inode c []
       end.
(** get_sockaddr_by_inode_uncached, src/socketutils.c:521-540 *)
Definition uncached (e : env) (w : world) (inode : N) (proto : nat) (c : cache) : res (option (list N) * cache) :=
  rlet (d, c) := lookup e w inode proto c in
  match d with
  | Some d => Ok (Some d, c)
  | None => match protocol proto with
            | Some (name, _, _, _) => Ok (Some (name ++ bs ":[" ++ pr_num 10 inode ++ bs "]"), c)
            | None => Ok (None, c)
            end
  end.
(** get_sockaddr_by_inode, src/socketutils.c:542-550; [proto]: the result of getfdproto, src/util.c:568-596 *)
Definition get_sockaddr_by_inode (e : env) (w : world) (inode : N) (proto : nat) (c : cache) : res (option (list N) * cache) :=
  match get_cached c inode with
  | Some d => Ok (Some d, c)
  | None => uncached e w inode proto c
  end.

(** The lookups of a run of strace, one after another, and what each of them gave. *)
Record ask := { aw : world; ainode : N; aproto : nat }.
Fixpoint run (e : env) (l : list ask) (c : cache) : res (list (option (list N)) * cache) :=
  match l with
  | [] => Ok ([], c)
  | a :: l => rlet (d, c) := get_sockaddr_by_inode e (aw a) (ainode a) (aproto a) c in
              rlet (ds, c) := run e l c in Ok (d :: ds, c)
  end.
