(** What a socket address looks like (Linux ABI) and what showing it means. *)
From Verif Require Import Base QuoteModel SockModel.
Local Open Scope N_scope.

(** [cut a off len]: the [len] bytes of [a] from [off] on *)
Definition cut (a : list N) (off len : nat) : list N := firstn len (skipn off a).

(** A field of a structure: name, offset, size, and when it may be left out,
    depending on the whole address and its own bytes. *)
Record lfield := { lname : list N; loff : nat; lsize : nat; lskip : list N -> list N -> bool }.
Definition always (n : list N) (o s : nat) := {| lname := n; loff := o; lsize := s; lskip := fun _ _ => false |}.
Definition zero (v : list N) : bool := forallb (N.eqb 0) v.
(** padding is shown only if it is not zero *)
Definition pad (n : list N) (o s : nat) := {| lname := n; loff := o; lsize := s; lskip := fun _ v => zero v |}.

(** The structures of the address families whose fields have fixed places:
    from the family and the length of the address, the fields after sa_family in the
    order strace shows them.  [None]: no such structure for this length. *)
Definition layout (fam : N) (len : nat) : option (list lfield) :=
  let from (n : nat) l := if (n <=? len)%nat then Some l else None in
  match fam with
  | 2 => from 16%nat [always (bs "sin_port") 2 2; always (bs "sin_addr") 4 4]
  | 4 => from 16%nat [always (bs "sipx_port") 2 2; always (bs "sipx_network") 4 4; always (bs "sipx_node") 8 6;
                      always (bs "sipx_type") 14 1; pad (bs "sipx_zero") 15 1]
  | 10 => let base := [always (bs "sin6_port") 2 2; always (bs "sin6_flowinfo") 4 4; always (bs "sin6_addr") 8 16] in
          if (len =? 24)%nat then Some base   (* the structure without sin6_scope_id *)
          else from 28%nat (base ++ [always (bs "sin6_scope_id") 24 4])
  | 16 => from 12%nat [pad (bs "nl_pad") 2 2; always (bs "nl_pid") 4 4; always (bs "nl_groups") 8 4]
  | 31 => match len with
          | 4%nat => Some [always (bs "hci_dev") 2 2]
          | 6%nat => Some [always (bs "hci_dev") 2 2; always (bs "hci_channel") 4 2]
          | 8%nat => Some [always (bs "sco_bdaddr") 2 6]
          | 10%nat => Some [always (bs "rc_bdaddr") 2 6; always (bs "rc_channel") 8 1]
          | 12%nat => Some [always (bs "l2_psm") 2 2; always (bs "l2_bdaddr") 4 6; always (bs "l2_cid") 10 2]
          | 14%nat => Some [always (bs "l2_psm") 2 2; always (bs "l2_bdaddr") 4 6; always (bs "l2_cid") 10 2;
                            always (bs "l2_bdaddr_type") 12 1]
          | _ => None
          end
  | 36 => from 20%nat [always (bs "addr_type") 4 4; always (bs "pan_id") 8 2;
             {| lname := bs "short_addr"; loff := 10; lsize := 2;
                lskip := fun a _ => negb (le_val (cut a 4 4) =? 2) |};
             {| lname := bs "hwaddr"; loff := 10; lsize := 8;
                lskip := fun a _ => (le_val (cut a 4 4) =? 0) || (le_val (cut a 4 4) =? 2) |}]
  | 40 => from 16%nat [pad (bs "svm_reserved1") 2 2; always (bs "svm_cid") 8 4; always (bs "svm_port") 4 4;
                       always (bs "svm_flags") 12 1; pad (bs "svm_zero") 13 3]
  | 42 => from 12%nat [always (bs "sq_node") 4 4; always (bs "sq_port") 8 4]
  | 44 => from 16%nat [always (bs "sxdp_flags") 2 2; always (bs "sxdp_ifindex") 4 4; always (bs "sxdp_queue_id") 8 4;
             {| lname := bs "sxdp_shared_umem_fd"; loff := 12; lsize := 4;
                lskip := fun a v => negb (N.odd (le_val (cut a 2 2))) && zero v |}]
  | 45 => from 12%nat [pad (bs "__smctp_pad0") 2 2; always (bs "smctp_network") 4 4; always (bs "s_addr") 8 1;
                       always (bs "smctp_type") 9 1; always (bs "smctp_tag") 10 1; pad (bs "__smctp_pad1") 11 1]
  | _ => None
  end.

(** the fields of the address [a] that are to be shown, with their bytes *)
Definition expected (a : list N) (l : list lfield) : list (list N * list N) :=
  flat_map (fun f => let v := cut a (loff f) (lsize f) in if lskip f a v then [] else [(lname f, v)]) l.

(** the fields shown, without the brackets of nested structures; [None] if anything
    else is shown *)
Fixpoint fields (l : list stok) : option (list (list N * list N)) :=
  match l with
  | [] => Some []
  | SField n v :: r => olet k := fields r in Some ((n, v) :: k)
  | SOpen _ :: r | SClose :: r => fields r
  | _ => None
  end.

(** the number of bytes of the address that count *)
Definition given (addrlen : Z) : nat := Z.to_nat (Z.min addrlen 128).

(** The families strace knows a structure of, and the least length an address must
    have to be shown as one. *)
Definition struct_size (fam : N) : option nat :=
  match fam with
  | 1 => Some 3%nat (* AF_UNIX, one byte of path *) | 2 => Some 16%nat (* AF_INET *) | 3 => Some 16%nat (* AF_AX25 *)
  | 4 => Some 16%nat (* AF_IPX *) | 9 => Some 18%nat (* AF_X25 *) | 10 => Some 24%nat (* AF_INET6, no scope *)
  | 16 => Some 12%nat (* AF_NETLINK *) | 17 => Some 20%nat (* AF_PACKET *) | 31 => Some 3%nat (* AF_BLUETOOTH *)
  | 33 => Some 36%nat (* AF_RXRPC *) | 36 => Some 20%nat (* AF_IEEE802154 *) | 38 => Some 25%nat (* AF_ALG *)
  | 39 => Some 16%nat (* AF_NFC *) | 40 => Some 16%nat (* AF_VSOCK *) | 42 => Some 12%nat (* AF_QIPCRTR *)
  | 44 => Some 16%nat (* AF_XDP *) | 45 => Some 12%nat (* AF_MCTP *)
  | _ => None
  end.
