(** What the calls for messages show. *)
From Verif Require Import Base MmsgModel.
Local Open Scope N_scope.

(** A message received into a buffer for [cap] bytes of name: the length on entry is shown when it has changed; no more than
    [cap] bytes of the name are decoded, nor more than the length now; data up to [size]. *)
Record received (cap : Z) (m : hdr) (size : N) (s : shown) : Prop := {
  r_hdr : s_hdr s = m;
  r_decoded : s_decoded s = Z.min cap (h_namelen m);
  r_before : s_before s = None /\ cap = h_namelen m \/ s_before s = Some cap /\ cap <> h_namelen m;
  r_limit : s_limit s = Some size }.
(** A message sent: everything as it is. *)
Definition sent (m : hdr) (s : shown) : Prop := s_hdr s = m /\ s_decoded s = h_namelen m /\ s_before s = None /\ s_limit s = None.

(** The vector lies in the address space. *)
Definition vec_ok (w : world) (addr n : N) : Prop := 0 < addr /\ 0 < n /\ 0 < sz w /\ addr + sz w * n < 2^64.
(** how many messages are to be shown of [n] *)
Definition limit (w : world) (n : N) : N := if abbrev w then N.min n (max_strlen w) else n.
(** the message at an index *)
Definition msg_at (w : world) (mem : N -> option mmsg) (addr : N) (i : nat) : option mmsg := mem (addr + sz w * N.of_nat i).
(** An element for a message received (sent; [counted]: its length is known). *)
Definition elem_received (cap : Z) (m : mmsg) (e : elem) : Prop := exists s, e = Msg s (Some (msg_len m)) /\ received cap (m_hdr m) (msg_len m) s.
Definition elem_sent (counted : bool) (m : mmsg) (e : elem) : Prop := exists s, e = Msg s (if counted then Some (msg_len m) else None) /\ sent (m_hdr m) s.
