(** C46: netlink attributes and messages. *)
From Verif Require Import Base NlModel NlSpec NlProofs.
Import ListNotations.
Local Open Scope N_scope.

(** C46: whatever is in the memory, decoding attributes ends, and every
    header fetched and payload handed to a decoder lies within the [len]
    bytes at [addr]. *)
Theorem C46_attributes_inside : forall o m addr len,
  addr < 2 ^ 64 -> addr + len <= 2 ^ 64 ->
  exists t f, decode_nlattr o m addr len = Some (t, f) /\
    Forall (inside addr len) f /\ Forall (inside addr len) (flat_map region t).
Proof. intros. apply nlattr_inside; assumption. Qed.
Print Assumptions C46_attributes_inside.

(** C46: the same for messages, including the messages contained in error
    messages and the attributes that follow these. *)
Theorem C46_messages_inside : forall o m addr len,
  addr < 2 ^ 64 -> addr + len <= 2 ^ 64 ->
  exists t f, decode_netlink o m addr len = Some (t, f) /\
    Forall (inside addr len) f /\ Forall (inside addr len) (flat_map region t).
Proof. intros. apply decode_inside; auto; [reflexivity|apply nlmsg_item_ok]. Qed.
Print Assumptions C46_messages_inside.

(** C46: well-formed attributes are each shown once and in order, with their
    own payloads (the first max_strlen of them when abbreviating). *)
Theorem C46_attributes : forall o m addr len hs,
  seq_at 4 (fun h => le16 h 0) m addr len hs ->
  0 < addr -> addr + len <= 2 ^ 64 -> N.of_nat (List.length hs) < 2 ^ 32 ->
  exists f, decode_nlattr o m addr len =
    Some (array (limited o (shown_all 4 (fun h => le16 h 0) addr hs)), f).
Proof.
  intros o m addr len hs HS H0 HA HL.
  apply (decode_shown nlattr_kind o m addr len hs); auto; [reflexivity| |].
  - unfold fits_kind. apply Forall_forall. intros h _. apply nla_align_eq.
  - apply Forall_forall. intros h _. apply nlattr_plain.
Qed.
Print Assumptions C46_attributes.

(** C46: well-formed messages are each shown once and in order, with their
    own payloads.  Error messages (NLMSG_ERROR) have payloads of their own
    structure, see C46_error. *)
Theorem C46_messages : forall o m addr len hs,
  seq_at 16 (fun h => le32 h 0) m addr len hs ->
  Forall (fun h => le32 h 0 + 3 < 2 ^ 32 /\ le16 h 4 <> NLMSG_ERROR) hs ->
  0 < addr -> addr + len <= 2 ^ 64 -> N.of_nat (List.length hs) < 2 ^ 32 ->
  exists f, decode_netlink o m addr len =
    Some (array (limited o (shown_all 16 (fun h => le32 h 0) addr hs)), f).
Proof.
  intros o m addr len hs HS HM H0 HA HL.
  apply (decode_shown (nlmsg_kind o m) o m addr len hs); auto; [reflexivity| |].
  - unfold fits_kind. eapply Forall_impl; [|exact HM]. intros h (H & _). apply nlmsg_align_eq, H.
  - eapply Forall_impl; [|exact HM]. intros h (_ & H). apply nlmsg_plain, H.
Qed.
Print Assumptions C46_messages.

(** C46: an error message that is about a message other than an error
    message, with that message in full: it is shown with its payload, and
    what follows it is shown as attributes. *)
Theorem C46_error : forall o m fuel addr len e,
  m addr 20 = Some e -> 0 < addr -> addr + len <= 2 ^ 64 -> (N.to_nat len < fuel)%nat ->
  let h := skipn 4 e in
  let n := le32 h 0 in
  16 <= n -> 4 + n <= len -> le16 h 4 <> NLMSG_ERROR ->
  exists f,
  decode_nlmsgerr fuel o m addr len false =
    if 4 + n =? len then Some (NErr e :: shown 16 (fun h => le32 h 0) (addr + 4) h, f)
    else match decode_nlattr o m (addr + 4 + n) (len - 4 - n) with
         | Some (t, _) => Some (NBegin :: NErr e :: shown 16 (fun h => le32 h 0) (addr + 4) h ++
                                NNext :: t ++ [NEnd], f)
         | None => None
         end.
Proof.
  intros o m fuel addr len e HM H0 HA Hf h n H16 HL HT.
  destruct fuel as [|[|fuel]]; [lia|lia|]. cbn [decode_nlmsgerr].
  destruct (N.ltb_spec len 20); [lia|]. rewrite HM. cbv zeta. fold h. fold n.
  rewrite (u64_small (addr + 4)) by lia. rewrite (N.max_r 16 n) by exact H16.
  rewrite (N.min_r (len - 4) n) by lia.
  assert (EM : exists f, decode_nlmsg (S fuel) o m h (addr + 4) n = Some (shown 16 (fun h => le32 h 0) (addr + 4) h, f)).
  { cbn [decode_nlmsg]. unfold NLMSG_HDRLEN, shown. cbv zeta. fold n. rewrite N.min_id.
    apply N.eqb_neq in HT. rewrite HT.
    destruct (N.ltb_spec 16 n); [|eexists; reflexivity]. rewrite u64_small by lia. eexists. reflexivity. }
  destruct EM as (f & ->). destruct (N.eqb_spec (4 + n) len) as [E|E].
  - destruct (N.ltb_spec n (len - 4)); [lia|]. eexists. reflexivity.
  - destruct (N.ltb_spec n (len - 4)); [|lia]. rewrite (u64_small (addr + 4 + n)) by lia.
    destruct (decode_nlattr o m (addr + 4 + n) (len - 4 - n)) as [[t2 f2]|].
    + eexists. cbn [app]. rewrite <- ?app_assoc. reflexivity.
    + exists []. reflexivity.
Qed.
Print Assumptions C46_error.

(** Within its message: an error message (type 2) says by bit 8 of its flags, NLM_F_CAPPED, that it has only the header of the message it is about,
    whatever that header says of the length; what follows is shown as attributes. *)
Theorem C46_error_capped : forall o m fuel h addr len e, le16 h 4 = 2 -> N.testbit (le16 h 6) 8 = true -> let n := le32 h 0 in
  n <= len -> 36 <= n -> addr + n <= 2 ^ 64 -> m (addr + 16) 20 = Some e ->
  exists f, decode_nlmsg (S (S (S fuel))) o m h addr len =
    if n =? 36 then Some ([NBegin; NHdr h; NNext; NErr e; NHdr (skipn 4 e); NEnd], f)
    else match decode_nlattr o m (addr + 36) (n - 36) with
         | Some (t, _) => Some ([NBegin; NHdr h; NNext; NBegin; NErr e; NHdr (skipn 4 e); NNext] ++ t ++ [NEnd; NEnd], f)
         | None => None
         end.
Proof.
  intros o m fuel h addr len e T C n L N36 A M. remember (S (S fuel)) as k eqn:K. cbn [decode_nlmsg]. fold n. rewrite (N.min_l n len) by exact L. unfold NLMSG_HDRLEN. replace (16 <? n) with true by (symmetry; apply N.ltb_lt; lia).
  rewrite T. change (2 =? NLMSG_ERROR) with true. cbv iota zeta. replace (negb (N.land (le16 h 6) NLM_F_CAPPED =? 0)) with true.
  2: { symmetry. apply negb_true_iff, N.eqb_neq. intros Z. apply (f_equal (fun x => N.testbit x 8)) in Z. rewrite N.land_spec, C, N.bits_0 in Z. discriminate Z. }
  rewrite u64_small by lia. subst k. remember (S fuel) as k eqn:K. cbn [decode_nlmsgerr]. replace (n - 16 <? 20) with false by (symmetry; apply N.ltb_ge; lia). rewrite M. cbv zeta. rewrite (N.min_r (n - 16 - 4) 16) by lia.
  rewrite (u64_small (addr + 16 + 4)) by lia. subst k. cbn [decode_nlmsg]. unfold NLMSG_HDRLEN. replace (16 <? N.min (le32 (skipn 4 e) 0) 16) with false by (symmetry; apply N.ltb_ge; lia).
  destruct (N.eqb_spec n 36) as [E|E].
  - replace (16 <? n - 16 - 4) with false by (symmetry; apply N.ltb_ge; lia). eexists. reflexivity.
  - replace (16 <? n - 16 - 4) with true by (symmetry; apply N.ltb_lt; lia). rewrite (u64_small (addr + 16 + 4 + 16)) by lia. replace (addr + 16 + 4 + 16) with (addr + 36) by lia. replace (n - 16 - 4 - 16) with (n - 36) by lia.
    destruct (decode_nlattr o m (addr + 36) (n - 36)) as [[t f]|]; [|exists []; reflexivity]. eexists. cbn [app]. rewrite <- !app_assoc. reflexivity.
Qed.
Print Assumptions C46_error_capped.
(** Without it the message is there in full. *)
Theorem C46_error_full : forall o m fuel h addr len, le16 h 4 = 2 -> N.testbit (le16 h 6) 8 = false -> let n := le32 h 0 in n <= len -> 16 < n -> addr + n <= 2 ^ 64 ->
  decode_nlmsg (S fuel) o m h addr len = match decode_nlmsgerr fuel o m (addr + 16) (n - 16) false with Some (t, f) => Some ([NBegin; NHdr h; NNext] ++ t ++ [NEnd], f) | None => None end.
Proof.
  intros o m fuel h addr len T C n L N16 A. cbn [decode_nlmsg]. fold n. rewrite (N.min_l n len) by exact L. unfold NLMSG_HDRLEN. replace (16 <? n) with true by (symmetry; apply N.ltb_lt; lia).
  rewrite T. change (2 =? NLMSG_ERROR) with true. cbv iota zeta. rewrite u64_small by lia. replace (negb (N.land (le16 h 6) NLM_F_CAPPED =? 0)) with false; [reflexivity|].
  symmetry. apply negb_false_iff, N.eqb_eq. apply N.bits_inj. intros j. rewrite N.land_spec, N.bits_0. change NLM_F_CAPPED with (2 ^ 8). destruct (N.eq_dec 8 j) as [<- |J]; [rewrite C; reflexivity|]. rewrite N.pow2_bits_false by exact J. apply andb_false_r.
Qed.
Print Assumptions C46_error_full.

(** Concrete cases. *)
Definition mem_of (base : N) (l : list N) : nmem :=
  fun a n => if (base <=? a) && (a + n <=? base + N.of_nat (List.length l))
             then Some (firstn (N.to_nat n) (skipn (N.to_nat (a - base)) l)) else None.
Definition ex_attrs : list N := [6; 0; 1; 0; 7; 7; 0; 0;  4; 0; 2; 0;  5; 0; 3; 0; 9].
Definition ex_o (ab : bool) : opts := mk_opts ab 2.

Example ex_seq : seq_at 4 (fun h => le16 h 0) (mem_of 4096 ex_attrs) 4096 17
  [[6; 0; 1; 0]; [4; 0; 2; 0]; [5; 0; 3; 0]].
Proof. cbn [seq_at]. repeat apply conj; vm_compute; try reflexivity; discriminate. Qed.

Example ex_decode :
  decode_nlattr (ex_o false) (mem_of 4096 ex_attrs) 4096 17 =
    Some ([NBegin; NBegin; NHdr [6; 0; 1; 0]; NNext; NPay 4100 2; NEnd; NNext;
           NHdr [4; 0; 2; 0]; NNext;
           NBegin; NHdr [5; 0; 3; 0]; NNext; NPay 4112 1; NEnd; NEnd],
          [(4096, 4); (4104, 4); (4108, 4)]) /\
  decode_nlattr (ex_o true) (mem_of 4096 ex_attrs) 4096 17 =
    Some ([NBegin; NBegin; NHdr [6; 0; 1; 0]; NNext; NPay 4100 2; NEnd; NNext;
           NHdr [4; 0; 2; 0]; NNext; NMore; NEnd],
          [(4096, 4); (4104, 4); (4108, 4)]) /\
  (* a length that exceeds the message, and one that is too small *)
  decode_nlattr (ex_o false) (mem_of 4096 [255; 255; 1; 0; 3; 4]) 4096 6 =
    Some ([NBegin; NHdr [255; 255; 1; 0]; NNext; NPay 4100 2; NEnd], [(4096, 4)]) /\
  decode_nlattr (ex_o false) (mem_of 4096 [3; 0; 1; 0; 3; 4]) 4096 6 =
    Some ([NHdr [3; 0; 1; 0]], [(4096, 4)]).
Proof. vm_compute. repeat split. Qed.

(** An error message about an error message. *)
Definition ex_hdr (n ty : N) : list N := [n; 0; 0; 0; ty; 0] ++ repeat 0 10.
Definition ex_err : list N :=
  ex_hdr 60 2 ++ [255; 255; 255; 255] ++ ex_hdr 40 2 ++ [254; 255; 255; 255] ++ ex_hdr 20 7 ++ [1; 2; 3; 4].
Example ex_nested :
  decode_netlink (ex_o false) (mem_of 4096 ex_err) 4096 60 =
    Some ([NBegin; NHdr (ex_hdr 60 2); NNext;
           NErr ([255; 255; 255; 255] ++ ex_hdr 40 2);
           NBegin; NHdr (ex_hdr 40 2); NNext;
           NErr ([254; 255; 255; 255] ++ ex_hdr 20 7);
           NBegin; NHdr (ex_hdr 20 7); NNext; NPay 4152 4; NEnd; NEnd; NEnd],
          [(4096, 16); (4112, 20); (4132, 20)]).
Proof. vm_compute. reflexivity. Qed.
