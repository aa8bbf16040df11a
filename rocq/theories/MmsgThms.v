(** C91: messages received and sent. *)
From Verif Require Import Base MmsgModel MmsgSpec.
Local Open Scope N_scope.

Lemma skipn_cons {A} (l : list A) i x r : skipn i l = x :: r -> nth_error l i = Some x /\ skipn (S i) l = r.
Proof. revert l; induction i as [|i IH]; intros [|a l] H; cbn [skipn nth_error] in *; try discriminate; [injection H as -> ->; auto|apply IH, H]. Qed.

Section Loop.
Variables (w : world) (mem : N -> option mmsg) (start nmemb : N) (I : nat -> cfg -> Prop) (G : nat -> mmsg -> elem -> Prop).
Hypothesis step : forall i c m, I i c -> N.of_nat i < nmemb -> mem (at_ w start i) = Some m ->
  exists e c', print_struct_mmsghdr m c = Ok (e, c') /\ match c' with None => e = More /\ count c = 0 | Some c'' => I (S i) c'' /\ G i m e end.
Lemma loop_spec fuel : forall i c acc, I i c -> N.of_nat (i + fuel) = nmemb -> (abbrev w = true -> max_strlen w < nmemb -> N.of_nat i <= max_strlen w) ->
  exists o, arr_loop fuel w mem start nmemb i c acc = Ok o /\
  ((o = Addr (at_ w start i) /\ i = 0%nat /\ mem (at_ w start i) = None /\ (0 < fuel)%nat) \/
   exists k t, o = Elems (acc ++ k ++ t) /\ (forall j e, nth_error k j = Some e -> exists m, mem (at_ w start (i + j)) = Some m /\ G (i + j) m e) /\
     N.of_nat (i + length k) <= nmemb /\ (abbrev w = true -> max_strlen w < nmemb -> N.of_nat (i + length k) <= max_strlen w) /\
     ((t = [] /\ length k = fuel) \/
      ((length k < fuel)%nat /\
       ((t = [MoreAt (at_ w start (i + length k))] /\ mem (at_ w start (i + length k)) = None) \/
        (t = [More] /\ abbrev w = true /\ max_strlen w < nmemb /\ N.of_nat (i + length k) = max_strlen w) \/
        (t = [More] /\ exists c', I (i + length k) c' /\ count c' = 0))))).
Proof.
  induction fuel as [|fuel IH]; intros i c acc II E M.
  - exists (Elems acc). split; [reflexivity|]. right. exists [], []. cbn [length app]. rewrite app_nil_r, Nat.add_0_r in *. split; [reflexivity|]. split; [intros j e H; destruct j; discriminate|]. split; [lia|]. split; [exact M|]. left. auto.
  - cbn [arr_loop]. destruct (mem (at_ w start i)) as [m|] eqn:ME.
    + destruct (abbrev w && (max_strlen w <? nmemb) && (max_strlen w <=? N.of_nat i)) eqn:AB.
      * apply andb_true_iff in AB as [AB A3]. apply andb_true_iff in AB as [A1 A2]. exists (Elems (acc ++ [More])). split; [reflexivity|]. right. exists [], [More]. cbn [length app]. rewrite Nat.add_0_r.
        assert (A4 : N.of_nat i <= max_strlen w) by (apply M; [exact A1|lia]).
        split; [reflexivity|]. split; [intros j e H; destruct j; discriminate|]. split; [lia|]. split; [exact M|]. right. split; [lia|]. right; left. split; [reflexivity|]. split; [exact A1|]. split; lia.
      * destruct (step i c m II ltac:(lia) ME) as (e & c' & -> & H). cbn [rbind]. destruct c' as [c'|].
        -- destruct H as [H1 H2]. destruct (IH (S i) c' (acc ++ [e]) H1 ltac:(lia)) as (o & EO & D); [intros A1 A2; rewrite A1 in AB; cbn [andb] in AB; specialize (M A1 A2); lia|].
           exists o. split; [exact EO|]. right. destruct D as [(_ & X & _)|(k & t & EE & K & L & MM & T)]; [discriminate X|]. exists (e :: k), t. cbn [length]. replace (i + S (length k))%nat with (S i + length k)%nat by lia.
           split; [rewrite EE, <- app_assoc; reflexivity|]. split; [|split; [exact L|split; [exact MM|]]].
           ++ intros j e' J. destruct j as [|j]; [injection J as <-; rewrite Nat.add_0_r; exists m; auto|]. cbn [nth_error] in J. replace (i + S j)%nat with (S i + j)%nat by lia. apply K, J.
           ++ destruct T as [[T1 T2]|[T1 T2]]; [left; split; [exact T1|lia]|right; split; [lia|exact T2]].
        -- destruct H as [-> CZ]. exists (Elems (acc ++ [More])). split; [reflexivity|]. right. exists [], [More]. cbn [length app]. rewrite Nat.add_0_r. split; [reflexivity|]. split; [intros j e' H; destruct j; discriminate|]. split; [lia|]. split; [exact M|]. right. split; [lia|]. right; right. split; [reflexivity|]. exists c. auto.
    + destruct i as [|i].
      * eexists. split; [reflexivity|]. left. repeat split; auto; lia.
      * eexists. split; [reflexivity|]. right. exists [], [MoreAt (at_ w start (S i))]. cbn [length app]. rewrite Nat.add_0_r. split; [reflexivity|]. split; [intros j e' H; destruct j; discriminate|]. split; [lia|]. split; [exact M|]. right. split; [lia|]. left. auto.
Qed.
End Loop.

Lemma enter w mem start n c : vec_ok w start n -> print_array w mem start n c = arr_loop (N.to_nat n) w mem start n 0 c [].
Proof.
  intros (S0 & N0 & Z0 & E). unfold print_array. assert (U : u64 (n * sz w) = n * sz w) by (apply N.mod_small; lia). rewrite U. assert (U2 : u64 (start + n * sz w) = start + n * sz w) by (apply N.mod_small; lia). rewrite U2.
  rewrite N.div_mul by lia. rewrite N.eqb_refl. destruct (N.eqb_spec start 0); [lia|]. destruct (N.eqb_spec n 0); [lia|]. assert (X : (start + n * sz w <=? start) = false) by nia. rewrite X. reflexivity.
Qed.
Lemma enter_bad w mem start n c : start < 2^64 -> n < 2^32 -> 0 < sz w < 2^31 -> ~ vec_ok w start n ->
  print_array w mem start n c = Ok (if start =? 0 then Null else if n =? 0 then Elems [] else Addr start).
Proof.
  intros S N0 Z NV. unfold print_array. destruct (N.eqb_spec start 0); [reflexivity|]. destruct (N.eqb_spec n 0); [reflexivity|]. assert (U : u64 (n * sz w) = n * sz w) by (apply N.mod_small; nia). rewrite U.
  unfold vec_ok in NV. assert (B : 2^64 <= start + sz w * n) by lia. assert (W : u64 (start + n * sz w) = start + n * sz w - 2^64). { unfold u64. symmetry. apply N.mod_unique with (q := 1); nia. }
  rewrite W. assert (X : (start + n * sz w - 2^64 <=? start) = true) by nia. rewrite X. reflexivity.
Qed.
Lemma save_nth w mem fuel : forall addr i u, addr + sz w * N.of_nat i < 2^64 -> nth_error (save_loop fuel w mem addr) i = Some u ->
  exists m, msg_at w mem addr i = Some m /\ h_namelen (m_hdr m) = u.
Proof.
  induction fuel as [|fuel IH]; intros addr i u L H; cbn [save_loop] in H; [destruct i; discriminate|]. destruct (mem addr) as [m|] eqn:ME; [|destruct i; discriminate].
  destruct i as [|i]; [injection H as <-; exists m; split; [unfold msg_at; rewrite N.mul_0_r, N.add_0_r; exact ME|reflexivity]|]. cbn [nth_error] in H.
  assert (U : u64 (addr + sz w) = addr + sz w) by (apply N.mod_small; lia). rewrite U in H. apply IH in H as (m' & M1 & M2); [|lia]. exists m'. split; [|exact M2]. unfold msg_at in *. rewrite <- M1. f_equal. lia.
Qed.
Lemma save_len w mem fuel : forall addr (n : nat), (n <= fuel)%nat -> addr + sz w * N.of_nat n < 2^64 -> (forall i, (i < n)%nat -> msg_at w mem addr i <> None) ->
  (n <= length (save_loop fuel w mem addr))%nat.
Proof.
  induction fuel as [|fuel IH]; intros addr n L W H; [lia|]. destruct n as [|n]; [lia|]. cbn [save_loop]. pose proof (H 0%nat ltac:(lia)) as H0. unfold msg_at in H0. rewrite N.mul_0_r, N.add_0_r in H0.
  destruct (mem addr); [|contradiction H0; reflexivity]. cbn [length]. assert (U : u64 (addr + sz w) = addr + sz w) by (apply N.mod_small; nia). rewrite U. enough (n <= length (save_loop fuel w mem (addr + sz w)))%nat by lia.
  apply IH; [lia|lia|]. intros i I. specialize (H (S i) ltac:(lia)). unfold msg_at in *. intros X. apply H. rewrite <- X. f_equal. lia.
Qed.

Definition capacity (l : list Z) : N := if N.of_nat (length l) <? IOV_MAX then N.of_nat (length l) else IOV_MAX.
Definition recv_inv (saved : list Z) (n : N) (i : nat) (c : cfg) : Prop :=
  names c = Some (skipn i saved) /\ msg_len_vlen c = n - N.of_nat i /\ count c = capacity saved - N.of_nat i /\ use_msg_len c = true.
Definition recv_elem (saved : list Z) (i : nat) (m : mmsg) (e : elem) : Prop := exists u, nth_error saved i = Some u /\ elem_received u m e.
Lemma print_received m u size : received u m size (print_struct_msghdr m (Some u) (Some size)).
Proof.
  constructor; try reflexivity; unfold print_struct_msghdr; cbn [s_decoded s_before].
  - destruct (Z.ltb_spec u (h_namelen m)); lia.
  - destruct (Z.eqb_spec u (h_namelen m)); auto.
Qed.
Lemma recv_step saved n i c m : recv_inv saved n i c -> N.of_nat i < n ->
  exists e c', print_struct_mmsghdr m c = Ok (e, c') /\ match c' with None => e = More /\ count c = 0 | Some c'' => recv_inv saved n (S i) c'' /\ recv_elem saved i m e end.
Proof.
  intros (NA & V & C & U) L. unfold print_struct_mmsghdr. destruct (N.eqb_spec (count c) 0) as [Z|NZ]; [exists More, None; split; [reflexivity|split; [reflexivity|exact Z]]|].
  assert (LS : (i < length saved)%nat) by (unfold capacity in C; destruct (N.ltb_spec (N.of_nat (length saved)) IOV_MAX) in C; unfold IOV_MAX in *; lia).
  rewrite NA. destruct (skipn i saved) as [|u r] eqn:SK; [exfalso; pose proof (skipn_length i saved) as X; rewrite SK in X; cbn [length] in X; lia|]. apply skipn_cons in SK as [N1 N2]. cbn [rbind].
  rewrite V, U. assert (VZ : (n - N.of_nat i =? 0) = false) by lia. rewrite VZ. eexists _, _. split; [reflexivity|]. split; [|exists u; split; [exact N1|]; eexists; split; [reflexivity|apply print_received]].
  unfold recv_inv. cbn [names msg_len_vlen count use_msg_len tl]. rewrite N2. split; [reflexivity|]. split; [lia|]. split; [lia|reflexivity].
Qed.

(** Whatever the memory was and is, and whatever the call returned: nothing is read past the lengths saved, and each message
    shown is the one now at its place, with the length its own name had on entry. *)
Theorem C91_recvmmsg_each : forall w mem_in mem_out addr vlen rval syserror, addr < 2^64 -> 0 < sz w < 2^31 ->
  exists o, recvmmsg_vec w mem_in mem_out addr vlen rval syserror = Ok o /\
  forall l i s n, o = Elems l -> nth_error l i = Some (Msg s n) ->
    syserror = false /\ exists a b, msg_at w mem_in addr i = Some a /\ msg_at w mem_out addr i = Some b /\ elem_received (h_namelen (m_hdr a)) b (Msg s n).
Proof.
  intros w mem_in mem_out addr vlen rval syserror A Z. unfold recvmmsg_vec, decode_mmsgvec. set (saved := save_mmsgvec_namelen w mem_in addr vlen). set (n := u32 rval). assert (N32 : n < 2^32) by (apply N.mod_lt; lia).
  set (mem := fun a => if syserror then None else mem_out a).
  assert (VD : vec_ok w addr n \/ ~ vec_ok w addr n) by (unfold vec_ok; lia). destruct VD as [VO|NV].
  2:{ rewrite enter_bad by (auto; lia). eexists. split; [reflexivity|]. intros l i s m E NE. destruct (addr =? 0); [discriminate E|]. destruct (n =? 0); [|discriminate E]. injection E as <-. destruct i; discriminate NE. }
  assert (LT : addr + sz w * n < 2^64) by apply VO. rewrite (enter _ _ _ _ _ VO). fold (capacity saved).
  destruct (loop_spec w mem addr n (recv_inv saved n) (recv_elem saved)) with (fuel := N.to_nat n) (i := 0%nat) (acc := @nil elem)
    (c := {| names := Some saved; msg_len_vlen := n; count := capacity saved; use_msg_len := true |}) as (o & EO & D).
  { intros i c m II L _. apply recv_step; auto. }
  { unfold recv_inv. cbn [names msg_len_vlen count use_msg_len skipn]. rewrite !N.sub_0_r. auto. }
  { lia. } { intros _ _. lia. }
  exists o. split; [exact EO|]. intros l i s m E NE. destruct D as [(-> & _)|(k & t & -> & K & L & _ & T)]; [discriminate E|]. injection E as <-. cbn [app] in NE.
  destruct (Nat.lt_ge_cases i (length k)) as [IL|IG].
  - rewrite nth_error_app1 in NE by exact IL. destruct (K _ _ NE) as (b & B1 & u & U1 & U2). cbn [Nat.add] in *. unfold mem in B1. destruct syserror; [discriminate B1|]. split; [reflexivity|].
    assert (W : addr + sz w * N.of_nat i < 2^64) by nia. destruct (save_nth _ _ _ _ _ _ W U1) as (a & A1 & <-). exists a, b. split; [exact A1|]. split; [exact B1|]. exact U2.
  - exfalso. rewrite nth_error_app2 in NE by exact IG. set (j := (i - length k)%nat) in NE. clearbody j. destruct T as [[-> _]|[_ [[-> _]|[(-> & _)|(-> & _)]]]]; destruct j as [|[|j]]; discriminate NE.
Qed.
Print Assumptions C91_recvmmsg_each.

(** When the messages received could be read before and after, all are shown, but for the limit of abbreviation. *)
Theorem C91_recvmmsg_all : forall w mem_in mem_out addr vlen n, vec_ok w addr n -> n <= vlen -> n <= 1024 ->
  (forall i, N.of_nat i < n -> msg_at w mem_in addr i <> None /\ msg_at w mem_out addr i <> None) ->
  exists l, recvmmsg_vec w mem_in mem_out addr vlen n false = Ok (Elems (l ++ (if limit w n <? n then [More] else []))) /\
    N.of_nat (length l) = limit w n /\ forall e, In e l -> exists s m, e = Msg s (Some m).
Proof.
  intros w mem_in mem_out addr vlen n VO LV LN H. unfold recvmmsg_vec, decode_mmsgvec. assert (U : u32 n = n) by (apply N.mod_small; lia). rewrite U, (enter _ _ _ _ _ VO). set (saved := save_mmsgvec_namelen w mem_in addr vlen). fold (capacity saved).
  assert (SL : n <= capacity saved).
  { assert (X : (N.to_nat n <= length saved)%nat). { unfold saved, save_mmsgvec_namelen. apply save_len; [unfold IOV_MAX; destruct (N.ltb_spec 1024 vlen); lia|destruct VO as (_ & _ & _ & V); lia|]. intros i I. apply H. lia. }
    unfold capacity, IOV_MAX. destruct (N.ltb_spec (N.of_nat (length saved)) 1024); lia. }
  destruct (loop_spec w mem_out addr n (recv_inv saved n) (recv_elem saved)) with (fuel := N.to_nat n) (i := 0%nat) (acc := @nil elem)
    (c := {| names := Some saved; msg_len_vlen := n; count := capacity saved; use_msg_len := true |}) as (o & EO & D).
  { intros i c m II L _. apply recv_step; auto. }
  { unfold recv_inv. cbn [names msg_len_vlen count use_msg_len skipn]. rewrite !N.sub_0_r. auto. }
  { lia. } { intros _ _. lia. }
  assert (AT : forall i, N.of_nat i < n -> mem_out (at_ w addr i) <> None) by (intros i I; apply (H i I)).
  assert (MM : forall o, arr_loop (N.to_nat n) w (fun a => if false then None else mem_out a) addr n 0 {| names := Some saved; msg_len_vlen := n; count := capacity saved; use_msg_len := true |} [] = o -> arr_loop (N.to_nat n) w mem_out addr n 0 {| names := Some saved; msg_len_vlen := n; count := capacity saved; use_msg_len := true |} [] = o) by (intros o0 X; exact X).
  cbv beta iota in *. cbn [Nat.add app] in D. destruct D as [(_ & _ & X & F)|(k & t & -> & K & L & M & T)]; [exfalso; apply (AT 0%nat ltac:(lia)); exact X|].
  exists k. assert (LT : t = (if limit w n <? n then [More] else []) /\ N.of_nat (length k) = limit w n).
  { unfold limit. destruct T as [[-> T2]|[T1 [[_ X]|[(-> & A1 & A2 & A3)|(-> & c' & (_ & _ & CC & _) & CZ)]]]].
    - destruct (abbrev w) eqn:AB; [specialize (M eq_refl)|]; destruct (N.ltb_spec (N.min n (max_strlen w)) n); try (exfalso; lia); try (rewrite N.ltb_irrefl); split; auto; lia.
    - exfalso. apply (AT (length k) ltac:(lia)). exact X.
    - rewrite A1. destruct (N.ltb_spec (N.min n (max_strlen w)) n); [split; [reflexivity|lia]|lia].
    - exfalso. lia. }
  destruct LT as [-> LK]. split; [exact EO|]. split; [exact LK|]. intros e IE. apply In_nth_error in IE as (j & J). destruct (K _ _ J) as (m & _ & u & _ & s & -> & _). exists s, (msg_len m). reflexivity.
Qed.
Print Assumptions C91_recvmmsg_all.

(** sendmmsg: all messages of the vector -- whether the call failed or not -- and the lengths of those sent. *)
Definition send_inv (r : N) (i : nat) (c : cfg) : Prop := names c = None /\ msg_len_vlen c = r - N.of_nat i /\ count c = 1024 - N.of_nat i /\ use_msg_len c = false.
Theorem C91_sendmmsg : forall w mem addr vlen rval syserror, vec_ok w addr vlen -> vlen < 2^32 -> rval < 2^32 ->
  exists o, sendmmsg_vec w mem addr vlen rval syserror = Ok o /\
  ((o = Addr addr /\ mem addr = None) \/
   exists l t, o = Elems (l ++ t) /\ N.of_nat (length l) <= limit w vlen /\ (length l <= 1024)%nat /\
     (forall i e, nth_error l i = Some e -> exists m, msg_at w mem addr i = Some m /\ elem_sent (negb syserror && (N.of_nat i <? rval)) m e) /\
     (N.of_nat (length l) < vlen -> t = [MoreAt (addr + sz w * N.of_nat (length l))] /\ msg_at w mem addr (length l) = None \/
                                    t = [More] /\ (N.of_nat (length l) = limit w vlen \/ length l = 1024%nat)) /\
     (N.of_nat (length l) = vlen -> t = [])).
Proof.
  intros w mem addr vlen rval syserror VO V32 R32. unfold sendmmsg_vec, decode_mmsgvec. rewrite (enter _ _ _ _ _ VO). assert (U : u32 rval = rval) by (apply N.mod_small; lia). rewrite U.
  set (r := if syserror then 0 else rval). unfold IOV_MAX.
  destruct (loop_spec w mem addr vlen (fun i c => (i <= 1024)%nat /\ send_inv r i c) (fun i m e => (i < 1024)%nat /\ elem_sent (N.of_nat i <? r) m e)) with (fuel := N.to_nat vlen) (i := 0%nat) (acc := @nil elem)
    (c := {| names := None; msg_len_vlen := r; count := 1024; use_msg_len := false |}) as (o & EO & D).
  { intros i c m (LI & NA & V & C & UM) L _. unfold print_struct_mmsghdr. destruct (N.eqb_spec (count c) 0) as [Z|NZ]; [exists More, None; split; [reflexivity|split; [reflexivity|exact Z]]|]. rewrite NA, V, UM. cbn [rbind].
    assert (I1 : (i < 1024)%nat) by lia.
    destruct (N.eqb_spec (r - N.of_nat i) 0) as [Z|NZ2]; (eexists _, _; split; [reflexivity|]; split; [split; [lia|]; unfold send_inv; cbn [names msg_len_vlen count use_msg_len]; repeat split; lia|split; [exact I1|]; exists (print_struct_msghdr (m_hdr m) None None); split; [|repeat split; reflexivity]]).
    - assert (X : (N.of_nat i <? r) = false) by lia. rewrite X. reflexivity.
    - assert (X : (N.of_nat i <? r) = true) by lia. rewrite X. reflexivity. }
  { split; [lia|]. unfold send_inv. cbn [names msg_len_vlen count use_msg_len]. repeat split; lia. }
  { lia. } { intros _ _. lia. }
  exists o. split; [exact EO|]. cbn [Nat.add app] in D. destruct D as [(-> & _ & X & F)|(k & t & -> & K & L & M & T)].
  - left. unfold at_ in *. rewrite N.mul_0_r, N.add_0_r in *. auto.
  - right. exists k, t. assert (K1 : (length k <= 1024)%nat).
    { destruct (length k) as [|q] eqn:LK; [lia|]. destruct (nth_error k q) as [e|] eqn:NE; [destruct (K _ _ NE) as (m & _ & Q & _); lia|]. apply nth_error_None in NE. lia. }
    assert (LIM : N.of_nat (length k) <= limit w vlen) by (unfold limit; destruct (abbrev w) eqn:AB; [specialize (M eq_refl); lia|lia]).
    split; [reflexivity|]. split; [exact LIM|]. split; [exact K1|]. split; [|split].
    + intros i e NE. destruct (K _ _ NE) as (m & M1 & _ & M2). exists m. split; [exact M1|]. unfold r in M2. destruct syserror; cbn [negb andb]; [|exact M2]. assert (X : (N.of_nat i <? 0) = false) by lia. rewrite X in M2. exact M2.
    + intros LT. destruct T as [[-> T2]|[T1 [[-> X]|[(-> & A1 & A2 & A3)|(-> & c' & (B1 & _ & _ & CC & _) & CZ)]]]]; [exfalso; lia|left; split; [reflexivity|exact X]|right; split; [reflexivity|left; unfold limit; rewrite A1; lia]|right; split; [reflexivity|right; lia]].
    + intros EQ. destruct T as [[-> T2]|[T1 _]]; [reflexivity|lia].
Qed.
Print Assumptions C91_sendmmsg.

(** A vector that is not decoded, and a call that failed: no messages. *)
Theorem C91_no_vector : forall w mem_in mem_out addr vlen rval, addr < 2^64 -> 0 < sz w < 2^31 ->
  recvmmsg_vec w mem_in mem_out addr vlen (2^64 - 1) true = Ok (if addr =? 0 then Null else Addr addr) /\
  (~ vec_ok w addr (u32 rval) -> recvmmsg_vec w mem_in mem_out addr vlen rval false = Ok (if addr =? 0 then Null else if u32 rval =? 0 then Elems [] else Addr addr)) /\
  (vlen < 2^32 -> ~ vec_ok w addr vlen -> forall failed, sendmmsg_vec w mem_out addr vlen rval failed = Ok (if addr =? 0 then Null else if vlen =? 0 then Elems [] else Addr addr)).
Proof.
  intros w mem_in mem_out addr vlen rval A Z. assert (N32 : forall x, u32 x < 2^32) by (intros x; apply N.mod_lt; lia). split; [|split].
  - unfold recvmmsg_vec, decode_mmsgvec. assert (X : u32 (2^64 - 1) = 2^32 - 1) by reflexivity. rewrite X.
    destruct (N.eq_dec addr 0) as [->|NA]; [reflexivity|]. assert (E0 : (addr =? 0) = false) by lia. rewrite E0. destruct (N.lt_ge_cases (addr + sz w * (2^32 - 1)) (2^64)) as [LT|GE].
    + rewrite enter by (unfold vec_ok; lia). destruct (N.to_nat (2^32 - 1)) eqn:F; [lia|]. cbn [arr_loop]. unfold at_. rewrite N.mul_0_r, N.add_0_r. reflexivity.
    + rewrite enter_bad by (try lia; intros (X1 & X2 & X3 & X4); lia). rewrite E0. reflexivity.
  - intros NV. unfold recvmmsg_vec, decode_mmsgvec. apply enter_bad; auto.
  - intros V NV failed. unfold sendmmsg_vec, decode_mmsgvec. apply enter_bad; auto.
Qed.
Print Assumptions C91_no_vector.

(** What is said of the result of recvmmsg. *)
Theorem C91_said : forall verbose rval timeout failed,
  (recvmmsg_aux verbose rval timeout failed = Timeout <-> failed = false /\ rval = 0) /\
  (forall a, recvmmsg_aux verbose rval timeout failed = Left a <-> failed = false /\ rval <> 0 /\ verbose = true /\ timeout <> 0 /\ a = timeout).
Proof.
  intros verbose rval timeout failed. unfold recvmmsg_aux. destruct failed; [split; [|intros a]; split; intros H; try discriminate H; destruct H; discriminate|].
  destruct (N.eqb_spec rval 0) as [->|NZ]; [split; [|intros a]; split; intros H; auto; try discriminate H; destruct H as (_ & X & _); contradiction X; reflexivity|].
  destruct verbose; cbn [negb orb]; [destruct (N.eqb_spec timeout 0) as [->|NT]|]; (split; [|intros a]; split; intros H; try discriminate H); try (destruct H as [_ X]; contradiction); try (destruct H as (_ & _ & X & Y & Q); congruence).
  injection H as <-. auto.
Qed.
Print Assumptions C91_said.

(** recvmsg and sendmsg: one message; a recvmsg that failed shows the length on entry only. *)
Theorem C91_recvmsg : forall verbose mem_in mem_out addr rval failed,
  (addr = 0 \/ verbose = false \/ mem_in addr = None -> recvmsg_arg verbose mem_in mem_out addr rval failed = OAddr addr) /\
  (addr <> 0 -> verbose = true -> forall a, mem_in addr = Some a ->
     (failed = true -> recvmsg_arg verbose mem_in mem_out addr rval failed = OLen (h_namelen a)) /\
     (failed = false -> mem_out addr = None -> recvmsg_arg verbose mem_in mem_out addr rval failed = OAddr addr) /\
     (failed = false -> forall b, mem_out addr = Some b -> exists s, recvmsg_arg verbose mem_in mem_out addr rval failed = OMsg s /\ received (h_namelen a) b rval s)) /\
  (forall b, addr <> 0 -> verbose = true -> mem_in addr = Some b -> exists s, sendmsg_arg verbose mem_in addr = OMsg s /\ sent b s) /\
  (addr = 0 \/ verbose = false \/ mem_in addr = None -> sendmsg_arg verbose mem_in addr = OAddr addr).
Proof.
  intros verbose mem_in mem_out addr rval failed. unfold recvmsg_arg, sendmsg_arg.
  assert (NO : addr = 0 \/ verbose = false \/ mem_in addr = None -> (if negb (addr =? 0) && verbose then mem_in addr else None) = None).
  { intros [->|[->|E]]; [reflexivity|rewrite andb_false_r; reflexivity|destruct (negb (addr =? 0) && verbose); auto]. }
  split; [intros H; rewrite (NO H); reflexivity|]. split; [|split; [|intros H; rewrite (NO H); reflexivity]].
  - intros NA -> a IN. assert (E0 : (addr =? 0) = false) by lia. rewrite E0. cbn [negb andb]. rewrite IN. split; [intros ->; reflexivity|]. split; [intros -> ->; reflexivity|]. intros -> b ->. eexists. split; [reflexivity|apply print_received].
  - intros b NA -> IN. assert (E0 : (addr =? 0) = false) by lia. rewrite E0. cbn [negb andb]. rewrite IN. eexists. split; [reflexivity|]. repeat split.
Qed.
Print Assumptions C91_recvmsg.

(** C91: however many messages are asked for, at most 1024 name lengths are kept. *)
Theorem C91_bound : forall w mem addr vlen, (length (save_mmsgvec_namelen w mem addr vlen) <= N.to_nat 1024)%nat.
Proof.
  intros w mem addr vlen. unfold save_mmsgvec_namelen.
  assert (L : forall n a, (length (save_loop n w mem a) <= n)%nat).
  { induction n as [|n IH]; intros a; [reflexivity|]. cbn [save_loop]. destruct (mem a); [|cbn; lia]. cbn [length]. specialize (IH (u64 (a + sz w))). lia. }
  eapply Nat.le_trans; [apply L|]. unfold IOV_MAX. destruct (N.ltb_spec 1024 vlen); lia.
Qed.
Print Assumptions C91_bound.

(** two messages of three received: name lengths 16 => 8 and 0; with -s 1 the second is left out *)
Definition ex_mem (n : Z) (a : N) : option mmsg :=
  if (a =? 4096) then Some {| m_hdr := {| h_namelen := n; h_rest := 1 |}; msg_len := 5 |}
  else if (a =? 4160) || (a =? 4224) then Some {| m_hdr := {| h_namelen := 0; h_rest := 2 |}; msg_len := 7 |} else None.
Definition ex_w (m : N) : world := {| sz := 64; abbrev := true; max_strlen := m |}.
Example C91_used :
  vec_ok (ex_w 32) 4096 2 /\
  recvmmsg_vec (ex_w 32) (ex_mem 16) (ex_mem 8) 4096 3 2 false =
    Ok (Elems [Msg {| s_hdr := {| h_namelen := 8; h_rest := 1 |}; s_decoded := 8; s_before := Some 16%Z; s_limit := Some 5 |} (Some 5);
               Msg {| s_hdr := {| h_namelen := 0; h_rest := 2 |}; s_decoded := 0; s_before := None; s_limit := Some 7 |} (Some 7)]) /\
  recvmmsg_vec (ex_w 1) (ex_mem 16) (ex_mem 16) 4096 3 2 false =
    Ok (Elems [Msg {| s_hdr := {| h_namelen := 16; h_rest := 1 |}; s_decoded := 16; s_before := None; s_limit := Some 5 |} (Some 5); More]) /\
  sendmmsg_vec (ex_w 32) (ex_mem 16) 4096 4 1 false =
    Ok (Elems [Msg {| s_hdr := {| h_namelen := 16; h_rest := 1 |}; s_decoded := 16; s_before := None; s_limit := None |} (Some 5);
               Msg {| s_hdr := {| h_namelen := 0; h_rest := 2 |}; s_decoded := 0; s_before := None; s_limit := None |} None;
               Msg {| s_hdr := {| h_namelen := 0; h_rest := 2 |}; s_decoded := 0; s_before := None; s_limit := None |} None; MoreAt 4288]).
Proof. split; [unfold vec_ok, ex_w; cbn [sz]; lia|]. repeat split; reflexivity. Qed.
