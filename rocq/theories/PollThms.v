(** C90: what is said of the result of poll. *)
From Verif Require Import Base Printf PollModel PollSpec.
From Verif Require TvalSpec TvalModel DateThms.
Local Open Scope N_scope.

Definition pre (ts : list (list N)) : list N := match ts with [] => [] | _ => bs "[" ++ joined ts end.
Lemma joined_snoc ts t : ts <> [] -> joined (ts ++ [t]) = joined ts ++ bs ", " ++ t.
Proof.
  induction ts as [|a ts IH]; intros NE; [contradiction NE; reflexivity|]. destruct ts as [|b ts]; [reflexivity|]. cbn [app].
  change (joined (a :: b :: ts ++ [t])) with (a ++ bs ", " ++ joined ((b :: ts) ++ [t])). change (joined (a :: b :: ts)) with (a ++ bs ", " ++ joined (b :: ts)).
  rewrite IH by discriminate. rewrite <- !app_assoc. reflexivity.
Qed.
Lemma pre_nil ts : pre ts = [] <-> ts = [].
Proof. destruct ts; split; intros; auto; discriminate. Qed.
Lemma pre_snoc ts t : pre (ts ++ [t]) = begin (pre ts) ++ t.
Proof.
  destruct ts as [|a ts]; [reflexivity|]. unfold pre at 1. destruct ((a :: ts) ++ [t]) eqn:E; [discriminate|]. rewrite <- E, joined_snoc by discriminate.
  change (pre (a :: ts)) with (91 :: joined (a :: ts)). cbn [begin]. change (bs "[") with [91]. cbn [app]. rewrite <- !app_assoc. reflexivity.
Qed.
Lemma listing_pre ts : listing ts = match pre ts with [] => [] | _ => pre ts ++ bs "]" end.
Proof. destruct ts as [|a ts]; [reflexivity|]. unfold listing, pre. rewrite app_assoc. reflexivity. Qed.
Lemma len_app a b : len (a ++ b) = len a + len b. Proof. unfold len. rewrite app_length. lia. Qed.

(** what the loop does with the elements left *)
Lemma loop_spec e fuel : forall cur done, cur + 8 * N.of_nat fuel < 2^64 -> N.of_nat (length done) + N.of_nat fuel < 2^32 ->
  (abbrev e = true -> N.of_nat (length done) <= max_strlen e) ->
  exists l k tail, let R := map (entry e) (ready l) in
    elements e cur l /\ (length l <= fuel)%nat /\ ((length l < fuel)%nat -> rd e (at_ cur (length l)) = None) /\
    poll_loop fuel e cur (N.of_nat (length done)) (pre done) = pre (done ++ firstn k R ++ tail) /\
    (abbrev e = true -> N.of_nat (length done + k) <= max_strlen e) /\
    ((k = length R /\ tail = if Nat.eqb (length l) fuel then [] else [hex (at_ cur (length l))]) \/
     ((k < length R)%nat /\ tail = [bs "..."] /\
      ((abbrev e = true /\ N.of_nat (length done + k) = max_strlen e) \/ 1024 - 27 <= len (pre (done ++ firstn (S k) R))))).
Proof.
  induction fuel as [|fuel IH]; intros cur done C L M.
  - exists [], 0%nat, []. cbn [map ready filter length firstn app poll_loop]. rewrite app_nil_r. split; [intros i I; cbn in I; lia|]. split; [lia|]. split; [lia|]. split; [reflexivity|]. split; [intros A; specialize (M A); lia|]. left. split; reflexivity.
  - cbn [poll_loop]. destruct (rd e cur) as [[fd ev]|] eqn:RD.
    + assert (NX : u64 (cur + 8) = cur + 8) by (apply N.mod_small; lia). rewrite NX.
      assert (SH : forall l, elements e (cur + 8) l -> elements e cur ((fd, ev) :: l)).
      { intros l EL i I. destruct i as [|i]; [unfold at_; rewrite N.add_0_r; exact RD|]. cbn [nth_error]. rewrite <- EL by (cbn [length] in I; lia). f_equal. unfold at_. lia. }
      assert (AT : forall i, at_ (cur + 8) i = at_ cur (S i)) by (intros i; unfold at_; lia).
      destruct (N.eqb_spec ev 0) as [->|NZ].
      * destruct (IH (cur + 8) done) as (l & k & tail & EL & LE & UN & P & A & D); [lia|lia|exact M|]. exists ((fd, 0) :: l), k, tail. cbn [ready filter snd]. change (negb (0 =? 0)) with false. cbv iota. fold (ready l). cbv zeta in *. cbn [length].
        split; [apply SH, EL|]. split; [lia|]. split; [intros X; rewrite <- AT; apply UN; lia|]. split; [exact P|]. split; [exact A|]. rewrite <- AT. exact D.
      * assert (RE : forall l, map (entry e) (ready ((fd, ev) :: l)) = entry e (fd, ev) :: map (entry e) (ready l)) by (intros l; unfold ready; cbn [filter snd]; assert (E0 : (ev =? 0) = false) by lia; rewrite E0; reflexivity).
        unfold sequence_truncation_needed. assert (U : u32 (N.of_nat (length done) + 1) = N.of_nat (length done) + 1) by (apply N.mod_small; lia). rewrite U.
        assert (DOTS : forall (Q : (abbrev e = true /\ N.of_nat (length done + 0) = max_strlen e) \/ 1024 - 27 <= len (pre (done ++ [entry e (fd, ev)]))),
          exists l k tail, let R := map (entry e) (ready l) in
          elements e cur l /\ (length l <= S fuel)%nat /\ ((length l < S fuel)%nat -> rd e (at_ cur (length l)) = None) /\
          begin (pre done) ++ bs "..." = pre (done ++ firstn k R ++ tail) /\
          (abbrev e = true -> N.of_nat (length done + k) <= max_strlen e) /\
          ((k = length R /\ tail = if Nat.eqb (length l) (S fuel) then [] else [hex (at_ cur (length l))]) \/
           ((k < length R)%nat /\ tail = [bs "..."] /\
            ((abbrev e = true /\ N.of_nat (length done + k) = max_strlen e) \/ 1024 - 27 <= len (pre (done ++ firstn (S k) R)))))).
        { intros Q. assert (EX : exists l, elements e cur l /\ (length l <= S fuel)%nat /\ ((length l < S fuel)%nat -> rd e (at_ cur (length l)) = None) /\ exists l', l = (fd, ev) :: l').
          { clear - RD AT SH C. assert (G : forall n c, exists l, elements e c l /\ (length l <= n)%nat /\ ((length l < n)%nat -> rd e (at_ c (length l)) = None)).
            { induction n as [|n IH]; intros c; [exists []; repeat split; cbn; try lia; intros i I; cbn in I; lia|]. destruct (rd e c) as [x|] eqn:RC.
              - destruct (IH (c + 8)) as (l & E1 & E2 & E3). exists (x :: l). split; [|split; [cbn; lia|]].
                + intros i I. destruct i as [|i]; [unfold at_; rewrite N.add_0_r; exact RC|]. cbn [nth_error]. rewrite <- E1 by (cbn [length] in I; lia). f_equal. unfold at_. lia.
                + intros X. cbn [length] in *. rewrite <- E3 by lia. f_equal. unfold at_. lia.
              - exists []. repeat split; cbn [length]; try lia; [intros i I; cbn in I; lia|]. intros _. unfold at_. rewrite N.add_0_r. exact RC. }
            destruct (G fuel (cur + 8)) as (l & E1 & E2 & E3). exists ((fd, ev) :: l). split; [apply SH, E1|]. cbn [length]. split; [lia|]. split; [intros X; rewrite <- AT; apply E3; lia|exists l; reflexivity]. }
          destruct EX as (l & E1 & E2 & E3 & l' & ->). exists ((fd, ev) :: l'), 0%nat, [bs "..."]. cbv zeta. rewrite RE. cbn [firstn app length map].
          split; [exact E1|]. split; [exact E2|]. split; [exact E3|]. split; [rewrite pre_snoc; reflexivity|]. split; [intros X; specialize (M X); lia|]. right. split; [lia|]. split; [reflexivity|]. exact Q. }
        destruct (abbrev e && (max_strlen e <? N.of_nat (length done) + 1)) eqn:TR; [apply DOTS; left; apply andb_true_iff in TR as [T1 T2]; specialize (M T1); split; [exact T1|lia]|].
        destruct (size_outstr - reserve <=? _) eqn:FU.
        { apply DOTS. right. rewrite pre_snoc, len_app. unfold entry. cbn [fst snd]. rewrite !len_app in *. apply N.leb_le in FU. unfold size_outstr, reserve in FU. change (len (bs "}")) with 1. lia. }
        clear DOTS. assert (TM : abbrev e = true -> N.of_nat (length (done ++ [entry e (fd, ev)])) <= max_strlen e) by (intros X; rewrite X in TR; cbn [andb] in TR; rewrite app_length; cbn [length]; lia).
        destruct (IH (cur + 8) (done ++ [entry e (fd, ev)])) as (l & k & tail & EL & LE & UN & P & A & D); [lia|rewrite app_length; cbn [length]; lia|exact TM|].
        exists ((fd, ev) :: l), (S k), tail. cbv zeta in *. rewrite RE. cbn [firstn length].
        split; [apply SH, EL|]. split; [lia|]. split; [intros X; rewrite <- AT; apply UN; lia|].
        assert (AS : forall r, (done ++ [entry e (fd, ev)]) ++ r = done ++ entry e (fd, ev) :: r) by (intros r; rewrite <- app_assoc; reflexivity).
        rewrite !AS in P. rewrite pre_snoc in P. rewrite app_length in P, A, D. cbn [length] in P, A, D. unfold entry in P at 1. cbn [fst snd] in P.
        assert (U2 : N.of_nat (length done + 1) = N.of_nat (length done) + 1) by lia. rewrite U2 in P.
        split; [cbn [app]; rewrite <- P; rewrite <- !app_assoc; reflexivity|]. split; [intros X; specialize (A X); lia|].
        destruct D as [[D1 D2]|(D1 & D2 & D3)]; [left; split; [lia|]; rewrite <- AT; exact D2|right]. split; [lia|]. split; [exact D2|]. destruct D3 as [[D3 D4]|D3]; [left; split; [exact D3|lia]|right].
        rewrite AS in D3. exact D3.
    + exists [], 0%nat, [hex cur]. cbn [map ready filter length firstn app Nat.eqb]. rewrite pre_snoc. split; [intros i I; cbn in I; lia|]. split; [lia|]. split; [unfold at_; rewrite N.add_0_r; auto|]. split; [reflexivity|]. split; [intros A; specialize (M A); lia|].
      left. split; [reflexivity|]. unfold at_. rewrite N.add_0_r. reflexivity.
Qed.

(** For every array, readable or not, all options and every time left: what is said after a positive result. *)
Theorem C90_result : forall e rval start nfds pts, rval <> 0 -> array_ok start nfds -> verbose e = true ->
  exists o t, result_list e start nfds o /\ with_left e pts o t /\
    decode_poll_exiting e false rval start nfds pts = match t with [] => None | _ => Some t end.
Proof.
  intros e rval start nfds pts NZ (S0 & [N0 N1] & S1) V. unfold decode_poll_exiting. destruct (N.eqb_spec rval 0) as [|_]; [contradiction|].
  assert (U : u64 (8 * nfds) = 8 * nfds) by (apply N.mod_small; lia). rewrite U. assert (U2 : u64 (start + 8 * nfds) = start + 8 * nfds) by (apply N.mod_small; lia). rewrite U2, V.
  assert (DV : 8 * nfds / 8 = nfds) by (rewrite N.mul_comm; apply N.div_mul; lia). rewrite DV, N.eqb_refl.
  assert (G : negb true || (start =? 0) || (nfds =? 0) || negb true || (start + 8 * nfds <? start) = false) by (cbn [negb]; rewrite !orb_false_iff; repeat split; lia). rewrite G.
  destruct (loop_spec e (N.to_nat nfds) start []) as (l & k & tail & EL & LE & UN & P & A & D); [lia|cbn [length]; lia|cbn [length]; lia|]. cbv zeta in *. cbn [length app pre Nat.add] in *.
  assert (RL : result_list e start nfds (listing (firstn k (map (entry e) (ready l)) ++ tail))).
  { exists l, k, tail. cbv zeta. split; [exact EL|]. split; [lia|]. split; [intros X; apply UN; lia|]. split; [reflexivity|]. split; [exact A|].
    destruct D as [[D1 D2]|(D1 & D2 & D3)]; [left|right].
    - split; [exact D1|]. rewrite D2. destruct (Nat.eqb_spec (length l) (N.to_nat nfds)), (N.eqb_spec (N.of_nat (length l)) nfds); try reflexivity; lia.
    - split; [exact D1|]. split; [exact D2|]. destruct D3 as [D3|D3]; [left; exact D3|right]. unfold pre in D3. destruct (firstn (S k) (map (entry e) (ready l))) eqn:F; [|exact D3].
      exfalso. destruct (map (entry e) (ready l)); [cbn [length] in D1; lia|discriminate F]. }
  change (N.of_nat 0) with 0 in P. rewrite P. rewrite <- listing_pre. set (o := listing _) in *. exists o.
  assert (WL : exists t, with_left e pts o t /\ t = (if pts =? 0 then o else if len o + 8 + len (ts e pts) <? size_outstr then o ++ match o with [] => bs "left " | _ => bs ", left " end ++ ts e pts else o ++ bs ", ...")).
  { unfold size_outstr. destruct (N.eqb_spec pts 0) as [Z|NP]; [exists o; split; [apply WL_none, Z|reflexivity]|]. destruct (N.ltb_spec (len o + 8 + len (ts e pts)) 1024).
    - destruct o as [|c o'] eqn:EO; [eexists; split; [apply WL_only; auto; change (len []) with 0 in H; lia|reflexivity]|]. rewrite <- EO in *. eexists. split; [apply WL_left; [auto|rewrite EO; discriminate|lia]|rewrite EO; reflexivity].
    - eexists. split; [apply WL_more; [auto|lia]|reflexivity]. }
  destruct WL as (t & W & ->). eexists. split; [exact RL|]. split; [exact W|]. reflexivity.
Qed.
Print Assumptions C90_result.

(** In all other cases: nothing for a failed call, "Timeout" for zero, and nothing for an array that is not decoded. *)
Theorem C90_no_list : forall e rval start nfds pts, start < 2^64 -> nfds < 2^32 ->
  decode_poll_exiting e true rval start nfds pts = None /\
  decode_poll_exiting e false 0 start nfds pts = Some (bs "Timeout") /\
  (rval <> 0 -> verbose e = false \/ ~ array_ok start nfds -> decode_poll_exiting e false rval start nfds pts = None).
Proof.
  intros e rval start nfds pts SL NL. unfold decode_poll_exiting. split; [reflexivity|]. split; [reflexivity|]. intros NZ H. destruct (N.eqb_spec rval 0); [contradiction|].
  assert (U : u64 (8 * nfds) = 8 * nfds) by (apply N.mod_small; lia). rewrite U.
  assert (G : negb (verbose e) || (start =? 0) || (nfds =? 0) || negb (8 * nfds / 8 =? nfds) || (u64 (start + 8 * nfds) <? start) = true).
  { destruct H as [->|H]; [reflexivity|]. unfold array_ok in H. rewrite !orb_true_iff. destruct (N.eq_dec start 0); [left; left; left; right; lia|]. destruct (N.eq_dec nfds 0); [left; left; right; lia|]. right.
    assert (W : u64 (start + 8 * nfds) = start + 8 * nfds - 2^64). { unfold u64. symmetry. apply N.mod_unique with (q := 1); lia. } rewrite W. lia. }
  rewrite G. reflexivity.
Qed.
Print Assumptions C90_no_list.

(** ---- the buffer ---- *)
Lemma hex_len a : a < 2^64 -> len (hex a) <= 18.
Proof.
  intros A. unfold hex. destruct (a =? 0); [vm_compute; discriminate|]. rewrite len_app. change (len (bs "0x")) with 2. unfold len. pose proof (pr_num_length 16 a 15 ltac:(lia) ltac:(exact A)). lia.
Qed.
Lemma begin_len o : len (begin o) <= len o + 2 /\ (o = [] -> len (begin o) = 1).
Proof.
  destruct o as [|c o]; [split; [vm_compute; discriminate|reflexivity]|]. unfold begin. rewrite len_app. change (len (bs ", ")) with 2. split; [lia|discriminate].
Qed.
Lemma loop_fits e fuel : forall cur printed o, cur < 2^64 -> len o < 997 -> len (poll_loop fuel e cur printed o) <= 1016.
Proof.
  induction fuel as [|fuel IH]; intros cur printed o C L; cbn [poll_loop]; [lia|]. pose proof (begin_len o) as [B _]. assert (U : u64 (cur + 8) < 2^64) by (apply N.mod_lt; lia).
  destruct (rd e cur) as [[fd ev]|]; [|rewrite len_app; pose proof (hex_len cur C); lia]. destruct (ev =? 0); [apply IH; auto|].
  assert (D : len (begin o ++ bs "...") <= 1016) by (rewrite len_app; change (len (bs "...")) with 3; lia).
  destruct (sequence_truncation_needed e (printed + 1)); [exact D|]. destruct (N.leb_spec (size_outstr - reserve) (len (begin o) + len (bs "{fd=" ++ dec fd ++ bs ", revents=") + len (flags e ev) + 1)); [exact D|].
  apply IH; [exact U|]. unfold size_outstr, reserve in H. rewrite !len_app in *. change (len (bs "}")) with 1. lia.
Qed.
(** The text and its NUL never exceed the buffer of 1024 bytes: whatever the memory holds, however long the
    texts of flags and of the time left are, in whatever array. *)
Theorem C90_fits : forall e failed rval start nfds pts t, start < 2^64 ->
  decode_poll_exiting e failed rval start nfds pts = Some t -> len t + 1 <= 1024.
Proof.
  intros e failed rval start nfds pts t S. unfold decode_poll_exiting. destruct failed; [discriminate|]. destruct (rval =? 0); [intros E; injection E as <-; vm_compute; discriminate|].
  destruct (_ || _); [discriminate|]. pose proof (loop_fits e (N.to_nat nfds) start 0 [] S ltac:(vm_compute; reflexivity)) as L. set (o := poll_loop _ _ _ _ _) in *.
  assert (L1 : len (match o with [] => [] | _ => o ++ bs "]" end) <= 1017) by (destruct o as [|c o']; [vm_compute; discriminate|rewrite len_app; change (len (bs "]")) with 1; lia]).
  set (o1 := match o with [] => [] | _ => _ end) in *. clearbody o1. clear L. intros E.
  assert (T : t = if pts =? 0 then o1 else if len o1 + 8 + len (ts e pts) <? size_outstr then o1 ++ match o1 with [] => bs "left " | _ => bs ", left " end ++ ts e pts else o1 ++ bs ", ...") by (destruct (if pts =? 0 then _ else _); [discriminate|injection E as <-; reflexivity]).
  rewrite T. unfold size_outstr. destruct (pts =? 0); [lia|]. destruct (N.ltb_spec (len o1 + 8 + len (ts e pts)) 1024).
  - destruct o1 as [|c o2] eqn:EO; [rewrite !len_app; change (len []) with 0 in *; change (len (bs "left ")) with 5; lia|]. rewrite <- EO in *. rewrite !len_app. change (len (bs ", left ")) with 7. lia.
  - rewrite len_app. change (len (bs ", ...")) with 5. lia.
Qed.
Print Assumptions C90_fits.

(** three descriptors, of which two have events; the limit of -s; an element that cannot be read; the time left *)
Definition ex_env (m : N) : env :=
  {| rd := fun a => if a =? 4096 then Some (3%Z, 1) else if a =? 4104 then Some (4%Z, 0) else if a =? 4112 then Some (5%Z, 4) else None;
     flags := fun v => if v =? 1 then bs "POLLIN" else bs "POLLOUT"; ts := fun _ => bs "{tv_sec=1, tv_nsec=0}"; verbose := true; abbrev := true; max_strlen := m |}.
Example C90_used :
  decode_poll_exiting (ex_env 32) false 2 4096 3 0 = Some (bs "[{fd=3, revents=POLLIN}, {fd=5, revents=POLLOUT}]") /\
  decode_poll_exiting (ex_env 1) false 2 4096 3 8192 = Some (bs "[{fd=3, revents=POLLIN}, ...], left {tv_sec=1, tv_nsec=0}") /\
  decode_poll_exiting (ex_env 32) false 2 4096 4 0 = Some (bs "[{fd=3, revents=POLLIN}, {fd=5, revents=POLLOUT}, 0x1018]") /\
  decode_poll_exiting (ex_env 32) false 1 4104 1 0 = None /\ array_ok 4096 4 /\
  (exists t, decode_poll_exiting {| rd := fun a => Some (3%Z, 1); flags := fun _ => bs "POLLIN"; ts := fun _ => []; verbose := true; abbrev := false; max_strlen := 32 |} false 1000 4096 1000 0 = Some t /\ len t = 989).
Proof. repeat split; try reflexivity; try lia. eexists. split; [vm_compute; reflexivity|vm_compute; reflexivity]. Qed.

(** ... and the descriptor of an entry is in decimal, with its sign *)
Theorem C90_descriptor : forall z, TvalSpec.integer (dec z) z.
Proof.
  intros z. replace (dec z) with (TvalModel.sdec z); [apply DateThms.sdec_integer|]. reflexivity.
Qed.
Print Assumptions C90_descriptor.
