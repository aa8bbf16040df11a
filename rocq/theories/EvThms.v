(** C99: how the sets of event codes of an input device are shown. *)
From Coq Require Import Sorted.
From Verif Require Import Base Printf InfoModel XlatModel BitsModel BitsSpec BitsProofs EvModel EvSpec.
From Verif Require SelModel SelSpec SelProofs ExtModel TvalModel TvalSpec TvalThms DateThms InfoThms InfoSpec.
Local Open Scope N_scope.

Lemma limit_eq rval max : max < 2^32 -> size_bits rval max = limit rval max.
Proof.
  intros M. unfold size_bits, limit. pose proof (N.div_mod max 8 ltac:(lia)). pose proof (N.mod_lt max 8 ltac:(lia)). destruct (N.ltb_spec (max / 8) rval) as [L|L]; [lia|]. unfold u32. rewrite N.mod_small by lia. lia.
Qed.
Lemma nbytes_words e rval max : max < 2^32 -> ws e = 4 \/ ws e = 8 -> forall k, whole_words (ws e) (limit rval max) k -> nbytes e rval max = k.
Proof.
  intros M W k [K1 K2]. unfold nbytes, SelModel.roundup. rewrite limit_eq by exact M. set (n := limit rval max) in *. clearbody n.
  pose proof (N.div_mod (n + 7) 8 ltac:(lia)). pose proof (N.mod_lt (n + 7) 8 ltac:(lia)). set (q := (n + 7) / 8) in *. clearbody q.
  pose proof (N.div_mod k (ws e) ltac:(lia)). pose proof (N.div_mod (q + ws e - 1) (ws e) ltac:(lia)). pose proof (N.mod_lt (q + ws e - 1) (ws e) ltac:(lia)).
  destruct W as [W|W]; rewrite W in *; lia.
Qed.
Fixpoint tail_text (e : env) (name : N -> list N) (d : N) (l : list N) : list N :=
  match l with [] => [] | b :: r => if abbrev e && (3 <=? d) then bs " " ++ bs "..." else bs " " ++ name b ++ tail_text e name (d + 1) r end.
Lemma more_tail e name arr n : forall f i d l, SelModel.members f arr 0 n (i + 1) = Ok l -> more_bits f e name arr n i d = Ok (tail_text e name d l).
Proof.
  induction f as [|f IH]; intros i d l E; [discriminate E|]. cbn [SelModel.members more_bits] in *. destruct (next_set_bit arr 0 (i + 1) n) as [[b|]| |]; cbn [rbind] in *; try discriminate E.
  - destruct (SelModel.members f arr 0 n (b + 1)) as [r| |] eqn:M; cbn [rbind] in E; try discriminate E. inversion E; subst. cbn [tail_text]. destruct (abbrev e && (3 <=? d)); [reflexivity|]. rewrite (IH b (d + 1) r M). reflexivity.
  - inversion E. reflexivity.
Qed.
Lemma tail_all e name : abbrev e = false -> forall l d, tail_text e name d l = SelModel.bitset_tail (map name l).
Proof. intros A. induction l as [|b r IH]; intros d; [reflexivity|]. cbn [tail_text map SelModel.bitset_tail]. rewrite A. cbn [andb]. rewrite IH. reflexivity. Qed.
Lemma text_shown e name i l : bs "[" ++ name i ++ tail_text e name 0 l ++ bs "]" = set_text (shown (abbrev e) name (i :: l)).
Proof.
  unfold set_text, shown. f_equal. rewrite app_assoc. f_equal. destruct (abbrev e) eqn:A.
  - cbn [andb]. destruct l as [|b [|c [|d [|f l]]]]; unfold tail_text; rewrite ?A; cbn [andb]; change (3 <=? 0) with false; change (3 <=? 0 + 1) with false; change (3 <=? 0 + 1 + 1) with false; change (3 <=? 0 + 1 + 1 + 1) with true; cbn iota.
    1-4: cbn [length map join]; match goal with |- context [4 <? ?k] => replace (4 <? k) with false by (vm_compute; reflexivity) end; cbn [map join]; rewrite ?app_nil_r; reflexivity.
    replace (4 <? N.of_nat (length (i :: b :: c :: d :: f :: l))) with true by (symmetry; apply N.ltb_lt; cbn [length]; lia). cbn [firstn map app join]. rewrite <- ?app_assoc. reflexivity.
  - cbn [andb]. rewrite tail_all by exact A. rewrite <- SelProofs.bitset_body_join. reflexivity.
Qed.
Lemma codes_members arr n l : (forall b, b < n -> (N.to_nat (b / 8) < length arr)%nat) -> SelSpec.members_of arr 0 n l <-> codes arr n l.
Proof.
  intros C. unfold SelSpec.members_of, codes. assert (X : forall b, b < n -> bit_set arr 0 b <-> N.testbit (nth (N.to_nat (b / 8)) arr 0) (b mod 8) = true).
  { intros b B. unfold bit_set. rewrite N.lxor_0_r. split.
    - intros (y & E & T). rewrite (nth_error_nth _ _ 0 E). exact T.
    - intros T. eexists. split; [apply nth_error_nth'; apply C, B|exact T]. }
  split; intros [S H]; (split; [exact S|]); intros b; rewrite (H b); split; intros [B T]; (split; [exact B|]); apply (X b B), T.
Qed.
Lemma bits_ok e name arr n : n <= 2^32 - 8 -> n <= 8 * N.of_nat (length arr) -> exists l, codes arr n l /\ bits_text e name arr n = Ok (set_text (shown (abbrev e) name l)).
Proof.
  intros N0 L. assert (C : covers arr 0 n) by (intros p P; rewrite N.lxor_0_r; lia). assert (C' : forall b, b < n -> (N.to_nat (b / 8) < length arr)%nat).
  { intros b B. pose proof (N.div_mod b 8 ltac:(lia)). pose proof (N.mod_lt b 8 ltac:(lia)). lia. }
  destruct (SelProofs.members_ex arr 0 n N0 C) as (l & E & M). exists l. split; [apply codes_members; assumption|]. unfold bits_text. replace (N.to_nat n + 1)%nat with (S (N.to_nat n)) in E by lia. cbn [SelModel.members] in E.
  destruct (next_set_bit arr 0 0 n) as [[i|]| |]; cbn [rbind] in *; try discriminate E.
  - destruct (SelModel.members (N.to_nat n) arr 0 n (i + 1)) as [r| |] eqn:R; cbn [rbind] in E; try discriminate E. inversion E; subst. rewrite (more_tail e name arr n _ i 0 r R). cbn [rbind]. f_equal. apply text_shown.
  - inversion E. unfold shown. cbn [length map]. rewrite andb_comm. reflexivity.
Qed.
Definition ready (e : env) (arg : N) : Prop := arg <> 0 /\ ExtModel.verbose (o e) = true /\ ExtModel.failed (o e) = false /\ (ws e = 4 \/ ws e = 8).
Lemma decode_eq e m rval arg tab max dflt arr : ready e arg -> 0 < rval -> 0 < max <= 2^32 - 8 -> TvalSpec.bytes_at m arg arr -> whole_words (ws e) (limit rval max) (N.of_nat (length arr)) ->
  decode_bitset e m rval arg tab max dflt =
    (rlet t := (match style e with XRAW => Ok [] | st => bits_text e (code_text st tab dflt) arr (limit rval max) end) in
     let w := words_text e arr (N.of_nat (length arr) / ws e) in
     Ok (t ++ match style e with XABBREV => [] | XRAW => w | XVERBOSE => bs " /* " ++ w ++ bs " */" end)) /\ (0 < length arr)%nat.
Proof.
  intros (A & V & F & W) R M B K. unfold decode_bitset. rewrite (nbytes_words e rval max ltac:(lia) W _ K), limit_eq, F by lia. assert (Z : (0 < length arr)%nat) by (destruct K as [_ K]; unfold limit in K; lia). split; [|exact Z].
  replace (N.of_nat (length arr) =? 0) with false by lia. cbn [orb]. rewrite Nat2N.id, (TvalThms.fetched (o e) m arg arr A V F B). reflexivity.
Qed.

(** In the default style the names of exactly the codes less than the greatest one, of the bytes that were returned;
    four of them and dots if abbreviating.  That of the greatest code is missing: the claim is about all the codes. *)
Theorem C99_codes_partial : forall e m rval arg tab max dflt arr, ready e arg -> style e = XABBREV -> 0 < rval -> 0 < max <= 2^32 - 8 ->
  TvalSpec.bytes_at m arg arr -> whole_words (ws e) (limit rval max) (N.of_nat (length arr)) ->
  exists l, codes arr (limit rval max) l /\ decode_bitset e m rval arg tab max dflt = Ok (set_text (shown (abbrev e) (code_text XABBREV tab dflt) l)).
Proof.
  intros e m rval arg tab max dflt arr RD ST R M B K. destruct (decode_eq e m rval arg tab max dflt arr RD R M B K) as [-> _]. rewrite ST.
  destruct (bits_ok e (code_text XABBREV tab dflt) arr (limit rval max)) as (l & C & E); [unfold limit; lia|destruct K; lia|]. exists l. split; [exact C|]. rewrite E. cbn [rbind]. rewrite app_nil_r. reflexivity.
Qed.
Print Assumptions C99_codes_partial.
(** The greatest code is never shown.  It is in use: SW_MACHINE_COVER is SW_MAX. *)
Theorem C99_codes_refuted : exists e m arr, ready e 4096 /\ style e = XABBREV /\ TvalSpec.bytes_at m 4096 arr /\ length arr = 8%nat /\
  codes arr 17 [0x10] /\ forall tabs, bit_ioctl e m 8 0x05 4096 tabs = Ok (bs "[]").
Proof.
  pose (arr := [0; 0; 1; 0; 0; 0; 0; 0]). pose (m := fun a => if a <? 4096 then None else nth_error arr (N.to_nat (a - 4096))).
  exists {| o := {| ExtModel.verbose := true; ExtModel.failed := false; ExtModel.max_strlen := 32; ExtModel.pagesize := 4096 |}; abbrev := true; style := XABBREV; ws := 8 |}, m, arr.
  split; [repeat split; [discriminate|right; reflexivity]|]. split; [reflexivity|]. split; [intros i I0; change (length arr) with 8%nat in I0; do 8 (destruct i as [|i]; [vm_compute; reflexivity|]); lia|]. split; [reflexivity|]. split.
  - split; [repeat constructor|]. intros b. split.
    + intros [<-|[]]. split; [lia|reflexivity].
    + intros [B T]. left. assert (X : forallb (fun k => implb (N.testbit (nth (N.to_nat (k / 8)) arr 0) (k mod 8)) (16 =? k)) (map N.of_nat (seq 0 17)) = true) by (vm_compute; reflexivity).
      rewrite forallb_forall in X. specialize (X b). rewrite T in X. cbn [implb] in X. apply N.eqb_eq, X. apply in_map_iff. exists (N.to_nat b). split; [lia|]. apply in_seq. lia.
  - intros tabs. vm_compute. reflexivity.
Qed.
Print Assumptions C99_codes_refuted.
(** In the other styles the words, of as many whole words as hold the codes; the names before them in the verbose style. *)
Definition words_of (wsz : N) (arr : list N) : list N := map (fun i => InfoSpec.number_at arr (i * N.to_nat wsz) (N.to_nat wsz)) (seq 0 (N.to_nat (N.of_nat (length arr) / wsz))).
Definition hexed (t : list N) (n : N) : Prop := n = 0 /\ t = bs "0" \/ n <> 0 /\ exists d, t = bs "0x" ++ d /\ rd_num 16 0 d = Some n.
Fixpoint comma (l : list (list N)) : list N := match l with [] => [] | [x] => x | x :: r => x ++ bs ", " ++ comma r end.
Theorem C99_words : forall e m rval arg tab max dflt arr, ready e arg -> style e <> XABBREV -> 0 < rval -> 0 < max <= 2^32 - 8 ->
  TvalSpec.bytes_at m arg arr -> whole_words (ws e) (limit rval max) (N.of_nat (length arr)) ->
  exists ts l, Forall2 hexed ts (words_of (ws e) arr) /\ codes arr (limit rval max) l /\
  let w := bs "[" ++ comma (if abbrev e && (ExtModel.max_strlen (o e) <? N.of_nat (length ts)) then firstn (N.to_nat (ExtModel.max_strlen (o e))) ts ++ [bs "..."] else ts) ++ bs "]" in
  decode_bitset e m rval arg tab max dflt = Ok (match style e with XVERBOSE => set_text (shown (abbrev e) (code_text XVERBOSE tab dflt) l) ++ bs " /* " ++ w ++ bs " */" | _ => w end).
Proof.
  intros e m rval arg tab max dflt arr RD ST R M B K. destruct (decode_eq e m rval arg tab max dflt arr RD R M B K) as [-> _].
  exists (map (word_at e arr) (seq 0 (N.to_nat (N.of_nat (length arr) / ws e)))). destruct (bits_ok e (code_text (style e) tab dflt) arr (limit rval max)) as (l & C & E); [unfold limit; lia|destruct K; lia|]. exists l.
  split. { unfold words_of. generalize (seq 0 (N.to_nat (N.of_nat (length arr) / ws e))). intros s. induction s as [|i s IH]; cbn [map]; constructor; [|exact IH]. unfold word_at, TvalModel.hexa, hexed. rewrite InfoThms.ld_number.
    destruct (N.eqb_spec (InfoSpec.number_at arr (i * N.to_nat (ws e)) (N.to_nat (ws e))) 0) as [Z|Z]; [left; split; [exact Z|reflexivity]|right; split; [exact Z|]]. eexists. split; [reflexivity|apply pr_num_rd; lia]. }
  split; [exact C|]. cbv zeta. rewrite map_length, seq_length, N2Nat.id.
  assert (W : forall l, comma l = commas l) by (induction l0 as [|x r IH]; [reflexivity|]; cbn; rewrite IH; reflexivity). rewrite W.
  destruct (style e) eqn:S0; [contradiction| |]; [cbn [rbind app]; reflexivity|]. rewrite E. reflexivity.
Qed.
Print Assumptions C99_words.
(** What the system call did not return is shown as well, or its absence makes the whole an address:
    two memories with the same three bytes returned. *)
Theorem C99_returned_refuted : exists e, ready e 4096 /\ exists m m' m'' tab,
  (forall i, i < 3 -> exists b, m (4096 + i) = Some b /\ m' (4096 + i) = Some b /\ m'' (4096 + i) = Some b) /\
  exists t t' t'', decode_bitset e m 3 4096 tab 0x1f (bs "EV_???") = Ok t /\ decode_bitset e m' 3 4096 tab 0x1f (bs "EV_???") = Ok t' /\
  decode_bitset e m'' 3 4096 tab 0x1f (bs "EV_???") = Ok t'' /\ t = bs "[0x20000b]" /\ t' = bs "[0x110000000020000b]" /\ t'' = bs "0x1000".
Proof.
  exists {| o := {| ExtModel.verbose := true; ExtModel.failed := false; ExtModel.max_strlen := 32; ExtModel.pagesize := 4096 |}; abbrev := false; style := XRAW; ws := 8 |}.
  split; [repeat split; [discriminate|right; reflexivity]|].
  exists (fun a => nth_error [0x0b; 0; 0x20; 0; 0; 0; 0; 0] (N.to_nat (a - 4096))), (fun a => nth_error [0x0b; 0; 0x20; 0; 0; 0; 0; 0x11] (N.to_nat (a - 4096))), (fun a => nth_error [0x0b; 0; 0x20] (N.to_nat (a - 4096))), {| ty := XT_NORMAL; data := [] |}.
  split. { intros i I0. assert (D : i = 0 \/ i = 1 \/ i = 2) by lia. destruct D as [->|[->| ->]]; eexists; repeat split; vm_compute; reflexivity. }
  do 3 eexists. repeat split; vm_compute; reflexivity.
Qed.
Print Assumptions C99_returned_refuted.
(** An address: of a call that failed or returned nothing, and of memory that cannot be read. *)
Theorem C99_address : forall e m rval arg tab max dflt, 0 < max <= 2^32 - 8 -> ws e = 4 \/ ws e = 8 ->
  (ExtModel.failed (o e) = true \/ rval = 0 \/ arg = 0 \/ ExtModel.verbose (o e) = false \/ exists n, whole_words (ws e) (limit rval max) n /\ TvalSpec.unreadable m arg (N.to_nat n)) ->
  exists t, decode_bitset e m rval arg tab max dflt = Ok t /\ TvalSpec.address t arg.
Proof.
  intros e m rval arg tab max dflt M W H. exists (TvalModel.printaddr arg). split; [|apply TvalThms.printaddr_ok]. unfold decode_bitset. cbv zeta.
  destruct (ExtModel.failed (o e)) eqn:F; [reflexivity|]. cbn [orb]. destruct (nbytes e rval max =? 0) eqn:Z; [reflexivity|].
  rewrite TvalThms.not_fetched; [reflexivity|]. destruct H as [H|[->|[->|[H|(n & K & U)]]]]; [discriminate H| |left; reflexivity|right; left; exact H|].
  - exfalso. apply N.eqb_neq in Z. apply Z. apply (nbytes_words e 0 max ltac:(lia) W 0). split; [apply N.mod_0_l; destruct W; lia|unfold limit; destruct W; lia].
  - right. right. right. rewrite (nbytes_words e rval max ltac:(lia) W n K). exact U.
Qed.
Print Assumptions C99_address.
(** ioctl(EVIOCGBIT) of each type of events *)
Theorem C99_types_partial : forall e m rval ev max dflt arg tabs arr, In (ev, max, dflt) event_types -> ready e arg -> style e = XABBREV -> 0 < rval ->
  TvalSpec.bytes_at m arg arr -> whole_words (ws e) (limit rval max) (N.of_nat (length arr)) ->
  exists l, codes arr (limit rval max) l /\ bit_ioctl e m rval ev arg tabs = Ok (set_text (shown (abbrev e) (code_text XABBREV (tabs ev) dflt) l)).
Proof.
  intros e m rval ev max dflt arg tabs arr I0 RD ST R B K.
  assert (X : bit_kind ev = Some (max, dflt) /\ 0 < max <= 2^32 - 8).
  { repeat (destruct I0 as [E|I0]; [apply pair_equal_spec in E as [E <-]; apply pair_equal_spec in E as [<- <-]; split; [reflexivity|lia]|]). destruct I0. }
  destruct X as [X M]. unfold bit_ioctl. rewrite X. exact (C99_codes_partial e m rval arg (tabs ev) max dflt arr RD ST R M B K).
Qed.
Print Assumptions C99_types_partial.
Lemma umoven_some m n : forall a b, ExtModel.umoven m a n = Some b -> length b = n /\ TvalSpec.bytes_at m a b.
Proof.
  induction n as [|n IH]; intros a b E; cbn [ExtModel.umoven] in E; [inversion E; split; [reflexivity|intros i I0; cbn in I0; lia]|].
  destruct (m (u64 a)) as [x|] eqn:X; [|discriminate E]. destruct (ExtModel.umoven m (a + 1) n) as [r|] eqn:R; [|discriminate E]. inversion E; subst. destruct (IH _ _ R) as [L B]. split; [cbn; lia|].
  intros [|i] I0; [cbn [nth]; rewrite N.add_0_r; exact X|]. cbn [nth length] in *. specialize (B i ltac:(lia)). rewrite <- B. f_equal. f_equal. lia.
Qed.
(** Other types are addresses, but the number of EV_PWR. *)
Theorem C99_other_types : forall e m rval ev arg tabs, (forall max dflt, ~ In (ev, max, dflt) event_types) ->
  exists t, bit_ioctl e m rval ev arg tabs = Ok t /\
  (TvalSpec.address t arg \/ ev = 0x16 /\ exists b x, TvalSpec.bytes_at m arg b /\ length b = 4%nat /\ t = bs "[" ++ x ++ bs "]" /\ TvalSpec.integer x (InfoSpec.signed_at b 0 4)).
Proof.
  intros e m rval ev arg tabs NI.
  assert (X : bit_kind ev = None).
  { unfold bit_kind. repeat match goal with |- context [ev =? ?k] => destruct (N.eqb_spec ev k) as [->|_]; [exfalso; eapply NI; cbn [event_types In]; tauto|] end. reflexivity. }
  unfold bit_ioctl. rewrite X. destruct (N.eqb_spec ev 0x16) as [->|_]; [|eexists; split; [reflexivity|left; apply TvalThms.printaddr_ok]].
  destruct (ExtModel.umoven_or_printaddr (o e) m arg 4) as [b|] eqn:U; [|eexists; split; [reflexivity|left; apply TvalThms.printaddr_ok]].
  unfold ExtModel.umoven_or_printaddr in U. destruct ((arg =? 0) || negb (ExtModel.verbose (o e)) || ExtModel.failed (o e)); [discriminate U|].
  eexists. split; [reflexivity|]. right. split; [reflexivity|]. exists b, (TvalModel.sdec (TvalModel.sx 4 (ld b 0 4))).
  destruct (umoven_some m 4 arg b U) as [LB B]. split; [exact B|]. split; [exact LB|]. split; [reflexivity|]. rewrite InfoThms.ld_number. apply DateThms.sdec_integer.
Qed.
Print Assumptions C99_other_types.

(** ---- examples ---- *)
Definition keys : xlat := {| ty := XT_NORMAL; data := [(0, Some (bs "SW_LID")); (1, Some (bs "SW_TABLET_MODE")); (3, Some (bs "SW_RADIO"))] |}.
Definition env_ex (a : bool) (st : xstyle_t) : env :=
  {| o := {| ExtModel.verbose := true; ExtModel.failed := false; ExtModel.max_strlen := 32; ExtModel.pagesize := 4096 |}; abbrev := a; style := st; ws := 8 |}.
Definition mem_ex : ExtModel.memory := fun a => if a <? 4096 then None else nth_error [0x0b; 0x81; 0; 0; 0; 0; 0; 0] (N.to_nat (a - 4096)).
Example sets_ex : bit_ioctl (env_ex false XABBREV) mem_ex 8 5 4096 (fun _ => keys) = Ok (bs "[SW_LID SW_TABLET_MODE SW_RADIO 0x8 /* SW_??? */ 0xf /* SW_??? */]") /\
  bit_ioctl (env_ex true XABBREV) mem_ex 8 5 4096 (fun _ => keys) = Ok (bs "[SW_LID SW_TABLET_MODE SW_RADIO 0x8 /* SW_??? */ ...]") /\
  bit_ioctl (env_ex true XRAW) mem_ex 8 5 4096 (fun _ => keys) = Ok (bs "[0x810b]") /\
  bit_ioctl (env_ex true XVERBOSE) mem_ex 1 5 4096 (fun _ => keys) = Ok (bs "[0 /* SW_LID */ 0x1 /* SW_TABLET_MODE */ 0x3 /* SW_RADIO */] /* [0x810b] */").
Proof. vm_compute. repeat split; reflexivity. Qed.
Example hyps_ex : ready (env_ex true XABBREV) 4096 /\ TvalSpec.bytes_at mem_ex 4096 [0x0b; 0x81; 0; 0; 0; 0; 0; 0] /\ whole_words 8 (limit 8 16) 8 /\ In (5, 16, bs "SW_???") event_types /\
  TvalSpec.unreadable mem_ex 8 8.
Proof.
  split; [repeat split; [discriminate|right; reflexivity]|]. split; [intros i I0; change (length _) with 8%nat in I0; do 8 (destruct i as [|i]; [vm_compute; reflexivity|]); lia|].
  split; [split; vm_compute; intuition congruence|]. split; [cbn [event_types In]; tauto|]. exists 0%nat. split; [lia|vm_compute; reflexivity].
Qed.
