(** C107: how the calls for extended attributes are shown. *)
From Verif Require Import Base Printf XlatModel QuoteModel QuoteSpec QuoteProofs XattrModel XattrSpec VmSpec FlagText.
From Verif Require BitsModel ExtModel TvalModel TvalSpec TvalThms NumaModel NumaSpec NumaThms.
Local Open Scope N_scope.

(** the buffer of printstr_ex has max_strlen + 1 bytes; hexadecimal escapes are told by [h] *)
Definition ready (h : hexrule) (e : env) : Prop := bytes_ok (old e) /\ N.of_nat (length (old e)) = max e + 1 /\ (h = Two \/ xf e <> HEXSTR_NON_ASCII_CHARS).

Lemma from_bytes mem v : forall a n, TvalSpec.bytes_at mem a v -> firstn (Nat.min n (length v)) (from mem a n) = firstn n v.
Proof.
  induction v as [|x v IH]; intros a n B; [rewrite Nat.min_0_r, firstn_nil; reflexivity|]. destruct n; [reflexivity|]. cbn [length Nat.min from].
  pose proof (B 0%nat ltac:(cbn; lia)) as B0. cbn [nth] in B0. rewrite N.add_0_r in B0. rewrite B0. cbn [firstn]. f_equal. apply IH.
  intros i I. specialize (B (S i) ltac:(cbn [length]; lia)). cbn [nth] in B. rewrite <- B. f_equal. f_equal. lia.
Qed.
Lemma from_unreadable mem : forall n a k, TvalSpec.unreadable mem a k -> (length (from mem a n) < k)%nat.
Proof.
  induction n as [|n IH]; intros a k (i & I & U); [cbn; lia|]. cbn [from]. destruct (mem (u64 a)) as [b|] eqn:E; [|cbn; lia]. cbn [length].
  destruct i as [|i]; [rewrite N.add_0_r in U; congruence|]. destruct k as [|k]; [lia|]. apply -> Nat.succ_lt_mono. apply IH. exists i. split; [lia|]. rewrite <- U. f_equal. f_equal. lia.
Qed.
Lemma quoted h e omit n s : bytes_ok s -> h = Two \/ xf e <> HEXSTR_NON_ASCII_CHARS -> (n <= length s)%nat ->
  exists body b rc, string_quote s n (style e omit) None = Ok (bs """" ++ body ++ bs """", rc) /\ unquote h Plain body = Some b /\
  (b = firstn n s /\ rc = true \/ omit = true /\ rc = false /\ firstn n s = b ++ [0]).
Proof.
  intros B R L. destruct (string_quote_total s n (style e omit) None B L) as (out & rc & E).
  destruct (string_quote_lossless h s n (style e omit) None out rc B R E) as (body & b & O & U & S & T & _). exists body, b, rc.
  split; [rewrite E, O; unfold wrap; cbn [comment omit_quotes style app]; rewrite app_nil_r; reflexivity|]. split; [exact U|].
  destruct S as [S|(_ & S1 & S2 & S3)]; [left; split; [exact S|apply T; [reflexivity|exact S]]|right; split; [exact S1|split; [exact S2|exact S3]]].
Qed.
Lemma printstr_shown h e omit addr v : ready h e -> addr <> 0 -> bytes_ok v -> TvalSpec.bytes_at (m e) addr v ->
  exists body b rc, let sh := firstn (N.to_nat (max e)) v in
  printstr e omit addr (N.of_nat (length v)) = Ok ((bs """" ++ body ++ bs """") ++ if rc && (N.to_nat (max e) <? length v)%nat then bs "..." else []) /\
  unquote h Plain body = Some b /\ (b = sh /\ rc = true \/ omit = true /\ rc = false /\ sh = b ++ [0]).
Proof.
  intros (BO & LO & R) A BV M. unfold printstr, printstr_ex. apply N.eqb_neq in A. rewrite A. cbn [q0term style expect0 orb].
  set (len := N.of_nat (length v)). set (size := if len <? max e + 1 then len else max e + 1).
  assert (SZ : size = N.min len (max e + 1)) by (unfold size; destruct (N.ltb_spec len (max e + 1)); lia).
  set (src := from (m e) addr (N.to_nat (max e + 1))).
  assert (FS : firstn (N.to_nat size) src = firstn (N.to_nat (max e + 1)) v).
  { rewrite <- (from_bytes (m e) v addr (N.to_nat (max e + 1)) M). fold src. f_equal. rewrite SZ. unfold len. lia. }
  assert (LS : (N.to_nat size <= length src)%nat).
  { apply (f_equal (@length N)) in FS. rewrite !firstn_length in FS. rewrite SZ in *. unfold len in *. lia. }
  unfold fetch. replace (N.to_nat size <=? length src)%nat with true by (symmetry; apply Nat.leb_le; exact LS). rewrite FS.
  assert (FV : forall k, (k <= N.to_nat (max e + 1))%nat -> (k <= length v)%nat -> forall r, firstn k (firstn (N.to_nat (max e + 1)) v ++ r) = firstn k v).
  { intros k K1 K2 r. rewrite firstn_app_le by (rewrite firstn_length; lia). rewrite firstn_firstn. f_equal. lia. }
  destruct (N.ltb_spec (max e) size) as [G|G]; cbn [rbind].
  - assert (GL : max e + 1 <= len) by lia. cbn [andb].
    destruct (quoted h e omit (N.to_nat (max e)) (firstn (N.to_nat (max e + 1)) v ++ skipn (N.to_nat size) (old e))) as (body & b & rc & E & U & C).
    + apply Forall_app. split; [apply bytes_firstn, BV|apply bytes_skipn, BO].
    + exact R.
    + rewrite app_length, firstn_length. unfold len in GL. lia.
    + rewrite FV in C by (unfold len in GL; lia). exists body, b, rc. split; [|split; [exact U|exact C]]. rewrite E. cbn [rbind]. cbv zeta. unfold text.
      replace (len =? 0) with false by (symmetry; apply N.eqb_neq; lia). replace (max e <? len) with true by (symmetry; apply N.ltb_lt; lia).
      replace (N.to_nat (max e) <? length v)%nat with true by (symmetry; apply Nat.ltb_lt; unfold len in GL; lia). rewrite !andb_true_r. reflexivity.
  - assert (SL : size = len) by lia. assert (FW : firstn (N.to_nat (max e + 1)) v = v) by (apply firstn_all2; unfold len in SL; lia). rewrite FW, SL.
    assert (LV : N.to_nat len = length v) by (unfold len; lia). rewrite LV. rewrite upd_app_past by lia. rewrite Nat.sub_diag.
    destruct (skipn (length v) (old e)) as [|x ot] eqn:ES.
    { exfalso. apply (f_equal (@length N)) in ES. rewrite skipn_length in ES. cbn [length] in ES. unfold len in SL. lia. }
    cbn [upd oob rbind andb]. rewrite LV. destruct (quoted h e omit (length v) (v ++ 255 :: ot)) as (body & b & rc & E & U & C).
    + apply Forall_app. split; [exact BV|]. constructor; [unfold is_byte; lia|]. assert (X : bytes_ok (x :: ot)) by (rewrite <- ES; apply bytes_skipn, BO). inversion X; assumption.
    + exact R.
    + rewrite app_length. lia.
    + rewrite firstn_app_le, firstn_all in C by lia. exists body, b, rc. cbv zeta.
      rewrite (firstn_all2 v (n := N.to_nat (max e))) by (unfold len in SL; lia). split; [|split; [exact U|exact C]]. rewrite E. cbn [rbind]. unfold text.
      replace (max e <? len) with false by (symmetry; apply N.ltb_ge; lia). replace (N.to_nat (max e) <? length v)%nat with false by (symmetry; apply Nat.ltb_ge; unfold len in SL; lia).
      rewrite !andb_false_r. reflexivity.
Qed.
Lemma value_shown h e addr v : ready h e -> addr <> 0 -> bytes_ok v -> N.of_nat (length v) <= 65536 -> TvalSpec.bytes_at (m e) addr v ->
  exists t, print_xattr_val e addr (N.of_nat (length v)) = Ok t /\ value_text h (max e) v t.
Proof.
  intros R A B L M. unfold print_xattr_val. replace (65536 <? N.of_nat (length v)) with false by (symmetry; apply N.ltb_ge; exact L).
  destruct (printstr_shown h e true addr v R A B M) as (body & b & rc & E & U & C). cbv zeta in E, C. eexists. split; [exact E|]. unfold value_text. cbv zeta. destruct C as [(C1 & C2)|(_ & C1 & C2)].
  - left. exists (bs """" ++ body ++ bs """"). split; [exists body; split; [reflexivity|rewrite <- C1; exact U]|]. rewrite C2. reflexivity.
  - right. exists b. split; [exact C2|]. exists body. split; [|exact U]. rewrite C1. cbn [andb]. apply app_nil_r.
Qed.
Definition no_value (e : env) (addr size : N) : Prop := addr = 0 \/ 65536 < size \/ TvalSpec.unreadable (m e) addr (N.to_nat (N.min size (max e + 1))).
Lemma value_address e addr size : no_value e addr size -> exists t, print_xattr_val e addr size = Ok t /\ TvalSpec.address t addr.
Proof.
  intros H. exists (TvalModel.printaddr addr). split; [|apply TvalThms.printaddr_ok]. unfold print_xattr_val. destruct (N.ltb_spec 65536 size) as [L|L]; [reflexivity|].
  unfold printstr, printstr_ex. destruct (N.eqb_spec addr 0) as [-> |A]; [reflexivity|]. destruct H as [H|[H|H]]; [contradiction|lia|]. cbn [q0term style].
  set (s := if size <? max e + 1 then size else max e + 1). assert (S : s = N.min size (max e + 1)) by (unfold s; destruct (N.ltb_spec size (max e + 1)); lia).
  unfold fetch. rewrite S. apply (from_unreadable (m e) (N.to_nat (max e + 1))) in H. replace (N.to_nat (N.min size (max e + 1)) <=? length (from (m e) addr (N.to_nat (max e + 1))))%nat with false by (symmetry; apply Nat.leb_gt; exact H). reflexivity.
Qed.
Lemma set_flags_ok s v : flags_text s set_bits None (bs " /* XATTR_??? */") v (printflags_ex v (Some (bs "XATTR_???")) s FMT_X [xattrflags]).
Proof.
  apply (flags_ok s xattrflags None (bs "XATTR_???") set_bits v); [intros g; unfold xattrflags, set_bits; cbn [data]; apply (T_bit _ 0); apply (T_bit _ 1); apply T_nil| | |discriminate].
  - unfold xattrflags. cbn [data]. split; [reflexivity|]. intros g ->. split; [reflexivity|]. destruct s; reflexivity.
  - repeat constructor; cbn; intuition discriminate.
Qed.

(** The value that is set is shown, with its size and the flags (of 32 bits). *)
Theorem C107_set : forall h e first name addr v flags, ready h e -> addr <> 0 -> bytes_ok v -> N.of_nat (length v) <= 65536 -> TvalSpec.bytes_at (m e) addr v ->
  exists t n f, setxattr e first name addr (N.of_nat (length v)) flags = Ok (NumaSpec.commas [first; name; t; n; f]) /\
    value_text h (max e) v t /\ TvalSpec.number n (N.of_nat (length v)) /\ flags_text (st e) set_bits None (bs " /* XATTR_??? */") (flags mod 2 ^ 32) f.
Proof.
  intros h e first name addr v flags R A B L M. destruct (value_shown h e addr v R A B L M) as (t & E & V).
  exists t, (TvalModel.udec (N.of_nat (length v))), (printflags_ex (u32 flags) (Some (bs "XATTR_???")) (st e) FMT_X [xattrflags]).
  split; [unfold setxattr; rewrite E; cbn [rbind]; unfold args; rewrite NumaThms.args_commas; reflexivity|]. split; [exact V|]. split; [apply TvalThms.udec_number|apply set_flags_ok].
Qed.
Print Assumptions C107_set.
(** The value that the call returned is shown: as many bytes as it says, whatever the size of the buffer. *)
Theorem C107_get : forall h e first name addr size v, ready h e -> addr <> 0 -> size <> 0 -> failed e = false -> rval e = N.of_nat (length v) ->
  bytes_ok v -> N.of_nat (length v) <= 65536 -> TvalSpec.bytes_at (m e) addr v ->
  exists t n, getxattr e first name addr size = Ok (NumaSpec.commas [first; name; t; n]) /\ value_text h (max e) v t /\ TvalSpec.number n size.
Proof.
  intros h e first name addr size v R A S F RV B L M. destruct (value_shown h e addr v R A B L M) as (t & E & V). exists t, (TvalModel.udec size).
  split; [|split; [exact V|apply TvalThms.udec_number]]. unfold getxattr, getxattr_entering, getxattr_exiting, u_rval. apply N.eqb_neq in S. rewrite S, F, RV, E. cbn [negb rbind NumaSpec.commas]. rewrite <- !app_assoc. reflexivity.
Qed.
Print Assumptions C107_get.
(** The address instead: no size, a failed call, no address, more than 65536 bytes, or memory that cannot be read. *)
Theorem C107_address : forall e first name addr size flags,
  (no_value e addr size -> exists t n f, setxattr e first name addr size flags = Ok (NumaSpec.commas [first; name; t; n; f]) /\ TvalSpec.address t addr /\ TvalSpec.number n size) /\
  (size = 0 \/ failed e = true \/ no_value e addr (rval e) -> exists t n, getxattr e first name addr size = Ok (NumaSpec.commas [first; name; t; n]) /\ TvalSpec.address t addr /\ TvalSpec.number n size).
Proof.
  intros e first name addr size flags. split.
  - intros H. destruct (value_address e addr size H) as (t & E & V). do 3 eexists. split; [unfold setxattr; rewrite E; cbn [rbind]; unfold args; rewrite NumaThms.args_commas; reflexivity|]. split; [exact V|apply TvalThms.udec_number].
  - intros H. destruct (N.eqb_spec size 0) as [-> |S].
    + exists (TvalModel.printaddr addr), (TvalModel.udec 0). split; [|split; [apply TvalThms.printaddr_ok|apply TvalThms.udec_number]]. unfold getxattr, getxattr_entering. cbn [N.eqb negb NumaSpec.commas]. rewrite <- !app_assoc. reflexivity.
    + assert (X : no_value e addr (u_rval e)).
      { destruct H as [H|[H|H]]; [contradiction| |]; unfold u_rval; [rewrite H; right; left; reflexivity|]. destruct (failed e); [right; left; reflexivity|exact H]. }
      destruct (value_address e addr (u_rval e) X) as (t & E & V). exists t, (TvalModel.udec size). split; [|split; [exact V|apply TvalThms.udec_number]].
      unfold getxattr, getxattr_entering, getxattr_exiting. apply N.eqb_neq in S. rewrite S, E. cbn [negb rbind NumaSpec.commas]. rewrite <- !app_assoc. reflexivity.
Qed.
Print Assumptions C107_address.
(** A list of names: as many bytes as the call says. *)
Theorem C107_list : forall h e first addr size,
  (forall v, ready h e -> addr <> 0 -> size <> 0 -> failed e = false -> rval e = N.of_nat (length v) -> bytes_ok v -> TvalSpec.bytes_at (m e) addr v ->
    exists t n, listxattr e first addr size = Ok (NumaSpec.commas [first; t; n]) /\ list_text h (max e) v t /\ TvalSpec.number n size) /\
  (size = 0 \/ failed e = true -> exists t n, listxattr e first addr size = Ok (NumaSpec.commas [first; t; n]) /\ TvalSpec.address t addr /\ TvalSpec.number n size).
Proof.
  intros h e first addr size. split.
  - intros v R A S F RV B M. destruct (printstr_shown h e false addr v R A B M) as (body & b & rc & E & U & C). cbv zeta in E, C. destruct C as [(C1 & C2)|(C & _)]; [|discriminate C].
    eexists _, (TvalModel.udec size). split; [|split; [|apply TvalThms.udec_number]].
    + unfold listxattr, print_xattr_list, u_rval. apply N.eqb_neq in S. rewrite S, F, RV. cbn [orb]. rewrite E. cbn [rbind NumaSpec.commas]. reflexivity.
    + exists (bs """" ++ body ++ bs """"). split; [exists body; split; [reflexivity|rewrite <- C1; exact U]|]. rewrite C2. reflexivity.
  - intros H. exists (TvalModel.printaddr addr), (TvalModel.udec size). split; [|split; [apply TvalThms.printaddr_ok|apply TvalThms.udec_number]]. unfold listxattr, print_xattr_list.
    replace ((size =? 0) || failed e) with true; [reflexivity|]. destruct H as [-> | ->]; [reflexivity|rewrite orb_true_r; reflexivity].
Qed.
Print Assumptions C107_list.

(** ---- the values can be told apart ---- *)
Lemma literal_inj h b b' t : literal h b t -> literal h b' t -> b = b'.
Proof.
  intros (x & E & U) (y & E' & U'). rewrite E in E'. apply app_inv_head in E'. apply app_inv_tail in E'. subst y. rewrite U in U'. injection U' as ->. reflexivity.
Qed.
(** Two values of the same size, of at most max_strlen bytes, that are shown alike are the same. *)
Theorem C107_lossless : forall h max v v' t, N.of_nat (length v) <= max -> length v = length v' -> value_text h max v t -> value_text h max v' t -> v = v'.
Proof.
  intros h max v v' t L E V V'. unfold value_text in V, V'. cbv zeta in V, V'. rewrite (firstn_all2 v (n := N.to_nat max)) in V by lia. rewrite (firstn_all2 v' (n := N.to_nat max)) in V' by lia. replace (N.to_nat max <? length v)%nat with false in V by (symmetry; apply Nat.ltb_ge; lia). replace (N.to_nat max <? length v')%nat with false in V' by (symmetry; apply Nat.ltb_ge; lia).
  destruct V as [(u & U & ->)|(b & -> & U)], V' as [(u' & U' & T)|(b' & -> & U')].
  - rewrite !app_nil_r in T. subst u'. exact (literal_inj h _ _ u U U').
  - rewrite app_nil_r in U'. pose proof (literal_inj h _ _ u U U'). subst b'. rewrite app_length in E. cbn in E. lia.
  - rewrite app_nil_r in T. subst u'. pose proof (literal_inj h _ _ t U U'). subst b. rewrite app_length in E. cbn in E. lia.
  - rewrite (literal_inj h _ _ t U U'). reflexivity.
Qed.
Print Assumptions C107_lossless.
Lemma emit_none v : emit v None = None. Proof. reflexivity. Qed.
Lemma emit_some v r l : emit v r = Some l -> exists l', r = Some l'.
Proof. destruct r as [l'|]; [intros _; exists l'; reflexivity|discriminate]. Qed.
Lemma closed h s : forall q b r, unquote h q s = Some b -> unquote h q (s ++ 34 :: r) = None.
Proof.
  induction s as [|c s IH]; intros q b r U.
  - destruct q as [| |n v|[|n] v]; cbn [app unquote] in *; try discriminate U; reflexivity.
  - cbn [app unquote] in *.
    assert (P : forall b', (if c =? 92 then unquote h Esc s else if c =? 34 then None else emit c (unquote h Plain s)) = Some b' ->
      (if c =? 92 then unquote h Esc (s ++ 34 :: r) else if c =? 34 then None else emit c (unquote h Plain (s ++ 34 :: r))) = None).
    { intros b' X. destruct (c =? 92); [exact (IH _ _ _ X)|]. destruct (c =? 34); [reflexivity|]. apply emit_some in X as (l & X). rewrite (IH _ _ _ X). reflexivity. }
    destruct q as [| |n v|n v].
    + exact (P b U).
    + destruct (is_oct c); [exact (IH _ _ _ U)|]. destruct (c =? 120); [exact (IH _ _ _ U)|]. destruct (simple_escape c); [|reflexivity]. apply emit_some in U as (l & U). rewrite (IH _ _ _ U). reflexivity.
    + destruct (is_oct c && Nat.ltb n 3); [exact (IH _ _ _ U)|]. apply emit_some in U as (l & U). rewrite (P _ U). reflexivity.
    + destruct (hex_val c).
      * destruct h; [exact (IH _ _ _ U)|]. destruct n as [|[|n]]; try exact (IH _ _ _ U). apply emit_some in U as (l & U). rewrite (P _ U). reflexivity.
      * destruct n; [discriminate U|]. apply emit_some in U as (l & U). rewrite (P _ U). reflexivity.
Qed.
Lemma quotes_inj h x y b b' r r' : unquote h Plain x = Some b -> unquote h Plain y = Some b' -> x ++ 34 :: r = y ++ 34 :: r' -> x = y /\ r = r'.
Proof.
  assert (G : forall x y b b' r r', unquote h Plain x = Some b -> unquote h Plain y = Some b' -> x ++ 34 :: r = y ++ 34 :: r' -> (length x <= length y)%nat -> x = y /\ r = r').
  { clear. intros x y b b' r r' U U' E L. assert (Y : y = x ++ skipn (length x) y).
    { apply (f_equal (firstn (length x))) in E. rewrite firstn_app_le, firstn_all in E by lia. rewrite firstn_app_le in E by lia. pose proof (firstn_skipn (length x) y) as Z. rewrite <- E in Z. symmetry. exact Z. }
    destruct (skipn (length x) y) as [|c z].
    - rewrite app_nil_r in Y. subst y. apply app_inv_head in E. injection E as ->. split; reflexivity.
    - exfalso. rewrite Y, <- app_assoc in E. apply app_inv_head in E. injection E as <- _. rewrite Y in U'. rewrite (closed h x Plain b z U) in U'. discriminate U'. }
  intros U U' E. destruct (Nat.le_ge_cases (length x) (length y)) as [L|L]; [exact (G x y b b' r r' U U' E L)|]. destruct (G y x b' b r' r U' U (eq_sym E) L) as [-> ->]. split; reflexivity.
Qed.
(** setxattr: the size is shown too, so that the text of the call tells the value. *)
Theorem C107_set_lossless : forall h e e' first name addr addr' v v' flags flags', ready h e -> ready h e' -> max e = max e' -> addr <> 0 -> addr' <> 0 -> bytes_ok v -> bytes_ok v' ->
  N.of_nat (length v) <= N.min (max e) 65536 -> N.of_nat (length v') <= N.min (max e) 65536 -> TvalSpec.bytes_at (m e) addr v -> TvalSpec.bytes_at (m e') addr' v' ->
  setxattr e first name addr (N.of_nat (length v)) flags = setxattr e' first name addr' (N.of_nat (length v')) flags' -> v = v'.
Proof.
  intros h e e' first name addr addr' v v' flags flags' R R' MX A A' B B' L L' M M' E.
  destruct (C107_set h e first name addr v flags R A B ltac:(lia) M) as (t & n & f & X & V & NN & _). destruct (C107_set h e' first name addr' v' flags' R' A' B' ltac:(lia) M') as (t' & n' & f' & X' & V' & NN' & _).
  rewrite X, X' in E. clear X X'. apply (f_equal (fun r => match r with Ok x => x | _ => [] end)) in E. cbv beta iota in E. cbn [NumaSpec.commas] in E. do 4 apply app_inv_head in E. rewrite <- MX in V'.
  assert (LT : forall w u, N.of_nat (length w) <= N.min (max e) 65536 -> value_text h (max e) w u -> exists body b, u = bs """" ++ body ++ bs """" /\ unquote h Plain body = Some b).
  { intros w u LW W. unfold value_text in W. cbv zeta in W. replace (N.to_nat (max e) <? length w)%nat with false in W by (symmetry; apply Nat.ltb_ge; lia).
    destruct W as [(q & (body & Q1 & Q2) & ->)|(b & _ & (body & Q1 & Q2))]; [rewrite app_nil_r|]; exists body; eexists; split; eassumption. }
  destruct (LT v t L V) as (x & b & TX & UX). destruct (LT v' t' L' V') as (y & b' & TY & UY).
  assert (Q : forall z r, (bs """" ++ z ++ bs """") ++ r = bs """" ++ z ++ 34 :: r) by (intros; rewrite <- !app_assoc; reflexivity).
  rewrite TX, TY, !Q in E. apply app_inv_head in E. apply (quotes_inj h x y b b' _ _ UX UY) in E as [XY E]. subst y. assert (TT : t = t') by congruence. subst t'.
  apply app_inv_head in E. assert (ND : forall k w, TvalSpec.number w k -> Forall (fun c => 48 <= c <= 57) w) by (intros k w; apply TvalThms.number_digits).
  assert (NE : n = n').
  { apply (XlatText.split_at 44) in E.
    - exact (proj1 E).
    - intros I. pose proof (ND _ _ NN) as D. rewrite Forall_forall in D. apply D in I. lia.
    - intros I. pose proof (ND _ _ NN') as D. rewrite Forall_forall in D. apply D in I. lia.
    - right. eexists. reflexivity.
    - right. eexists. reflexivity. }
  subst n'. pose proof (TvalThms.number_fun _ _ _ NN NN') as LL. apply (C107_lossless h (max e) v v' t); [lia|lia|exact V|rewrite TX; exact V'].
Qed.
Print Assumptions C107_set_lossless.

Definition ex_e (max_ rv : N) (b : list N) : env :=
  {| m := NumaThms.ex_mem b; max := max_; xf := HEXSTR_NONE; st := BitsModel.XABBREV; old := repeat 0 (N.to_nat (max_ + 1)); failed := false; rval := rv |}.
Example C107_example :
  setxattr (ex_e 32 0 [1; 2; 65; 0]) (bs """f""") (bs """user.a""") 4096 4 1 = Ok (bs """f"", ""user.a"", ""\1\2A"", 4, XATTR_CREATE") /\
  getxattr (ex_e 4 6 (bs "abcdef")) (bs "3") (bs """user.a""") 4096 64 = Ok (bs "3, ""user.a"", ""abcd""..., 64") /\
  getxattr (ex_e 4 6 (bs "abcdef")) (bs "3") (bs """user.a""") 4096 0 = Ok (bs "3, ""user.a"", 0x1000, 0") /\
  listxattr (ex_e 32 7 (bs "user.a" ++ [0])) (bs "3") 4096 64 = Ok (bs "3, ""user.a\0"", 64") /\
  setxattr (ex_e 32 0 []) (bs "3") (bs """user.a""") 4096 65537 4 = Ok (bs "3, ""user.a"", 0x1000, 65537, 0x4 /* XATTR_??? */").
Proof. repeat split; vm_compute; reflexivity. Qed.
