(** C108: how file handles are shown. *)
From Verif Require Import Base Printf XlatModel QuoteModel QuoteSpec QuoteProofs FhModel FhSpec InfoSpec TvalSpec VmSpec FlagText.
From Verif Require BitsModel ExtModel TvalModel TvalThms NumaModel NumaSpec NumaThms DateThms EvThms InfoThms XattrModel XattrThms QuoteHexSpec QuoteHexThms VmThms.
Local Open Scope N_scope.

Lemma umoven_cases mem n : forall a, (exists b, ExtModel.umoven mem a n = Some b /\ length b = n /\ bytes_at mem a b) \/ (ExtModel.umoven mem a n = None /\ unreadable mem a n).
Proof.
  intros a. destruct (ExtModel.umoven mem a n) as [b|] eqn:E.
  - left. exists b. split; [reflexivity|]. apply EvThms.umoven_some, E.
  - right. split; [reflexivity|]. revert a E. induction n as [|n IH]; intros a E; [discriminate|]. cbn [ExtModel.umoven] in E. destruct (mem (u64 a)) as [x|] eqn:X.
    + destruct (ExtModel.umoven mem (a + 1) n) as [l|] eqn:L; [discriminate|]. destruct (IH _ L) as (i & I & U). exists (S i). split; [lia|]. rewrite <- U. f_equal. f_equal. lia.
    + exists 0%nat. split; [lia|]. rewrite N.add_0_r. exact X.
Qed.
Lemma bytes_at_wrap mem a b : bytes_at mem (u64 a) b <-> bytes_at mem a b.
Proof.
  assert (W : forall i, u64 (u64 a + i) = u64 (a + i)) by (intros i; unfold u64; rewrite N.add_mod_idemp_l by discriminate; reflexivity).
  unfold bytes_at. split; intros H i I; specialize (H i I); [rewrite W in H|rewrite W]; exact H.
Qed.
Lemma fetch_seen e a b : seen (verb e) (err e =? 0) (m e) a b -> fetch e a (length b) = Some b.
Proof.
  intros (A & V & O & B). unfold fetch, ExtModel.umoven_or_printaddr, failed. cbn [ExtModel.verbose ExtModel.failed]. apply N.eqb_neq in A. rewrite A, V, O. apply TvalThms.umoven_bytes, B.
Qed.
Lemma fetch_unseen e a n : unseen (verb e) (err e =? 0) (m e) a n -> fetch e a n = None.
Proof.
  intros U. unfold fetch, ExtModel.umoven_or_printaddr, failed. cbn [ExtModel.verbose ExtModel.failed]. destruct U as [-> |[V|[O|U]]].
  - reflexivity.
  - rewrite V. rewrite orb_true_r. reflexivity.
  - rewrite O, !orb_true_r. reflexivity.
  - rewrite (TvalThms.umoven_none _ _ _ U). destruct (_ || _); reflexivity.
Qed.
Lemma hex_quoted b : bytes_ok b -> exists u, string_quote b (length b) force_hex None = Ok (u, true) /\ hex_literal b u.
Proof.
  intros B. destruct (string_quote_total b (length b) force_hex None B (Nat.le_refl _)) as (out & rc & E).
  destruct (QuoteHexThms.C60_form b (length b) force_hex None out rc B E) as (body & c & O & F & C). destruct C as [C|(_ & C & _)]; [|discriminate C].
  destruct (string_quote_lossless Two b (length b) force_hex None out rc B (or_introl eq_refl) E) as (body' & c' & O' & _ & S' & T & _). destruct S' as [S'|(_ & S' & _)]; [|discriminate S'].
  exists out. rewrite E, (T eq_refl S'). split; [reflexivity|]. exists body. split; [rewrite O; unfold wrap; cbn [QuoteModel.comment omit_quotes force_hex app]; rewrite app_nil_r; reflexivity|].
  rewrite C in F. unfold subject in F. cbn [q0term force_hex xstyle QuoteHexSpec.wanted_form] in F. rewrite firstn_all in F. exact F.
Qed.
Lemma handle_shown mem a n : DateThms.byte_memory mem -> 0 < a -> a + 8 < 2 ^ 64 -> exists t, print_f_handle mem a n = Ok t /\ handle_text mem a n t.
Proof.
  intros BM P A. unfold print_f_handle. assert (U : u64 (a + 8) = a + 8) by (unfold u64; apply N.mod_small; exact A). rewrite U. replace (8 <? a + 8) with true by (symmetry; apply N.ltb_lt; lia).
  destruct (umoven_cases mem (N.to_nat (N.min n 128)) (a + 8)) as [(b & E & L & B)|(E & X)]; rewrite E.
  - destruct (DateThms.umoven_bytes_lt _ _ BM _ _ E) as [BB _]. destruct (hex_quoted b BB) as (u & Q & H). unfold print_quoted_string_ex. cbn [q0term force_hex]. rewrite andb_false_r.
    assert (AL : exists k, quote_alloc_size (N.min n 128) force_hex = Some k).
    { unfold quote_alloc_size. unfold u32 at 1. rewrite (N.mod_small (4 * N.min n 128)) by lia. rewrite N.mul_comm, N.div_mul by discriminate. rewrite N.eqb_refl. eexists. reflexivity. }
    destruct AL as [k ->]. rewrite <- L, Q. cbn [rbind andb]. eexists. split; [reflexivity|]. left. exists b, u. split; [lia|]. split; [exact B|]. split; [exact H|]. cbn [XattrModel.text]. rewrite app_nil_r.
    f_equal. destruct (N.ltb_spec (N.min n 128) n), (N.ltb_spec 128 n); try lia; reflexivity.
  - eexists. split; [reflexivity|]. right. auto.
Qed.
Lemma int_ok v : v < 2 ^ 32 -> int_value v (TvalModel.sx 4 v).
Proof.
  intros L. unfold int_value, TvalModel.sx. change (2 ^ (8 * Z.of_nat 4))%Z with (2 ^ 32)%Z. change (2 ^ 32 / 2)%Z with (2 ^ 31)%Z. rewrite (N.mod_small v) by exact L.
  destruct (Z.ltb_spec (Z.of_N v) (2 ^ 31)); split; lia.
Qed.
Lemma flags_shown e a : flags_text (st e) bits None (bs " /* AT_??? */") (a mod 2 ^ 32) (flags e a).
Proof.
  unfold flags. change (u32 a) with (a mod 2 ^ 32). apply (flags_ok (st e) name_to_handle_at_flags None (bs "AT_???") bits (a mod 2 ^ 32)); [intros g; unfold name_to_handle_at_flags, bits; cbn [data]; apply (T_bit _ 0); apply (T_bit _ 1); apply (T_bit _ 9); apply (T_bit _ 10); apply (T_bit _ 12); apply T_nil| | |discriminate].
  - unfold name_to_handle_at_flags. cbn [data]. split; [reflexivity|]. intros g ->. split; [reflexivity|]. destruct (st e); reflexivity.
  - repeat constructor; cbn; intuition discriminate.
Qed.
Lemma type_ok h : bytes_ok h -> type_of h (handle_type h) /\ integer (TvalModel.sdec (handle_type h)) (handle_type h).
Proof.
  intros B. split; [|apply DateThms.sdec_integer]. unfold type_of, handle_type. rewrite InfoThms.ld_number. apply int_ok. exact (InfoThms.number_lt h B 4 4).
Qed.
Lemma seen_bytes mem a b : DateThms.byte_memory mem -> bytes_at mem a b -> bytes_ok b.
Proof. intros M B. pose proof (TvalThms.umoven_bytes mem b a B) as E. exact (proj1 (DateThms.umoven_bytes_lt _ _ M _ _ E)). Qed.
Lemma size_ok h : number (TvalModel.udec (handle_bytes h)) (size_of h).
Proof. unfold handle_bytes, size_of. rewrite InfoThms.ld_number. apply TvalThms.udec_number. Qed.

(** open_by_handle_at: the whole structure, or its address. *)
Theorem C108_open : forall e fd modes a, DateThms.byte_memory (m e) -> a + 8 < 2 ^ 64 ->
  (unseen (verb e) (err e =? 0) (m e) a 8 -> exists p, address p a /\ open_by_handle_at e fd modes a = Ok (NumaSpec.commas [fd; p; modes])) /\
  (forall h, length h = 8%nat -> seen (verb e) (err e =? 0) (m e) a h -> exists n z y f,
     number n (size_of h) /\ type_of h z /\ integer y z /\ handle_text (m e) a (size_of h) f /\
     open_by_handle_at e fd modes a = Ok (NumaSpec.commas [fd; bs "{handle_bytes=" ++ n ++ bs ", handle_type=" ++ y ++ bs ", f_handle=" ++ f ++ bs "}"; modes])).
Proof.
  intros e fd modes a BM A. unfold open_by_handle_at, args. split.
  - intros U. rewrite (fetch_unseen e a 8 U). exists (TvalModel.printaddr a). split; [apply TvalThms.printaddr_ok|]. cbn [rbind]. rewrite NumaThms.args_commas. reflexivity.
  - intros h L S. assert (F : fetch e a 8 = Some h) by (rewrite <- L; apply fetch_seen, S). rewrite F. destruct S as (NZ & _ & _ & B).
    destruct (handle_shown (m e) a (handle_bytes h) BM ltac:(lia) A) as (f & E & H). rewrite E. cbn [rbind]. rewrite NumaThms.args_commas. destruct (type_ok h (seen_bytes _ _ _ BM B)) as [T1 T2].
    exists (TvalModel.udec (handle_bytes h)), (handle_type h), (TvalModel.sdec (handle_type h)), f. split; [apply size_ok|]. split; [exact T1|]. split; [exact T2|].
    split; [unfold handle_bytes, size_of in *; rewrite InfoThms.ld_number in H; exact H|].
    generalize (TvalModel.udec (handle_bytes h)) (TvalModel.sdec (handle_type h)). intros x y. reflexivity.
Qed.
Print Assumptions C108_open.

(** The number behind a pointer to an int *)
Definition mount_text (e : env) (a : N) (i : list N) : Prop :=
  (forall b, length b = 4%nat -> seen (verb e) (err e =? 0) (m e) a b -> exists z y, int_value (number_at b 0 4) z /\ integer y z /\ i = bs "[" ++ y ++ bs "]") /\
  (unseen (verb e) (err e =? 0) (m e) a 4 -> address i a).
(** What follows the size that was given: nothing if the call failed, but for the size that would have been needed (EOVERFLOW, 75), or if the structure cannot be read any more *)
Definition result_text (e : env) (a n : N) (x : list N) : Prop :=
  (forall h, length h = 8%nat -> bytes_at (m e) a h ->
     (err e = 0 -> exists c z y f, changed n (size_of h) c /\ type_of h z /\ integer y z /\ handle_text (m e) a (size_of h) f /\ x = c ++ bs ", handle_type=" ++ y ++ bs ", f_handle=" ++ f) /\
     (err e = 75 -> changed n (size_of h) x)) /\
  (err e <> 0 /\ err e <> 75 \/ unreadable (m e) a 8 -> x = []).
Lemma mount_ok e a : DateThms.byte_memory (m e) -> mount_text e a (printnum_int e a).
Proof.
  intros BM. unfold mount_text, printnum_int. split.
  - intros b L S. assert (F : fetch e a 4 = Some b) by (rewrite <- L; apply fetch_seen, S). rewrite F. destruct S as (_ & _ & _ & B). rewrite InfoThms.ld_number.
    exists (TvalModel.sx 4 (number_at b 0 4)), (TvalModel.sdec (TvalModel.sx 4 (number_at b 0 4))). split; [apply int_ok; exact (InfoThms.number_lt b (seen_bytes _ _ _ BM B) 4 0)|]. split; [apply DateThms.sdec_integer|reflexivity].
  - intros U. rewrite (fetch_unseen e a 4 U). apply TvalThms.printaddr_ok.
Qed.
Lemma changed_ok n h : changed n (size_of h) (if handle_bytes h =? n then [] else bs " => " ++ TvalModel.udec (handle_bytes h)).
Proof.
  pose proof (size_ok h) as S. unfold changed. assert (E : handle_bytes h = size_of h) by (unfold handle_bytes, size_of; apply InfoThms.ld_number). rewrite E in *. destruct (N.eqb_spec (size_of h) n); [left; auto|right]. split; [assumption|]. eexists. split; [exact S|reflexivity].
Qed.
Lemma exiting_ok e n a2 a3 a4 : DateThms.byte_memory (m e) -> 0 < a2 -> a2 + 8 < 2 ^ 64 ->
  exists x, name_exiting e n a2 a3 a4 = Ok (x ++ bs "}" ++ bs ", " ++ printnum_int e a3 ++ bs ", " ++ flags e a4) /\ result_text e a2 n x.
Proof.
  intros BM P A. unfold name_exiting, failed. destruct (umoven_cases (m e) 8 a2) as [(h & E & L & B)|(E & U)]; rewrite E.
  - assert (HH : forall h', length h' = 8%nat -> bytes_at (m e) a2 h' -> h' = h).
    { intros h' L' B'. pose proof (TvalThms.umoven_bytes (m e) h' a2 B') as E'. rewrite L', E in E'. injection E' as ->. reflexivity. }
    assert (NU : ~ unreadable (m e) a2 8) by (intros U; pose proof (TvalThms.umoven_none _ _ _ U) as E'; rewrite E in E'; discriminate E').
    destruct (N.eqb_spec (err e) 0) as [Z|Z]; cbn [negb orb].
    + destruct (handle_shown (m e) a2 (handle_bytes h) BM P A) as (f & F & H). rewrite F. cbn [rbind]. eexists. split; [reflexivity|]. split.
      * intros h' L' B'. rewrite (HH h' L' B'). split; [|lia]. intros _. exists (if handle_bytes h =? n then [] else bs " => " ++ TvalModel.udec (handle_bytes h)), (handle_type h), (TvalModel.sdec (handle_type h)), f.
        destruct (type_ok h (seen_bytes _ _ _ BM B)) as [T1 T2]. split; [apply changed_ok|]. split; [exact T1|]. split; [exact T2|]. split; [unfold handle_bytes, size_of in *; rewrite InfoThms.ld_number in H; exact H|]. cbv zeta.
        generalize (TvalModel.sdec (handle_type h)) (if handle_bytes h =? n then [] else bs " => " ++ TvalModel.udec (handle_bytes h)). intros x y. reflexivity.
      * intros [[? ?]|U]; [lia|contradiction].
    + destruct (N.eqb_spec (err e) 75) as [O|O]; cbn [rbind].
      * eexists. split; [reflexivity|]. split; [|intros [[? ?]|U]; [lia|contradiction]]. intros h' L' B'. rewrite (HH h' L' B'). split; [lia|]. intros _. apply changed_ok.
      * exists []. split; [reflexivity|]. split; [|reflexivity]. intros h' L' B'. split; lia.
  - assert (M : (if negb (negb (err e =? 0)) || (err e =? 75) then @None (list N) else None) = None) by (destruct (_ || _); reflexivity). rewrite M. cbn [rbind]. exists []. split; [reflexivity|].
    split; [|reflexivity]. intros h' L' B'. pose proof (TvalThms.umoven_bytes (m e) h' a2 B') as E'. rewrite L', E in E'. discriminate E'.
Qed.
(** name_to_handle_at: the size that was given, and what the call has made of the structure. *)
Theorem C108_name : forall e e' dir path a2 a3 a4, DateThms.byte_memory (m e) -> DateThms.byte_memory (m e') -> a2 + 8 < 2 ^ 64 ->
  (unseen (verb e) (err e =? 0) (m e) a2 8 -> exists p q f, address p a2 /\ address q a3 /\ flags_text (st e) bits None (bs " /* AT_??? */") (a4 mod 2 ^ 32) f /\
     name_to_handle_at e e' dir path a2 a3 a4 = Ok (NumaSpec.commas [dir; path; p; q; f])) /\
  (forall h, length h = 8%nat -> seen (verb e) (err e =? 0) (m e) a2 h -> exists n x i f,
     number n (size_of h) /\ result_text e' a2 (size_of h) x /\ mount_text e' a3 i /\ flags_text (st e') bits None (bs " /* AT_??? */") (a4 mod 2 ^ 32) f /\
     name_to_handle_at e e' dir path a2 a3 a4 = Ok (NumaSpec.commas [dir; path; bs "{handle_bytes=" ++ n ++ x ++ bs "}"; i; f])).
Proof.
  intros e e' dir path a2 a3 a4 BM BM' A. unfold name_to_handle_at, name_entering. split.
  - intros U. rewrite (fetch_unseen e a2 8 U). unfold args. rewrite NumaThms.args_commas. exists (TvalModel.printaddr a2), (TvalModel.printaddr a3), (flags e a4).
    split; [apply TvalThms.printaddr_ok|]. split; [apply TvalThms.printaddr_ok|]. split; [apply flags_shown|reflexivity].
  - intros h L S. assert (F : fetch e a2 8 = Some h) by (rewrite <- L; apply fetch_seen, S). rewrite F. destruct S as (NZ & _ & _ & B).
    destruct (exiting_ok e' (handle_bytes h) a2 a3 a4 BM' ltac:(lia) A) as (x & E & R). rewrite E. cbn [rbind]. exists (TvalModel.udec (handle_bytes h)), x, (printnum_int e' a3), (flags e' a4).
    split; [apply size_ok|]. split; [unfold handle_bytes, size_of in *; rewrite InfoThms.ld_number in R; exact R|]. split; [apply mount_ok, BM'|]. split; [apply flags_shown|].
    generalize (TvalModel.udec (handle_bytes h)) (printnum_int e' a3) (flags e' a4). intros y i f. f_equal. cbn [NumaSpec.commas]. rewrite <- !app_assoc. reflexivity.
Qed.
Print Assumptions C108_name.

(** ---- the text tells the handle ---- *)
Lemma hex_val_quote c v : hex_val c = Some v -> c <> 34.
Proof. intros H ->. discriminate H. Qed.
Lemma hex_inj : forall b b' body, QuoteHexSpec.shown_as QuoteHexSpec.hex_form b body -> QuoteHexSpec.shown_as QuoteHexSpec.hex_form b' body -> b = b'.
Proof.
  intros b b' body (ts & -> & F) (ts' & E & F'). revert b' ts' E F'. induction F as [|c t b ts H F IH]; intros b' ts' E F'.
  - destruct F' as [|c' t' b' ts' H' F']; [reflexivity|]. destruct H' as (p & q & x & y & -> & _). discriminate E.
  - destruct H as (p & q & x & y & -> & X & Y & ->). destruct F' as [|c' t' b' ts' H' F']; [discriminate E|]. destruct H' as (p' & q' & x' & y' & -> & X' & Y' & ->).
    cbn [concat app] in E. injection E as -> -> E. rewrite X in X'. rewrite Y in Y'. injection X' as ->. injection Y' as ->. f_equal. exact (IH b' ts' E F').
Qed.
Lemma hex_no_quote b body : QuoteHexSpec.shown_as QuoteHexSpec.hex_form b body -> ~ In 34 body.
Proof.
  intros (ts & -> & F). induction F as [|c t b ts H F IH]; [intros []|]. destruct H as (p & q & x & y & -> & X & Y & _). cbn [concat app In].
  intros [H|[H|[H|[H|H]]]]; try discriminate H; [exact (hex_val_quote p x X H)|exact (hex_val_quote q y Y H)|exact (IH H)].
Qed.
Lemma integer_chars t z : integer t z -> Forall (fun c => c = 45 \/ 48 <= c <= 57) t.
Proof.
  intros [(n & H & _)|(d & n & -> & H & _)]; apply TvalThms.number_digits in H.
  - eapply Forall_impl; [|exact H]. intros c C; cbv beta in C; lia.
  - constructor; [left; reflexivity|]. eapply Forall_impl; [|exact H]. intros c C; cbv beta in C; lia.
Qed.
Lemma integer_fun t z z' : integer t z -> integer t z' -> z = z'.
Proof.
  intros [(n & H & ->)|(d & n & -> & H & _ & ->)] [(n' & H' & ->)|(d' & n' & E & H' & _ & ->)].
  - rewrite (TvalThms.number_fun _ _ _ H H'). reflexivity.
  - subst t. apply TvalThms.number_digits in H. change (bs "-" ++ d') with (45 :: d') in H. apply Forall_inv in H. lia.
  - apply TvalThms.number_digits in H'. change (bs "-" ++ d) with (45 :: d) in H'. apply Forall_inv in H'. lia.
  - apply app_inv_head in E. subst d'. rewrite (TvalThms.number_fun _ _ _ H H'). reflexivity.
Qed.
Lemma no_comma (P : N -> Prop) l : Forall P l -> ~ P 44 -> ~ In 44 l.
Proof. intros F N I. rewrite Forall_forall in F. exact (N (F _ I)). Qed.
(** Two calls of open_by_handle_at with the same text for the descriptor that are shown alike have handles of the same size, of the same type and
    with the same first 128 bytes. *)
Theorem C108_lossless : forall e e' fd modes modes' a a' h h' b b', DateThms.byte_memory (m e) -> DateThms.byte_memory (m e') -> a + 8 < 2 ^ 64 -> a' + 8 < 2 ^ 64 ->
  length h = 8%nat -> length h' = 8%nat -> seen (verb e) (err e =? 0) (m e) a h -> seen (verb e') (err e' =? 0) (m e') a' h' ->
  N.of_nat (length b) = N.min (size_of h) 128 -> N.of_nat (length b') = N.min (size_of h') 128 -> bytes_at (m e) (a + 8) b -> bytes_at (m e') (a' + 8) b' ->
  open_by_handle_at e fd modes a = open_by_handle_at e' fd modes' a' ->
  size_of h = size_of h' /\ number_at h 4 4 = number_at h' 4 4 /\ b = b'.
Proof.
  intros e e' fd modes modes' a a' h h' b b' BM BM' A A' L L' S S' LB LB' B B' E.
  destruct (proj2 (C108_open e fd modes a BM A) h L S) as (n & z & y & f & NN & T & I & H & X). destruct (proj2 (C108_open e' fd modes' a' BM' A') h' L' S') as (n' & z' & y' & f' & NN' & T' & I' & H' & X').
  rewrite X, X' in E. clear X X'. apply (f_equal (fun r => match r with Ok x => x | _ => [] end)) in E. cbv beta iota in E. cbn [NumaSpec.commas] in E. rewrite <- !app_assoc in E. do 3 apply app_inv_head in E.
  assert (SC : forall x y p q, Forall (fun c => c = 45 \/ 48 <= c <= 57) x -> Forall (fun c => c = 45 \/ 48 <= c <= 57) y -> x ++ bs ", " ++ p = y ++ bs ", " ++ q -> x = y /\ p = q).
  { intros x w p q FX FY EE. apply (XlatText.split_at 44) in EE.
    - destruct EE as [-> EE]. split; [reflexivity|]. apply app_inv_head in EE. exact EE.
    - apply (no_comma _ _ FX). lia.
    - apply (no_comma _ _ FY). lia.
    - right. eexists. reflexivity.
    - right. eexists. reflexivity. }
  assert (ND : forall k w, number w k -> Forall (fun c => c = 45 \/ 48 <= c <= 57) w) by (intros k w D; apply TvalThms.number_digits in D; eapply Forall_impl; [|exact D]; intros c C; cbv beta in C; lia).
  change (bs ", handle_type=") with (bs ", " ++ bs "handle_type=") in E. change (bs ", f_handle=") with (bs ", " ++ bs "f_handle=") in E. rewrite <- !app_assoc in E.
  apply (SC n n' _ _ (ND _ _ NN) (ND _ _ NN')) in E as [EN E]. subst n'. apply app_inv_head in E. apply (SC y y' _ _ (integer_chars _ _ I) (integer_chars _ _ I')) in E as [EY E]. subst y'. apply app_inv_head in E.
  split; [exact (TvalThms.number_fun _ _ _ NN NN')|]. split.
  - pose proof (integer_fun _ _ _ I I'). subst z'. unfold type_of, int_value in T, T'. destruct S as (_ & _ & _ & SB), S' as (_ & _ & _ & SB').
    pose proof (InfoThms.number_lt h (seen_bytes _ _ _ BM SB) 4 4) as K. pose proof (InfoThms.number_lt h' (seen_bytes _ _ _ BM' SB') 4 4) as K'. change (256 ^ N.of_nat 4) with (2 ^ 32) in K, K'.
    rewrite N.mod_small in T, T' by assumption. lia.
  - assert (G : forall e a h b f, bytes_at (m e) (a + 8) b -> N.of_nat (length b) = N.min (size_of h) 128 -> handle_text (m e) a (size_of h) f ->
      exists body r, f = 34 :: body ++ 34 :: r /\ QuoteHexSpec.shown_as QuoteHexSpec.hex_form b body).
    { clear. intros e a h b f B LB [(c & u & LC & C & (body & -> & F) & ->)|(U & _)].
      - exists body, (if 128 <? size_of h then bs "..." else []). split; [cbn [bs app]; rewrite <- !app_assoc; reflexivity|]. replace b with c; [exact F|]. pose proof (TvalThms.umoven_bytes _ _ _ B) as E1. pose proof (TvalThms.umoven_bytes _ _ _ C) as E2.
        assert (LL : length c = length b) by lia. rewrite LL, E1 in E2. injection E2 as ->. reflexivity.
      - pose proof (TvalThms.umoven_bytes _ _ _ B) as E1. assert (LL : length b = N.to_nat (N.min (size_of h) 128)) by lia. rewrite LL, (TvalThms.umoven_none _ _ _ U) in E1. discriminate E1. }
    destruct (G e a h b f B LB H) as (body & r & -> & F). destruct (G e' a' h' b' f' B' LB' H') as (body' & r' & -> & F'). cbn [app] in E. injection E as E. rewrite <- !app_assoc in E.
    apply (XlatText.split_at 34) in E; [|exact (hex_no_quote _ _ F)|exact (hex_no_quote _ _ F')|right; eexists; reflexivity|right; eexists; reflexivity]. destruct E as [-> _]. exact (hex_inj _ _ _ F F').
Qed.
Print Assumptions C108_lossless.
(** So is the identity of the mount, if it is an int ... *)
Theorem C108_mount_partial : forall e e' a a' b b' i, DateThms.byte_memory (m e) -> DateThms.byte_memory (m e') -> length b = 4%nat -> length b' = 4%nat ->
  seen (verb e) (err e =? 0) (m e) a b -> seen (verb e') (err e' =? 0) (m e') a' b' -> mount_text e a i -> mount_text e' a' i -> number_at b 0 4 = number_at b' 0 4.
Proof.
  intros e e' a a' b b' i BM BM' L L' S S' [M _] [M' _]. destruct (M b L S) as (z & y & T & I & ->). destruct (M' b' L' S') as (z' & y' & T' & I' & E). apply app_inv_head in E. apply app_inv_tail in E. subst y'.
  pose proof (integer_fun _ _ _ I I'). subst z'. unfold int_value in T, T'. destruct S as (_ & _ & _ & SB), S' as (_ & _ & _ & SB').
  pose proof (InfoThms.number_lt b (seen_bytes _ _ _ BM SB) 4 0) as K. pose proof (InfoThms.number_lt b' (seen_bytes _ _ _ BM' SB') 4 0) as K'. change (256 ^ N.of_nat 4) with (2 ^ 32) in K, K'.
  rewrite N.mod_small in T, T' by assumption. lia.
Qed.
Print Assumptions C108_mount_partial.
(** ... but with AT_HANDLE_MNT_ID_UNIQUE the kernel writes 64 bits, of which the upper half is not shown. *)
Definition ex_e (b : list N) (er : N) : env := {| verb := true; m := NumaThms.ex_mem b; st := BitsModel.XABBREV; err := er |}.
Definition ex_h : list N := [8; 0; 0; 0; 1; 0; 0; 0; 1; 2; 3; 4; 5; 6; 7; 255].
Theorem C108_mount_refuted : exists e e1 e2 flags b1 b2, mount_size flags = 8%nat /\ length b1 = 8%nat /\ length b2 = 8%nat /\
  seen (verb e1) (err e1 =? 0) (m e1) 4112 b1 /\ seen (verb e2) (err e2 =? 0) (m e2) 4112 b2 /\ b1 <> b2 /\
  name_to_handle_at e e1 (bs "AT_FDCWD") (bs """f""") 4096 4112 flags = name_to_handle_at e e2 (bs "AT_FDCWD") (bs """f""") 4096 4112 flags.
Proof.
  exists (ex_e (repeat 0 8) 0), (ex_e (ex_h ++ [5; 0; 0; 0; 1; 0; 0; 0]) 0), (ex_e (ex_h ++ [5; 0; 0; 0; 2; 0; 0; 0]) 0), 1, [5; 0; 0; 0; 1; 0; 0; 0], [5; 0; 0; 0; 2; 0; 0; 0].
  split; [reflexivity|]. split; [reflexivity|]. split; [reflexivity|].
  assert (S : forall x, seen true true (NumaThms.ex_mem (ex_h ++ [5; 0; 0; 0; x; 0; 0; 0])) 4112 [5; 0; 0; 0; x; 0; 0; 0]).
  { intros x. split; [discriminate|]. split; [reflexivity|]. split; [reflexivity|]. intros i I. cbn [length] in I. do 8 (destruct i as [|i]; [reflexivity|]). lia. }
  split; [apply S|]. split; [apply S|]. split; [discriminate|]. vm_compute. reflexivity.
Qed.
Print Assumptions C108_mount_refuted.

Example C108_example :
  open_by_handle_at (ex_e ex_h 0) (bs "3") (bs "O_RDONLY") 4096 = Ok (bs "3, {handle_bytes=8, handle_type=1, f_handle=""\x01\x02\x03\x04\x05\x06\x07\xff""}, O_RDONLY") /\
  name_to_handle_at (ex_e (repeat 0 8) 0) (ex_e ex_h 75) (bs "AT_FDCWD") (bs """f""") 4096 4112 0 = Ok (bs "AT_FDCWD, ""f"", {handle_bytes=0 => 8}, 0x1010, 0") /\
  name_to_handle_at (ex_e (ex_h ++ [5; 0; 0; 0]) 0) (ex_e (ex_h ++ [5; 0; 0; 0]) 0) (bs "AT_FDCWD") (bs """f""") 4096 4112 0x1400 =
    Ok (bs "AT_FDCWD, ""f"", {handle_bytes=8, handle_type=1, f_handle=""\x01\x02\x03\x04\x05\x06\x07\xff""}, [5], AT_SYMLINK_FOLLOW|AT_EMPTY_PATH") /\
  name_to_handle_at (ex_e [] 0) (ex_e [] 14) (bs "AT_FDCWD") (bs """f""") 4096 0 8 = Ok (bs "AT_FDCWD, ""f"", 0x1000, NULL, 0x8 /* AT_??? */").
Proof. repeat split; vm_compute; reflexivity. Qed.
