(** C111: how offsets are shown. *)
From Verif Require Import Base Printf XlatModel InfoModel InfoSpec TvalSpec NumaSpec VmSpec SeekModel AioSpec SeekSpec.
From Verif Require BitsModel ExtModel TvalModel TvalThms NumaModel NumaThms DateThms InfoThms FhSpec FhThms AioThms.
Local Open Scope N_scope.

Lemma origin_name v : xlookup whence_codes v = origin v.
Proof.
  destruct (N.ltb_spec v 5) as [L|L].
  - assert (v = 0 \/ v = 1 \/ v = 2 \/ v = 3 \/ v = 4) as C by lia. repeat destruct C as [-> |C]; try reflexivity. subst v. reflexivity.
  - transitivity (@None (list N)).
    + unfold xlookup. cbn [ty whence_codes data normal_lookup]. repeat match goal with |- context [?a =? ?b] => replace (a =? b) with false by (symmetry; apply N.eqb_neq; lia) end. reflexivity.
    + unfold origin. destruct v as [|p]; [lia|]. do 3 (destruct p as [p|p|]; try reflexivity; try lia).
Qed.
Lemma whence_ok e v : origin_text (st e) v (whence e v).
Proof.
  exists (pr_hex v). split; [apply NumaThms.hex_ok|]. unfold named, whence, printxvals_ex. cbn [xlookups]. rewrite origin_name.
  change (sprint_xlat_val FMT_X v) with (pr_hex v). destruct (origin v) as [n|] eqn:E; [|destruct (st e); reflexivity].
  assert (NE : n <> []) by (intros ->; unfold origin in E; repeat match type of E with context [match ?x with _ => _ end] => destruct x end; discriminate E). destruct n; [contradiction|]. destruct (st e); reflexivity.
Qed.
Lemma signed_int a : signed 4 (a mod 2 ^ 32) (int a).
Proof. unfold int. apply (AioThms.sx_signed 4); [lia|]. apply N.mod_lt. discriminate. Qed.

(** ---- C111: lseek: the offset is a signed long ---- *)
Theorem C111_lseek : forall fd e klong a0 a1 a2, klong = 4%nat \/ klong = 8%nat ->
  exists x y z, signed 4 (a0 mod 2 ^ 32) x /\ signed_text (Z.of_nat klong) (a1 mod 2 ^ (8 * N.of_nat klong)) y /\ origin_text (st e) (a2 mod 2 ^ 32) z /\ lseek fd e klong a0 a1 a2 = commas [fd x; y; z].
Proof.
  intros fd e klong a0 a1 a2 K. unfold lseek. rewrite NumaThms.args_commas. exists (int a0). do 2 eexists. split; [apply signed_int|]. split; [|split; [apply whence_ok|reflexivity]].
  eexists. split; [|apply DateThms.sdec_integer]. destruct K as [-> | ->].
  - apply signed_int.
  - apply (AioThms.sx_signed 8); [lia|]. apply N.mod_lt. discriminate.
Qed.
Print Assumptions C111_lseek.

Definition seen_at (e : env) := FhSpec.seen (ExtModel.verbose (NumaModel.o e)) (negb (ExtModel.failed (NumaModel.o e))) (NumaModel.m e).
Definition unseen_at (e : env) := FhSpec.unseen (ExtModel.verbose (NumaModel.o e)) (negb (ExtModel.failed (NumaModel.o e))) (NumaModel.m e).
(** the [w] bytes at [a] as a number; or the address *)
Definition number_text (e : env) (w : nat) (a : N) (t : list N) : Prop := (unseen_at e a w -> address t a) /\ (forall b, length b = w -> seen_at e a b -> pointed b t).
Lemma printnum_ok e w a : number_text e w a (fst (printnum e w a)).
Proof.
  unfold printnum. split.
  - intros U. rewrite (AioThms.fetch_unseen e a w U). apply TvalThms.printaddr_ok.
  - intros b L S. pose proof (AioThms.fetch_seen e a b S) as E. rewrite L in E. rewrite E. eexists. split; [|reflexivity]. rewrite InfoThms.ld_number, L. apply TvalThms.udec_number.
Qed.
(** ---- _llseek: the offset is made of two halves ---- *)
Theorem C111_llseek : forall fd e' a0 a1 a2 a3 a4, a2 < 2 ^ 32 ->
  exists x y r z, signed 4 (a0 mod 2 ^ 32) x /\ signed_text 8 ((a1 mod 2 ^ 32) * 2 ^ 32 + a2) y /\ number_text e' 8 a3 r /\ origin_text (st e') (a4 mod 2 ^ 32) z /\ llseek fd e' a0 a1 a2 a3 a4 = commas [fd x; y; r; z].
Proof.
  intros fd e' a0 a1 a2 a3 a4 L. unfold llseek. rewrite NumaThms.args_commas. exists (int a0). do 3 eexists. split; [apply signed_int|]. split; [|split; [apply printnum_ok|split; [apply whence_ok|reflexivity]]].
  assert (E : N.lor (u64 (N.shiftl a1 32)) a2 = (a1 mod 2 ^ 32) * 2 ^ 32 + a2).
  { unfold u64. rewrite N.shiftl_mul_pow2. change (2 ^ 64) with (2 ^ 32 * 2 ^ 32). rewrite N.mul_mod_distr_r by discriminate. set (h := a1 mod 2 ^ 32).
    rewrite <- N.shiftl_mul_pow2. symmetry. rewrite <- N.lxor_lor, N.add_nocarry_lxor; try reflexivity;
    (apply N.bits_inj; intros k; rewrite N.land_spec, N.bits_0; destruct (N.ltb_spec k 32); [rewrite N.shiftl_spec_low by assumption; reflexivity|]; 
     replace (N.testbit a2 k) with false; [apply andb_false_r|]; symmetry; rewrite <- (N.mod_small a2 (2 ^ 32)) by exact L; apply N.mod_pow2_bits_high; assumption). }
  rewrite E. eexists. split; [|apply DateThms.sdec_integer]. apply (AioThms.sx_signed 8); [lia|]. change (256 ^ N.of_nat 8) with (2 ^ 32 * 2 ^ 32). pose proof (N.mod_lt a1 (2 ^ 32) ltac:(discriminate)). nia.
Qed.
Print Assumptions C111_llseek.

(** ---- sendfile: the offset before the call, and if it moved data the one after it ---- *)
Lemma sendfile_text (e e' : env) (w : nat) rval a2 a3 b : length b = w -> seen_at e a2 b -> 
  exists t u, pointed b t /\ number_text e' w a2 u /\ fst (printnum e w a2) ++ sendfile_exiting e' w rval a2 a3 = t ++ (if negb (ExtModel.failed (NumaModel.o e')) && (0 <? rval) then bs " => " ++ u else []) ++ bs ", " ++ TvalModel.udec a3.
Proof.
  intros L S. exists (fst (printnum e w a2)), (fst (printnum e' w a2)). split; [apply printnum_ok; assumption|]. split; [apply printnum_ok|]. unfold sendfile_exiting. rewrite AioThms.pos_nz. reflexivity.
Qed.
Lemma seen_true e w a b : length b = w -> seen_at e a b -> snd (printnum e w a) = true.
Proof. intros L S. unfold printnum. pose proof (AioThms.fetch_seen e a b S) as E. rewrite L in E. rewrite E. reflexivity. Qed.
Lemma unseen_false e w a : unseen_at e a w -> printnum e w a = (TvalModel.printaddr a, false).
Proof. intros U. unfold printnum. rewrite (AioThms.fetch_unseen e a w U). reflexivity. Qed.
Lemma printnum_pair e w a b : length b = w -> seen_at e a b -> printnum e w a = (fst (printnum e w a), true).
Proof. intros L S. rewrite (surjective_pairing (printnum e w a)) at 1. f_equal. apply (seen_true e w a b); assumption. Qed.

Definition moved (e' : env) (rval : N) : bool := negb (ExtModel.failed (NumaModel.o e')) && (0 <? rval).
Definition sendfile_shows (fd : Z -> list N) (e e' : env) (w : nat) (rval a0 a1 a2 a3 : N) (t : list N) : Prop :=
  exists x y c, signed 4 (a0 mod 2 ^ 32) x /\ signed 4 (a1 mod 2 ^ 32) y /\ number c a3 /\
  (unseen_at e a2 w -> exists p, address p a2 /\ t = commas [fd x; fd y; p; c]) /\
  (forall b, length b = w -> seen_at e a2 b -> exists p u, pointed b p /\ number_text e' w a2 u /\ t = commas [fd x; fd y; p ++ (if moved e' rval then bs " => " ++ u else []); c]).
Lemma commas_last a b p q : commas [a; b; p ++ bs ", " ++ q] = commas [a; b; p; q].
Proof. reflexivity. Qed.
Theorem C111_sendfile64 : forall fd e e' rval a0 a1 a2 a3, sendfile_shows fd e e' 8 rval a0 a1 a2 a3 (sendfile64 fd e e' rval a0 a1 a2 a3).
Proof.
  intros fd e e' rval a0 a1 a2 a3. exists (int a0), (int a1), (TvalModel.udec a3). split; [apply signed_int|]. split; [apply signed_int|]. split; [apply TvalThms.udec_number|]. split.
  - intros U. exists (TvalModel.printaddr a2). split; [apply TvalThms.printaddr_ok|]. unfold sendfile64. rewrite (unseen_false _ _ _ U). cbv iota zeta. rewrite NumaThms.args_commas. apply commas_last.
  - intros b L S. destruct (sendfile_text e e' 8 rval a2 a3 b L S) as (p & u & P & U & E). exists p, u. split; [exact P|]. split; [exact U|]. unfold sendfile64. rewrite (printnum_pair e 8 a2 b L S). cbv iota zeta.
    rewrite NumaThms.args_commas, E. fold (moved e' rval). rewrite app_assoc. apply commas_last.
Qed.
Print Assumptions C111_sendfile64.
(** sendfile: the offset is an unsigned long; nothing is moved if the count is 0 *)
Theorem C111_sendfile : forall fd e e' rval a0 a1 a2 a3 w, w = 4%nat \/ w = 8%nat -> NumaModel.ws e = N.of_nat w -> (a3 = 0 -> moved e' rval = false) -> sendfile_shows fd e e' w rval a0 a1 a2 a3 (sendfile fd e e' rval a0 a1 a2 a3).
Proof.
  intros fd e e' rval a0 a1 a2 a3 w W WS Z. exists (int a0), (int a1), (TvalModel.udec a3). split; [apply signed_int|]. split; [apply signed_int|]. split; [apply TvalThms.udec_number|].
  assert (EW : (if NumaModel.ws e =? 4 then 4%nat else 8%nat) = w) by (rewrite WS; destruct W as [-> | ->]; reflexivity). split.
  - intros U. exists (TvalModel.printaddr a2). split; [apply TvalThms.printaddr_ok|]. unfold sendfile. cbv zeta. rewrite EW, (unseen_false _ _ _ U). cbn [negb orb]. rewrite NumaThms.args_commas. apply commas_last.
  - intros b L S. destruct (sendfile_text e e' w rval a2 a3 b L S) as (p & u & P & U & E). unfold sendfile. cbv zeta. rewrite EW, (printnum_pair e w a2 b L S). cbn [negb orb]. rewrite NumaThms.args_commas. destruct (N.eqb_spec a3 0) as [A|A].
    + exists (fst (printnum e w a2)), u. split; [apply printnum_ok; assumption|]. split; [exact U|]. rewrite (Z A), app_nil_r. apply commas_last.
    + exists p, u. split; [exact P|]. split; [exact U|]. rewrite E. fold (moved e' rval). rewrite app_assoc. apply commas_last.
Qed.
Print Assumptions C111_sendfile.

Example C111_example :
  let e := NumaThms.ex_env [5; 1; 0; 0; 0; 0; 0; 0] in let e' := NumaThms.ex_env [9; 1; 0; 0; 0; 0; 0; 0] in
  lseek TvalModel.sdec e 8 3 (2 ^ 64 - 10) 2 = bs "3, -10, SEEK_END" /\ lseek TvalModel.sdec e 8 3 5 (2 ^ 32) = bs "3, 5, SEEK_SET" /\ lseek TvalModel.sdec e 4 3 (2 ^ 32 - 10) 7 = bs "3, -10, 0x7 /* SEEK_??? */" /\
  llseek TvalModel.sdec e 3 (2 ^ 32 - 1) (2 ^ 32 - 2) 4096 1 = bs "3, -2, [261], SEEK_CUR" /\
  sendfile64 TvalModel.sdec e e' 4 1 3 4096 4 = bs "1, 3, [261] => [265], 4" /\ sendfile64 TvalModel.sdec e e' 0 1 3 4096 4 = bs "1, 3, [261], 4" /\
  sendfile TvalModel.sdec e e' 4 1 3 0 4 = bs "1, 3, NULL, 4" /\ sendfile TvalModel.sdec e e' 4 1 3 4096 4 = bs "1, 3, [261] => [265], 4" /\ moved e' 4 = true.
Proof. repeat split; vm_compute; reflexivity. Qed.
