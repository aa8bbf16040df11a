(** C102: how futex calls are shown. *)
From Verif Require Import Base Printf InfoModel XlatModel NumaModel FutexModel NumaSpec FutexSpec.
From Verif Require Import XlatSpec XlatProofs XlatText.
From Verif Require ArrayModel ArraySpec ArrayThms BitsModel ExtModel TvalModel TvalSpec TvalThms DateThms InfoThms InfoSpec CapSpec CapThms NumaThms.
Import BitsModel.
Local Open Scope N_scope.

Lemma const_ok s x dflt v : match xlookup x v with Some n => n <> [] | None => True end ->
  const_text s (xlookup x v) (comment dflt) v (printxvals_ex v dflt s FMT_X [x]).
Proof.
  intros H. exists (pr_hex v). split; [apply NumaThms.hex_ok|]. unfold printxvals_ex. cbn [xlookups]. destruct (xlookup x v) as [n|]; destruct s; cbn [sprint_xlat_val]; try reflexivity.
  unfold comment. destruct n; [contradiction|reflexivity].
Qed.
Lemma indexed_lookup l v : xlookup {| ty := XT_INDEXED; data := map (fun k => (N.of_nat k, nth_error l k)) (seq 0 (length l)) |} v = nth_error l (N.to_nat v).
Proof.
  unfold xlookup. cbn [ty data]. rewrite map_length, seq_length. destruct (N.ltb_spec v (N.of_nat (length l))) as [L|L].
  - assert (Q : nth_error (map (fun k => (N.of_nat k, nth_error l k)) (seq 0 (length l))) (N.to_nat v) = Some (v, nth_error l (N.to_nat v))).
    { rewrite nth_error_map. assert (S1 : nth_error (seq 0 (length l)) (N.to_nat v) = Some (N.to_nat v)) by (rewrite nth_error_nth' with (d := 0%nat) by (rewrite seq_length; lia); rewrite seq_nth by lia; reflexivity). rewrite S1. cbn [option_map]. rewrite N2Nat.id. reflexivity. }
    rewrite Q, N.eqb_refl. reflexivity.
  - symmetry. apply nth_error_None. lia.
Qed.
Lemma wakeops_lookup v : xlookup futexwakeops v = nth_error wake_ops (N.to_nat v). Proof. exact (indexed_lookup wake_ops v). Qed.
Lemma wakecmps_lookup v : xlookup futexwakecmps v = nth_error wake_cmps (N.to_nat v). Proof. exact (indexed_lookup wake_cmps v). Qed.
Lemma sizes_lookup v : xlookup futex2_sizes v = nth_error sizes (N.to_nat v). Proof. exact (indexed_lookup sizes v). Qed.
Definition oeq (a b : option (list N)) : bool := match a, b with Some x, Some y => beqs x y | None, None => true | _, _ => false end.
Lemma oeq_eq a b : oeq a b = true -> a = b.
Proof. destruct a, b; cbn; intros H; try discriminate; try reflexivity. apply beqs_eq in H. subst. reflexivity. Qed.
Lemma ops_lookup op : xlookup futexops op = op_name op.
Proof.
  destruct (N.lt_ge_cases op 512) as [L|L].
  - assert (A : forallb (fun k => oeq (xlookup futexops (N.of_nat k)) (op_name (N.of_nat k))) (seq 0 (N.to_nat 512)) = true) by (vm_compute; reflexivity).
    rewrite forallb_forall in A. specialize (A (N.to_nat op) ltac:(apply in_seq; lia)). apply oeq_eq in A. rewrite N2Nat.id in A. exact A.
  - assert (Q : 4 <= op / 128) by lia. assert (X : op_name op = None).
    { unfold op_name. destruct (nth_error commands (N.to_nat (op mod 128))); [|reflexivity]. destruct (op / 128) as [|p]; [lia|]. destruct p as [p|p|]; [destruct p|destruct p|]; try reflexivity; lia. }
    rewrite X. unfold xlookup, futexops. cbn [ty data]. assert (G : forall d, forallb (fun e => fst e <? 512) d = true -> normal_lookup d op = None).
    { induction d as [|[v n] d IH]; intros H; [reflexivity|]. cbn [forallb fst] in H. apply andb_true_iff in H as (H1 & H2). cbn [normal_lookup]. apply N.ltb_lt in H1. replace (v =? op) with false by lia. apply IH, H2. }
    apply G. vm_compute. reflexivity.
Qed.
Lemma op_name_ne op n : op_name op = Some n -> n <> [].
Proof.
  rewrite <- ops_lookup. unfold xlookup, futexops. cbn [ty data]. assert (G : forall d, forallb (fun e => match snd e with Some [] => false | _ => true end) d = true -> normal_lookup d op = Some n -> n <> []).
  { induction d as [|[v x] d IH]; intros H E; [discriminate E|]. cbn [forallb snd] in H. apply andb_true_iff in H as (H1 & H2). cbn [normal_lookup] in E. destruct (v =? op); [subst x; destruct n; [discriminate H1|discriminate]|]. apply IH; assumption. }
  apply G. vm_compute. reflexivity.
Qed.

(** ---- FUTEX_WAKE_OP ---- *)
Lemma land_mod x k : N.land x (2^k - 1) = x mod 2^k.
Proof. rewrite N.sub_1_r, <- N.ones_equiv. apply N.land_ones. Qed.
Lemma bit31 v : (N.land (v / 2^28) 8 =? 0) = negb (N.testbit v 31).
Proof.
  replace (N.testbit v 31) with (N.testbit (v / 2^28) 3) by (rewrite N.div_pow2_bits; reflexivity). generalize (v / 2^28). intros x. pose proof (CapThms.bit_in x 3) as Q. change (2^3) with 8 in Q.
  destruct (N.testbit x 3) eqn:T; cbn [negb].
  - apply N.eqb_neq. intros E. assert (Y : N.testbit (N.land x 8) 3 = true) by (rewrite N.land_spec, T; reflexivity). rewrite E in Y. discriminate Y.
  - apply N.eqb_eq. apply N.bits_inj. intros j. rewrite N.land_spec, N.bits_0. change 8 with (2^3). rewrite N.pow2_bits_eqb. destruct (N.eqb_spec 3 j) as [<- |]; [rewrite T; reflexivity|apply andb_false_r].
Qed.
Definition op_field (s : xstyle_t) (v : N) : list N := shifted s futexwakeops v (bs "28") (bs "FUTEX_OP_???").
Definition cmp_field (s : xstyle_t) (v : N) : list N := shifted s futexwakecmps v (bs "24") (bs "FUTEX_OP_CMP_???").
Definition wtoks (s : xstyle_t) (v : N) : list (list N) :=
  (if N.testbit v 31 then [print_xlat s 8 (bs "FUTEX_OP_OPARG_SHIFT") ++ bs "<<28"] else []) ++
  [op_field s (op_of v); pr_hex (oparg_of v) ++ bs "<<12"; cmp_field s (cmp_of v); pr_hex (cmparg_of v)].
Lemma wake_toks s v : print_wake_op s v = CapSpec.bar (wtoks s v).
Proof.
  unfold print_wake_op, wtoks. rewrite bit31. change 0xfff with (2^12 - 1). change 7 with (2^3 - 1) at 1. change 15 with (2^4 - 1). rewrite !land_mod.
  fold (oparg_of v). fold (cmparg_of v). change (v / 2^28 mod 2^3) with (op_of v). change (v / 2^24 mod 2^4) with (cmp_of v). fold (op_field s (op_of v)). fold (cmp_field s (cmp_of v)).
  generalize (op_field s (op_of v)) (cmp_field s (cmp_of v)) (pr_hex (oparg_of v)) (pr_hex (cmparg_of v)) (print_xlat s 8 (bs "FUTEX_OP_OPARG_SHIFT")). intros a c b d x.
  destruct (N.testbit v 31); cbn [negb app CapSpec.bar]; rewrite <- ?app_assoc; reflexivity.
Qed.
Lemma field_ok s x names by_ unknown v : s <> XRAW -> xlookup x v = nth_error names (N.to_nat v) -> Forall (fun n => n <> []) names -> unknown <> [] ->
  field_text s names by_ unknown v (shifted s x v by_ unknown).
Proof.
  intros R L NE U. unfold shifted. exists (printxvals_ex v None s FMT_X [x]). assert (N1 : match xlookup x v with Some n => n <> [] | None => True end).
  { destruct (xlookup x v) as [n|] eqn:E; [|exact Logic.I]. symmetry in L. apply nth_error_In in L. rewrite Forall_forall in NE. apply NE, L. }
  pose proof (const_ok s x None v N1) as C. unfold found. rewrite L in *. split; [exact C|]. f_equal. f_equal. f_equal. destruct (nth_error names (N.to_nat v)) as [n|]; destruct s; try contradiction; try reflexivity; unfold comment; destruct unknown; try contradiction; reflexivity.
Qed.
(** The value is shown by its fields. *)
Theorem C102_wake_op_partial : forall s v, s <> XRAW -> wake_op_text s v (print_wake_op s v).
Proof.
  intros s v R. unfold wake_op_text. exists (print_xlat s 8 (bs "FUTEX_OP_OPARG_SHIFT")), (op_field s (op_of v)), (pr_hex (oparg_of v)), (cmp_field s (cmp_of v)), (pr_hex (cmparg_of v)).
  split; [exists (pr_hex 8); split; [apply NumaThms.hex_ok|destruct s; reflexivity]|]. split; [apply field_ok; [exact R|apply wakeops_lookup|repeat constructor; discriminate|discriminate]|]. split; [apply NumaThms.hex_ok|].
  split; [apply field_ok; [exact R|apply wakecmps_lookup|repeat constructor; discriminate|discriminate]|]. split; [apply NumaThms.hex_ok|]. rewrite wake_toks. reflexivity.
Qed.
Print Assumptions C102_wake_op_partial.
(** With raw constants the remark that is meant for unknown values stands beside known ones too: printxval says "not found" for every value. *)
Theorem C102_wake_op_refuted : ~ (forall s v, wake_op_text s v (print_wake_op s v)).
Proof.
  intros H. destruct (H XRAW 0) as (s & a & b & c & d & _ & (x & (y & X & Y) & A) & B & C & D & E).
  assert (P : print_wake_op XRAW 0 = bs "0<<28 /* FUTEX_OP_??? */|0<<12|0<<24 /* FUTEX_OP_CMP_??? */|0") by (vm_compute; reflexivity). rewrite P in E. clear P.
  change (op_of 0) with 0 in *. destruct X as [[_ X]|[X _]]; [|congruence]. cbn in Y. subst x. subst y. change (a = bs "0<<28") in A. subst a. change (N.testbit 0 31) with false in E. cbn [app CapSpec.bar] in E.
  apply (f_equal (fun l => nth 5 l 0)) in E. discriminate E.
Qed.
Print Assumptions C102_wake_op_refuted.
(** The fields make up the whole value *)
Lemma fields v : v < 2^32 -> v = (if N.testbit v 31 then 2^31 else 0) + op_of v * 2^28 + cmp_of v * 2^24 + oparg_of v * 2^12 + cmparg_of v.
Proof.
  intros V. assert (T : N.b2n (N.testbit v 31) = v / 2^31 mod 2) by apply N.testbit_spec'. unfold op_of, cmp_of, oparg_of, cmparg_of. change (2^31) with 2147483648 in *. change (2^28) with 268435456. change (2^24) with 16777216. change (2^12) with 4096. change (2^32) with 4294967296 in V.
  destruct (N.testbit v 31); cbn [N.b2n] in T; lia.
Qed.
Definition all_different (f : N -> list N) (n : N) : bool :=
  forallb (fun i => forallb (fun j => (i =? j)%nat || negb (beqs (f (N.of_nat i)) (f (N.of_nat j)))) (seq 0 (N.to_nat n))) (seq 0 (N.to_nat n)).
Lemma different f n a b : all_different f n = true -> a < n -> b < n -> f a = f b -> a = b.
Proof.
  intros H A B E. unfold all_different in H. rewrite forallb_forall in H. specialize (H (N.to_nat a) ltac:(apply in_seq; lia)). rewrite forallb_forall in H. specialize (H (N.to_nat b) ltac:(apply in_seq; lia)).
  rewrite !N2Nat.id, E in H. apply orb_true_iff in H as [H|H]; [apply Nat.eqb_eq in H; lia|]. apply negb_true_iff in H. assert (X : beqs (f b) (f b) = true) by (apply beqs_eq; reflexivity). congruence.
Qed.
Lemma op_inj s a b : a < 8 -> b < 8 -> op_field s a = op_field s b -> a = b.
Proof. apply different. destruct s; vm_compute; reflexivity. Qed.
Lemma cmp_inj s a b : a < 16 -> b < 16 -> cmp_field s a = cmp_field s b -> a = b.
Proof. apply different. destruct s; vm_compute; reflexivity. Qed.
Definition no_bar (t : list N) : bool := negb (existsb (N.eqb 124) t) && match t with [] => false | _ => true end.
Lemma no_bar_ok t : no_bar t = true -> ~ In 124 t /\ t <> [].
Proof.
  intros H. apply andb_true_iff in H as (H1 & H2). split; [|destruct t; discriminate]. intros I. apply negb_true_iff in H1. assert (X : existsb (N.eqb 124) t = true) by (apply existsb_exists; exists 124; split; [exact I|reflexivity]). congruence.
Qed.
Lemma all_below (P : N -> bool) n a : forallb (fun i => P (N.of_nat i)) (seq 0 (N.to_nat n)) = true -> a < n -> P a = true.
Proof. intros H A. rewrite forallb_forall in H. specialize (H (N.to_nat a) ltac:(apply in_seq; lia)). rewrite N2Nat.id in H. exact H. Qed.
Lemma wtoks_ok s v : Forall (fun x => ~ In 124 x /\ x <> []) (wtoks s v).
Proof.
  assert (HX : forall n r, ~ In 124 r -> ~ In 124 (pr_hex n ++ r) /\ pr_hex n ++ r <> []).
  { intros n r R. split; [intros I; apply in_app_or in I as [I|I]; [revert I; apply CapThms.hex_not, plain124|exact (R I)]|]. destruct (CapThms.hex_48 n) as (q & ->). discriminate. }
  assert (OP : op_of v < 8) by (unfold op_of; apply N.mod_lt; discriminate). assert (CM : cmp_of v < 16) by (unfold cmp_of; apply N.mod_lt; discriminate).
  unfold wtoks. apply Forall_app. split; [destruct (N.testbit v 31); constructor; [apply no_bar_ok; destruct s; vm_compute; reflexivity|constructor]|].
  constructor; [apply no_bar_ok; revert OP; apply (all_below (fun a => no_bar (op_field s a)) 8); destruct s; vm_compute; reflexivity|]. constructor; [apply HX; cbn; intros I; repeat destruct I as [I|I]; try discriminate I; exact I|].
  constructor; [apply no_bar_ok; revert CM; apply (all_below (fun a => no_bar (cmp_field s a)) 16); destruct s; vm_compute; reflexivity|]. constructor; [|constructor]. rewrite <- (app_nil_r (pr_hex _)). apply HX. intros [].
Qed.
(** Two values that are shown alike are the same, in every style. *)
Theorem C102_wake_op_lossless : forall s v v', v < 2^32 -> v' < 2^32 -> print_wake_op s v = print_wake_op s v' -> v = v'.
Proof.
  intros s v v' V V' E. rewrite !wake_toks, !CapThms.bar_join in E. apply join_inj in E; [|apply wtoks_ok|apply wtoks_ok]. unfold wtoks in E.
  assert (Q : N.testbit v 31 = N.testbit v' 31 /\ [op_field s (op_of v); pr_hex (oparg_of v) ++ bs "<<12"; cmp_field s (cmp_of v); pr_hex (cmparg_of v)] = [op_field s (op_of v'); pr_hex (oparg_of v') ++ bs "<<12"; cmp_field s (cmp_of v'); pr_hex (cmparg_of v')]).
  { destruct (N.testbit v 31), (N.testbit v' 31).
    - split; [reflexivity|]. apply app_inv_head in E. exact E.
    - apply (f_equal (@length _)) in E. discriminate E.
    - apply (f_equal (@length _)) in E. discriminate E.
    - split; [reflexivity|exact E]. }
  clear E. destruct Q as (Q1 & Q2). pose proof (f_equal (fun l => nth 0 l []) Q2) as E0. pose proof (f_equal (fun l => nth 1 l []) Q2) as E1. pose proof (f_equal (fun l => nth 2 l []) Q2) as E2. pose proof (f_equal (fun l => nth 3 l []) Q2) as E3. clear Q2. cbn [nth] in *.
  apply op_inj in E0; [|unfold op_of; apply N.mod_lt; discriminate|unfold op_of; apply N.mod_lt; discriminate]. apply cmp_inj in E2; [|unfold cmp_of; apply N.mod_lt; discriminate|unfold cmp_of; apply N.mod_lt; discriminate].
  apply app_inv_tail, NumaThms.hex_same in E1. apply NumaThms.hex_same in E3. rewrite (fields v V), (fields v' V'). rewrite Q1, E0, E1, E2, E3. reflexivity.
Qed.
Print Assumptions C102_wake_op_lossless.

(** ---- the call ---- *)
Local Ltac list2 := repeat match goal with |- Forall2 _ [] [] => apply Forall2_nil | |- Forall2 _ (_ :: _) (_ :: _) => apply Forall2_cons end.
(** Each command is shown with its own arguments, in order. *)
Theorem C102_futex : forall s ts a0 a1 a2 a3 a4 a5, exists x n l,
  do_futex s ts a0 a1 a2 a3 a4 a5 = commas ([x; n] ++ l) /\ TvalSpec.address x a0 /\
  const_text s (op_name (a1 mod 2^32)) (bs " /* FUTEX_??? */") (a1 mod 2^32) n /\
  Forall2 (operand_text s ts (fun i => nth i [a0; a1; a2; a3; a4; a5] 0)) (operands (a1 mod 2^32 mod 128)) l.
Proof.
  intros. exists (TvalModel.printaddr a0), (printxvals_ex (a1 mod 2^32) (Some (bs "FUTEX_???")) s FMT_X [futexops]).
  assert (CO : const_text s (op_name (a1 mod 2^32)) (bs " /* FUTEX_??? */") (a1 mod 2^32) (printxvals_ex (a1 mod 2^32) (Some (bs "FUTEX_???")) s FMT_X [futexops])).
  { rewrite <- ops_lookup. apply (const_ok s futexops (Some (bs "FUTEX_???"))). rewrite ops_lookup. destruct (op_name (a1 mod 2^32)) eqn:E; [|exact Logic.I]. apply op_name_ne in E. exact E. }
  assert (BI : const_text s (if a5 mod 2^32 =? 2^32 - 1 then Some (bs "FUTEX_BITSET_MATCH_ANY") else None) [] (a5 mod 2^32) (printxvals_ex (a5 mod 2^32) None s FMT_X [futexbitset])).
  { replace (if a5 mod 2^32 =? 2^32 - 1 then Some (bs "FUTEX_BITSET_MATCH_ANY") else None) with (xlookup futexbitset (a5 mod 2^32)).
    - apply (const_ok s futexbitset None). unfold xlookup, futexbitset. cbn [ty data normal_lookup]. destruct (_ =? _); [discriminate|exact Logic.I].
    - unfold xlookup, futexbitset. cbn [ty data normal_lookup]. rewrite N.eqb_sym. reflexivity. }
  pose proof TvalThms.udec_number as UD. pose proof TvalThms.printaddr_ok as PA. pose proof NumaThms.hex_ok as HO.
  assert (WO : s <> XRAW -> wake_op_text s (a5 mod 2^32) (print_wake_op s (a5 mod 2^32))) by (intros R; apply C102_wake_op_partial; exact R).
  unfold do_futex, u32. cbv zeta. rewrite NumaThms.args_commas. replace (N.land (a1 mod 2^32) 127) with (a1 mod 2^32 mod 128) by (change 127 with (2^7 - 1); rewrite land_mod; reflexivity).
  set (cmd := a1 mod 2^32 mod 128) in *. clearbody cmd.
  match goal with |- exists l, commas ([?a; ?b] ++ ?l') = _ /\ _ => exists l' end. split; [reflexivity|]. split; [apply PA|]. split; [exact CO|]. clear CO.
  destruct (N.lt_ge_cases cmd 14) as [L|L].
  - assert (C : cmd = 0 \/ cmd = 1 \/ cmd = 2 \/ cmd = 3 \/ cmd = 4 \/ cmd = 5 \/ cmd = 6 \/ cmd = 7 \/ cmd = 8 \/ cmd = 9 \/ cmd = 10 \/ cmd = 11 \/ cmd = 12 \/ cmd = 13) by lia.
    repeat destruct C as [-> |C]; [..|subst cmd]; cbn [N.eqb Pos.eqb orb operands]; list2; cbn [operand_text nth]; solve [apply UD|apply PA|exact BI|exact WO|reflexivity].
  - replace (operands cmd) with [Unsigned 2; Pointer 3; Pointer 4; Hexadecimal 5].
    2:{ destruct cmd as [|p]; [lia|]. repeat (destruct p as [p|p|]; try reflexivity; try lia). }
    replace (cmd =? 0) with false by lia. replace (cmd =? 6) with false by lia. replace (cmd =? 13) with false by lia. replace (cmd =? 9) with false by lia. replace (cmd =? 10) with false by lia. replace (cmd =? 3) with false by lia.
    replace (cmd =? 4) with false by lia. replace (cmd =? 12) with false by lia. replace (cmd =? 5) with false by lia. replace (cmd =? 11) with false by lia. replace (cmd =? 2) with false by lia. replace (cmd =? 1) with false by lia. replace (cmd =? 7) with false by lia. replace (cmd =? 8) with false by lia.
    cbn [orb]. list2; cbn [operand_text nth]; [apply UD|apply PA|apply PA|apply HO].
Qed.
Print Assumptions C102_futex.

(** ---- futex2 ---- *)
Definition marks (v : N) : list (list N) := (if N.testbit v 2 then [bs "FUTEX2_NUMA"] else []) ++ (if N.testbit v 7 then [bs "FUTEX2_PRIVATE"] else []).
Definition others (v : N) : list (list N) := if N.ldiff v 0x87 =? 0 then [] else [pr_hex (N.ldiff v 0x87)].
Lemma marks_value v : N.land v 0x84 = (if N.testbit v 2 then 4 else 0) + (if N.testbit v 7 then 128 else 0).
Proof.
  assert (X : forall k, N.land v (2^k) = if N.testbit v k then 2^k else 0).
  { intros k. apply N.bits_inj. intros j. rewrite N.land_spec, N.pow2_bits_eqb. destruct (N.eqb_spec k j) as [<- |E].
    - rewrite andb_true_r. destruct (N.testbit v k); [rewrite N.pow2_bits_true; reflexivity|rewrite N.bits_0; reflexivity].
    - rewrite andb_false_r. destruct (N.testbit v k); [rewrite N.pow2_bits_false by exact E; reflexivity|rewrite N.bits_0; reflexivity]. }
  change 0x84 with (N.lor (2^2) (2^7)). rewrite N.land_lor_distr_r, !X. destruct (N.testbit v 2), (N.testbit v 7); reflexivity.
Qed.
Lemma ldiff_3 v : N.ldiff v 3 = N.lor (N.land v 0x84) (N.ldiff v 0x87).
Proof.
  change 0x87 with (N.lor 0x84 3). apply N.bits_inj. intros j. rewrite N.lor_spec, !N.ldiff_spec, N.land_spec, N.lor_spec. assert (D : N.testbit (N.land 0x84 3) j = false) by apply N.bits_0. rewrite N.land_spec in D.
  destruct (N.testbit v j), (N.testbit 0x84 j), (N.testbit 3 j); try reflexivity; discriminate D.
Qed.
Lemma rest_names v : N.ldiff v 3 <> 0 -> printflags_ex (N.ldiff v 3) None XABBREV FMT_X [futex2_flags] = CapSpec.bar (marks v ++ others v).
Proof.
  intros R. unfold others. destruct (N.eqb_spec (N.ldiff v 0x87) 0) as [Z|Z].
  - rewrite ldiff_3, Z, N.lor_0_r in *. rewrite marks_value in *. unfold marks. destruct (N.testbit v 2), (N.testbit v 7); vm_compute; reflexivity.
  - set (f := N.ldiff v 3) in *. assert (L2 : N.ldiff (N.ldiff f (2^2)) (2^7) = N.ldiff v 0x87) by (unfold f; rewrite !NumaThms.ldiff_twice; reflexivity).
    assert (L1 : N.ldiff f (2^2) <> 0) by (intros E; rewrite E, N.ldiff_0_l in L2; congruence).
    assert (T1 : N.testbit f 2 = N.testbit v 2) by (unfold f; rewrite N.ldiff_spec; apply andb_true_r). assert (T2 : N.testbit (N.ldiff f (2^2)) 7 = N.testbit v 7) by (unfold f; rewrite !N.ldiff_spec, N.pow2_bits_false by discriminate; rewrite !andb_true_r; reflexivity).
    unfold printflags_ex. cbn [pf_tables data futex2_flags]. rewrite NumaThms.one_step by exact L1. rewrite NumaThms.one_step by (rewrite L2; exact Z). cbn [pf_table]. rewrite L2, T1, T2. unfold marks. apply N.eqb_neq in Z. rewrite Z. unfold CapThms.lead. cbn [sprint_xlat_val].
    destruct (N.testbit v 2), (N.testbit v 7); cbn [app N.eqb N.add Pos.add Pos.succ negb CapSpec.bar comment]; rewrite ?app_nil_r, <- ?app_assoc; reflexivity.
Qed.
Definition ftoks (v : N) : list (list N) := nth (N.to_nat (v mod 4)) sizes [] :: marks v ++ others v.
Lemma size_text v : printxvals_ex (N.land v 3) None XABBREV FMT_X [futex2_sizes] = nth (N.to_nat (v mod 4)) sizes [].
Proof.
  change 3 with (2^2 - 1). rewrite land_mod. change (2^2) with 4. pose proof (N.mod_lt v 4 ltac:(lia)) as L. set (k := v mod 4) in *. clearbody k. assert (C : k = 0 \/ k = 1 \/ k = 2 \/ k = 3) by lia. repeat destruct C as [-> |C]; [..|subst k]; reflexivity.
Qed.
Lemma nothing_left v : N.ldiff v 3 = 0 <-> marks v ++ others v = [].
Proof.
  unfold marks, others. rewrite ldiff_3, N.lor_eq_0_iff, marks_value. destruct (N.testbit v 2), (N.testbit v 7), (N.eqb_spec (N.ldiff v 0x87) 0) as [Z|Z]; split; intros H; try discriminate H; try (destruct H as (H & _); discriminate H); try reflexivity; try (split; [reflexivity|exact Z]). destruct H as (_ & H). congruence.
Qed.
Lemma flags2_eq s v : print_futex2_flags s v = match s with XABBREV => CapSpec.bar (ftoks v) | XRAW => pr_hex v | XVERBOSE => pr_hex v ++ bs " /* " ++ CapSpec.bar (ftoks v) ++ bs " */" end.
Proof.
  unfold print_futex2_flags. rewrite size_text. unfold ftoks. assert (Q : nth (N.to_nat (v mod 4)) sizes [] ++ (if N.ldiff v 3 =? 0 then [] else bs "|" ++ printflags_ex (N.ldiff v 3) None XABBREV FMT_X [futex2_flags]) = CapSpec.bar (nth (N.to_nat (v mod 4)) sizes [] :: marks v ++ others v)).
  { destruct (N.eqb_spec (N.ldiff v 3) 0) as [Z|Z].
    - apply nothing_left in Z. rewrite Z. cbn [CapSpec.bar]. apply app_nil_r.
    - rewrite rest_names by exact Z. destruct (marks v ++ others v) eqn:E; [exfalso; apply Z, nothing_left, E|reflexivity]. }
  cbv zeta. rewrite Q. reflexivity.
Qed.
(** The flags of a futex are shown by the size and the names. *)
Theorem C102_flags : forall s v, flags2_text s v (print_futex2_flags s v).
Proof.
  intros s v. exists (pr_hex v), (others v). split; [apply NumaThms.hex_ok|]. split.
  - cbv zeta. unfold others. destruct (N.eqb_spec (N.ldiff v 0x87) 0) as [Z|Z]; [left; split; [exact Z|reflexivity]|]. right. split; [exact Z|]. exists (pr_hex (N.ldiff v 0x87)). split; [apply CapThms.hex_ok; exact Z|reflexivity].
  - cbv zeta. rewrite flags2_eq. unfold ftoks, marks. destruct s; cbn [app]; rewrite <- ?app_assoc; reflexivity.
Qed.
Print Assumptions C102_flags.
Lemma ftoks_ok v : Forall (fun x => ~ In 124 x /\ x <> []) (ftoks v).
Proof.
  unfold ftoks. constructor.
  - assert (L : v mod 4 < 4) by (apply N.mod_lt; discriminate). apply no_bar_ok. revert L. apply (all_below (fun a => no_bar (nth (N.to_nat a) sizes [])) 4). vm_compute. reflexivity.
  - apply Forall_app. split.
    + unfold marks. destruct (N.testbit v 2), (N.testbit v 7); cbn [app]; repeat (apply Forall_cons; [apply no_bar_ok; vm_compute; reflexivity|]); apply Forall_nil.
    + unfold others. destruct (_ =? 0); [constructor|]. constructor; [|constructor]. split; [apply CapThms.hex_not, plain124|]. destruct (CapThms.hex_48 (N.ldiff v 0x87)) as (r & ->). discriminate.
Qed.
Definition is_name (x : list N) : Prop := exists r, x = 70 :: r.
Lemma flags_parts v : v = v mod 4 + (N.land v 0x84 + N.ldiff v 0x87).
Proof.
  assert (A : N.land v 0x84 + N.ldiff v 0x87 = N.ldiff v 3).
  { rewrite ldiff_3, N.add_nocarry_lxor; [apply N.lxor_lor|]; apply N.bits_inj; intros j; rewrite N.land_spec, N.ldiff_spec, N.land_spec, N.bits_0; change 0x87 with (N.lor 0x84 3); rewrite N.lor_spec; destruct (N.testbit v j), (N.testbit 0x84 j); reflexivity. }
  rewrite A. replace (v mod 4) with (N.land v 3) by (change 3 with (2^2 - 1); rewrite land_mod; reflexivity). rewrite N.add_comm.
  rewrite N.add_nocarry_lxor; apply N.bits_inj; intros j; rewrite ?N.lxor_spec, ?N.land_spec, ?N.ldiff_spec, ?N.land_spec, ?N.bits_0; destruct (N.testbit v j), (N.testbit 3 j); reflexivity.
Qed.
(** Two sets of flags that are shown alike are the same, in every style. *)
Theorem C102_flags_lossless : forall s v v', print_futex2_flags s v = print_futex2_flags s v' -> v = v'.
Proof.
  intros s v v' E. rewrite !flags2_eq in E. destruct s.
  - rewrite !CapThms.bar_join in E. apply join_inj in E; [|apply ftoks_ok|apply ftoks_ok]. unfold ftoks in E. pose proof (f_equal (hd []) E) as E0. pose proof (f_equal (@tl _) E) as E1. clear E. cbn [hd tl] in *.
    assert (M : v mod 4 = v' mod 4).
    { revert E0. apply (different (fun a => nth (N.to_nat a) sizes []) 4); [vm_compute; reflexivity|apply N.mod_lt; discriminate|apply N.mod_lt; discriminate]. }
    apply (CapThms.cut_at is_name) in E1.
    + destruct E1 as (E1 & E2). assert (A : N.land v 0x84 = N.land v' 0x84).
      { rewrite !marks_value. unfold marks in E1. destruct (N.testbit v 2), (N.testbit v 7), (N.testbit v' 2), (N.testbit v' 7); try reflexivity; discriminate E1. }
      assert (B : N.ldiff v 0x87 = N.ldiff v' 0x87).
      { unfold others in E2. destruct (N.eqb_spec (N.ldiff v 0x87) 0) as [Z|Z], (N.eqb_spec (N.ldiff v' 0x87) 0) as [Z'|Z']; try discriminate E2; try congruence. apply sing_inj in E2. apply NumaThms.hex_same, E2. }
      rewrite (flags_parts v), (flags_parts v'), M, A, B. reflexivity.
    + unfold marks. destruct (N.testbit v 2), (N.testbit v 7); cbn [app]; repeat (apply Forall_cons; [eexists; reflexivity|]); apply Forall_nil.
    + unfold marks. destruct (N.testbit v' 2), (N.testbit v' 7); cbn [app]; repeat (apply Forall_cons; [eexists; reflexivity|]); apply Forall_nil.
    + unfold others. destruct (_ =? 0); [constructor|]. constructor; [|constructor]. intros (r & X). destruct (CapThms.hex_48 (N.ldiff v 0x87)) as (q & Y). rewrite Y in X. discriminate X.
    + unfold others. destruct (_ =? 0); [constructor|]. constructor; [|constructor]. intros (r & X). destruct (CapThms.hex_48 (N.ldiff v' 0x87)) as (q & Y). rewrite Y in X. discriminate X.
  - apply NumaThms.hex_same, E.
  - apply (split_at 32) in E; [apply NumaThms.hex_same, E|apply CapThms.hex_not, plain32|apply CapThms.hex_not, plain32|apply CapThms.hex_head32|apply CapThms.hex_head32].
Qed.
Print Assumptions C102_flags_lossless.

(** ---- futex_waitv ---- *)
Section W.
Variables (e : env) (addr n : N) (b : list N).
Hypotheses (A0 : addr <> 0) (N0 : n <> 0) (F : addr + n * 24 < 2^64) (V : ExtModel.verbose (o e) = true) (NF : ExtModel.failed (o e) = false)
  (AB : abbrev e = true -> n < 2^32) (LB : length b = (N.to_nat n * 24)%nat) (MB : TvalSpec.bytes_at (m e) addr b).
Let a := waiter_args e addr n.
Lemma w_fits : ArraySpec.fits a. Proof. unfold ArraySpec.fits, a. cbn. repeat split; try lia; exact F. Qed.
Lemma w_fetch i : (i < N.to_nat n)%nat -> ArrayModel.fetch a (ArraySpec.addr a i) = Some (N.of_nat i :: NumaThms.piece b 24 i).
Proof.
  intros I. unfold a, waiter_args, ArraySpec.addr. cbn [ArrayModel.fetch ArrayModel.start ArrayModel.esize].
  assert (L : (i * 24 + 24 <= length b)%nat) by (rewrite LB; lia). assert (LP : length (NumaThms.piece b 24 i) = 24%nat) by (unfold NumaThms.piece; rewrite firstn_length, skipn_length; lia).
  assert (X : ExtModel.umoven_or_printaddr (o e) (m e) (addr + N.of_nat i * 24) (length (NumaThms.piece b 24 i)) = Some (NumaThms.piece b 24 i)).
  2:{ rewrite LP in X. rewrite X. cbn [option_map]. replace ((addr + N.of_nat i * 24 - addr) / 24) with (N.of_nat i); [reflexivity|]. replace (addr + N.of_nat i * 24 - addr) with (N.of_nat i * 24) by lia. symmetry. apply N.div_mul. discriminate. }
  - apply TvalThms.fetched; try assumption; [lia|]. unfold NumaThms.piece. replace (addr + N.of_nat i * 24) with (addr + N.of_nat (i * 24)) by lia. apply NumaThms.bytes_sub; [exact MB|exact L].
Qed.
Lemma w_items k : (k <= N.to_nat n)%nat -> map (fun x => concat (map (tok_text (print_waiter (st e))) x)) (ArraySpec.items a k) = map (fun i => print_waiter (st e) (N.of_nat i :: NumaThms.piece b 24 i)) (seq 0 k).
Proof.
  intros K. unfold ArraySpec.items. rewrite map_map. apply map_ext_in. intros i I. apply in_seq in I. unfold ArraySpec.item. rewrite w_fetch by lia. cbn [ArrayModel.paf_indices a waiter_args map concat tok_text]. apply app_nil_r.
Qed.
Lemma w_limit : ArraySpec.limit a = count (abbrev e) (ExtModel.max_strlen (o e)) n. Proof. reflexivity. Qed.
Lemma w_text : let c := count (abbrev e) (ExtModel.max_strlen (o e)) n in let k := Nat.min c 128 in
  print_waiter_array e addr n = bs "[" ++ commas (map (fun i => print_waiter (st e) (N.of_nat i :: NumaThms.piece b 24 i)) (seq 0 k) ++ cut k (N.to_nat n)) ++ bs "]".
Proof.
  intros c k. assert (C : (c <= N.to_nat n)%nat) by (unfold c, count; destruct (abbrev e); lia). unfold print_waiter_array. fold a. destruct (Nat.leb_spec c 128) as [L|L].
  - assert (KE : k = c) by (unfold k; lia). rewrite KE. destruct (ArrayThms.C49_whole_partial a w_fits AB) as (fe & X).
    + intros i I. rewrite w_limit in I. fold c in I. exists (N.of_nat i :: NumaThms.piece b 24 i). split; [apply w_fetch; lia|]. cbn. apply negb_true_iff. apply N.leb_gt. lia.
    + intros Y. rewrite w_limit in *. fold c in Y |- *. rewrite w_fetch by (cbn [ArrayModel.nmemb a waiter_args] in Y; lia). discriminate.
    + rewrite X. cbn [snd]. rewrite NumaThms.brackets_text, map_app, w_items by (rewrite w_limit; exact C). rewrite w_limit. fold c. f_equal. f_equal. f_equal. f_equal. change (ArrayModel.paf_truncated a) with false. rewrite orb_false_r. unfold cut. change (ArrayModel.nmemb a) with n. destruct (c <? N.to_nat n)%nat; reflexivity.
  - assert (KE : k = 128%nat) by (unfold k; lia). rewrite KE. destruct (ArrayThms.C49_stopped_partial a 128 (128 :: NumaThms.piece b 24 128) w_fits AB) as (fe & X).
    + rewrite w_limit. exact L.
    + intros i I. exists (N.of_nat i :: NumaThms.piece b 24 i). split; [apply w_fetch; lia|]. cbn. apply negb_true_iff. apply N.leb_gt. lia.
    + apply (w_fetch 128). lia.
    + reflexivity.
    + rewrite X. cbn [snd]. rewrite NumaThms.brackets_text, map_app, w_items by lia. change (ArrayModel.paf_truncated a) with false. cbn [map]. rewrite app_nil_r. rewrite seq_S, map_app. f_equal. f_equal. f_equal. f_equal. unfold cut. replace (128 <? N.to_nat n)%nat with true; [reflexivity|]. symmetry. apply Nat.ltb_lt. lia.
Qed.
End W.
Lemma waiter_ok s i b : length b = 24%nat -> i < 128 -> waiter_text s b (print_waiter s (i :: b)).
Proof.
  intros L I. unfold waiter_text. exists (pr_hex (InfoSpec.number_at b 0 8)), (TvalModel.printaddr (InfoSpec.number_at b 8 8)), (print_futex2_flags s (InfoSpec.number_at b 16 4)), (pr_hex (InfoSpec.number_at b 20 4)).
  split; [apply NumaThms.hex_ok|]. split; [apply TvalThms.printaddr_ok|]. split; [apply C102_flags|]. split; [apply NumaThms.hex_ok|]. cbn [print_waiter]. replace (128 <=? i) with false by lia. rewrite !InfoThms.ld_number. reflexivity.
Qed.
(** The waiters: each the one in memory; at most 128, and with abbreviation at most the limit. *)
Theorem C102_waiters : forall e addr n b, addr <> 0 -> n <> 0 -> addr + n * 24 < 2^64 -> ExtModel.verbose (o e) = true -> ExtModel.failed (o e) = false -> n < 2^32 ->
  length b = (N.to_nat n * 24)%nat -> TvalSpec.bytes_at (m e) addr b ->
  let k := Nat.min (count (abbrev e) (ExtModel.max_strlen (o e)) n) 128 in
  array_text (fun i t => waiter_text (st e) (firstn 24 (skipn (i * 24) b)) t) k (cut k (N.to_nat n)) (print_waiter_array e addr n).
Proof.
  intros e addr n b A0 N0 F V NF AB LB MB k. rewrite (w_text e addr n b A0 N0 F V NF (fun _ => AB) LB MB). fold k. assert (K : (k <= 128 /\ k <= N.to_nat n)%nat) by (unfold k, count; destruct (abbrev e); lia).
  eexists. split; [|split; [|reflexivity]]; [rewrite map_length, seq_length; reflexivity|]. intros i I.
  rewrite nth_indep with (d' := print_waiter (st e) (N.of_nat 0 :: NumaThms.piece b 24 0)) by (rewrite map_length, seq_length; exact I). rewrite (map_nth (fun i => print_waiter (st e) (N.of_nat i :: NumaThms.piece b 24 i))), seq_nth by exact I. cbn [Nat.add].
  apply waiter_ok; [|lia]. unfold NumaThms.piece. rewrite firstn_length, skipn_length, LB. lia.
Qed.
Print Assumptions C102_waiters.
(** The other calls: which arguments, in order. *)
Theorem C102_futex2 : forall e ts clock a0 a1 a2 a3 a4 a5,
  (exists c f, futex_waitv e ts clock a0 a1 a2 a3 a4 = commas [print_waiter_array e a0 (a1 mod 2^32); c; f; ts a3; clock (a4 mod 2^32)] /\ TvalSpec.number c (a1 mod 2^32) /\ hex_or_0 f (a2 mod 2^32)) /\
  (exists x k c f, futex_wake e a0 a1 a2 a3 = commas [x; k; c; f] /\ TvalSpec.address x a0 /\ const_text (st e) (if a1 =? 2^32 - 1 then Some (bs "FUTEX_BITSET_MATCH_ANY") else None) [] a1 k /\
     (exists z, TvalSpec.integer c z /\ (- 2^31 <= z < 2^31)%Z /\ (z mod 2^32 = Z.of_N (a2 mod 2^32))%Z) /\ flags2_text (st e) (a3 mod 2^32) f) /\
  (exists x v k f, futex_wait e ts clock a0 a1 a2 a3 a4 a5 = commas [x; v; k; f; ts a4; clock (a5 mod 2^32)] /\ TvalSpec.address x a0 /\ TvalSpec.number v a1 /\
     const_text (st e) (if a2 =? 2^32 - 1 then Some (bs "FUTEX_BITSET_MATCH_ANY") else None) [] a2 k /\ flags2_text (st e) (a3 mod 2^32) f) /\
  (exists f c d, futex_requeue e a0 a1 a2 a3 = commas [print_waiter_array e a0 2; f; c; d] /\ hex_or_0 f (a1 mod 2^32) /\
     (exists z, TvalSpec.integer c z /\ (- 2^31 <= z < 2^31)%Z /\ (z mod 2^32 = Z.of_N (a2 mod 2^32))%Z) /\ (exists z, TvalSpec.integer d z /\ (- 2^31 <= z < 2^31)%Z /\ (z mod 2^32 = Z.of_N (a3 mod 2^32))%Z)).
Proof.
  intros. assert (BI : forall v, const_text (st e) (if v =? 2^32 - 1 then Some (bs "FUTEX_BITSET_MATCH_ANY") else None) [] v (printxvals_ex v None (st e) FMT_X [futexbitset])).
  { intros v. replace (if v =? 2^32 - 1 then Some (bs "FUTEX_BITSET_MATCH_ANY") else None) with (xlookup futexbitset v).
    - apply (const_ok (st e) futexbitset None). unfold xlookup, futexbitset. cbn [ty data normal_lookup]. destruct (_ =? _); [discriminate|exact Logic.I].
    - unfold xlookup, futexbitset. cbn [ty data normal_lookup]. rewrite N.eqb_sym. reflexivity. }
  assert (SI : forall v, exists z, TvalSpec.integer (TvalModel.sdec (TvalModel.sx 4 (u32 v))) z /\ (- 2^31 <= z < 2^31)%Z /\ (z mod 2^32 = Z.of_N (v mod 2^32))%Z).
  { intros v. exists (TvalModel.sx 4 (u32 v)). split; [apply DateThms.sdec_integer|]. unfold TvalModel.sx, u32. rewrite DateThms.pow4. pose proof (N.mod_lt v (2^32) ltac:(discriminate)) as Q. set (x := v mod 2^32) in *. clearbody x. change (2^32) with 4294967296 in Q. change (2^32)%Z with 4294967296%Z. change (4294967296 / 2)%Z with 2147483648%Z. change (2^31)%Z with 2147483648%Z.
    destruct (Z.ltb_spec (Z.of_N x) 2147483648); lia. }
  split; [|split; [|split]].
  - exists (TvalModel.udec (u32 a1)), (pr_hex (u32 a2)). split; [unfold futex_waitv; rewrite NumaThms.args_commas; reflexivity|]. split; [apply TvalThms.udec_number|apply NumaThms.hex_ok].
  - exists (TvalModel.printaddr a0), (printxvals_ex a1 None (st e) FMT_X [futexbitset]), (TvalModel.sdec (TvalModel.sx 4 (u32 a2))), (print_futex2_flags (st e) (u32 a3)). split; [unfold futex_wake; rewrite NumaThms.args_commas; reflexivity|].
    split; [apply TvalThms.printaddr_ok|]. split; [apply BI|]. split; [apply SI|apply C102_flags].
  - exists (TvalModel.printaddr a0), (TvalModel.udec a1), (printxvals_ex a2 None (st e) FMT_X [futexbitset]), (print_futex2_flags (st e) (u32 a3)). split; [unfold futex_wait; rewrite NumaThms.args_commas; reflexivity|].
    split; [apply TvalThms.printaddr_ok|]. split; [apply TvalThms.udec_number|]. split; [apply BI|apply C102_flags].
  - exists (pr_hex (u32 a1)), (TvalModel.sdec (TvalModel.sx 4 (u32 a2))), (TvalModel.sdec (TvalModel.sx 4 (u32 a3))). split; [unfold futex_requeue; rewrite NumaThms.args_commas; reflexivity|]. split; [apply NumaThms.hex_ok|]. split; apply SI.
Qed.
Print Assumptions C102_futex2.

Definition waiter_ex : list N := [7; 0; 0; 0; 0; 0; 0; 0] ++ [0; 16; 0; 0; 0; 0; 0; 0] ++ [130; 0; 0; 0] ++ [0; 0; 0; 0] ++ [0; 0; 0; 0; 0; 0; 0; 0] ++ [0; 0; 0; 0; 0; 0; 0; 0] ++ [10; 0; 0; 0] ++ [1; 0; 0; 0].
Example C102_example :
  print_waiter_array (NumaThms.ex_env waiter_ex) 4096 2 = bs "[{val=0x7, uaddr=0x1000, flags=FUTEX2_SIZE_U32|FUTEX2_PRIVATE}, {val=0, uaddr=NULL, flags=FUTEX2_SIZE_U32|0x8, __reserved=0x1}]" /\
  do_futex XABBREV (fun _ => bs "{...}") 4096 0x85 1 2 8192 0x82003004 = bs "0x1000, FUTEX_WAKE_OP_PRIVATE, 1, 2, 0x2000, FUTEX_OP_OPARG_SHIFT<<28|FUTEX_OP_SET<<28|0x3<<12|FUTEX_OP_CMP_LT<<24|0x4" /\
  do_futex XABBREV (fun _ => bs "{...}") 4096 0x189 1 2 8192 (2^32 - 1) = bs "0x1000, FUTEX_WAIT_BITSET_PRIVATE|FUTEX_CLOCK_REALTIME, 1, {...}, FUTEX_BITSET_MATCH_ANY" /\
  TvalSpec.bytes_at (m (NumaThms.ex_env waiter_ex)) 4096 waiter_ex.
Proof.
  split; [vm_compute; reflexivity|]. split; [vm_compute; reflexivity|]. split; [vm_compute; reflexivity|].
  intros i I. cbn [length waiter_ex app] in I. do 48 (destruct i as [|i]; [reflexivity|]). lia.
Qed.
