(** The tables of -e inject (C52). *)
From Verif Require Import Base AllocModel ListModel ListSpec ListProofs TimeModel TableModel TableSpec TableProofs.
Local Open Scope N_scope.

(** ** Return values *)
(** the indices handed out are those of the values, and each finds its value, however many were
    registered after it; other indices find none *)
Theorem C52_retval : forall k mal vs v is, (k = 16 \/ k = 32) -> retvals k mal vec0 vs = Ok (v, is) ->
  is = map N.of_nat (seq 0 (length vs)) /\ (forall i x, nth_error vs i = Some x -> retval_get v (N.of_nat i) = Ok x) /\ (forall i, N.of_nat (length vs) <= i -> retval_get v i = Die).
Proof.
  intros k mal vs v is K E. destruct (retvals_inv k mal vs K _ _ _ _ (vec0_inv 0%Z) E) as ((U & _ & (n & C) & _) & ->). cbn [app length] in *. split; [reflexivity|]. unfold retval_get. split.
  - intros i x X. assert (i < length vs)%nat by (apply nth_error_Some; congruence). destruct (N.leb_spec (used v) (N.of_nat i)); [lia|]. rewrite Nat2N.id, C, nth_error_app1, X by lia. reflexivity.
  - intros i L. destruct (N.leb_spec (used v) i); [reflexivity|lia].
Qed.
Print Assumptions C52_retval.
(** with enough memory the first 65536 are taken and the next one ends strace *)
Theorem C52_retval_limit : forall k vs, (k = 16 \/ k = 32) ->
  (N.of_nat (length vs) <= 65536 -> exists v is, retvals k (fun _ => true) vec0 vs = Ok (v, is)) /\
  (65536 < N.of_nat (length vs) -> retvals k (fun _ => true) vec0 vs = Die).
Proof.
  intros k vs K. split; intros L; [apply (retvals_total k vs K vec0 [] (vec0_inv 0%Z)); cbn; lia|].
  assert (Q : exists q, N.of_nat q = 65536) by (eexists; apply N2Nat.id). destruct Q as [q Q]. rewrite <- (firstn_skipn q vs). rewrite retvals_app. assert (LF : N.of_nat (length (firstn q vs)) = 65536) by (rewrite firstn_length, Nat.min_l; lia). destruct (retvals_total k (firstn q vs) K vec0 [] (vec0_inv 0%Z)) as (v & is & E); [cbn [length]; lia|]. rewrite E. cbn [rbind].
  destruct (retvals_inv _ _ _ K _ _ _ _ (vec0_inv 0%Z) E) as [I _]. cbn [app] in I. destruct (skipn q vs) as [|x r] eqn:SK; [apply (f_equal (@length Z)) in SK; rewrite skipn_length in SK; cbn in SK; lia|]. cbn [retvals]. rewrite (retval_full k _ v _ x I LF). reflexivity.
Qed.
Print Assumptions C52_retval_limit.
Example C52_retval_example : match retvals 32 (fun _ => true) vec0 (map Z.of_nat (seq 100 40)) with Ok (v, is) => (retval_get v 0, retval_get v 16, retval_get v 39, retval_get v 40, nth 39 is 0, capacity v) | _ => (Undef, Undef, Undef, Undef, 0, 0) end
  = (Ok 100%Z, Ok 116%Z, Ok 139%Z, Die, 39, 58).
Proof. vm_compute. reflexivity. Qed.

(** ** Delays *)
(** After any sequence of -e inject, the delays of each are found under the index that it got; a delay
    that was not given is zero; and no two get the same index. *)
Theorem C52_delay : forall k mal es v os, (k = 16 \/ k = 32) -> exprs k mal vec0 es = Ok (Some (v, os)) ->
  length os = length es /\
  (forall i toks o, nth_error es i = Some toks -> nth_error os i = Some o -> toks <> [] ->
     (forall e t, In (e, t) toks -> delay_get v (didx o) e = Ok t) /\
     (forall e, (forall t, ~ In (e, t) toks) -> delay_get v (didx o) e = Ok ts0)) /\
  NoDup (map didx (map snd (filter (fun eo => match fst eo with [] => false | _ => true end) (combine es os)))).
Proof.
  intros k mal es v os K E. destruct (exprs_inv k mal es K _ _ _ _ (vec0_inv delay0) E) as (D & I & F & _ & M). cbn [app length] in *. split; [clear - F; induction F; cbn; congruence|]. split.
  - intros i toks o E1 E2 NE. assert (FO : found D toks o). { clear - F E1 E2. revert i E1 E2. induction F as [|a b la lb H F IH]; intros [|i] E1 E2; cbn in *; try discriminate; [inversion E1; inversion E2; subst; exact H|eapply IH; eauto]. }
    destruct (FO NE) as (d & ND & A & B). rewrite <- (N2Nat.id (didx o)). split; [intros e t J; rewrite (delay_get_ok v D _ d e I ND), (A e t J); reflexivity|intros e J; rewrite (delay_get_ok v D _ d e I ND), (B e J); reflexivity].
  - rewrite M. apply FinFun.Injective_map_NoDup; [intros x y; lia|apply seq_NoDup].
Qed.
Print Assumptions C52_delay.
(** when all 65536 are in use strace ends *)
Theorem C52_delay_limit : forall k mal es v os e t, (k = 16 \/ k = 32) -> exprs k mal vec0 es = Ok (Some (v, os)) -> N.of_nat (length (filter (fun e => match e with [] => false | _ => true end) es)) = 65536 -> expr k mal v ((e, t) :: nil) = Die.
Proof.
  intros k mal es v os e t K E L. destruct (exprs_inv k mal es K _ _ _ _ (vec0_inv delay0) E) as (D & I & _ & LD & _). cbn [app] in I. unfold expr. cbn [expr_from]. unfold parse_delay_token. replace (if e then f_enter dopts0 else f_exit dopts0) with false by (destruct e; reflexivity). cbn [didx dopts0]. change (65535 =? 65535) with true. cbv iota. unfold alloc_delay_data. destruct I as (U & _). rewrite U, LD, L. reflexivity.
Qed.
Print Assumptions C52_delay_limit.
Definition tv (s : Z) : ts := {| sec := s; nsec := 0 |}.
Example C52_delay_example : match exprs 32 (fun _ => true) vec0 ([[(true, tv 1)]; []; [(false, tv 2); (true, tv 3)]] ++ repeat [(true, tv 9)] 10 ++ [[(false, tv 5)]]) with
  | Ok (Some (v, os)) => (map didx (firstn 3 os), delay_get v 0 true, delay_get v 0 false, delay_get v 1 true, delay_get v 1 false, delay_get v 12 false) | _ => ([], Undef, Undef, Undef, Undef, Undef) end
  = ([0; 65535; 1], Ok (tv 1), Ok (tv 0), Ok (tv 3), Ok (tv 2), Ok (tv 5)).
Proof. vm_compute. reflexivity. Qed.

(** ** Pokes *)
(** As long as the array of list heads stays where it is, the lists behave like lists: what was added
    to a list is found there, the last one first, and a second one of the same kind and argument is refused.
    Partial: when the array grows the heads move (C52_poke_refuted). *)
Theorem C52_poke_partial : forall k b h os L vs, (k = 16 \/ k = 32) -> b <> 0 -> placed b os -> aprun [] os = Some (L, vs) ->
  exists s, prun k (fun _ => true) b (ptab0 h) os = Ok (s, vs) /\
  (forall idx l e, nth_error L (N.to_nat idx) = Some l -> poke_tcb s idx e = Ok (map (fun q => (fst q, snd (snd q))) (filter (fun q => eqb (fst (snd q)) e) l))) /\
  (forall idx e, N.of_nat (length L) <= idx -> poke_tcb s idx e = Die).
Proof.
  intros k b h os L vs K B0 [ND PL] E. destruct (prun_ok b k os B0 K (ptab0 h) [] L vs (ptab0_inv b h) ND) as (s & X & I); [intros p IP; destruct (PL p IP); cbn; auto|exact E|]. exists s. split; [exact X|]. unfold poke_tcb. split.
  - intros idx l e NE. destruct (walk_ok _ _ _ _ _ I NE) as [W _]. rewrite (pi_used _ _ _ I). assert (N.to_nat idx < length L)%nat by (apply nth_error_Some; congruence). destruct (N.leb_spec (N.of_nat (length L)) idx); [lia|]. rewrite W. cbn [rbind]. apply of_kind_ok; [apply I|]. intros q J. eapply pi_in; [exact I|eapply nth_error_In; exact NE|exact J].
  - intros idx e LE. rewrite (pi_used _ _ _ I). destruct (N.leb_spec (N.of_nat (length L)) idx); [reflexivity|lia].
Qed.
Print Assumptions C52_poke_partial.
Definition pops : list pop := concat (map (fun i => [PAlloc; PAdd (N.of_nat i) (5000000 + 64 * N.of_nat i) true 1; PAdd (N.of_nat i) (6000000 + 64 * N.of_nat i) false 2; PAdd (N.of_nat i) (7000000 + 64 * N.of_nat i) true 1]) (seq 0 12)).
Fixpoint nodupb (l : list N) : bool := match l with [] => true | x :: r => negb (existsb (N.eqb x) r) && nodupb r end.
Lemma nodupb_ok l : nodupb l = true -> NoDup l.
Proof. induction l as [|x l IH]; cbn; intros E; [constructor|]. apply andb_true_iff in E as [A B]. constructor; [|apply IH; exact B]. intros I. apply negb_true_iff in A. rewrite (proj2 (existsb_exists _ _)) in A; [discriminate|]. exists x. split; [exact I|apply N.eqb_refl]. Qed.
Example C52_poke_example : placed 1000 pops /\ match aprun [] pops with Some (L, vs) => (length L, nth 4 vs (PIdx 9), nth 7 vs (PIdx 9)) | None => (O, PIdx 9, PIdx 9) end = (12%nat, PIdx 1, PDup true) /\
  match prun 32 (fun _ => true) 1000 (ptab0 {| prev := fun x => x; next := fun x => x + 1 |}) pops with Ok (s, _) => (poke_tcb s 0 true, poke_tcb s 11 false, poke_tcb s 12 true) | _ => (Undef, Undef, Undef) end = (Ok [(5000000, 1)], Ok [(6000704, 2)], Die).
Proof.
  split; [split|].
  - apply nodupb_ok. vm_compute. reflexivity.
  - assert (X : forallb (fun p => negb (p =? 0) && (1000 + 16 * 2 ^ 17 <=? p)) (paddrs pops) = true) by (vm_compute; reflexivity). rewrite forallb_forall in X. intros p IP. apply X in IP. apply andb_true_iff in IP as [A B]. apply negb_true_iff, N.eqb_neq in A. apply N.leb_le in B. auto.
  - split; vm_compute; reflexivity.
Qed.

(** The full claim is false: when the ninth list is started, the array is reallocated, and if it moves
    then the lists still lead to where it was before.  Going through one never comes back to its head. *)
Fixpoint prun_at (k : N) (s : ptab) (os : list (pop * N)) : res (ptab * list pval) :=
  match os with [] => Ok (s, []) | (o, b) :: r => rlet (s, v) := pstep k (fun _ => true) b s o in rlet (s, vs) := prun_at k s r in Ok (s, v :: vs) end.
Definition lost : list (pop * N) := [(PAlloc, 1000); (PAdd 0 50000 true 1, 1000)] ++ repeat (PAlloc, 1000) 7 ++ [(PAlloc, 4000)].
Lemma cycle h head a b fuel : forall acc, a <> head -> b <> head -> a <> 0 -> b <> 0 -> next h a = b -> next h b = a -> foreach_from fuel h head a acc = Undef.
Proof.
  revert a b. induction fuel as [|fuel IH]; intros a b acc A B A0 B0 AB BA; cbn [foreach_from]; (destruct (N.eqb_spec a head); [contradiction|]); [reflexivity|]. unfold get_next. destruct (N.eqb_spec a 0); [contradiction|]. cbn [rbind]. rewrite AB. eapply IH; eauto.
Qed.
Theorem C52_poke_refuted : forall h, exists s vs, prun_at 32 (ptab0 h) lost = Ok (s, vs) /\ pused s = 9 /\ payload s 50000 = Ok (true, 1) /\ next (hp s) (head_at s 0) = 50000 /\
  forall fuel, list_foreach fuel (hp s) (head_at s 0) = Undef.
Proof.
  intros h. assert (X : match prun_at 32 (ptab0 h) lost with Ok (s, vs) => (pused s, base s, next (hp s) 4000, next (hp s) 50000, next (hp s) 1000, payload s 50000) | _ => (0, 0, 0, 0, 0, Undef) end = (9, 4000, 50000, 1000, 50000, Ok (true, 1))) by (vm_compute; reflexivity).
  destruct (prun_at 32 (ptab0 h) lost) as [[s vs]| |]; try discriminate. injection X as X1 X2 X3 X4 X5 X6. exists s, vs. split; [reflexivity|]. split; [exact X1|]. split; [exact X6|]. assert (HA : head_at s 0 = 4000) by (unfold head_at; rewrite X2; reflexivity). rewrite HA. split; [exact X3|]. intros fuel. unfold list_foreach, get_next. change (4000 =? 0) with false. cbv iota. cbn [rbind]. rewrite X3. apply cycle with 1000; auto; discriminate.
Qed.
Print Assumptions C52_poke_refuted.
