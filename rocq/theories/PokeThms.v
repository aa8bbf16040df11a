(** Tampering with the memory of a tracee (C100). *)
From Coq Require ListDec.
From Verif Require Import Base UcopyModel UcopyProofs RetModel PokeModel PokeSpec.
Local Open Scope N_scope.

Definition to_payload (r : bool * N * list N) : payload := {| is_enter := fst (fst r); arg_no := snd (fst r); pdata := snd r |}.
Lemma insert_last v l p : insert_at (v ++ [l]) (length v) p = v ++ [p :: l].
Proof. induction v as [|x v IH]; [reflexivity|]. cbn. f_equal. exact IH. Qed.
Lemma nth_last {A} (v : list A) l i : i = N.of_nat (length v) -> nth_error (v ++ [l]) (N.to_nat i) = Some l.
Proof. intros ->. rewrite Nat2N.id, nth_error_app2 by lia. rewrite Nat.sub_diag. reflexivity. Qed.
Lemma add_last v l p idx : idx = N.of_nat (length v) ->
  poke_add (v ++ [l]) idx p = Ok (if existsb (fun i => Bool.eqb (is_enter i) (is_enter p) && (arg_no i =? arg_no p)) l then None else Some (v ++ [p :: l])).
Proof. intros ->. unfold poke_add. rewrite (nth_last v l _ eq_refl). destruct (existsb _ l); [reflexivity|]. rewrite Nat2N.id, insert_last. reflexivity. Qed.
Lemma NoDup_tail {A} (a b : list A) : NoDup (a ++ b) -> NoDup b.
Proof. induction a as [|x a IH]; intros H; [exact H|]. inversion H; subst. auto. Qed.
Lemma key_dec : forall x y : bool * N, {x = y} + {x <> y}.
Proof. decide equality; [apply N.eq_dec|apply bool_dec]. Qed.
Definition key (p : payload) : bool * N := (is_enter p, arg_no p).
Lemma dup_key p l : existsb (fun i => Bool.eqb (is_enter i) (is_enter p) && (arg_no i =? arg_no p)) l = true <-> In (key p) (map key l).
Proof.
  rewrite existsb_exists, in_map_iff. split; intros (i & A & B); exists i.
  - apply andb_prop in B. destruct B as [B C]. apply eqb_prop in B. apply N.eqb_eq in C. split; [unfold key; congruence|exact A].
  - split; [exact B|]. unfold key in A. injection A as A1 A2. rewrite A1, A2, eqb_reflx, N.eqb_refl. reflexivity.
Qed.
Lemma tokens_last v ps : forall l idx, idx = N.of_nat (length v) -> NoDup (map key l) ->
  (NoDup (map key (rev ps ++ l)) -> poke_tokens (v ++ [l]) idx ps = Ok (Some (v ++ [rev ps ++ l]))) /\
  (~ NoDup (map key (rev ps ++ l)) -> poke_tokens (v ++ [l]) idx ps = Ok None).
Proof.
  induction ps as [|p ps IH]; intros l idx EI ND; [split; [reflexivity|intros H; exfalso; apply H; exact ND]|]. cbn [poke_tokens rev]. rewrite (add_last v l p idx EI). cbn [rbind]. rewrite <- app_assoc. cbn [app].
  destruct (existsb _ l) eqn:EX.
  - apply dup_key in EX. split; [|reflexivity]. intros H. exfalso. rewrite map_app in H. apply NoDup_tail in H. cbn [map] in H. inversion H; subst. contradiction.
  - apply IH; [exact EI|]. cbn [map]. constructor; [|exact ND]. intros H. apply dup_key in H. congruence.
Qed.
Definition payloads (e : list (bool * list (N * list N))) : list payload := map to_payload (requests e).
Lemma keys_of e : map key (payloads e) = map fst (requests e).
Proof. unfold payloads. rewrite map_map. apply map_ext. intros [[? ?] ?]. reflexivity. Qed.
Lemma payloads_cons b t r : payloads ((b, t) :: r) = map (fun t => {| is_enter := b; arg_no := fst t; pdata := snd t |}) t ++ payloads r.
Proof. unfold payloads, requests. cbn [flat_map fst snd]. rewrite map_app, map_map. reflexivity. Qed.
Lemma pokes_last v : N.of_nat (length v) < 65535 -> forall ts l, NoDup (map key l) ->
  (NoDup (map key (rev (payloads ts) ++ l)) -> parse_pokes (v ++ [l]) (N.of_nat (length v)) ts = Ok (Some (v ++ [rev (payloads ts) ++ l], N.of_nat (length v)))) /\
  (~ NoDup (map key (rev (payloads ts) ++ l)) -> parse_pokes (v ++ [l]) (N.of_nat (length v)) ts = Ok None).
Proof.
  intros LT. induction ts as [|[b t] ts IH]; intros l ND; [split; [reflexivity|intros H; exfalso; apply H; exact ND]|]. cbn [parse_pokes]. unfold parse_poke. unfold NO_IDX. destruct (N.eqb_spec (N.of_nat (length v)) 65535); [lia|]. cbn [rbind]. rewrite payloads_cons, rev_app_distr, <- app_assoc.
  set (ps := map _ t). destruct (tokens_last v ps l _ eq_refl ND) as [T1 T2]. destruct (ListDec.NoDup_dec key_dec (map key (rev ps ++ l))) as [D|D].
  - rewrite (T1 D). cbn [rbind]. apply IH. exact D.
  - rewrite (T2 D). cbn [rbind]. split; [|reflexivity]. intros H. exfalso. apply D. rewrite map_app in H. apply NoDup_tail in H. exact H.
Qed.
Lemma NoDup_rev_iff {A} (l : list A) : NoDup (rev l) <-> NoDup l.
Proof. split; intros H; [rewrite <- rev_involutive|]; apply NoDup_rev; exact H. Qed.
(** one expression, given an index that is free *)
Lemma expr_last v e : N.of_nat (length v) < 65535 -> e <> [] ->
  (no_twice e -> parse_pokes v NO_IDX e = Ok (Some (v ++ [rev (payloads e)], N.of_nat (length v)))) /\ (~ no_twice e -> parse_pokes v NO_IDX e = Ok None).
Proof.
  intros LT NE. destruct e as [|[b t] ts]; [congruence|]. destruct (pokes_last v LT ((b, t) :: ts) [] (NoDup_nil _)) as [P1 P2]. rewrite app_nil_r in P1, P2.
  assert (EQ : parse_pokes v NO_IDX ((b, t) :: ts) = parse_pokes (v ++ [[]]) (N.of_nat (length v)) ((b, t) :: ts)).
  { cbn [parse_pokes]. unfold parse_poke, NO_IDX. cbn [N.eqb Pos.eqb]. destruct (N.eqb_spec (N.of_nat (length v)) 65535); [lia|]. unfold alloc_poke_data, u16. rewrite N.mod_small by lia. rewrite N.ltb_irrefl. reflexivity. }
  rewrite EQ. unfold no_twice. rewrite <- keys_of. assert (K : NoDup (map key (rev (payloads ((b, t) :: ts)))) <-> NoDup (map key (payloads ((b, t) :: ts)))) by (rewrite map_rev; apply NoDup_rev_iff). rewrite K in P1, P2. auto.
Qed.
(** the tables of the expressions after [v] *)
Definition own (v' : pvec) (e : list (bool * list (N * list N))) (i : N) : Prop := e = [] /\ i = NO_IDX \/ e <> [] /\ i < N.of_nat (length v') /\ nth_error v' (N.to_nat i) = Some (rev (payloads e)).
Lemma exprs_ok es : forall v, N.of_nat (length v + length es) <= 65535 -> Forall no_twice es ->
  exists t is, parse_exprs v es = Ok (v ++ t, is) /\ Forall2 (own (v ++ t)) es is /\ (length t <= length es)%nat.
Proof.
  induction es as [|e es IH]; intros v LE F; [exists [], []; rewrite app_nil_r; split; [reflexivity|split; [constructor|reflexivity]]|]. inversion F as [|? ? F1 F2]; subst. cbn [parse_exprs length] in *. destruct e as [|x e0] eqn:EE.
  - cbn [parse_pokes rbind]. destruct (IH v) as (t & is & -> & O & L); [lia|exact F2|]. cbn [rbind]. exists t, (NO_IDX :: is). split; [reflexivity|]. split; [constructor; [left; auto|exact O]|lia].
  - rewrite <- EE in *. destruct (expr_last v e ltac:(lia) ltac:(rewrite EE; discriminate)) as [P _]. rewrite (P F1). cbn [rbind]. destruct (IH (v ++ [rev (payloads e)])) as (t & is & -> & O & L); [rewrite app_length; cbn; lia|exact F2|]. cbn [rbind]. rewrite <- app_assoc in O |- *. exists (rev (payloads e) :: t), (N.of_nat (length v) :: is). split; [reflexivity|]. split; [|cbn; lia].
    constructor; [right; split; [rewrite EE; discriminate|]; split; [rewrite app_length; cbn; lia|]; rewrite Nat2N.id, nth_error_app2, Nat.sub_diag by lia; reflexivity|exact O].
Qed.
Lemma exprs_bad es : forall v, N.of_nat (length v + length es) <= 65535 -> ~ Forall no_twice es -> parse_exprs v es = Die.
Proof.
  induction es as [|e es IH]; intros v LE F; [exfalso; apply F; constructor|]. cbn [parse_exprs length] in *. assert (D : no_twice e \/ ~ no_twice e) by (unfold no_twice; destruct (ListDec.NoDup_dec key_dec (map fst (requests e))); auto).
  destruct e as [|x e0] eqn:EE; [cbn [parse_pokes rbind]; rewrite IH; [reflexivity|lia|]; intros H; apply F; constructor; [constructor|exact H]|]. rewrite <- EE in *. destruct (expr_last v e ltac:(lia) ltac:(rewrite EE; discriminate)) as [P Q].
  destruct D as [D|D]; [rewrite (P D)|rewrite (Q D); reflexivity]. cbn [rbind]. rewrite IH; [reflexivity|rewrite app_length; cbn; lia|]. intros H. apply F. constructor; assumption.
Qed.

(** ** The expressions of the command line *)
(** Up to 65535 expressions are accepted if and only if none of them names an argument twice for the same stop. *)
Theorem C100_accepted_partial : forall es, N.of_nat (length es) <= 65535 ->
  ((exists r, parse_exprs [] es = Ok r) <-> Forall no_twice es).
Proof.
  intros es L. split.
  - intros [r H]. destruct (Forall_dec no_twice (fun e => ListDec.NoDup_dec key_dec (map fst (requests e))) es) as [F|F]; [exact F|]. rewrite exprs_bad in H; [discriminate|cbn; lia|exact F].
  - intros F. destruct (exprs_ok es [] ltac:(cbn; lia) F) as (t & is & E & _). eauto.
Qed.
Print Assumptions C100_accepted_partial.
(** Missing: with one more than that, the last one cannot have both a poke_enter= and a poke_exit=, for its index is the number that
    stands for none. *)
Definition many : list (list (bool * list (N * list N))) := repeat [(true, [(1, [0])])] (N.to_nat 65535).
Theorem C100_accepted_refuted : Forall no_twice (many ++ [[(true, [(1, [0])]); (false, [(1, [0])])]]) /\ parse_exprs [] (many ++ [[(true, [(1, [0])]); (false, [(1, [0])])]]) = Die /\
  exists r, parse_exprs [] (many ++ [[(true, [(1, [0])])]]) = Ok r.
Proof.
  assert (F : Forall no_twice many) by (apply Forall_forall; intros e H; apply repeat_spec in H; subst e; unfold no_twice; cbn; constructor; [intros []|constructor]).
  split; [apply Forall_app; split; [exact F|]; constructor; [|constructor]; unfold no_twice; cbn; constructor; [intros [E|[]]; discriminate|constructor; [intros []|constructor]]|].
  assert (L : length many = N.to_nat 65535) by apply repeat_length. assert (NE : Forall (fun e => e <> []) many) by (apply Forall_forall; intros e H; apply repeat_spec in H; subst e; discriminate). revert F L NE. generalize many. intros es F L NE.
  assert (G : forall (es : list (list (bool * list (N * list N)))) v last, N.of_nat (length v + length es) <= 65535 -> Forall no_twice es -> Forall (fun e => e <> []) es ->
    exists v' is, length v' = (length v + length es)%nat /\ parse_exprs v (es ++ [last]) = rbind (parse_exprs v' [last]) (fun r => Ok (fst r, is ++ snd r))).
  { clear. induction es as [|e es IH]; intros v last LE F1 F2.
    - exists v, []. split; [cbn; lia|]. cbn [app]. destruct (parse_exprs v [last]) as [[a b]| |]; reflexivity.
    - inversion F1; subst. inversion F2; subst. cbn [length] in LE. destruct (expr_last v e ltac:(lia) ltac:(assumption)) as [P _]. destruct (IH (v ++ [rev (payloads e)]) last) as (v' & is & L' & E); [rewrite app_length; cbn; lia|assumption|assumption|]. exists v', (N.of_nat (length v) :: is). split; [rewrite L', app_length; cbn; lia|].
      cbn [app]. change (parse_exprs v (e :: es ++ [last])) with (rbind (parse_pokes v NO_IDX e) (fun o => match o with None => Die | Some (v, i) => rbind (parse_exprs v (es ++ [last])) (fun p => match p with (v, is) => Ok (v, i :: is) end) end)). rewrite P by assumption. cbn [rbind]. rewrite E. destruct (parse_exprs v' [last]) as [[a b]| |]; reflexivity. }
  assert (A : forall v', N.of_nat (length v') = 65535 -> alloc_poke_data v' = Ok (v' ++ [[]], 65535)) by (intros v' LV; unfold alloc_poke_data; rewrite LV; reflexivity).
  assert (T : forall v', N.of_nat (length v') = 65535 -> poke_tokens (v' ++ [[]]) 65535 [{| is_enter := true; arg_no := 1; pdata := [0] |}] = Ok (Some (v' ++ [[{| is_enter := true; arg_no := 1; pdata := [0] |}]]))) by (intros v' LV; cbn [poke_tokens]; rewrite add_last by (symmetry; exact LV); reflexivity).
  split.
  - destruct (G es [] [(true, [(1, [0])]); (false, [(1, [0])])] ltac:(cbn [length]; lia) F NE) as (v' & is & L' & ->). assert (LV : N.of_nat (length v') = 65535) by (rewrite L'; cbn [length]; lia). cbn [parse_exprs parse_pokes]. unfold parse_poke at 1. change (NO_IDX =? NO_IDX) with true. cbn [map fst snd]. cbv beta iota. rewrite A by exact LV. cbn [rbind]. rewrite T by exact LV. cbn [rbind]. unfold parse_poke. change (65535 =? NO_IDX) with true. cbv beta iota. unfold alloc_poke_data. rewrite app_length, Nat2N.inj_add, LV. reflexivity.
  - destruct (G es [] [(true, [(1, [0])])] ltac:(cbn [length]; lia) F NE) as (v' & is & L' & ->). assert (LV : N.of_nat (length v') = 65535) by (rewrite L'; cbn [length]; lia). cbn [parse_exprs parse_pokes]. unfold parse_poke. change (NO_IDX =? NO_IDX) with true. cbn [map fst snd]. cbv beta iota. rewrite A by exact LV. cbn [rbind]. rewrite T by exact LV. cbn [rbind]. eexists. reflexivity.
Qed.
Print Assumptions C100_accepted_refuted.

(** ** What is written *)
Lemma after_ext m m' js : forall ns, (forall x, m x = m' x) -> forall x, after m js ns x = after m' js ns x.
Proof. induction js as [|[a d] js IH]; intros ns H x; [apply H|]. destruct ns as [|n ns]; [apply H|]. cbn. destruct (_ && _); [reflexivity|apply IH; exact H]. Qed.
Lemma after_snoc m js j : forall ns n, length js = length ns -> forall x, after m (js ++ [j]) (ns ++ [n]) x = after (after m [j] [n]) js ns x.
Proof. induction js as [|[a d] js IH]; intros [|n0 ns] n L x; try discriminate; [reflexivity|]. cbn [app after]. destruct (_ && _); [reflexivity|]. apply IH. cbn in L. congruence. Qed.
Lemma asked_app enter c a b : asked enter c (a ++ b) = asked enter c a ++ asked enter c b.
Proof. apply flat_map_app. Qed.
Lemma nth_firstn_lt {A} (d : A) n : forall l k, (k < n)%nat -> nth k (firstn n l) d = nth k l d.
Proof. induction n as [|n IH]; intros [|x l] [|k] L; try lia; try reflexivity. cbn. apply IH. lia. Qed.
Lemma loop_ok M W c enter rs : forall m nw poked, in_space (asked enter c (rev rs)) ->
  exists m' nw' ns, poke_loop M W c enter (map to_payload rs) m nw poked = (m', nw', poked || some_byte ns) /\ carried_out m m' (asked enter c (rev rs)) ns /\
    (permitted W c (asked enter c (rev rs)) -> nw = false -> nw' = false /\ ns = in_full (asked enter c (rev rs))).
Proof.
  induction rs as [|[[ph a] d] rs IH]; intros m nw poked IS.
  - exists m, nw, []. cbn. rewrite orb_false_r. split; [reflexivity|]. split; [split; [constructor|reflexivity]|auto].
  - cbn [map rev poke_loop to_payload is_enter arg_no pdata fst snd] in *. rewrite asked_app in IS |- *. cbn [asked flat_map] in IS |- *. change (flat_map _ (rev rs)) with (asked enter c (rev rs)) in *. rewrite app_nil_r in IS |- *.
    destruct (Bool.eqb ph enter) eqn:EP; cbn [negb andb] in *; [|rewrite app_nil_r in *; apply IH; exact IS].
    destruct (N.leb_spec a (n_args c)) as [LA|LA], (N.ltb_spec (n_args c) a) as [LB|LB]; try lia; [|rewrite app_nil_r in *; apply IH; exact IS].
    set (ad := nth _ _ _) in *. unfold in_space in IS. apply Forall_app in IS. destruct IS as [IS1 IS2]. inversion IS2 as [|? ? IA _]; subst. cbn [fst snd] in IA.
    destruct (upoken M (short c) nw m (w_pe W) (w_wr W) (w_vwr W) (w_we W) ad d) as [[m1 nw1] n] eqn:EU. destruct (upoken_ok _ _ _ _ _ _ _ _ _ _ _ _ _ IA EU) as [LN Q].
    destruct (IH m1 nw1 (if n =? 0 then poked else true) IS1) as (m' & nw' & ns & E & [C1 C2] & C3). exists m', nw', (ns ++ [n]). split; [rewrite E; f_equal; unfold some_byte; rewrite existsb_app; cbn; destruct (N.eqb_spec n 0), (N.ltb_spec 0 n); try lia; destruct poked, (existsb _ ns); reflexivity|]. split.
    + split; [apply Forall2_app; [exact C1|constructor; [cbn; exact LN|constructor]]|]. intros x. rewrite after_snoc by (clear -C1; induction C1; [reflexivity|cbn; congruence]). rewrite C2. apply after_ext. intros y. rewrite Q. unfold write. cbn [after]. rewrite firstn_length, Nat.min_l by lia. rewrite N2Nat.id. destruct (N.leb_spec ad y), (N.ltb_spec y (ad + n)); cbn [andb]; try reflexivity. rewrite nth_firstn_lt by lia. reflexivity.
    + intros P ->. destruct P as (S0 & WE & PF). apply Forall_app in PF. destruct PF as [P1 P2]. inversion P2 as [|? ? PA _]; subst. cbn [fst snd] in PA. rewrite S0, WE in EU. unfold upoken in EU. cbn [tracee_addr_is_invalid andb] in EU.
      assert (EN : nw1 = false /\ n = N.of_nat (length d)).
      { destruct d as [|b d0]; [inversion EU; subst; split; reflexivity|]. rewrite wprefix_all in EU by exact PA. inversion EU; subst. split; reflexivity. }
      destruct EN as [-> ->]. destruct (C3 (conj S0 (conj WE P1)) eq_refl) as [-> ->]. split; [reflexivity|]. unfold in_full. rewrite map_app. reflexivity.
Qed.
(** At a stop of a call to which an expression applies, its requests for that stop and for arguments the call has are carried out as far as
    the kernel lets strace: each up to some byte, and nothing else in the memory changes.  The call is marked if and only if some byte
    was written.  The other expressions make no difference. *)
Theorem C100_memory : forall es v is k e i M W c enter m nowsup, N.of_nat (length es) <= 65535 -> parse_exprs [] es = Ok (v, is) ->
  nth_error es k = Some e -> nth_error is k = Some i -> e <> [] -> in_space (asked enter c (requests e)) ->
  exists m' nowsup' ns, poke_tcb M W c v i enter m nowsup = Ok (m', nowsup', some_byte ns) /\ carried_out m m' (asked enter c (requests e)) ns.
Proof.
  intros es v is k e i M W c enter m nw L P Ke Ki NE IS. assert (F : Forall no_twice es) by (apply C100_accepted_partial; eauto). destruct (exprs_ok es [] ltac:(cbn; lia) F) as (t & is' & E & O & _). rewrite P in E. apply (f_equal (fun r => match r with Ok x => x | _ => (v, is) end)) in E. apply pair_equal_spec in E. destruct E as [-> ->]. cbn [app] in *.
  assert (OW : own t e i). { clear -O Ke Ki. revert k Ke Ki. induction O as [|x y xs ys H O IH]; intros [|k] A B; try discriminate; cbn in A, B; [congruence|eauto]. }
  destruct OW as [[-> _]|(_ & LI & NT)]; [congruence|]. unfold poke_tcb. destruct (N.leb_spec (N.of_nat (length t)) i); [lia|]. rewrite NT. unfold payloads. rewrite <- map_rev. destruct (loop_ok M W c enter (rev (requests e)) m nw false) as (m' & nw' & ns & E & C & _); [rewrite rev_involutive; exact IS|]. rewrite rev_involutive in C. rewrite E. exists m', nw', ns. split; [reflexivity|exact C].
Qed.
Print Assumptions C100_memory.
(** If the kernel lets strace, all of it is written. *)
Theorem C100_all : forall es v is k e i M W c enter m, N.of_nat (length es) <= 65535 -> parse_exprs [] es = Ok (v, is) ->
  nth_error es k = Some e -> nth_error is k = Some i -> e <> [] -> in_space (asked enter c (requests e)) -> permitted W c (asked enter c (requests e)) ->
  exists m', poke_tcb M W c v i enter m false = Ok (m', false, some_byte (in_full (asked enter c (requests e)))) /\ carried_out m m' (asked enter c (requests e)) (in_full (asked enter c (requests e))).
Proof.
  intros es v is k e i M W c enter m L P Ke Ki NE IS PE. assert (F : Forall no_twice es) by (apply C100_accepted_partial; eauto). destruct (exprs_ok es [] ltac:(cbn; lia) F) as (t & is' & E & O & _). rewrite P in E. apply (f_equal (fun r => match r with Ok x => x | _ => (v, is) end)) in E. apply pair_equal_spec in E. destruct E as [-> ->]. cbn [app] in *.
  assert (OW : own t e i). { clear -O Ke Ki. revert k Ke Ki. induction O as [|x y xs ys H O IH]; intros [|k] A B; try discriminate; cbn in A, B; [congruence|eauto]. }
  destruct OW as [[-> _]|(_ & LI & NT)]; [congruence|]. unfold poke_tcb. destruct (N.leb_spec (N.of_nat (length t)) i); [lia|]. rewrite NT. unfold payloads. rewrite <- map_rev. destruct (loop_ok M W c enter (rev (requests e)) m false false) as (m' & nw' & ns & E & C & Q); [rewrite rev_involutive; exact IS|]. rewrite rev_involutive in C, Q. destruct (Q PE eq_refl) as [-> ->]. rewrite E. exists m'. split; [reflexivity|exact C].
Qed.
Print Assumptions C100_all.

(** ** What the line of the call says *)
Lemma asked_none enter c ex : existsb (fun t : bool * list (N * list N) => Bool.eqb (fst t) enter) ex = false -> asked enter c (requests ex) = [].
Proof.
  intros H. induction ex as [|[b t] ex IH]; [reflexivity|]. cbn in H. apply orb_false_elim in H. destruct H as [H1 H2]. unfold requests. cbn [flat_map]. fold (requests ex). rewrite asked_app, (IH H2), app_nil_r. cbn [fst snd]. clear -H1. induction t as [|d t IH]; [reflexivity|]. cbn. rewrite H1. cbn. exact IH.
Qed.
Lemma carried_none m m' : (forall x, m x = m' x) -> carried_out m m' [] []. Proof. intros H. split; [constructor|]. intros x. symmetry. apply H. Qed.
Definition stops_ok (e : event) (x : seen) (ex : list (bool * list (N * list N))) : Prop :=
  exists ns1 ns2, carried_out (e_mem e) (s_enter x) (asked true (e_call e) (requests ex)) ns1 /\
    carried_out (x_mem e) (s_exit x) (if x_traced e then asked false (e_call e) (requests ex) else []) ns2 /\
    f_poked (s_flags x) = some_byte ns1 || some_byte ns2 /\
    f_tampered (s_flags x) = result_changed e /\ f_delayed (s_flags x) = delayed e.
Lemma one_ok exprs v is M nw e ex : N.of_nat (length exprs) <= 65535 -> parse_exprs [] exprs = Ok (v, is) -> applies exprs is e ex ->
  in_space (asked true (e_call e) (requests ex)) -> in_space (asked false (e_call e) (requests ex)) ->
  exists nw' x, one_call M v (no_flags, nw) e = Ok (no_flags, nw', x) /\ stops_ok e x ex.
Proof.
  intros L P A I1 I2. unfold one_call, entering, exiting, stops_ok, result_changed, delayed. destruct A as [[EI ->]|(i & k & EI & Ke & Ki & PE & PX)]; rewrite EI; cbn [rbind].
  - exists nw, {| s_enter := e_mem e; s_exit := x_mem e; s_flags := no_flags |}. split; [destruct (x_traced e); reflexivity|]. exists [], []. cbn [s_enter s_exit s_flags asked requests flat_map]. split; [apply carried_none; reflexivity|]. split; [destruct (x_traced e); apply carried_none; reflexivity|]. split; [reflexivity|]. split; reflexivity.
  - assert (S1 : exists m1 nw1 ns1, (if i_penter i then poke_tcb M (e_world e) (e_call e) v (i_idx i) true (e_mem e) nw else Ok (e_mem e, nw, false)) = Ok (m1, nw1, some_byte ns1) /\ carried_out (e_mem e) m1 (asked true (e_call e) (requests ex)) ns1).
    { rewrite PE. destruct (existsb _ ex) eqn:X.
      - assert (NE : ex <> []) by (intros ->; discriminate). destruct (C100_memory exprs v is k ex (i_idx i) M (e_world e) (e_call e) true (e_mem e) nw L P Ke Ki NE I1) as (m' & nw' & ns & -> & C). exists m', nw', ns. split; [reflexivity|exact C].
      - exists (e_mem e), nw, []. split; [reflexivity|]. rewrite asked_none; [apply carried_none; reflexivity|]. rewrite <- X. clear. induction ex as [|[[] t] ex IH]; cbn; [reflexivity|reflexivity|exact IH]. }
    destruct S1 as (m1 & nw1 & ns1 & -> & C1). cbn [rbind]. cbn [f_tampered f_poked f_delayed f_pexit f_dexit no_flags orb].
    destruct (x_traced e) eqn:XT; cbn [negb rbind].
    + assert (S2 : exists m2 nw2 ns2, (if i_pexit i then poke_tcb M (x_world e) (e_call e) v (i_idx i) false (x_mem e) nw1 else Ok (x_mem e, nw1, false)) = Ok (m2, nw2, some_byte ns2) /\ carried_out (x_mem e) m2 (asked false (e_call e) (requests ex)) ns2).
      { rewrite PX. destruct (existsb (fun t : bool * list (N * list N) => negb (fst t)) ex) eqn:X.
        - assert (NE : ex <> []) by (intros ->; discriminate). destruct (C100_memory exprs v is k ex (i_idx i) M (x_world e) (e_call e) false (x_mem e) nw1 L P Ke Ki NE I2) as (m' & nw' & ns & -> & C). exists m', nw', ns. split; [reflexivity|exact C].
        - exists (x_mem e), nw1, []. split; [reflexivity|]. rewrite asked_none; [apply carried_none; reflexivity|]. transitivity (existsb (fun t : bool * list (N * list N) => negb (fst t)) ex); [clear; induction ex as [|[[] t] ex IH]; cbn; [reflexivity|exact IH|reflexivity]|exact X]. }
      destruct S2 as (m2 & nw2 & ns2 & -> & C2). cbn [rbind]. exists nw2. eexists. split; [reflexivity|]. cbn [s_enter s_exit s_flags f_poked f_tampered f_delayed]. exists ns1, ns2. auto.
    + exists nw1. eexists. split; [reflexivity|]. cbn [s_enter s_exit s_flags f_poked f_tampered f_delayed]. exists ns1, []. split; [exact C1|]. split; [apply carried_none; reflexivity|]. cbn [some_byte existsb]. rewrite !orb_false_r. auto.
Qed.
(** Whatever calls a tracee makes, and whichever expressions apply to them: at the entry of each the requests of its expression for the entry are
    carried out, at the exit those for the exit; and the line of the call says "INJECTED: args" if and only if some byte was written
    at a stop of this very call, "retval" or a mere "INJECTED" if and only if strace changed its result, and "DELAYED" if and only if it was delayed. *)
Theorem C100_calls : forall exprs v is M nowsup es, N.of_nat (length exprs) <= 65535 -> parse_exprs [] exprs = Ok (v, is) ->
  (forall e, In e es -> exists ex, applies exprs is e ex /\ in_space (asked true (e_call e) (requests ex)) /\ in_space (asked false (e_call e) (requests ex))) ->
  exists xs, calls M v (no_flags, nowsup) es = Ok xs /\
    Forall2 (fun e x => exists ex, applies exprs is e ex /\ exists ns1 ns2,
      carried_out (e_mem e) (s_enter x) (asked true (e_call e) (requests ex)) ns1 /\
      carried_out (x_mem e) (s_exit x) (if x_traced e then asked false (e_call e) (requests ex) else []) ns2 /\
      note x = note_text (some_byte ns1 || some_byte ns2) (result_changed e) (delayed e)) es xs.
Proof.
  intros exprs v is M nw es L P. revert nw. induction es as [|e es IH]; intros nw H; [exists []; split; [reflexivity|constructor]|]. destruct (H e (or_introl eq_refl)) as (ex & A & I1 & I2). destruct (one_ok exprs v is M nw e ex L P A I1 I2) as (nw' & x & E & (ns1 & ns2 & C1 & C2 & F1 & F2 & F3)).
  destruct (IH nw') as (xs & E2 & F); [intros e' I'; apply H; right; exact I'|]. exists (x :: xs). cbn [calls]. rewrite E. cbn [rbind]. rewrite E2. split; [reflexivity|]. constructor; [|exact F]. exists ex. split; [exact A|]. exists ns1, ns2. split; [exact C1|]. split; [exact C2|]. unfold note, note_text. rewrite F1, F2, F3. destruct (some_byte ns1 || some_byte ns2), (result_changed e), (delayed e); reflexivity.
Qed.
Print Assumptions C100_calls.

(** A call of two arguments that both hold the address 16: the requests meet in its second byte. *)
Definition ex_es : list (list (bool * list (N * list N))) := [[(false, [(1, [9])])]; [(true, [(1, [1; 2]); (2, [5; 6; 7]); (3, [8])]); (false, [(2, [4])])]].
Definition ex_v : pvec * list N := match parse_exprs [] ex_es with Ok r => r | _ => ([], []) end.
Definition ex_call : call := {| n_args := 2; u_arg := [17; 16]; short := false |}.
Definition ex_mem : mem := fun a => if a <? 32 then Some 0 else None.
Definition ex_world : world := {| w_pe := fun _ => None; w_wr := fun _ => true; w_vwr := fun a => a <? 32; w_we := None |}.
Definition ex_event : event := {| e_call := ex_call; e_inj := Some {| i_result := false; i_penter := true; i_pexit := true; i_denter := true; i_dexit := false; i_idx := 1 |}; e_set := false; e_mem := ex_mem; e_world := ex_world; x_mem := ex_mem; x_world := ex_world; x_traced := true |}.
Definition ex_quiet : event := {| e_call := ex_call; e_inj := None; e_set := false; e_mem := ex_mem; e_world := ex_world; x_mem := ex_mem; x_world := ex_world; x_traced := true |}.
Example C100_example : Forall no_twice ex_es /\ applies ex_es (snd ex_v) ex_event [(true, [(1, [1; 2]); (2, [5; 6; 7]); (3, [8])]); (false, [(2, [4])])] /\
  in_space (asked true ex_call (requests [(true, [(1, [1; 2]); (2, [5; 6; 7]); (3, [8])]); (false, [(2, [4])])])) /\
  permitted ex_world ex_call (asked true ex_call (requests [(true, [(1, [1; 2]); (2, [5; 6; 7]); (3, [8])]); (false, [(2, [4])])])) /\
  match calls {| pg := 12; wb := 3 |} (fst ex_v) (no_flags, false) [ex_event; ex_quiet] with
  | Ok [x; y] => map (s_enter x) [15; 16; 17; 18; 19] = [Some 0; Some 5; Some 1; Some 2; Some 0] /\ map (s_exit x) [15; 16; 17; 18] = [Some 0; Some 4; Some 0; Some 0] /\ note x = bs " (INJECTED: args) (DELAYED)" /\ note y = []
  | _ => False
  end.
Proof.
  assert (EA : asked true ex_call (requests [(true, [(1, [1; 2]); (2, [5; 6; 7]); (3, [8])]); (false, [(2, [4])])]) = [(17, [1; 2]); (16, [5; 6; 7])]) by reflexivity. rewrite !EA.
  split; [repeat constructor; cbn; intuition discriminate|]. split; [right; eexists; exists 1%nat; repeat split; reflexivity|]. split; [repeat constructor; cbn; lia|]. split; [|vm_compute; repeat split; reflexivity].
  split; [reflexivity|]. split; [reflexivity|]. repeat constructor; cbn [fst snd length w_vwr ex_world]; intros i LI; apply N.ltb_lt; lia.
Qed.
