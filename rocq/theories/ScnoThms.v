(** C88: the call, its arguments and its result are those of the stop. *)
From Verif Require Import Base ErrnoModel ScnoModel ScnoSpec.
Local Open Scope N_scope.

Lemma r64_layout c j : r64 (layout64 c) j = c j.
Proof.
  unfold r64, layout64. assert (E1 : Nat.even (2 * j) = true) by (rewrite Nat.even_mul; reflexivity). assert (E2 : Nat.even (2 * j + 1) = false) by (rewrite Nat.even_add, E1; reflexivity).
  rewrite E1, E2. assert (D1 : Nat.div2 (2 * j) = j) by apply Nat.div2_double. assert (D2 : Nat.div2 (2 * j + 1) = j) by (rewrite Nat.add_1_r; apply Nat.div2_succ_double). rewrite D1, D2.
  pose proof (N.div_mod (c j) (2^32) ltac:(discriminate)) as H. rewrite H at 3. lia.
Qed.
Definition used32 (i : nat) : bool := match i with 0 | 1 | 2 | 3 | 4 | 5 | 6 | 11 | 12 | 15 => true | _ => false end%nat.
Lemma narrow_ok c i : used32 i = true -> narrow (layout64 c) i = c (i386_field i) mod 2^32.
Proof.
  intros U. do 16 (destruct i as [|i]; [try discriminate U; rewrite <- (r64_layout c); reflexivity|]). destruct i; discriminate U.
Qed.
Definition good (k : kern) (s : st) : Prop :=
  is32 s = view32 k /\ if is32 s then (forall i, used32 i = true -> r32 (buf s) i = cpu k (i386_field i) mod 2^32) else forall j, r64 (buf s) j = cpu k j.
Definition view_ok (k : kern) : Prop := view32 k = true <-> cpu k 17%nat = 0x23.
Definition inv (sup : bool) (k : kern) (s : st) : Prop :=
  (sci s = None \/ (sci s = Some (k_info k) /\ sup = true /\ match info_pers (k_info k) with Some p => pers s = p | None => True end)) /\
  (rerr s = -2 \/ rerr s = -1 \/ (rerr s = 0 /\ good k s /\ (sup = true -> sci s <> None)))%Z.

Lemma getregset_good k l s s' r : ptrace_getregset k l s = (s', r) -> sci s' = sci s /\ pers s' = pers s /\ (r = -1 \/ (r = 0 /\ good k s'))%Z.
Proof.
  unfold ptrace_getregset. destruct (getregset l); [intros [= <- <-]; repeat split; left; reflexivity|]. destruct (view32 k) eqn:V; intros [= <- <-]; (repeat split; [right; split; [reflexivity|]; unfold good; cbn [is32 buf set_buf]; rewrite V; split; [reflexivity|]]).
  - intros i _. reflexivity.
  - intros j. apply r64_layout.
Qed.
Lemma getregs_old_good k l s s' r : view_ok k -> getregs_old k l s = (s', r) -> sci s' = sci s /\ pers s' = pers s /\ (r = -1 \/ (r = 0 /\ good k s'))%Z.
Proof.
  intros V. unfold getregs_old. destruct (negb (getregs l)); [intros [= <- <-]; repeat split; left; reflexivity|]. cbn zeta. rewrite r64_layout. unfold view_ok in V.
  destruct (N.eqb_spec (cpu k CS) 35) as [E|E]; intros H; apply pair_equal_spec in H; destruct H as [<- <-]; (split; [reflexivity|split; [reflexivity|right; split; [reflexivity|]]]); unfold good; cbn [is32 buf set_buf].
  - split; [symmetry; apply V; exact E|]. intros i U. exact (narrow_ok _ _ U).
  - split; [symmetry; destruct (view32 k); [contradiction E; apply V; reflexivity|reflexivity]|]. intros j. apply r64_layout.
Qed.
Lemma get_regs_good k l s s' r : view_ok k -> rerr s = (-1)%Z -> get_regs k l s = (s', r) -> sci s' = sci s /\ pers s' = pers s /\ rerr s' = r /\ (r = -1 \/ (r = 0 /\ good k s'))%Z.
Proof.
  intros V E. unfold get_regs. rewrite E. cbn [Z.eqb Pos.eqb negb].
  assert (F : forall t, sci t = sci s -> pers t = pers s -> (let '(s0, r0) := ptrace_getregset k l t in (set_rerr s0 r0, r0)) = (s', r) -> sci s' = sci s /\ pers s' = pers s /\ rerr s' = r /\ (r = -1 \/ (r = 0 /\ good k s'))%Z).
  { intros t A B H. destruct (ptrace_getregset k l t) as [t' r'] eqn:G. apply getregset_good in G. apply pair_equal_spec in H. destruct H as [<- <-]. destruct G as (G1 & G2 & G3). cbn [sci pers rerr set_rerr]. repeat split; [congruence|congruence|exact G3]. }
  assert (F2 : forall t, sci t = sci s -> pers t = pers s -> (let '(s0, r0) := getregs_old k l t in (set_rerr s0 r0, r0)) = (s', r) -> sci s' = sci s /\ pers s' = pers s /\ rerr s' = r /\ (r = -1 \/ (r = 0 /\ good k s'))%Z).
  { intros t A B H. destruct (getregs_old k l t) as [t' r'] eqn:G. apply getregs_old_good in G; [|exact V]. apply pair_equal_spec in H. destruct H as [<- <-]. destruct G as (G1 & G2 & G3). cbn [sci pers rerr set_rerr]. repeat split; [congruence|congruence|exact G3]. }
  destruct (old s <? 0)%Z; [apply F; reflexivity|]. destruct (old s =? 0)%Z; [|apply F2; reflexivity].
  destruct (ptrace_getregset k l s) as [t' r'] eqn:G. pose proof (getregset_good _ _ _ _ _ G) as (G1 & G2 & G3).
  destruct (0 <=? r')%Z.
  - intros H. apply pair_equal_spec in H. destruct H as [<- <-]. cbn [sci pers rerr set_rerr set_old]. repeat split; try assumption.
  - destruct (match getregset l with Some true => true | _ => false end).
    + intros H. apply pair_equal_spec in H. destruct H as [<- <-]. cbn [sci pers rerr set_rerr]. repeat split; assumption.
    + apply F2; assumption.
Qed.
Lemma info_inv sup k l s s' b : sup = true -> inv sup k s -> strace_get_syscall_info k l s = (s', b) ->
  inv sup k s' /\ (if b then sci s' = Some (k_info k) /\ rerr s' = rerr s else rerr s' = -2)%Z.
Proof.
  intros Su [I1 I2]. unfold strace_get_syscall_info. destruct (sci s) as [i|] eqn:E.
  - intros [= <- <-]. destruct I1 as [I1|I1]; [discriminate|]. split; [split; [rewrite E; right; exact I1|rewrite E; exact I2]|]. split; [rewrite E; exact (proj1 I1)|reflexivity].
  - destruct (sci_ok l); cbn [negb]; intros H; apply pair_equal_spec in H; destruct H as [<- <-].
    + assert (Q : inv sup k match info_pers (k_info k) with Some p => update_personality (set_sci s (Some (k_info k))) p | None => set_sci s (Some (k_info k)) end).
      { split.
        - right. destruct (info_pers (k_info k)); cbn [sci pers set_sci update_personality]; repeat split; assumption.
        - destruct I2 as [I2|[I2|(_ & _ & I2)]]; [left|right; left|contradiction (I2 Su); reflexivity]; destruct (info_pers (k_info k)); exact I2. }
      split; [exact Q|]. destruct (info_pers (k_info k)); split; reflexivity.
    + split; [|reflexivity]. split; [left; exact E|left; reflexivity].
Qed.
Lemma regs_inv sup e k l s s' r : view_ok k -> inv sup k s -> get_syscall_regs sup e k l s = (s', r) ->
  inv sup k s' /\ ((r < 0)%Z \/ (r = 0%Z /\ (sup = true -> sci s' = Some (k_info k)) /\ (sup = false -> sci s' = None) /\ (good k s' \/ (e = true /\ isSome (is_entry sup s') = true) \/ (e = false /\ isSome (is_exit sup s') = true)))).
Proof.
  intros V I. pose proof I as [I1 I2]. unfold get_syscall_regs.
  assert (NS : sup = false -> sci s = None). { intros ->. destruct I1 as [I1|(_ & I1 & _)]; [exact I1|discriminate]. }
  destruct (Z.eqb_spec (rerr s) (-1)) as [R|R]; cbn [negb].
  - destruct sup.
    + destruct (strace_get_syscall_info k l s) as [t b] eqn:G. pose proof (info_inv _ _ _ _ _ _ eq_refl I G) as [It Hb]. destruct b; cbn [negb].
      * destruct Hb as [Hs Hr]. destruct ((e && isSome (is_entry true t)) || (negb e && isSome (is_exit true t))) eqn:C.
        -- intros H. apply pair_equal_spec in H. destruct H as [<- <-]. split; [exact It|]. right. split; [reflexivity|]. split; [intros _; exact Hs|]. split; [discriminate|]. right.
           destruct e; cbn [andb negb orb] in C; [rewrite orb_false_r in C; left|right]; (split; [reflexivity|exact C]).
        -- intros H. rewrite R in Hr. destruct (get_regs_good k l t s' r V Hr H) as (G1 & G2 & G3 & G4).
           assert (Hs' : sci s' = Some (k_info k)) by congruence.
           split.
           ++ split; [right; split; [exact Hs'|split; [reflexivity|]]|].
              ** destruct It as [[It|(_ & _ & It)] _]; [congruence|]. destruct (info_pers (k_info k)); [congruence|exact Logic.I].
              ** destruct G4 as [G4|[G4 G5]]; [right; left; congruence|right; right; split; [congruence|split; [exact G5|intros _; congruence]]].
           ++ destruct G4 as [G4|[G4 G5]]; [left; lia|right]. split; [exact G4|]. split; [intros _; exact Hs'|]. split; [discriminate|left; exact G5].
      * intros H. apply pair_equal_spec in H. destruct H as [<- <-]. split; [exact It|left; lia].
    + intros H. destruct (get_regs_good k l s s' r V R H) as (G1 & G2 & G3 & G4). specialize (NS eq_refl). split.
      * split; [left; congruence|]. destruct G4 as [G4|[G4 G5]]; [right; left; congruence|right; right; split; [congruence|split; [exact G5|discriminate]]].
      * destruct G4 as [G4|[G4 G5]]; [left; lia|right]. split; [exact G4|]. split; [discriminate|]. split; [intros _; congruence|left; exact G5].
  - intros H. apply pair_equal_spec in H. destruct H as [<- <-]. split; [exact I|]. destruct I2 as [I2|[I2|(I2 & G & N)]]; [left; lia|contradiction|]. right. split; [exact I2|]. split; [|split; [exact NS|left; exact G]].
    intros Su. destruct I1 as [I1|[I1 _]]; [contradiction (N Su)|exact I1].
Qed.

Lemma arch_scno_inv sup k s : inv sup k s -> isSome (is_entry sup s) = false -> (sup = true -> info_pers (k_info k) <> None -> sci s = None) -> inv sup k (fst (arch_get_scno s)).
Proof.
  intros [I1 I2] _ H. unfold arch_get_scno. destruct (if is32 s then _ else _) as [n p]. cbn [fst]. split; [|exact I2]. destruct I1 as [I1|(I1 & Su & _)]; [left; exact I1|]. right. cbn [sci pers update_personality].
  split; [exact I1|split; [exact Su|]]. destruct (info_pers (k_info k)); [|exact Logic.I]. exfalso. rewrite H in I1; [discriminate|exact Su|discriminate].
Qed.
Lemma ask_inv sup cst k s q : view_ok k -> inv sup k s -> inv sup k (ask sup cst k s q).
Proof.
  intros V I. destruct q as [q l]. unfold ask. cbn [fst snd]. destruct q as [| |c].
  - unfold get_ip. destruct (rerr s <? -1)%Z eqn:R; [exact I|]. destruct sup eqn:Su.
    + destruct (strace_get_syscall_info k l s) as [t b] eqn:G. exact (proj1 (info_inv _ _ _ _ _ _ eq_refl I G)).
    + destruct (get_regs k l s) as [t r] eqn:G. cbn [fst]. destruct (Z.eq_dec (rerr s) (-1)) as [E|E].
      * destruct (get_regs_good k l s t r V E G) as (G1 & G2 & G3 & G4). destruct I as [I1 I2]. split; [left; destruct I1 as [I1|(_ & I1 & _)]; [congruence|discriminate]|].
        destruct G4 as [G4|[G4 G5]]; [right; left; congruence|right; right; split; [congruence|split; [exact G5|discriminate]]].
      * unfold get_regs in G. destruct (Z.eqb_spec (rerr s) (-1)); [contradiction|]. cbn [negb] in G. apply pair_equal_spec in G. destruct G as [<- _]. exact I.
  - unfold get_call. destruct (get_syscall_regs sup true k l s) as [t r] eqn:G. destruct (regs_inv _ _ _ _ _ _ _ V I G) as [It Hr]. destruct (Z.ltb_spec r 0) as [L|L]; [exact It|].
    destruct Hr as [Hr|(Hr & H1 & H2 & H3)]; [lia|]. destruct (is_entry sup t) as [i|] eqn:En; [exact It|].
    destruct (arch_get_scno t) as [u n] eqn:A. cbn [fst]. replace u with (fst (arch_get_scno t)) by (rewrite A; reflexivity). apply arch_scno_inv; [exact It|rewrite En; reflexivity|].
    intros Su N. exfalso. apply N. unfold is_entry in En. rewrite Su in En. rewrite (H1 Su) in En. unfold info_pers. destruct (iop (k_info k)); try reflexivity; discriminate.
  - unfold get_syscall_result. destruct (get_syscall_regs sup false k l s) as [t r] eqn:G. destruct (regs_inv _ _ _ _ _ _ _ V I G) as [It _]. destruct (r <? 0)%Z; exact It.
Qed.
Lemma clear_inv sup k s : inv sup k (clear_regs s).
Proof. split; [left; reflexivity|right; left; reflexivity]. Qed.
Lemma stop_inv sup cst k l s : view_ok k -> inv sup k (stop sup cst s (k, l)).
Proof.
  intros V. unfold stop. cbn [fst snd]. assert (I := clear_inv sup k s). revert I. generalize (clear_regs s). induction l as [|q l IH]; intros t I; [exact I|]. cbn [fold_left]. apply IH. apply ask_inv; assumption.
Qed.

(** ** The call *)
Lemma testbit_land n : (N.land n X32_BIT =? 0) = negb (N.testbit n 30).
Proof.
  destruct (N.testbit n 30) eqn:T; cbn [negb].
  - apply N.eqb_neq. intros E. assert (H : N.testbit (N.land n X32_BIT) 30 = true) by (rewrite N.land_spec, T; reflexivity). rewrite E in H. discriminate.
  - apply N.eqb_eq. apply N.bits_inj_0. intros i. rewrite N.land_spec. destruct (N.eq_dec i 30) as [->|Ne]; [rewrite T; reflexivity|]. change X32_BIT with (2^30). rewrite N.pow2_bits_false by (intros E; apply Ne; symmetry; exact E). apply andb_false_r.
Qed.
Lemma x32_bit n : n < 2^30 -> N.testbit (n + 2^30) 30 = true /\ N.lxor (n + 2^30) X32_BIT = n.
Proof.
  intros L. assert (Z : N.land n (2^30) = 0).
  { apply N.bits_inj_0. intros i. rewrite N.land_spec. destruct (N.eq_dec i 30) as [->|Ne].
    - replace (N.testbit n 30) with false; [reflexivity|]. symmetry. destruct (N.eq_dec n 0) as [->|Nz]; [apply N.bits_0|]. apply N.bits_above_log2. apply N.log2_lt_pow2; lia.
    - rewrite N.pow2_bits_false by (intros E; apply Ne; symmetry; exact E). apply andb_false_r. }
  assert (E : n + 2^30 = N.lxor n (2^30)) by (apply N.add_nocarry_lxor; exact Z). rewrite E. split.
  - rewrite N.lxor_spec, N.pow2_bits_true. replace (N.testbit n 30) with false; [reflexivity|]. symmetry. destruct (N.eq_dec n 0) as [->|Nz]; [apply N.bits_0|]. apply N.bits_above_log2. apply N.log2_lt_pow2; lia.
  - change X32_BIT with (2^30). rewrite N.lxor_assoc, N.lxor_nilpotent. apply N.lxor_0_r.
Qed.
Definition pers_of (n : N) : N := if N.testbit n 30 then (if n =? 2^64 - 1 then 0 else 2) else 0.
(** the number shown, by the personality *)
Lemma number_ok k a n : entry_of k a n -> view_ok k /\ (match a with I386 => True | _ => pers_of (cpu k ORIG_RAX) = number_of a /\ view32 k = false end) /\
  (if number_of a =? 2 then N.lxor (cpu k ORIG_RAX) X32_BIT else cpu k ORIG_RAX) = n /\ info_pers (k_info k) = Some (number_of a).
Proof.
  intros (Ro & Op & Ar & V & _ & Nr & A). change (cpu k 15%nat) with (cpu k ORIG_RAX) in *. split; [exact V|]. unfold info_pers. rewrite Nr, Ar, testbit_land.
  assert (O : forall T (x y : T), match iop (k_info k) with ENTRY | SECCOMP => x | _ => y end = x) by (intros; destruct Op as [-> | ->]; reflexivity). rewrite O. clear O.
  destruct a; cbn [number_of N.eqb Pos.eqb andb] in *.
  - destruct A as (Vw & E & H). rewrite E. unfold pers_of. rewrite negb_involutive. destruct H as [H|H].
    + rewrite H. repeat split. exact Vw.
    + subst n. rewrite H. repeat split. exact Vw.
  - destruct A as (E & L). rewrite E. repeat split.
  - destruct A as (Vw & E & L). destruct (x32_bit n L) as [T X]. rewrite E. unfold pers_of. rewrite T. cbn [negb]. assert (Ne : (n + 2^30 =? 2^64 - 1) = false) by (apply N.eqb_neq; lia). rewrite Ne. cbn [negb]. repeat split; [exact Vw|exact X].
Qed.
Definition low_halves (k : kern) : Prop := forall i, (i < 6)%nat -> args (k_info k) i < 2^32.
Lemma args_taken k a n cst : entry_of k a n -> (a = I386 -> low_halves k /\ cst = false) -> map (fun j => let v := args (k_info k) j in if cst then v mod 2^32 else v) [0; 1; 2; 3; 4; 5]%nat = taken k a cst.
Proof.
  intros (Ro & Op & Ar & V & Am & Nr & A) H.
  assert (E : map (fun j => let v := args (k_info k) j in if cst then v mod 2^32 else v) [0; 1; 2; 3; 4; 5]%nat = map (fun v => if cst then v mod 2^32 else v) (map (args (k_info k)) [0; 1; 2; 3; 4; 5]%nat)) by (rewrite map_map; reflexivity).
  rewrite E, Am, map_map. unfold taken. destruct a; try reflexivity. destruct (H eq_refl) as [Lo ->]. clear E.
  assert (B : Forall (fun j => cpu k j < 2^32) (arg_regs I386)).
  { apply Forall_forall. intros j J. assert (J2 : In (cpu k j) (map (cpu k) (arg_regs I386))) by (apply in_map; exact J). rewrite <- Am in J2. apply in_map_iff in J2. destruct J2 as (i & <- & Ii). apply Lo.
    cbn [In] in Ii. lia. }
  revert B. generalize (arg_regs I386). clear. intros l B. induction B as [|j l Hj _ IH]; [reflexivity|]. cbn [map]. rewrite IH, N.mod_small by exact Hj. reflexivity.
Qed.
Lemma regs_taken k a n cst s : entry_of k a n -> good k s -> view32 k = match a with I386 => true | _ => false end -> (a = I386 -> cst = false) -> arch_get_syscall_args cst s = taken k a cst.
Proof.
  intros H [G1 G2] Vw Cs. unfold arch_get_syscall_args, taken. rewrite G1 in *. rewrite Vw in *. destruct a; cbn [negb arg_regs].
  - apply map_ext. intros j. cbn zeta. rewrite G2. reflexivity.
  - cbn [map]. rewrite !G2 by reflexivity. reflexivity.
  - apply map_ext. intros j. cbn zeta. rewrite G2. reflexivity.
Qed.

(** Whatever happened at earlier stops and was asked before at this one, at the entry to a call what strace gets is this call with the arguments the kernel takes, or nothing.
    Missing: i386 calls made by 64-bit code with int 0x80. *)
Theorem C88_entry_partial : forall sup cst k a n history before l s, entry_of k a n ->
  (forall m, cst 1 m = false) -> (view32 k = true <-> a = I386) -> (a = I386 -> low_halves k) ->
  match snd (get_call sup true cst k l (stop sup cst (fold_left (stop sup cst) history s) (k, before))) with
  | Some c => c = (number_of a, n, taken k a (cst (number_of a) n))
  | None => True
  end.
Proof.
  intros sup cst k a n history before l s E Hc Hv Hl. destruct (number_ok k a n E) as (V & Np & Nn & Ni).
  pose proof (stop_inv sup cst k before (fold_left (stop sup cst) history s) V) as I. revert I. generalize (stop sup cst (fold_left (stop sup cst) history s) (k, before)). clear history before s. intros s I.
  assert (Vw : view32 k = match a with I386 => true | _ => false end). { destruct a; destruct (view32 k); try reflexivity; [assert (X64 = I386) by (apply Hv; reflexivity); discriminate|apply (proj2 Hv); reflexivity|assert (X32 = I386) by (apply Hv; reflexivity); discriminate]. }
  assert (Cs : a = I386 -> cst (number_of a) n = false) by (intros ->; apply Hc).
  unfold get_call. destruct (get_syscall_regs sup true k l s) as [t r] eqn:G. destruct (regs_inv _ _ _ _ _ _ _ V I G) as [It Hr]. destruct (Z.ltb_spec r 0) as [L|L]; [exact Logic.I|].
  destruct Hr as [Hr|(Hr & H1 & H2 & H3)]; [lia|]. destruct sup.
  - assert (En : is_entry true t = Some (k_info k)). { unfold is_entry. rewrite (H1 eq_refl). destruct E as (_ & Op & _). destruct Op as [-> | ->]; reflexivity. }
    rewrite En. cbn [snd]. rewrite En. assert (P : pers t = number_of a). { destruct It as [[It|(_ & _ & It)] _]; [rewrite (H1 eq_refl) in It; discriminate|]. rewrite Ni in It. exact It. }
    unfold shuffle_scno. rewrite P. pose proof E as (_ & _ & _ & _ & _ & Nr & _). change (cpu k 15%nat) with (cpu k ORIG_RAX) in Nr. rewrite Nr, Nn. rewrite (args_taken k a n _ E); [reflexivity|]. intros Ha. split; [exact (Hl Ha)|exact (Cs Ha)].
  - assert (En : is_entry false t = None) by reflexivity. rewrite En.
    assert (Gd : good k t). { destruct H3 as [H3|[[_ H3]|[H3 _]]]; [exact H3|discriminate|discriminate]. }
    destruct (arch_get_scno t) as [u m] eqn:A. cbn [snd]. change (is_entry false u) with (@None info).
    assert (Hu : good k u /\ pers u = number_of a /\ m = cpu k ORIG_RAX).
    { unfold arch_get_scno in A. pose proof Gd as [G1 G2]. rewrite G1, Vw in A. rewrite G1, Vw in G2. destruct a.
      - rewrite G2 in A. rewrite testbit_land, negb_involutive in A. apply pair_equal_spec in A. destruct A as [<- <-]. split; [exact Gd|]. split; [|reflexivity]. cbn [pers update_personality]. destruct Np as [Np _]. unfold pers_of in Np. rewrite <- Np. destruct (N.testbit (cpu k ORIG_RAX) 30); [|reflexivity]. destruct (cpu k ORIG_RAX =? 2^64 - 1); reflexivity.
      - apply pair_equal_spec in A. destruct A as [<- <-]. split; [exact Gd|]. split; [reflexivity|]. rewrite G2 by reflexivity. change (i386_field 11) with ORIG_RAX. destruct E as (_ & _ & _ & _ & _ & _ & E1 & E2). change (cpu k 15%nat) with (cpu k ORIG_RAX) in E1. apply N.mod_small. rewrite E1. lia.
      - rewrite G2 in A. rewrite testbit_land, negb_involutive in A. apply pair_equal_spec in A. destruct A as [<- <-]. split; [exact Gd|]. split; [|reflexivity]. cbn [pers update_personality]. destruct Np as [Np _]. unfold pers_of in Np. rewrite <- Np. destruct (N.testbit (cpu k ORIG_RAX) 30); [|reflexivity]. destruct (cpu k ORIG_RAX =? 2^64 - 1); reflexivity. }
    destruct Hu as (Gu & Pu & ->). unfold shuffle_scno. rewrite Pu, Nn. rewrite (regs_taken k a n _ u E Gu Vw Cs). reflexivity.
Qed.
Print Assumptions C88_entry_partial.

(** int 0x80 in 64-bit code: the registers alone do not tell it, and the information has all 64 bits of the arguments *)
Definition int80 (big : N) : kern :=
  let c := fun j => if Nat.eqb j ORIG_RAX then 4 else if Nat.eqb j RBX then 1 else if Nat.eqb j RCX then big else if Nat.eqb j CS then 0x33 else 0 in
  {| k_info := {| iop := ENTRY; i386 := true; i_ip := 0; nr := 4; args := fun i => c (nth i (arg_regs I386) 0%nat); i_rval := 0; is_error := false |}; cpu := c; view32 := false |}.
Lemma int80_entry big : big < 2^64 -> entry_of (int80 big) I386 4.
Proof.
  intros B. split.
  - intros j. cbn [cpu int80]. destruct (Nat.eqb j ORIG_RAX); [reflexivity|]. destruct (Nat.eqb j RBX); [reflexivity|]. destruct (Nat.eqb j RCX); [exact B|]. destruct (Nat.eqb j CS); reflexivity.
  - split; [left; reflexivity|]. split; [reflexivity|]. split; [split; intros H; discriminate H|]. repeat split.
Qed.
Definition lucky : luck := {| sci_ok := true; getregset := None; getregs := true |}.
Definition st0 : st := {| sci := None; rerr := -1; buf := fun _ => 0; is32 := false; old := 0; pers := 0 |}.
Theorem C88_entry_int80_refuted :
  (exists k n, entry_of k I386 n /\ low_halves k /\ snd (get_call false true (fun _ _ => false) k lucky (stop false (fun _ _ => false) st0 (k, []))) <> Some (1, n, taken k I386 false) /\
     snd (get_call false true (fun _ _ => false) k lucky (stop false (fun _ _ => false) st0 (k, []))) <> None) /\
  (exists k n, entry_of k I386 n /\ snd (get_call true true (fun _ _ => false) k lucky (stop true (fun _ _ => false) st0 (k, []))) <> Some (1, n, taken k I386 false) /\
     snd (get_call true true (fun _ _ => false) k lucky (stop true (fun _ _ => false) st0 (k, []))) <> None).
Proof.
  split.
  - exists (int80 5), 4. split; [apply int80_entry; reflexivity|]. split; [intros i L; do 6 (destruct i as [|i]; [reflexivity|]); exfalso; lia|]. split; vm_compute; discriminate.
  - exists (int80 (2^47)), 4. split; [apply int80_entry; reflexivity|]. split; vm_compute; discriminate.
Qed.
Print Assumptions C88_entry_int80_refuted.
(** with PTRACE_GET_SYSCALL_INFO, and arguments of 32 bits, int 0x80 is shown right *)
Theorem C88_entry_int80 : forall cst k n history before l s, entry_of k I386 n -> (forall m, cst 1 m = false) -> low_halves k ->
  match snd (get_call true true cst k l (stop true cst (fold_left (stop true cst) history s) (k, before))) with
  | Some c => c = (1, n, taken k I386 false)
  | None => True
  end.
Proof.
  intros cst k n history before l s E Hc Hl. destruct (number_ok k I386 n E) as (V & _ & Nn & Ni).
  pose proof (stop_inv true cst k before (fold_left (stop true cst) history s) V) as I. revert I. generalize (stop true cst (fold_left (stop true cst) history s) (k, before)). clear history before s. intros s I.
  unfold get_call. destruct (get_syscall_regs true true k l s) as [t r] eqn:G. destruct (regs_inv _ _ _ _ _ _ _ V I G) as [It Hr]. destruct (Z.ltb_spec r 0) as [L|L]; [exact Logic.I|].
  destruct Hr as [Hr|(Hr & H1 & H2 & H3)]; [lia|].
  assert (En : is_entry true t = Some (k_info k)). { unfold is_entry. rewrite (H1 eq_refl). destruct E as (_ & Op & _). destruct Op as [-> | ->]; reflexivity. }
  rewrite En. cbn [snd]. rewrite En. assert (P : pers t = 1). { destruct It as [[It|(_ & _ & It)] _]; [rewrite (H1 eq_refl) in It; discriminate|]. rewrite Ni in It. exact It. }
  unfold shuffle_scno. rewrite P. pose proof E as (_ & _ & _ & _ & _ & Nr & _). change (cpu k 15%nat) with (cpu k ORIG_RAX) in Nr. rewrite Nr. change (1 =? 2) with false. cbv iota. change (number_of I386 =? 2) with false in Nn. cbv iota in Nn. rewrite Nn, Hc.
  pose proof (args_taken k I386 n false E (fun _ => conj Hl eq_refl)) as AT. rewrite <- AT. reflexivity.
Qed.
Print Assumptions C88_entry_int80.

(** ** The result *)
Lemma get_result compat check rax : rax < 2^64 -> get_x86_64 compat check (if compat then rax mod 2^32 else rax) = result_of compat check rax.
Proof.
  intros B. unfold get_x86_64, result_of, is_negated_errno, MAX_ERRNO. destruct compat; cbn zeta.
  - change (32 <? 64) with true. cbv iota. change ((2 ^ 64 - 4095) mod 2 ^ 32) with (2 ^ 32 - 4095). assert (M : rax mod 2^32 < 2^32) by (apply N.mod_lt; discriminate). revert M. generalize (rax mod 2^32). clear. intros v M.
    assert (Sx : sext32 v = if v <? 2^31 then v else 2^64 - 2^32 + v) by (unfold sext32; rewrite (N.mod_small v) by exact M; reflexivity).
    assert (Sm : sext32 v mod 2^32 = v). { rewrite Sx. destruct (v <? 2^31); [apply N.mod_small; exact M|]. replace (2^64 - 2^32 + v) with (v + (2^32 - 1) * 2^32) by (cbn; lia). rewrite N.mod_add by discriminate. apply N.mod_small. exact M. }
    rewrite Sm. destruct (check && (2^32 - 4095 <=? v)) eqn:C; [|reflexivity]. f_equal. apply andb_true_iff in C. destruct C as [_ C]. apply N.leb_le in C. rewrite Sx. destruct (N.ltb_spec v (2^31)) as [L|L]; [cbn in *; lia|].
    rewrite N.mod_small; cbn in *; lia.
  - change (64 <? 64) with false. cbv iota. rewrite (N.mod_small rax) by exact B. destruct (check && (2^64 - 4095 <=? rax)) eqn:C; [|reflexivity]. apply andb_true_iff in C. destruct C as [_ C]. apply N.leb_le in C. f_equal. apply N.mod_small. lia.
Qed.
(** Whatever happened before, at the exit of a call what strace gets is its result, or nothing.
    Missing: values, returned by calls that never fail, that look like errors (and, with 32-bit calls, high halves of results). *)
Theorem C88_exit_partial : forall sup cst check k rax history before l s, exit_of k rax -> check = true \/ sup = false -> (sup = true -> view32 k = true -> rax < 2^32) ->
  match snd (get_syscall_result sup false check k l (stop sup cst (fold_left (stop sup cst) history s) (k, before))) with
  | Some r => r = result_of (view32 k) check rax
  | None => True
  end.
Proof.
  intros sup cst check k rax history before l s E Hc Hl. pose proof E as (Ro & Op & Ex & V & _ & Er & Rv).
  pose proof (stop_inv sup cst k before (fold_left (stop sup cst) history s) V) as I. revert I. generalize (stop sup cst (fold_left (stop sup cst) history s) (k, before)). clear history before s. intros s I.
  unfold get_syscall_result. destruct (get_syscall_regs sup false k l s) as [t r] eqn:G. destruct (regs_inv _ _ _ _ _ _ _ V I G) as [It Hr]. destruct (Z.ltb_spec r 0) as [L|L]; [exact Logic.I|].
  destruct Hr as [Hr|(Hr & H1 & H2 & H3)]; [lia|]. cbn [snd]. assert (B : rax < 2^64) by (rewrite <- Ex; apply Ro). destruct sup.
  - assert (En : is_exit true t = Some (k_info k)). { unfold is_exit. rewrite (H1 eq_refl), Op. reflexivity. } rewrite En. destruct Hc as [-> |Hc]; [|discriminate]. rewrite Er, Rv. clear Er Rv En. unfold result_of. destruct (view32 k).
    + specialize (Hl eq_refl eq_refl). rewrite (N.mod_small rax) by exact Hl. unfold sext32. rewrite (N.mod_small rax) by exact Hl. cbn [andb]. destruct (N.ltb_spec rax (2^31)) as [A|A].
      * replace (2^64 - 4095 <=? rax) with false by (symmetry; apply N.leb_gt; cbn in *; lia). replace (2^32 - 4095 <=? rax) with false by (symmetry; apply N.leb_gt; cbn in *; lia). reflexivity.
      * replace (2^64 - 4095 <=? 2^64 - 2^32 + rax) with (2^32 - 4095 <=? rax) by (apply eq_true_iff_eq; rewrite !N.leb_le; cbn; lia). destruct (N.leb_spec (2^32 - 4095) rax); [|reflexivity]. f_equal. unfold u64. rewrite N.mod_small; cbn in *; lia.
    + rewrite (N.mod_small rax) by exact B. cbn [andb]. destruct (N.leb_spec (2^64 - 4095) rax); [|reflexivity]. f_equal. unfold u64. apply N.mod_small. lia.
  - assert (Gd : good k t). { destruct H3 as [H3|[[H3 _]|[_ H3]]]; [exact H3|discriminate|discriminate]. } change (is_exit false t) with (@None info). destruct Gd as [G1 G2]. rewrite G1 in *.
    rewrite <- (get_result (view32 k) check rax B). f_equal. destruct (view32 k); [rewrite G2 by reflexivity; change (i386_field 6) with 10%nat; rewrite Ex; reflexivity|rewrite G2; exact Ex].
Qed.
Print Assumptions C88_exit_partial.
(** getuid32 of user 2^32 - 2, an i386 call that never fails, is shown as failed *)
Definition getuid32 : kern :=
  let c := fun j => if Nat.eqb j RAX then 2^32 - 2 else if Nat.eqb j CS then 0x23 else 0 in
  {| k_info := {| iop := EXIT; i386 := true; i_ip := 0; nr := 0; args := fun _ => 0; i_rval := 2^64 - 2; is_error := true |}; cpu := c; view32 := true |}.
Theorem C88_exit_never_fails_refuted : exists k rax, exit_of k rax /\ rax < 2^32 /\ result_of (view32 k) false rax = {| rval := 2^32 - 2; err := 0 |} /\
  snd (get_syscall_result true false false k lucky (stop true (fun _ _ => false) st0 (k, []))) = Some {| rval := 2^64 - 1; err := 2 |}.
Proof.
  exists getuid32, (2^32 - 2). split; [|split; [reflexivity|split; [reflexivity|vm_compute; reflexivity]]]. split; [|repeat split].
  intros j. cbn [cpu getuid32]. destruct (Nat.eqb j RAX); [reflexivity|]. destruct (Nat.eqb j CS); reflexivity.
Qed.
Print Assumptions C88_exit_never_fails_refuted.

(** The instruction pointer (-i, -k) is that of the stop. *)
Theorem C88_ip : forall sup cst k history before l s, view_ok k -> cpu k 16%nat < (if view32 k then 2^32 else 2^64) -> i_ip (k_info k) = cpu k 16%nat ->
  match snd (get_ip sup k l (stop sup cst (fold_left (stop sup cst) history s) (k, before))) with Some p => p = cpu k 16%nat | None => True end.
Proof.
  intros sup cst k history before l s V B Hi.
  pose proof (stop_inv sup cst k before (fold_left (stop sup cst) history s) V) as I. revert I. generalize (stop sup cst (fold_left (stop sup cst) history s) (k, before)). clear history before s. intros s I.
  unfold get_ip. destruct (Z.ltb_spec (rerr s) (-1)) as [L|L]; [exact Logic.I|]. destruct sup.
  - destruct (strace_get_syscall_info k l s) as [t b] eqn:G. destruct (info_inv _ _ _ _ _ _ eq_refl I G) as [_ H]. cbn [snd]. destruct b; [|exact Logic.I]. destruct H as [-> _]. exact Hi.
  - destruct (get_regs k l s) as [t r] eqn:G. cbn [snd]. destruct (Z.ltb_spec r 0) as [Lr|Lr]; [exact Logic.I|].
    assert (Gd : good k t).
    { destruct (Z.eq_dec (rerr s) (-1)) as [E|E].
      - destruct (get_regs_good k l s t r V E G) as (_ & _ & _ & [G4|[_ G4]]); [lia|exact G4].
      - unfold get_regs in G. destruct (Z.eqb_spec (rerr s) (-1)); [contradiction|]. cbn [negb] in G. apply pair_equal_spec in G. destruct G as [<- <-]. destruct I as [_ [I|[I|(_ & I & _)]]]; [lia|lia|exact I]. }
    destruct Gd as [G1 G2]. rewrite G1 in *. destruct (view32 k); [rewrite G2 by reflexivity; apply N.mod_small; exact B|apply G2].
Qed.
Print Assumptions C88_ip.

(** When the tracee is there, the answer is not missing. *)
Theorem C88_answers : forall sup cst k s, (exists c, snd (get_call sup true cst k lucky (clear_regs s)) = Some c) /\ (exists p, snd (get_ip sup k lucky (clear_regs s)) = Some p) /\ forall check, exists r, snd (get_syscall_result sup false check k lucky (clear_regs s)) = Some r.
Proof.
  intros sup cst k s.
  assert (GR : forall t, rerr t = (-1)%Z -> (old t <= 0)%Z \/ True -> snd (get_regs k lucky t) = 0%Z).
  { intros t Et _. unfold get_regs. rewrite Et. cbn [Z.eqb Pos.eqb negb]. unfold getregs_old, ptrace_getregset. cbn [getregset getregs lucky negb].
    destruct (old t <? 0)%Z; [destruct (view32 k); reflexivity|]. destruct (old t =? 0)%Z; [destruct (view32 k); reflexivity|]. cbn zeta. destruct (r64 (layout64 (cpu k)) CS =? 35); reflexivity. }
  assert (SR : forall e, snd (get_syscall_regs sup e k lucky (clear_regs s)) = 0%Z).
  { intros e. unfold get_syscall_regs. cbn [rerr clear_regs set_rerr Z.eqb Pos.eqb negb]. destruct sup; [|apply GR; [reflexivity|right; exact Logic.I]].
    unfold strace_get_syscall_info. cbn [sci clear_regs set_rerr set_sci sci_ok lucky negb]. set (t := match info_pers (k_info k) with Some _ => _ | None => _ end). destruct (_ || _); [reflexivity|]. apply GR; [|right; exact Logic.I]. unfold t. destruct (info_pers (k_info k)); reflexivity. }
  split; [|split].
  - unfold get_call. specialize (SR true). destruct (get_syscall_regs sup true k lucky (clear_regs s)) as [t r]. cbn [snd] in SR. subst r. cbn [Z.ltb Z.compare]. destruct (match is_entry sup t with Some i => _ | None => _ end) as [u n]. cbn [snd]. eexists. reflexivity.
  - unfold get_ip. cbn [rerr clear_regs set_rerr]. change (-1 <? -1)%Z with false. cbv iota. destruct sup.
    + unfold strace_get_syscall_info. cbn [sci clear_regs set_rerr set_sci sci_ok lucky negb snd]. destruct (info_pers (k_info k)); eexists; reflexivity.
    + pose proof (GR (clear_regs s) eq_refl (or_intror Logic.I)) as H. destruct (get_regs k lucky (clear_regs s)) as [t r]. cbn [snd] in *. subst r. eexists. reflexivity.
  - intros check. unfold get_syscall_result. specialize (SR false). destruct (get_syscall_regs sup false k lucky (clear_regs s)) as [t r]. cbn [snd] in SR. subst r. cbn [Z.ltb Z.compare snd]. eexists. reflexivity.
Qed.
Print Assumptions C88_answers.

(** ** Example: write(1, p, 5) made with syscall, after an i386 stop *)
Definition write64 : kern :=
  let c := fun j => if Nat.eqb j ORIG_RAX then 1 else if Nat.eqb j RDI then 1 else if Nat.eqb j RSI then 2^47 else if Nat.eqb j RDX then 5 else if Nat.eqb j CS then 0x33 else 0 in
  {| k_info := {| iop := ENTRY; i386 := false; i_ip := 0; nr := 1; args := fun i => c (nth i (arg_regs X64) 0%nat); i_rval := 0; is_error := false |}; cpu := c; view32 := false |}.
Example C88_nonvacuous : entry_of write64 X64 1 /\
  (forall sup, snd (get_call sup true (fun _ _ => false) write64 lucky (stop sup (fun _ _ => false) (stop sup (fun _ _ => false) st0 (getuid32, [(Result true, lucky)])) (write64, []))) = Some (0, 1, [1; 2^47; 5; 0; 0; 0])).
Proof.
  split; [|intros []; vm_compute; reflexivity]. split.
  - intros j. cbn [cpu write64]. destruct (Nat.eqb j ORIG_RAX); [reflexivity|]. destruct (Nat.eqb j RDI); [reflexivity|]. destruct (Nat.eqb j RSI); [reflexivity|]. destruct (Nat.eqb j RDX); [reflexivity|]. destruct (Nat.eqb j CS); reflexivity.
  - split; [left; reflexivity|]. split; [reflexivity|]. split; [split; intros H; discriminate H|]. repeat split. left. reflexivity.
Qed.
