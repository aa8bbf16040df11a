From Verif Require Import Base AllocModel AllocThms ListModel ListSpec ListProofs TimeModel TableModel TableSpec.
From Coq Require Import Permutation.
Local Open Scope N_scope.

Lemma set_nth_len {A} (l : list A) : forall i x, length (set_nth l i x) = length l.
Proof. induction l as [|a l IH]; intros [|i] x; cbn; auto. Qed.
Lemma set_nth_same {A} (l : list A) : forall i x, (i < length l)%nat -> nth_error (set_nth l i x) i = Some x.
Proof. induction l as [|a l IH]; intros [|i] x H; cbn in *; try lia; auto. apply IH. lia. Qed.
Lemma set_nth_other {A} (l : list A) : forall i j x, i <> j -> nth_error (set_nth l i x) j = nth_error l j.
Proof. induction l as [|a l IH]; intros [|i] [|j] x H; cbn; auto; try lia. Qed.
Lemma rbind_ok {A B} (x : res A) (f : A -> res B) b : rbind x f = Ok b -> exists a, x = Ok a /\ f a = Ok b.
Proof. destruct x; cbn; intros E; try discriminate. eauto. Qed.

(** the growth that can happen here *)
Lemma grow_spec k mal null n sz n' b : (k = 16 \/ k = 32) -> n <= 65536 -> 8 <= sz <= 32 -> xgrowarray k mal null n sz = Ok (n', b) -> (null = true -> n = 0) -> n < n' <= 2 ^ 17.
Proof.
  intros K L S E Z. assert (NB : n < 2 ^ (2 * k)) by (eapply N.le_lt_trans; [exact L|]; destruct K as [-> | ->]; cbn; lia).
  destruct (C53_grow_partial k mal null n sz n' b K NB) as (_ & _ & A & B & C); [|exact E|].
  { split; [lia|]. destruct K as [-> | ->]; cbn; lia. }
  split; [destruct null; [rewrite (Z eq_refl) in *; lia|apply C; reflexivity]|].
  unfold xgrowarray in E. destruct null.
  - rewrite (Z eq_refl) in *. cbn [N.eqb] in E. destruct (N.eqb_spec sz 0); [lia|]. cbn [rbind] in E. destruct (_ <? _); [discriminate|]. apply rbind_ok in E as (x & _ & E). inversion E; subst. rewrite N.add_0_l. unfold szmod. etransitivity; [apply N.mod_le, N.pow_nonzero; discriminate|]. transitivity (64 * (k / 4) / 4 + sz - 1); [|destruct K as [-> | ->]; cbn; lia].
    etransitivity; [apply N.div_le_upper_bound; [lia|]|reflexivity]. etransitivity; [apply N.mod_le, N.pow_nonzero; discriminate|]. nia.
  - cbn [rbind] in E. destruct (_ <? _); [discriminate|]. apply rbind_ok in E as (x & _ & E). inversion E; subst. unfold szmod. etransitivity; [apply N.mod_le, N.pow_nonzero; discriminate|]. pose proof (N.div_le_upper_bound n 2 32768 ltac:(lia) ltac:(lia)). cbn. lia.
Qed.
Lemma grow_total k null n sz : (k = 16 \/ k = 32) -> n <= 65536 -> 8 <= sz <= 32 -> (null = true -> n = 0) -> exists n' b, xgrowarray k (fun _ => true) null n sz = Ok (n', b).
Proof.
  intros K L S Z. unfold xgrowarray. set (g := if null then _ else _). assert (G : exists q, g = Ok q /\ q <= 65536).
  { unfold g. destruct null; [rewrite (Z eq_refl); cbn [N.eqb]; destruct (N.eqb_spec sz 0); [lia|]; eexists; split; [reflexivity|]|eexists; split; [reflexivity|pose proof (N.div_le_upper_bound n 2 32768 ltac:(lia) ltac:(lia)); lia]].
    transitivity (64 * (k / 4) / 4 + sz - 1); [|destruct K as [-> | ->]; cbn; lia]. apply N.div_le_upper_bound; [lia|]. unfold szmod. etransitivity; [apply N.mod_le, N.pow_nonzero; discriminate|]. nia. }
  destruct G as (q & -> & Q). cbn [rbind]. assert (SM : szmod k (n + q) = n + q) by (unfold szmod; apply N.mod_small; destruct K as [-> | ->]; cbn; lia). rewrite SM. destruct (N.ltb_spec (n + q) n); [lia|]. rewrite xallocarray_eq; [|destruct K as [-> | ->]; lia|destruct K as [-> | ->]; cbn; lia..].
  destruct (N.ltb_spec ((n + q) * sz) (2 ^ (2 * k))) as [X|X]; [cbn [rbind]; eauto|]. exfalso. assert ((n + q) * sz <= 131072 * 32) by nia. destruct K as [-> | ->]; cbn in *; lia.
Qed.

(** the used part of an array, and the rest of it zero *)
Definition vinv {A} (zero : A) (v : vec A) (D : list A) : Prop :=
  used v = N.of_nat (length D) /\ used v <= 65536 /\ (exists n, cells v = D ++ repeat zero n) /\ (arr v = None -> D = []) /\ capacity v <= 2 ^ 17.
Lemma expand_inv {A} (zero : A) k mal sz v D v' : (k = 16 \/ k = 32) -> 8 <= sz <= 32 -> vinv zero v D -> used v = capacity v -> expand k mal sz zero v = Ok v' -> vinv zero v' D /\ used v' < capacity v'.
Proof.
  intros K S (U & L & (n & C) & Z & CP) F E. unfold expand in E. apply rbind_ok in E as ([n' b] & G & E). inversion E; subst v'; clear E. apply grow_spec in G; [|exact K|lia|exact S|destruct (arr v) eqn:EA; [discriminate|]; intros _; unfold capacity, cells; rewrite EA; reflexivity].
  unfold vinv, capacity, cells in *. cbn [arr used]. fold (cells v) in *. rewrite app_length, repeat_length.
  split; [|cbn in *; lia]. split; [exact U|]. split; [exact L|]. split; [|split; [discriminate|cbn in *; lia]]. rewrite C, <- app_assoc, <- repeat_app. eauto.
Qed.
Lemma room_inv {A} (zero : A) k mal sz v D v' : (k = 16 \/ k = 32) -> 8 <= sz <= 32 -> vinv zero v D -> (if used v =? capacity v then expand k mal sz zero v else Ok v) = Ok v' -> vinv zero v' D /\ used v' < capacity v' /\ used v' = used v.
Proof.
  intros K S I E. destruct (N.eqb_spec (used v) (capacity v)) as [F|F].
  - destruct (expand_inv zero k mal sz v D v' K S I F E) as [J B]. split; [exact J|]. split; [exact B|]. destruct J as (U & _), I as (U' & _). congruence.
  - inversion E; subst. split; [exact I|]. split; [|reflexivity]. destruct I as (U & _ & (n & C) & _). unfold capacity in *. rewrite C, app_length in *. lia.
Qed.
Lemma vec0_inv {A} (zero : A) : vinv zero vec0 []. Proof. split; [reflexivity|]. split; [cbn; lia|]. split; [exists 0%nat; reflexivity|]. split; [reflexivity|vm_compute; discriminate]. Qed.
Lemma set_app {A} (D : list A) x y r : set_nth (D ++ y :: r) (length D) x = D ++ x :: r.
Proof. induction D as [|d D IH]; cbn; [reflexivity|]. f_equal. exact IH. Qed.
Lemma u16_small n : n < 65536 -> u16 n = n. Proof. intros L. unfold u16. apply N.mod_small. exact L. Qed.

(** ** Values *)
Lemma retval_new_inv k mal v D x v' i : (k = 16 \/ k = 32) -> vinv 0%Z v D -> retval_new k mal v x = Ok (v', i) -> vinv 0%Z v' (D ++ [x]) /\ i = N.of_nat (length D) /\ i < 65536.
Proof.
  intros K I E. unfold retval_new in E. destruct (N.ltb_spec (u16 (used v)) (used v)) as [|G]; [discriminate|]. assert (LU : used v < 65536) by (destruct I as (_ & L & _); destruct (N.eq_dec (used v) 65536) as [X|X]; [rewrite X in G; vm_compute in G; exfalso; apply G; reflexivity|lia]). rewrite (u16_small _ LU) in E.
  apply rbind_ok in E as (v1 & E1 & E). destruct (room_inv 0%Z k mal 8 v D v1 K ltac:(lia) I E1) as (I1 & F & U1). rewrite <- U1 in E. destruct (N.ltb_spec (used v1) (capacity v1)); [|lia]. inversion E; subst; clear E. destruct I1 as (U & L & (n & C) & Z & CP). split; [|split; [exact U|lia]].
  unfold vinv, capacity, cells in *. cbn [arr used]. fold (cells v1) in *. rewrite set_nth_len. rewrite U, Nat2N.id. rewrite app_length. cbn [length]. split; [lia|]. split; [lia|]. split; [|split; [discriminate|exact CP]].
  destruct n as [|n]; [rewrite C, app_length in F; cbn in F; lia|]. rewrite C. cbn [repeat]. rewrite set_app. exists n. rewrite <- app_assoc. reflexivity.
Qed.
Lemma retvals_inv k mal vs : (k = 16 \/ k = 32) -> forall v D v' is, vinv 0%Z v D -> retvals k mal v vs = Ok (v', is) -> vinv 0%Z v' (D ++ vs) /\ is = map N.of_nat (seq (length D) (length vs)).
Proof.
  intros K. induction vs as [|x vs IH]; intros v D v' is I E; cbn [retvals] in E; [inversion E; subst; rewrite app_nil_r; auto|]. apply rbind_ok in E as ([v1 i] & E1 & E). apply rbind_ok in E as ([v2 is2] & E2 & E). inversion E; subst. destruct (retval_new_inv _ _ _ _ _ _ _ K I E1) as (I1 & -> & _). destruct (IH _ _ _ _ I1 E2) as (I2 & ->). rewrite <- app_assoc in I2. split; [exact I2|]. cbn [length seq map]. rewrite app_length. cbn. rewrite Nat.add_1_r. reflexivity.
Qed.
Lemma expand_total {A} (zero : A) k sz v D : (k = 16 \/ k = 32) -> 8 <= sz <= 32 -> vinv zero v D -> exists v', (if used v =? capacity v then expand k (fun _ => true) sz zero v else Ok v) = Ok v'.
Proof.
  intros K S (U & L & (n & C) & Z & CP). destruct (N.eqb_spec (used v) (capacity v)) as [F|F]; [|eauto]. unfold expand. destruct (grow_total k (match arr v with None => true | _ => false end) (capacity v) sz K ltac:(lia) S) as (n' & b & ->); [|cbn [rbind]; eauto]. destruct (arr v) eqn:EA; [discriminate|]. intros _. unfold capacity, cells. rewrite EA. reflexivity.
Qed.
Lemma retvals_total k vs : (k = 16 \/ k = 32) -> forall v D, vinv 0%Z v D -> N.of_nat (length D) + N.of_nat (length vs) <= 65536 -> exists v' is, retvals k (fun _ => true) v vs = Ok (v', is).
Proof.
  intros K. induction vs as [|x vs IH]; intros v D I L; cbn [retvals length] in *; [eauto|]. assert (LU : used v < 65536) by (destruct I as (U & _); lia). assert (E : exists v1 i, retval_new k (fun _ => true) v x = Ok (v1, i)).
  { unfold retval_new. rewrite (u16_small _ LU). destruct (N.ltb_spec (used v) (used v)); [lia|]. destruct (expand_total 0%Z k 8 v D K ltac:(lia) I) as (v1 & E1). rewrite E1. cbn [rbind]. destruct (room_inv 0%Z k (fun _ => true) 8 v D v1 K ltac:(lia) I E1) as (_ & F & U1). rewrite <- U1. destruct (N.ltb_spec (used v1) (capacity v1)); [eauto|lia]. }
  destruct E as (v1 & i & E). rewrite E. cbn [rbind]. destruct (retval_new_inv _ _ _ _ _ _ _ K I E) as (I1 & _). destruct (IH _ _ I1) as (v2 & is & E2); [rewrite app_length; cbn; lia|]. rewrite E2. cbn [rbind]. eauto.
Qed.
Lemma retval_full k mal v D x : vinv 0%Z v D -> N.of_nat (length D) = 65536 -> retval_new k mal v x = Die.
Proof. intros (U & _) L. unfold retval_new. rewrite U, L. reflexivity. Qed.
Lemma retvals_app k mal l : forall v r, retvals k mal v (l ++ r) = rlet (v, is) := retvals k mal v l in rlet (v, js) := retvals k mal v r in Ok (v, is ++ js).
Proof.
  induction l as [|x l IH]; intros v r; cbn [app retvals rbind]; [destruct (retvals k mal v r) as [[? ?]| |]; reflexivity|]. destruct (retval_new k mal v x) as [[v1 i]| |]; cbn [rbind]; [|reflexivity..]. rewrite IH. destruct (retvals k mal v1 l) as [[v2 is]| |]; cbn [rbind]; [|reflexivity..]. destruct (retvals k mal v2 r) as [[? ?]| |]; reflexivity.
Qed.

(** ** Delays *)
Definition sel (e : bool) (d : delay_data) : ts := if e then ts_enter d else ts_exit d.
Lemma alloc_delay_inv k mal v D v' i : (k = 16 \/ k = 32) -> vinv delay0 v D -> alloc_delay_data k mal v = Ok (v', i) -> vinv delay0 v' (D ++ [delay0]) /\ i = N.of_nat (length D) /\ i < 65536.
Proof.
  intros K I E. unfold alloc_delay_data in E. destruct (N.ltb_spec (u16 (used v)) (used v)) as [|G]; [discriminate|]. assert (LU : used v < 65536) by (destruct I as (_ & L & _); destruct (N.eq_dec (used v) 65536) as [X|X]; [rewrite X in G; vm_compute in G; exfalso; apply G; reflexivity|lia]). rewrite (u16_small _ LU) in E.
  apply rbind_ok in E as (v1 & E1 & E). destruct (room_inv delay0 k mal 32 v D v1 K ltac:(lia) I E1) as (I1 & F & U1). inversion E; subst; clear E. destruct I1 as (U & L & (n & C) & Z & CP). split; [|split; [congruence|lia]].
  unfold vinv, capacity, cells in *. cbn [arr used]. fold (cells v1) in *. rewrite app_length. cbn [length]. split; [lia|]. split; [lia|].
  destruct n as [|n]; [rewrite C, app_length in F; cbn in F; lia|]. split; [exists n; rewrite C; cbn [repeat]; rewrite <- app_assoc; reflexivity|]. split; [|exact CP]. intros N. unfold cells in C. rewrite N in C. destruct D; discriminate.
Qed.
Lemma fill_inv v D d i t e v' : vinv delay0 v (D ++ [d]) -> i = N.of_nat (length D) -> fill_delay_data v i t e = Ok v' ->
  vinv delay0 v' (D ++ [if e then {| ts_enter := t; ts_exit := ts_exit d |} else {| ts_enter := ts_enter d; ts_exit := t |}]).
Proof.
  intros (U & L & (n & C) & Z & CP) -> E. unfold fill_delay_data in E. destruct (_ <=? _); [discriminate|]. rewrite Nat2N.id in E. rewrite C, <- app_assoc in E. rewrite nth_error_app2 in E by lia. rewrite Nat.sub_diag in E. cbn [app nth_error] in E. inversion E; subst; clear E.
  rewrite app_length in *. cbn [length] in *. rewrite set_app. unfold vinv, capacity, cells in *. cbn [arr used]. fold (cells v) in *. rewrite !app_length. cbn [length]. split; [exact U|]. split; [exact L|]. split; [exists n; rewrite <- app_assoc; reflexivity|]. split; [discriminate|]. rewrite C, !app_length in CP. cbn [length] in CP. lia.
Qed.
(** after the first token of an expression *)
Lemma expr_more k mal toks : (k = 16 \/ k = 32) -> forall v o D d v' o', vinv delay0 v (D ++ [d]) -> didx o = N.of_nat (length D) -> expr_from k mal v o toks = Ok (Some (v', o')) ->
  exists d', vinv delay0 v' (D ++ [d']) /\ didx o' = N.of_nat (length D) /\
    (forall e : bool, (if e then f_enter o else f_exit o) = true -> sel e d' = sel e d /\ forall t, ~ In (e, t) toks) /\
    (forall e t, In (e, t) toks -> sel e d' = t) /\ (forall e, (forall t, ~ In (e, t) toks) -> sel e d' = sel e d).
Proof.
  intros K. induction toks as [|[e t] toks IH]; intros v o D d v' o' I X E; cbn [expr_from] in E.
  - inversion E; subst. exists d. split; [exact I|]. split; [exact X|]. split; [auto|]. split; [intros ? ? []|auto].
  - apply rbind_ok in E as (y & E1 & E). unfold parse_delay_token in E1. destruct (if e then f_enter o else f_exit o) eqn:FL; [inversion E1; subst; discriminate|]. apply rbind_ok in E1 as ([v1 i] & E2 & E1). destruct (N.eqb_spec (didx o) 65535) as [Q|Q].
    + exfalso. destruct I as (U & _). rewrite app_length in U. cbn in U. unfold alloc_delay_data in E2. assert (used v = 65536) by lia. rewrite H in E2. discriminate.
    + inversion E2; subst v1 i. apply rbind_ok in E1 as (v2 & E3 & E1). inversion E1; subst y; clear E1. pose proof (fill_inv _ _ _ _ _ _ _ I X E3) as I2. eapply IH in E as (d' & I' & X' & A & B & C); [|exact I2|exact X]. exists d'. split; [exact I'|]. split; [exact X'|]. cbn [f_enter f_exit] in A.
      assert (AE : sel e d' = t /\ forall t', ~ In (e, t') toks).
      { destruct (A e) as [A1 A2]; [destruct e; cbn; rewrite orb_true_r; reflexivity|]. rewrite A1. split; [destruct e; reflexivity|exact A2]. }
      split; [|split].
      * intros e' F'. destruct (bool_dec e' e) as [->|NE]; [rewrite FL in F'; discriminate|]. destruct (A e') as [A1 A2]; [destruct e'; rewrite F'; reflexivity|]. rewrite A1. split; [destruct e, e'; try reflexivity; congruence|]. intros t' [Y|Y]; [congruence|eapply A2; exact Y].
      * intros e' t' [Y|Y]; [inversion Y; subst; apply AE|apply B; exact Y].
      * intros e' N. destruct (bool_dec e' e) as [->|NE]; [exfalso; apply (N t); left; reflexivity|]. rewrite C by (intros t' Y; apply (N t'); right; exact Y). destruct e, e'; try reflexivity; congruence.
Qed.
Lemma expr_inv k mal toks : (k = 16 \/ k = 32) -> forall v D v' o, vinv delay0 v D -> expr k mal v toks = Ok (Some (v', o)) ->
  (toks = [] /\ v' = v /\ o = dopts0) \/
  exists d, vinv delay0 v' (D ++ [d]) /\ didx o = N.of_nat (length D) /\ toks <> [] /\ (forall e t, In (e, t) toks -> sel e d = t) /\ (forall e, (forall t, ~ In (e, t) toks) -> sel e d = ts0).
Proof.
  intros K v D v' o I E. destruct toks as [|[e t] toks]; [inversion E; subst; left; auto|right]. unfold expr in E. cbn [expr_from] in E. apply rbind_ok in E as (y & E1 & E). unfold parse_delay_token in E1. replace (if e then f_enter dopts0 else f_exit dopts0) with false in E1 by (destruct e; reflexivity).
  apply rbind_ok in E1 as ([v1 i] & E2 & E1). cbn [didx dopts0 N.eqb Pos.eqb] in E2. destruct (alloc_delay_inv _ _ _ _ _ _ K I E2) as (I1 & XI & _). apply rbind_ok in E1 as (v2 & E3 & E1). inversion E1; subst y; clear E1. pose proof (fill_inv _ _ _ _ _ _ _ I1 XI E3) as I2.
  eapply (expr_more k mal toks K) in E as (d' & I' & X' & A & B & C); [|exact I2|exact XI]. cbn [f_enter f_exit dopts0 orb] in A. exists d'. split; [exact I'|]. split; [exact X'|]. split; [discriminate|].
  destruct (A e) as [A1 A2]; [destruct e; reflexivity|]. split.
  - intros e' t' [Y|Y]; [inversion Y; subst; rewrite A1; destruct e'; reflexivity|apply B; exact Y].
  - intros e' N. destruct (bool_dec e' e) as [->|NE]; [exfalso; apply (N t); left; reflexivity|]. rewrite C by (intros t' Y; apply (N t'); right; exact Y). destruct e, e'; try reflexivity; congruence.
Qed.
Definition found (D : list delay_data) (toks : list (bool * ts)) (o : dopts) : Prop :=
  toks <> [] -> exists d, nth_error D (N.to_nat (didx o)) = Some d /\ (forall e t, In (e, t) toks -> sel e d = t) /\ (forall e, (forall t, ~ In (e, t) toks) -> sel e d = ts0).
Lemma exprs_inv k mal es : (k = 16 \/ k = 32) -> forall v D v' os, vinv delay0 v D -> exprs k mal v es = Ok (Some (v', os)) ->
  exists D', vinv delay0 v' (D ++ D') /\ Forall2 (found (D ++ D')) es os /\
   length D' = length (filter (fun e => match e with [] => false | _ => true end) es) /\
   map didx (map snd (filter (fun eo => match fst eo with [] => false | _ => true end) (combine es os))) = map N.of_nat (seq (length D) (length D')).
Proof.
  intros K. induction es as [|e es IH]; intros v D v' os I E; cbn [exprs] in E.
  - inversion E; subst. exists []. rewrite app_nil_r. auto.
  - apply rbind_ok in E as (x & E1 & E). destruct x as [[v1 o]|]; [|discriminate]. apply rbind_ok in E as (y & E2 & E). destruct y as [[v2 os2]|]; inversion E; subst; clear E. destruct (expr_inv k mal e K v D v1 o I E1) as [(-> & -> & ->)|(d & I1 & X & NE & A & B)].
    + destruct (IH _ _ _ _ I E2) as (D' & I' & F & LD & M). exists D'. split; [exact I'|]. split; [constructor; [intros ?; congruence|exact F]|]. auto.
    + destruct (IH _ _ _ _ I1 E2) as (D' & I' & F & LD & M). rewrite <- app_assoc in *. exists (d :: D'). split; [exact I'|]. split.
      * constructor; [|exact F]. intros _. exists d. rewrite X, Nat2N.id, nth_error_app2, Nat.sub_diag by lia. auto.
      * destruct e as [|q e]; [congruence|]. cbn [filter combine fst snd map length seq]. split; [f_equal; exact LD|]. rewrite X, M. rewrite app_length. cbn [length]. rewrite Nat.add_1_r. reflexivity.
Qed.
Lemma delay_get_ok v D i d e : vinv delay0 v D -> nth_error D i = Some d -> delay_get v (N.of_nat i) e = Ok (sel e d).
Proof.
  intros (U & _ & (n & C) & _) N. unfold delay_get. assert (i < length D)%nat by (apply nth_error_Some; congruence). destruct (N.leb_spec (used v) (N.of_nat i)); [lia|]. rewrite Nat2N.id, C, nth_error_app1, N by lia. reflexivity.
Qed.

(** ** Pokes *)
Fixpoint rows (b i : N) (L : list aplist) : list (list N) := match L with [] => [] | l :: r => ((b + 16 * i) :: map fst l) :: rows b (i + 1) r end.
Lemma rows_app b L : forall i M, rows b i (L ++ M) = rows b i L ++ rows b (i + N.of_nat (length L)) M.
Proof. induction L as [|l L IH]; intros i M; cbn [app rows length]; [f_equal; lia|]. rewrite IH. do 3 f_equal. lia. Qed.
Lemma perm_concat {A} (R R' : list (list A)) : Permutation R R' -> Permutation (concat R) (concat R').
Proof. induction 1; cbn; [reflexivity|apply Permutation_app_head; assumption|rewrite !app_assoc; apply Permutation_app_tail, Permutation_app_comm|etransitivity; eassumption]. Qed.
Lemma rings_perm h R R' : Permutation R R' -> rings h R -> rings h R'.
Proof.
  intros P (ND & NZ & F). pose proof (perm_concat _ _ P) as PC. split; [eapply Permutation_NoDup; eauto|]. split; [intros I; apply NZ; eapply Permutation_in; [symmetry; exact PC|exact I]|]. rewrite Forall_forall in *. intros r I. apply F. eapply Permutation_in; [symmetry; exact P|exact I].
Qed.
Lemma rows_in b L : forall i x, In x (concat (rows b i L)) -> (exists j, j < N.of_nat (length L) /\ x = b + 16 * (i + j)) \/ exists l, In l L /\ In x (map fst l).
Proof.
  induction L as [|l L IH]; intros i x I; cbn [rows concat] in I; [contradiction|]. apply in_app_iff in I as [[<-|I]|I].
  - left. exists 0. cbn. split; [lia|]. f_equal. lia.
  - right. exists l. split; [left; reflexivity|exact I].
  - destruct (IH _ _ I) as [(j & LJ & ->)|(m & IM & IX)]; [left; exists (j + 1); cbn [length]; split; [lia|]; f_equal; lia|right; exists m; split; [right; exact IM|exact IX]].
Qed.
Record pinv (b : N) (s : ptab) (L : list aplist) : Prop := {
  pi_used : pused s = N.of_nat (length L); pi_le : pused s <= 65536; pi_room : pused s <= room s; pi_max : room s <= 2 ^ 17;
  pi_base : base s = if room s =? 0 then 0 else b; pi_rings : rings (hp s) (rows b 0 L);
  pi_nodup : NoDup (map fst (pay s)); pi_in : forall l q, In l L -> In q l -> In q (pay s);
  pi_away : forall p, In p (map fst (pay s)) -> p <> 0 /\ (p < b \/ b + 16 * 2 ^ 17 <= p) }.
Lemma pi_addr b s L x : pinv b s L -> In x (concat (rows b 0 L)) -> (exists j, j < pused s /\ x = b + 16 * j) \/ In x (map fst (pay s)).
Proof.
  intros I X. apply rows_in in X as [(j & J & ->)|(l & IL & IX)]; [left; exists j; rewrite (pi_used _ _ _ I); rewrite N.add_0_l; auto|right]. apply in_map_iff in IX as (q & <- & IQ). apply in_map. eapply pi_in; eauto.
Qed.
Lemma rings_frame h h' R : (forall x, In x (concat R) -> next h' x = next h x /\ prev h' x = prev h x) -> rings h R -> rings h' R.
Proof. intros E (ND & NZ & F). split; [exact ND|]. split; [exact NZ|]. rewrite Forall_forall in *. intros r I. apply ring_frame with h; [|apply F; exact I]. intros x X. apply E. apply in_concat. eauto. Qed.
Lemma expand_poke_inv b k mal s L s' : b <> 0 -> (k = 16 \/ k = 32) -> pinv b s L -> pused s = room s -> expand_poke k mal s b = Ok s' -> pinv b s' L /\ pused s' < room s' /\ pused s' = pused s /\ pay s' = pay s.
Proof.
  intros B0 K I F E. unfold expand_poke in E. apply rbind_ok in E as ([n x] & G & E). assert (NM : room s < n <= 2 ^ 17).
  { eapply grow_spec; [exact K| | |exact G|]; [rewrite <- F; apply I|lia|]. intros Z. apply N.eqb_eq in Z. rewrite (pi_base _ _ _ I) in Z. destruct (N.eqb_spec (room s) 0); [assumption|contradiction]. }
  inversion E; subst s'; clear E. cbn [pused room base hp pay]. split; [|split; [lia|auto]]. constructor; cbn [pused room base hp pay]; try apply I; [lia|lia|destruct (N.eqb_spec n 0); [lia|reflexivity]|].
  apply rings_frame with (hp s); [|apply I]. intros p IP. cbn [next prev]. destruct (pi_addr _ _ _ _ I IP) as [(j & J & ->)|IX].
  - replace (b + 16 * j - b) with (16 * j) by lia. replace (16 * j / 16) with j by (rewrite N.mul_comm, N.div_mul by lia; reflexivity). destruct (N.ltb_spec j (room s)); [|lia]. destruct (_ && _ && _); [|auto]. assert (base s = b) as -> by (rewrite (pi_base _ _ _ I); destruct (N.eqb_spec (room s) 0); [lia|reflexivity]). auto.
  - destruct (pi_away _ _ _ I p IX) as [_ O]. destruct (N.leb_spec b p), (N.ltb_spec p (b + 16 * n)); cbn [andb]; auto. exfalso. lia.
Qed.
Lemma alloc_poke_inv b k mal s L s' i : b <> 0 -> (k = 16 \/ k = 32) -> pinv b s L -> alloc_poke_data k mal s b = Ok (s', i) -> pinv b s' (L ++ [[]]) /\ i = N.of_nat (length L) /\ i < 65536 /\ pay s' = pay s.
Proof.
  intros B0 K I E. unfold alloc_poke_data in E. destruct (N.ltb_spec (u16 (pused s)) (pused s)) as [|G]; [discriminate|]. assert (LU : pused s < 65536) by (pose proof (pi_le _ _ _ I) as L0; destruct (N.eq_dec (pused s) 65536) as [X|X]; [rewrite X in G; vm_compute in G; exfalso; apply G; reflexivity|lia]). rewrite (u16_small _ LU) in E.
  apply rbind_ok in E as (s1 & E1 & E). assert (I1 : pinv b s1 L /\ pused s1 < room s1 /\ pused s1 = pused s /\ pay s1 = pay s).
  { destruct (N.eqb_spec (pused s) (room s)) as [F|F]; [eapply expand_poke_inv; eauto|]. inversion E1; subst. split; [exact I|]. pose proof (pi_room _ _ _ I). repeat split; lia. }
  destruct I1 as (I1 & RM & U1 & P1). apply rbind_ok in E as (h & E2 & E). inversion E; subst; clear E. assert (BS : base s1 = b) by (rewrite (pi_base _ _ _ I1); destruct (N.eqb_spec (room s1) 0); [lia|reflexivity]). unfold head_at in E2. rewrite BS in E2. rewrite <- U1 in *.
  destruct (init_ok (hp s1) (b + 16 * pused s1)) as (h' & E3 & RX & SB); [lia|]. rewrite E3 in E2. inversion E2; subst h'. split; [|split; [apply (pi_used _ _ _ I1)|auto]].
  assert (NI : ~ In (b + 16 * pused s1) (concat (rows b 0 L))).
  { intros IX. destruct (pi_addr _ _ _ _ I1 IX) as [(j & J & Q)|Q]; [lia|]. destruct (pi_away _ _ _ I1 _ Q) as [_ O]. lia. }
  constructor; cbn [pused room base hp pay]; try apply I1; [rewrite app_length, (pi_used _ _ _ I1); cbn; lia|lia|lia| |].
  - rewrite rows_app. cbn [rows map]. rewrite N.add_0_l, <- (pi_used _ _ _ I1). apply rings_perm with ([b + 16 * pused s1] :: rows b 0 L); [apply Permutation_cons_append|]. pose proof (pi_rings _ _ _ I1) as (ND & NZ & FR). apply (rings_intro h [[b + 16 * pused s1]] (rows b 0 L)); cbn; auto.
    + constructor; [intros []|constructor].
    + intros [?|[]]. lia.
    + intros y [<-|[]]. exact NI.
    + eapply others_frame; [exact SB| |exact FR]. intros y IY [<-|[]]. contradiction.
  - intros l q IL IQ. apply in_app_iff in IL as [IL|[<-|[]]]; [eapply pi_in; eauto|contradiction].
Qed.
Lemma rows_nth b L : forall i j l, nth_error L j = Some l -> exists R1 R2, rows b i L = R1 ++ ((b + 16 * (i + N.of_nat j)) :: map fst l) :: R2 /\ forall l', rows b i (set_nth L j l') = R1 ++ ((b + 16 * (i + N.of_nat j)) :: map fst l') :: R2.
Proof.
  induction L as [|m L IH]; intros i [|j] l E; cbn in E; try discriminate.
  - inversion E; subst. exists [], (rows b (i + 1) L). cbn [rows set_nth app]. rewrite N.add_0_r. auto.
  - destruct (IH (i + 1) j l E) as (R1 & R2 & A & B). exists ((b + 16 * i :: map fst m) :: R1), R2. cbn [rows set_nth app]. rewrite A. replace (i + 1 + N.of_nat j) with (i + N.of_nat (S j)) in * by lia. split; [reflexivity|]. intros l'. rewrite B. reflexivity.
Qed.
Lemma payload_ok s p v : NoDup (map fst (pay s)) -> In (p, v) (pay s) -> payload s p = Ok v.
Proof.
  unfold payload. induction (pay s) as [|[q w] l IH]; intros ND I; [contradiction|]. cbn in *. inversion ND as [|? ? NQ ND']; subst. destruct (N.eqb_spec q p) as [->|NE].
  - destruct I as [I|I]; [inversion I; reflexivity|]. exfalso. apply NQ. apply in_map_iff. exists (p, v). auto.
  - destruct I as [I|I]; [congruence|]. apply IH; assumption.
Qed.
Lemma is_dup_ok s l e a : NoDup (map fst (pay s)) -> (forall q, In q l -> In q (pay s)) -> is_dup s (map fst l) e a = Ok (existsb (fun q => eqb (fst (snd q)) e && (snd (snd q) =? a)) l).
Proof.
  intros ND. induction l as [|[p [e' a']] l IH]; intros I; [reflexivity|]. cbn [map is_dup fst snd existsb]. rewrite (payload_ok s p (e', a') ND) by (apply I; left; reflexivity). cbn [rbind]. destruct (eqb e' e && (a' =? a)); [reflexivity|]. cbn [orb]. apply IH. intros q J. apply I. right. exact J.
Qed.
Lemma of_kind_ok s l e : NoDup (map fst (pay s)) -> (forall q, In q l -> In q (pay s)) -> of_kind s (map fst l) e = Ok (map (fun q => (fst q, snd (snd q))) (filter (fun q => eqb (fst (snd q)) e) l)).
Proof.
  intros ND. induction l as [|[p [e' a']] l IH]; intros I; [reflexivity|]. cbn [map of_kind fst snd filter]. rewrite (payload_ok s p (e', a') ND) by (apply I; left; reflexivity). cbn [rbind]. rewrite IH by (intros q J; apply I; right; exact J). cbn [rbind]. destruct (eqb e' e); reflexivity.
Qed.
Lemma walk_ok b s L idx l : pinv b s L -> nth_error L (N.to_nat idx) = Some l -> list_foreach (length (pay s)) (hp s) (head_at s idx) = Ok (map fst l) /\ head_at s idx = b + 16 * idx.
Proof.
  intros I E. assert (LI : idx < pused s) by (rewrite (pi_used _ _ _ I); assert (N.to_nat idx < length L)%nat by (apply nth_error_Some; congruence); lia). assert (HA : head_at s idx = b + 16 * idx) by (unfold head_at; rewrite (pi_base _ _ _ I); pose proof (pi_room _ _ _ I); destruct (N.eqb_spec (room s) 0); [lia|reflexivity]). split; [|exact HA]. rewrite HA.
  destruct (rows_nth b L 0 (N.to_nat idx) l E) as (R1 & R2 & A & _). rewrite N.add_0_l, N2Nat.id in A. pose proof (pi_rings _ _ _ I) as Rg. rewrite A in Rg. apply rings_perm with (R' := (b + 16 * idx :: map fst l) :: R1 ++ R2) in Rg; [|symmetry; apply Permutation_middle]. apply rings_head in Rg as (H0 & ND & NZ & RG & _). apply foreach_ring; auto.
  rewrite <- (map_length fst (pay s)). apply NoDup_incl_length; [apply nodup_cons in ND; tauto|]. intros x IX. apply in_map_iff in IX as (q & <- & IQ). apply in_map. eapply pi_in; [exact I| |exact IQ]. eapply nth_error_In; eauto.
Qed.
Lemma set_nth_in {A} (L : list A) : forall j x y, In y (set_nth L j x) -> y = x \/ In y L.
Proof. induction L as [|a L IH]; intros [|j] x y I; cbn in *; auto; destruct I as [I|I]; auto. apply IH in I as [?|?]; auto. Qed.
Lemma poke_add_inv b s L idx p e a l : pinv b s L -> nth_error L (N.to_nat idx) = Some l -> ~ In p (map fst (pay s)) -> p <> 0 -> (p < b \/ b + 16 * 2 ^ 17 <= p) ->
  exists s', poke_add s idx p e a = Ok (s', existsb (fun q => eqb (fst (snd q)) e && (snd (snd q) =? a)) l) /\
  pinv b s' (if existsb (fun q => eqb (fst (snd q)) e && (snd (snd q) =? a)) l then L else set_nth L (N.to_nat idx) ((p, (e, a)) :: l)) /\ incl (map fst (pay s')) (p :: map fst (pay s)).
Proof.
  intros I E NP P0 AW. destruct (walk_ok _ _ _ _ _ I E) as [W HA]. unfold poke_add. rewrite W, HA. cbn [rbind]. rewrite is_dup_ok; [|apply I|intros q J; eapply pi_in; [exact I|eapply nth_error_In; exact E|exact J]]. cbn [rbind]. destruct (existsb _ l).
  - exists s. split; [reflexivity|]. split; [exact I|]. intros x X. right. exact X.
  - assert (LI : idx < pused s) by (rewrite (pi_used _ _ _ I); assert (N.to_nat idx < length L)%nat by (apply nth_error_Some; congruence); lia). pose proof (pi_max _ _ _ I) as PM. pose proof (pi_room _ _ _ I) as PR.
    destruct (rows_nth b L 0 (N.to_nat idx) l E) as (R1 & R2 & A & B). rewrite N.add_0_l, N2Nat.id in A, B. pose proof (pi_rings _ _ _ I) as Rg. rewrite A in Rg. pose proof (Permutation_sym (Permutation_middle R1 R2 (b + 16 * idx :: map fst l))) as PP. apply (rings_perm _ _ _ PP) in Rg. destruct (rings_head _ _ _ _ Rg) as (H0 & ND & NZ & RG & FR & NDR & ZR & DJ).
    assert (PN : ~ In p (concat ((b + 16 * idx :: map fst l) :: R1 ++ R2))).
    { intros X. assert (X' : In p (concat (rows b 0 L))) by (rewrite A; eapply Permutation_in; [apply perm_concat; symmetry; exact PP|exact X]). destruct (pi_addr _ _ _ _ I X') as [(j & J & ->)|X2]; [lia|contradiction]. }
    cbn [concat] in PN. rewrite in_app_iff in PN. destruct (link_ok (hp s) (b + 16 * idx) p (map fst l)) as (h' & E2 & RX & SB); [exact H0|exact P0|lia|exact ND|cbn in PN; tauto|exact NZ|exact RG|]. rewrite E2. cbn [rbind]. eexists. split; [reflexivity|]. cbn [pay]. split; [|intros x X; exact X].
    constructor; cbn [pused room base hp pay]; try apply I.
    + rewrite set_nth_len. apply I.
    + rewrite B. cbn [map fst]. eapply rings_perm; [apply Permutation_middle|]. apply (rings_intro h' [b + 16 * idx :: p :: map fst l] (R1 ++ R2)); cbn [concat]; rewrite ?app_nil_r; auto.
      * apply nodup_rot; [exact ND|tauto].
      * cbn. tauto.
      * intros y [<-|[<-|IY]]; [apply DJ; left; reflexivity|tauto|apply DJ; right; exact IY].
      * eapply others_frame; [exact SB| |exact FR]. intros y IY [<-|[<-|J]]; [eapply DJ; [left; reflexivity|exact IY]|tauto|eapply DJ; [right; exact J|exact IY]].
    + cbn [map fst]. constructor; [exact NP|apply I].
    + intros m q IM IQ. apply set_nth_in in IM as [->|IM]; [destruct IQ as [<-|IQ]; [left; reflexivity|right; eapply pi_in; [exact I|eapply nth_error_In; exact E|exact IQ]]|right; eapply pi_in; eauto].
    + cbn [map fst]. intros q [<-|IQ]; [auto|eapply pi_away; eauto].
Qed.
Lemma expand_poke_total b k s L : (k = 16 \/ k = 32) -> b <> 0 -> pinv b s L -> pused s = room s -> exists s', expand_poke k (fun _ => true) s b = Ok s'.
Proof.
  intros K B0 I F. unfold expand_poke. destruct (grow_total k (base s =? 0) (room s) 16 K) as (n & x & ->); [rewrite <- F; apply I|lia| |cbn [rbind]; eauto]. intros Z. apply N.eqb_eq in Z. rewrite (pi_base _ _ _ I) in Z. destruct (N.eqb_spec (room s) 0); [assumption|contradiction].
Qed.
Lemma prun_ok b k os : b <> 0 -> (k = 16 \/ k = 32) -> forall s L L' vs, pinv b s L -> NoDup (paddrs os) -> (forall p, In p (paddrs os) -> ~ In p (map fst (pay s)) /\ p <> 0 /\ (p < b \/ b + 16 * 2 ^ 17 <= p)) ->
  aprun L os = Some (L', vs) -> exists s', prun k (fun _ => true) b s os = Ok (s', vs) /\ pinv b s' L'.
Proof.
  intros B0 K. induction os as [|o os IH]; intros s L L' vs I ND PA E; cbn [aprun prun] in *; [inversion E; subst; eauto|]. destruct (apstep L o) as [[L1 v]|] eqn:E1; [|discriminate]. destruct (aprun L1 os) as [[L2 vs2]|] eqn:E2; [|discriminate]. inversion E; subst; clear E.
  assert (ST : exists s1, pstep k (fun _ => true) b s o = Ok (s1, v) /\ pinv b s1 L1 /\ forall p, In p (map fst (pay s1)) -> In p (map fst (pay s)) \/ In p (paddrs [o])).
  { destruct o as [|idx p e a]; cbn [apstep pstep] in *.
    - destruct (N.ltb_spec (N.of_nat (length L)) 65536) as [LT|]; [|discriminate]. inversion E1; subst. assert (X : exists s1 i, alloc_poke_data k (fun _ => true) s b = Ok (s1, i)).
      { unfold alloc_poke_data. assert (LU : pused s < 65536) by (rewrite (pi_used _ _ _ I); exact LT). rewrite (u16_small _ LU). destruct (N.ltb_spec (pused s) (pused s)); [lia|]. assert (X : exists s1, (if pused s =? room s then expand_poke k (fun _ => true) s b else Ok s) = Ok s1) by (destruct (N.eqb_spec (pused s) (room s)); [eapply expand_poke_total; eauto|eauto]). destruct X as (s1 & X). rewrite X. cbn [rbind].
        assert (I1 : pinv b s1 L /\ pused s1 < room s1) by (destruct (N.eqb_spec (pused s) (room s)) as [F|F]; [destruct (expand_poke_inv _ _ _ _ _ _ B0 K I F X) as (? & ? & _); auto|inversion X; subst; split; [exact I|pose proof (pi_room _ _ _ I); lia]]). destruct I1 as [I1 RM].
        unfold head_at. rewrite (pi_base _ _ _ I1). destruct (N.eqb_spec (room s1) 0); [lia|]. destruct (init_ok (hp s1) (b + 16 * pused s)) as (h & -> & _); [lia|]. cbn [rbind]. eauto. }
      destruct X as (s1 & i & X). rewrite X. cbn [rbind]. destruct (alloc_poke_inv _ _ _ _ _ _ _ B0 K I X) as (I1 & -> & _ & PY). exists s1. split; [reflexivity|]. split; [exact I1|]. rewrite PY. auto.
    - destruct (nth_error L (N.to_nat idx)) as [l|] eqn:NE; [|discriminate]. destruct (PA p) as (NP & P0 & AW); [left; reflexivity|]. destruct (poke_add_inv b s L idx p e a l I NE NP P0 AW) as (s1 & X & I1 & IC). rewrite X. cbn [rbind]. exists s1. destruct (existsb _ l); inversion E1; subst; (split; [reflexivity|]; split; [exact I1|]; intros q IQ; apply IC in IQ as [<-|IQ]; [right; left; reflexivity|left; exact IQ]). }
  destruct ST as (s1 & X & I1 & PY). rewrite X. cbn [rbind]. change (paddrs (o :: os)) with (match o with PAdd _ p _ _ => [p] | PAlloc => [] end ++ paddrs os) in *. assert (ND2 : NoDup (paddrs os) /\ forall p, In p (paddrs [o]) -> ~ In p (paddrs os)).
  { destruct o as [|idx p e a]; cbn in *; [split; [exact ND|intros ? []]|]. inversion ND; subst. split; [assumption|]. intros q [<-|[]]; assumption. }
  destruct ND2 as [ND2 DJ]. destruct (IH s1 L1 L' vs2 I1 ND2) as (s2 & Y & I2); [|exact E2|rewrite Y; cbn [rbind]; eauto]. intros p IP. destruct (PA p) as (NP & P0 & AW); [apply in_app_iff; right; exact IP|]. split; [|auto]. intros J. apply PY in J as [J|J]; [contradiction|]. apply (DJ _ J). exact IP.
Qed.
Lemma ptab0_inv b h : pinv b (ptab0 h) [].
Proof.
  constructor; cbn [ptab0 pused room base hp pay length rows map]; [reflexivity|vm_compute; discriminate..|reflexivity| |constructor|intros ? ? []|intros ? []]. split; [constructor|]. split; [intros []|constructor].
Qed.
