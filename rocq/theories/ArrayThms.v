(** C49: printing of arrays. *)
From Verif Require Import Base ArrayModel ArraySpec ArrayProofs.
Import ListNotations.
Local Open Scope N_scope.

Lemma end_ne_start a : fits a -> (end_addr a =? start a) = false.
Proof.
  intros F. rewrite (end_eq a F). destruct F as (H1 & H2 & H3 & _). apply N.eqb_neq. nia.
Qed.

Lemma nat_limit a : (limit a < N.to_nat (nmemb a))%nat \/ limit a = N.to_nat (nmemb a).
Proof. pose proof (limit_le a). lia. Qed.

(** C49: if the elements to be shown are readable, exactly these are shown,
    in order, each from its own address; "..." follows exactly if some are
    omitted or the caller knows of more.
    Partial: arrays whose number of elements fits unsigned int when abbreviating (see C49_limit_refuted). *)
Theorem C49_whole_partial : forall a,
  fits a -> (abbrev a = true -> nmemb a < 2 ^ 32) ->
  (forall i, (i < limit a)%nat -> good a i) ->
  ((limit a < N.to_nat (nmemb a))%nat -> fetch a (addr a (limit a)) <> None) ->
  exists fe, print_array_ex a =
    (true, fe, brackets (items a (limit a) ++
       if (limit a <? N.to_nat (nmemb a))%nat || paf_truncated a then [[More]] else [])).
Proof.
  intros a F H32 HG HR. rewrite (enter a F). rewrite (run_good a F H32 (limit a) ltac:(lia) HG).
  unfold brackets. destruct (nat_limit a) as [L|L].
  - destruct (fetch a (addr a (limit a))) as [v|] eqn:Ev; [|exfalso; exact (HR L eq_refl)].
    replace (N.to_nat (nmemb a) - limit a)%nat with (S (N.to_nat (nmemb a) - S (limit a))) by lia.
    rewrite (step_more a F H32 _ (limit a) v L ltac:(lia) Ev). cbn zeta. cbn [cur truncated].
    rewrite (end_ne_start a F). cbn [negb orb]. rewrite andb_false_r. unfold say; cbn [cur fetched out].
    rewrite N.leb_refl. eexists. f_equal.
    destruct (Nat.ltb_spec (limit a) (N.to_nat (nmemb a))); [|lia]. cbn [orb].
    destruct (Nat.eqb_spec (limit a) 0) as [E|E].
    + rewrite E. reflexivity.
    + rewrite joined_snoc by (apply items_ne; lia). unfold text. destruct (limit a); [lia|].
      cbn [app]. rewrite <- !app_assoc. reflexivity.
  - rewrite L, Nat.sub_diag. cbn [loop]. cbn zeta. unfold at_i. cbn [cur truncated].
    rewrite (addr_end a F), (end_ne_start a F). cbn [negb orb]. rewrite andb_true_r.
    rewrite Nat.ltb_irrefl. cbn [orb].
    assert (NZ : (0 < N.to_nat (nmemb a))%nat) by (destruct F as (_ & X & _); lia).
    destruct (paf_truncated a); unfold say; cbn [cur fetched out]; rewrite N.leb_refl; eexists; f_equal.
    + rewrite joined_snoc by (apply items_ne; lia). unfold text. destruct (N.to_nat (nmemb a)); [lia|].
      cbn [app]. rewrite <- !app_assoc. reflexivity.
    + rewrite app_nil_r. unfold text. destruct (N.to_nat (nmemb a)); [lia|]. reflexivity.
Qed.
Print Assumptions C49_whole_partial.

(** C49: if the first unreadable element is [j], the elements before it are
    shown, and then its address; if it is the very first one, only the
    address of the array is shown.
    Partial: as above. *)
Theorem C49_unreadable_partial : forall a j,
  fits a -> (abbrev a = true -> nmemb a < 2 ^ 32) -> local a = false ->
  (j <= limit a)%nat -> (j < N.to_nat (nmemb a))%nat ->
  (forall i, (i < j)%nat -> good a i) -> fetch a (addr a j) = None ->
  exists fe, print_array_ex a =
    (false, fe, if (j =? 0)%nat then [Addr (start a)]
                else brackets (items a j ++ [[More; AddrComment (addr a j)]])).
Proof.
  intros a j F H32 HL Hj Hn HG HB. rewrite (enter a F). rewrite (run_good a F H32 j Hj HG).
  replace (N.to_nat (nmemb a) - j)%nat with (S (N.to_nat (nmemb a) - S j)) by lia.
  rewrite (step_bad a F _ j Hn HB HL). cbn zeta. cbn [cur truncated].
  rewrite (addr_start a F), HL. destruct (Nat.eqb_spec j 0) as [E|E]; cbn [negb orb].
  - cbn [cur fetched out]. subst j. pose proof (addr_lt_end a F 0 Hn) as X.
    apply N.ltb_lt in X. destruct (N.leb_spec (end_addr a) (addr a 0)); [lia|].
    eexists. unfold text. cbn [app]. f_equal. f_equal. f_equal. unfold addr. lia.
  - rewrite andb_false_r. unfold say; cbn [cur fetched out].
    pose proof (addr_lt_end a F j Hn) as X. apply N.ltb_lt in X.
    destruct (N.leb_spec (end_addr a) (addr a j)); [lia|]. eexists. f_equal.
    unfold brackets. rewrite joined_snoc by (apply items_ne; lia). unfold text. destruct j; [lia|].
    cbn [app]. rewrite <- !app_assoc. reflexivity.
Qed.
Print Assumptions C49_unreadable_partial.

(** C49: if showing the element [j] ends the array, what is shown ends with
    this element.
    Partial: as above. *)
Theorem C49_stopped_partial : forall a j v,
  fits a -> (abbrev a = true -> nmemb a < 2 ^ 32) ->
  (j < limit a)%nat -> (forall i, (i < j)%nat -> good a i) ->
  fetch a (addr a j) = Some v -> cont a v = false ->
  exists fe, print_array_ex a =
    (true, fe, brackets (items a (S j) ++ if paf_truncated a then [[More]] else [])).
Proof.
  intros a j v F H32 Hj HG Hv Hc. rewrite (enter a F). rewrite (run_good a F H32 j ltac:(lia) HG).
  pose proof (limit_le a).
  replace (N.to_nat (nmemb a) - j)%nat with (S (N.to_nat (nmemb a) - S j)) by lia.
  rewrite (step_stop a F H32 _ j v Hj Hv Hc). cbn zeta. cbn [cur truncated].
  rewrite (end_ne_start a F). cbn [negb orb]. rewrite andb_true_r. unfold brackets.
  destruct (paf_truncated a); unfold say; cbn [cur fetched out]; rewrite N.leb_refl; eexists; f_equal.
  - rewrite joined_snoc by (apply items_ne; lia). unfold text. cbn [app]. rewrite <- !app_assoc. reflexivity.
  - rewrite app_nil_r. reflexivity.
Qed.
Print Assumptions C49_stopped_partial.

(** Every array that fits falls into one of the three cases. *)
Lemma cases a : local a = false ->
  (forall i, (i < limit a)%nat -> good a i) \/
  exists j, (j < limit a)%nat /\ (forall i, (i < j)%nat -> good a i) /\
    (fetch a (addr a j) = None \/ exists v, fetch a (addr a j) = Some v /\ cont a v = false).
Proof.
  intros _. generalize (limit a). induction n as [|n IH]; [left; lia|].
  destruct IH as [IH|(j & Hj & X)]; [|right; exists j; split; [lia|exact X]].
  destruct (fetch a (addr a n)) as [v|] eqn:E.
  - destruct (cont a v) eqn:Ec.
    + left. intros i Hi. destruct (Nat.eq_dec i n) as [->|]; [exists v; auto|apply IH; lia].
    + right. exists n. split; [lia|]. split; [exact IH|]. right. eauto.
  - right. exists n. split; [lia|]. split; [exact IH|]. auto.
Qed.

(** C49: the addresses fetched are those of the first elements, in order, each
    once, at most one more than shown, and nothing outside of the array.
    Partial: as above. *)
Theorem C49_fetches_partial : forall a ret fe out,
  fits a -> (abbrev a = true -> nmemb a < 2 ^ 32) ->
  local a = false -> print_array_ex a = (ret, fe, out) ->
  exists k, fe = map (addr a) (seq 0 k) /\ (k <= N.to_nat (nmemb a))%nat /\ (k <= S (limit a))%nat /\
    Forall (fun x => start a <= x /\ x + esize a <= start a + nmemb a * esize a /\
                     start a + nmemb a * esize a < 2 ^ 64) fe.
Proof.
  intros a ret fe out F H32 HL E.
  enough (X : exists k, fe = map (addr a) (seq 0 k) /\ (k <= N.to_nat (nmemb a))%nat /\ (k <= S (limit a))%nat).
  { destruct X as (k & -> & Hk & Hk'). exists k. repeat (split; [solve [auto]|]).
    rewrite Forall_forall. intros x Hx. apply in_map_iff in Hx as (i & <- & Hi). apply in_seq in Hi.
    pose proof (addr_lt a i (N.to_nat (nmemb a)) ltac:(lia)) as Y.
    rewrite (addr_end a F), (end_eq a F) in Y. split; [unfold addr; lia|]. split; [exact Y|]. apply F. }
  rewrite (enter a F) in E. cbn zeta in E.
  set (s := loop (N.to_nat (nmemb a)) a (at_i a 0)) in E.
  assert (EF : fe = fetched s).
  { injection E as _ <- _. unfold say. destruct (_ || _); [|reflexivity].
    destruct (_ && _); reflexivity. }
  subst fe. clear E. subst s. pose proof (limit_le a) as LL.
  destruct (cases a HL) as [HG|(j & Hj & HG & [Hb|(v & Hv & Hc)])].
  - rewrite (run_good a F H32 (limit a) ltac:(lia) HG). destruct (nat_limit a) as [L|L].
    + replace (N.to_nat (nmemb a) - limit a)%nat with (S (N.to_nat (nmemb a) - S (limit a))) by lia.
      exists (S (limit a)). split; [|lia].
      destruct (fetch a (addr a (limit a))) as [v|] eqn:Ev.
      * rewrite (step_more a F H32 _ (limit a) v L ltac:(lia) Ev). cbn [fetched]. unfold addrs. rewrite HL. reflexivity.
      * rewrite (step_bad a F _ (limit a) L Ev HL). cbn [fetched]. unfold addrs. rewrite HL. reflexivity.
    + exists (limit a). split; [|lia]. rewrite L, Nat.sub_diag. cbn [loop at_i fetched].
      unfold addrs. rewrite HL. reflexivity.
  - rewrite (run_good a F H32 j ltac:(lia) HG).
    replace (N.to_nat (nmemb a) - j)%nat with (S (N.to_nat (nmemb a) - S j)) by lia.
    rewrite (step_bad a F _ j ltac:(lia) Hb HL). cbn [fetched]. exists (S j).
    split; [|lia]. unfold addrs. rewrite HL. reflexivity.
  - rewrite (run_good a F H32 j ltac:(lia) HG).
    replace (N.to_nat (nmemb a) - j)%nat with (S (N.to_nat (nmemb a) - S j)) by lia.
    rewrite (step_stop a F H32 _ j v Hj Hv Hc). cbn [fetched]. exists (S j).
    split; [|lia]. unfold addrs. rewrite HL. reflexivity.
Qed.
Print Assumptions C49_fetches_partial.

(** C49: an array that does not fit is never read: NULL, an empty one, and
    one that reaches the end of the address space. *)
Theorem C49_degenerate : forall a,
  start a < 2 ^ 64 -> nmemb a < 2 ^ 64 -> esize a < 2 ^ 64 -> ~ fits a ->
  print_array_ex a =
    (false, [],
     if start a =? 0 then [Null]
     else if nmemb a =? 0 then brackets (if paf_truncated a then [[More]] else [])
     else [if local a then Unavail else Addr (start a)]).
Proof.
  intros a HS HN HE HF. unfold print_array_ex.
  destruct (N.eqb_spec (start a) 0) as [E0|E0]; [reflexivity|].
  destruct (N.eqb_spec (nmemb a) 0) as [E1|E1]; [destruct (paf_truncated a); reflexivity|].
  destruct ((end_addr a <=? start a) || negb (size a / esize a =? nmemb a)) eqn:E; [reflexivity|].
  exfalso. apply HF. apply orb_false_iff in E as (E2 & E3).
  apply N.leb_gt in E2. apply negb_false_iff, N.eqb_eq in E3.
  destruct (N.eq_dec (esize a) 0) as [Ez|Ez].
  { exfalso. unfold end_addr, size in E2. rewrite Ez, N.mul_0_r in E2.
    change (u64 0) with 0 in E2. rewrite N.add_0_r in E2. unfold u64 in E2. rewrite N.mod_small in E2 by exact HS. lia. }
  assert (HZ : size a = nmemb a * esize a).
  { unfold size, u64 in *. set (p := nmemb a * esize a) in *.
    pose proof (N.mod_le p (2 ^ 64) ltac:(discriminate)) as M.
    pose proof (N.mul_div_le (p mod 2 ^ 64) (esize a) Ez) as M2. rewrite E3 in M2. subst p. lia. }
  unfold fits. repeat (split; [lia|]).
  unfold end_addr, u64 in E2. rewrite HZ in E2.
  destruct (N.lt_ge_cases (start a + nmemb a * esize a) (2 ^ 64)) as [L|L]; [exact L|exfalso].
  assert (size a < 2 ^ 64) by (unfold size, u64; apply N.mod_upper_bound; discriminate).
  rewrite HZ in H. set (q := nmemb a * esize a) in *. clearbody q.
  replace ((start a + q) mod 2 ^ 64) with (start a + q - 2 ^ 64) in E2; [lia|].
  apply (N.mod_unique _ _ 1); lia.
Qed.
Print Assumptions C49_degenerate.

(** C49 fails for arrays of 2^32 or more elements: the number is truncated to
    32 bits before it is compared to the limit, so that an array of 2^32
    elements is printed without any limit. *)
Theorem C49_limit_refuted : exists a, fits a /\ abbrev a = true /\ N.of_nat (limit a) = 32 /\
  sequence_truncation_needed a (nmemb a) = false /\ abbrev_end a = end_addr a.
Proof.
  exists (mk_arr 4096 (2 ^ 32) 4 false (fun _ => Some [0; 0; 0; 0]) (fun _ => true) false false true 32).
  unfold fits, limit. cbn [start nmemb esize abbrev max_strlen]. rewrite N2Nat.id.
  repeat split; vm_compute; auto.
Qed.
Print Assumptions C49_limit_refuted.

(** Concrete cases. *)
Definition ex_mem (x : N) : option (list N) := if x <? 4096 + 5 * 2 then Some [x] else None.
Definition ex (n : N) (ix tr ab : bool) (m : N) : arr :=
  mk_arr 4096 n 2 false ex_mem (fun v => negb (beqs v [4102])) ix tr ab m.

Example ex_fits : fits (ex 3 true false true 2) /\ (forall i, (i < limit (ex 3 true false true 2))%nat -> good (ex 3 true false true 2) i) /\
  limit (ex 3 true false true 2) = 2%nat.
Proof.
  split; [unfold fits; cbn; lia|]. split; [|reflexivity]. intros i Hi.
  change (limit (ex 3 true false true 2)) with 2%nat in Hi.
  destruct i as [|[|]]; [exists [4096]|exists [4098]|lia]; vm_compute; auto.
Qed.

Example ex_print :
  print_array_ex (ex 3 false false false 2) =
    (true, [4096; 4098; 4100], [Begin; Elem [4096]; Next; Elem [4098]; Next; Elem [4100]; End]) /\
  print_array_ex (ex 3 true false true 2) =
    (true, [4096; 4098; 4100],
     [Begin; IxBegin; IxVal 0; IxEqual; Elem [4096]; IxEnd; Next;
      IxBegin; IxVal 1; IxEqual; Elem [4098]; IxEnd; Next; More; End]) /\
  print_array_ex (ex 3 false true false 0) =
    (true, [4096; 4098; 4100],
     [Begin; Elem [4096]; Next; Elem [4098]; Next; Elem [4100]; Next; More; End]) /\
  print_array_ex (ex 9 false true false 0) =
    (true, [4096; 4098; 4100; 4102],
     [Begin; Elem [4096]; Next; Elem [4098]; Next; Elem [4100]; Next; Elem [4102]; Next; More; End]) /\
  print_array_ex (mk_arr 4104 3 2 false ex_mem (fun _ => true) false false false 0) =
    (false, [4104; 4106], [Begin; Elem [4104]; Next; More; AddrComment 4106; End]).
Proof. vm_compute. repeat split. Qed.
