From Verif Require Import Base ArrayModel ArraySpec.
Import ListNotations.
Local Open Scope N_scope.

Lemma joined_snoc l x : l <> [] -> joined (l ++ [x]) = joined l ++ Next :: x.
Proof.
  induction l as [|y l IH]; [congruence|]. intros _. destruct l as [|z l].
  - reflexivity.
  - cbn [app joined] in *. rewrite IH by discriminate. rewrite <- app_assoc. reflexivity.
Qed.

Section P.
  Variable a : arr.
  Hypothesis F : fits a.
  Definition ok32 : Prop := abbrev a = true -> nmemb a < 2 ^ 32.

  Lemma size_eq : size a = nmemb a * esize a.
  Proof. destruct F as (_ & _ & _ & X). unfold size, u64. apply N.mod_small. lia. Qed.
  Lemma end_eq : end_addr a = start a + nmemb a * esize a.
  Proof. destruct F as (_ & _ & _ & X). unfold end_addr, u64. rewrite size_eq. apply N.mod_small. lia. Qed.

  Lemma limit_le : (limit a <= N.to_nat (nmemb a))%nat.
  Proof. unfold limit. destruct (abbrev a); lia. Qed.

  Lemma abbrev_end_eq : ok32 -> abbrev_end a = addr a (limit a).
  Proof.
    intros H32. unfold abbrev_end, sequence_truncation_needed, addr, limit. rewrite N2Nat.id.
    destruct F as (_ & Hn & He & X).
    destruct (abbrev a) eqn:Ea; cbn [andb]; [|apply end_eq].
    specialize (H32 Ea). unfold u32. rewrite (N.mod_small (nmemb a)) by exact H32.
    destruct (N.ltb_spec (max_strlen a) (nmemb a)) as [L|L].
    - rewrite N.min_r by lia.
      assert (max_strlen a * esize a <= nmemb a * esize a) by (apply N.mul_le_mono_r; lia).
      unfold u64. rewrite (N.mul_comm (esize a)).
      rewrite (N.mod_small (max_strlen a * esize a)) by lia. apply N.mod_small. lia.
    - rewrite N.min_l by lia. apply end_eq.
  Qed.

  Lemma addr_lt i j : (i < j)%nat -> addr a i + esize a <= addr a j.
  Proof.
    intros H. unfold addr. assert (N.of_nat (S i) * esize a <= N.of_nat j * esize a).
    { apply N.mul_le_mono_r. lia. }
    rewrite Nat2N.inj_succ, N.mul_succ_l in H0. lia.
  Qed.
  Lemma addr_end : addr a (N.to_nat (nmemb a)) = end_addr a.
  Proof. unfold addr. rewrite N2Nat.id, end_eq. reflexivity. Qed.
  Lemma addr_lt_end i : (i < N.to_nat (nmemb a))%nat -> (addr a i <? end_addr a) = true.
  Proof.
    intros H. apply N.ltb_lt. pose proof (addr_lt _ _ H) as X. rewrite addr_end in X.
    destruct F as (_ & _ & He & _). lia.
  Qed.
  Lemma addr_start i : (addr a i =? start a) = (i =? 0)%nat.
  Proof.
    destruct F as (_ & _ & He & _). unfold addr. destruct (Nat.eqb_spec i 0) as [->|Hi].
    - apply N.eqb_eq. lia.
    - apply N.eqb_neq. nia.
  Qed.
  Lemma addr_abbrev (H32 : ok32) i : (abbrev_end a <=? addr a i) = (limit a <=? i)%nat.
  Proof.
    rewrite (abbrev_end_eq H32). destruct F as (_ & _ & He & _). destruct (Nat.leb_spec (limit a) i) as [L|L].
    - apply N.leb_le. unfold addr. assert (N.of_nat (limit a) * esize a <= N.of_nat i * esize a); [|lia].
      apply N.mul_le_mono_r. lia.
    - apply N.leb_gt. pose proof (addr_lt _ _ L). lia.
  Qed.
  Lemma addr_next i : (i < N.to_nat (nmemb a))%nat -> u64 (addr a i + esize a) = addr a (S i).
  Proof.
    intros H. pose proof (addr_lt _ _ H) as X. rewrite addr_end, end_eq in X.
    destruct F as (_ & _ & _ & Y). unfold u64. rewrite N.mod_small by lia.
    unfold addr. rewrite Nat2N.inj_succ, N.mul_succ_l. lia.
  Qed.
  Lemma idx_next i : (i < N.to_nat (nmemb a))%nat -> u64 (N.of_nat i + 1) = N.of_nat (S i).
  Proof.
    intros H. destruct F as (_ & _ & He & Y). assert (nmemb a <= nmemb a * esize a) by nia.
    unfold u64. rewrite N.mod_small by lia. lia.
  Qed.

  (** The state reached after [i] good elements. *)
  Definition text (i : nat) : list tok :=
    match i with O => [] | _ => Begin :: joined (items a i) end.
  Definition addrs (i : nat) : list N := if local a then [] else map (addr a) (seq 0 i).
  Definition at_i (i : nat) : st := mk_st (addr a i) (N.of_nat i) false (addrs i) (text i).

  Lemma items_S i : items a (S i) = items a i ++ [item a i].
  Proof. unfold items. rewrite seq_S, map_app. reflexivity. Qed.
  Lemma addrs_S i : addrs (S i) = if local a then [] else addrs i ++ [addr a i].
  Proof. unfold addrs. destruct (local a); [reflexivity|]. rewrite seq_S, map_app. reflexivity. Qed.
  Lemma items_ne i : (0 < i)%nat -> items a i <> [].
  Proof. destruct i; [lia|]. intros _. rewrite items_S. destruct (items a i); discriminate. Qed.
  Lemma text_S i : text (S i) = text i ++ (if (i =? 0)%nat then [Begin] else [Next]) ++ item a i.
  Proof.
    unfold text. destruct i as [|i]; [reflexivity|]. cbn [Nat.eqb].
    rewrite (items_S (S i)), joined_snoc by (apply items_ne; lia). reflexivity.
  Qed.

  Definition pre (i : nat) : st :=
    mk_st (addr a i) (N.of_nat i) false (if local a then [] else addrs (S i))
      (text i ++ (if (i =? 0)%nat then [] else [Next])).
  Lemma pre_eq i : note a (sep a (at_i i)) = pre i.
  Proof.
    unfold pre, sep, note, at_i, say. cbn [cur]. rewrite addr_start, addrs_S. unfold addrs.
    destruct (i =? 0)%nat, (local a); cbn [cur idx truncated fetched out]; rewrite ?app_nil_r; reflexivity.
  Qed.
  Lemma open_eq i : open a (pre i) =
    mk_st (addr a i) (N.of_nat i) false (if local a then [] else addrs (S i))
      (text i ++ (if (i =? 0)%nat then [Begin] else [Next])).
  Proof.
    unfold open, pre, say. cbn [cur]. rewrite addr_start.
    destruct (i =? 0)%nat; cbn [cur idx truncated fetched out]; rewrite ?app_nil_r; reflexivity.
  Qed.
  Lemma addrs_local i : (if local a then [] else addrs i) = addrs i.
  Proof. unfold addrs. destruct (local a); reflexivity. Qed.
  Lemma element_eq i v fe t : fetch a (addr a i) = Some v ->
    element a (mk_st (addr a i) (N.of_nat i) false fe t) v =
    mk_st (addr a i) (N.of_nat i) false fe (t ++ item a i).
  Proof.
    intros Hv. unfold element, say, item. rewrite Hv. cbn [cur idx truncated fetched out].
    destruct (paf_indices a); reflexivity.
  Qed.

  Lemma loop_S f i : (i < N.to_nat (nmemb a))%nat ->
    loop (S f) a (at_i i) = let '(s', go) := iter a (at_i i) in if (go : bool) then loop f a s' else s'.
  Proof. intros Hn. cbn [loop]. unfold at_i at 1. cbn [cur]. rewrite (addr_lt_end i Hn). reflexivity. Qed.

  Lemma step_good (H32 : ok32) f i : (i < limit a)%nat -> good a i -> loop (S f) a (at_i i) = loop f a (at_i (S i)).
  Proof.
    intros Hi (v & Hv & Hc). pose proof limit_le as HL.
    assert (Hn : (i < N.to_nat (nmemb a))%nat) by lia.
    rewrite (loop_S f i Hn). unfold iter. cbv zeta. rewrite pre_eq. unfold pre at 1. cbn [cur]. rewrite Hv, open_eq.
    unfold with_element. cbn [cur]. rewrite (addr_abbrev H32 i).
    destruct (Nat.leb_spec (limit a) i); [lia|]. cbv zeta. rewrite (element_eq i v _ _ Hv), Hc.
    cbn [negb cur idx truncated fetched out]. rewrite (addr_next i Hn), (idx_next i Hn), addrs_local.
    unfold at_i. rewrite text_S, <- app_assoc. reflexivity.
  Qed.

  Lemma run_good (H32 : ok32) j : (j <= limit a)%nat -> (forall i, (i < j)%nat -> good a i) ->
    loop (N.to_nat (nmemb a)) a (at_i 0) = loop (N.to_nat (nmemb a) - j) a (at_i j).
  Proof.
    induction j as [|j IH]; intros Hj HG.
    - rewrite Nat.sub_0_r. reflexivity.
    - rewrite IH by (try lia; intros; apply HG; lia).
      replace (N.to_nat (nmemb a) - j)%nat with (S (N.to_nat (nmemb a) - S j))
        by (pose proof limit_le; lia).
      apply (step_good H32); [lia|]. apply HG. lia.
  Qed.

  Lemma step_bad f i : (i < N.to_nat (nmemb a))%nat -> fetch a (addr a i) = None ->
    local a = false ->
    loop (S f) a (at_i i) =
      mk_st (addr a i) (N.of_nat i) (negb (i =? 0)%nat) (addrs (S i))
        (text i ++ if (i =? 0)%nat then [Addr (addr a i)] else [Next; More; AddrComment (addr a i)]).
  Proof.
    intros Hn Hv Hl. rewrite (loop_S f i Hn). unfold iter. cbv zeta. rewrite pre_eq. unfold pre at 1. cbn [cur].
    rewrite Hv. unfold failed, pre, say. cbn [cur]. rewrite addr_start, addrs_local.
    destruct (i =? 0)%nat; cbn [cur idx truncated fetched out negb]; rewrite <- ?app_assoc; reflexivity.
  Qed.

  Lemma step_more (H32 : ok32) f i v : (i < N.to_nat (nmemb a))%nat -> (limit a <= i)%nat -> fetch a (addr a i) = Some v ->
    loop (S f) a (at_i i) =
      mk_st (end_addr a) (N.of_nat i) true (if local a then [] else addrs (S i))
        (text i ++ (if (i =? 0)%nat then [Begin; More] else [Next; More])).
  Proof.
    intros Hn Hl Hv. rewrite (loop_S f i Hn). unfold iter. cbv zeta. rewrite pre_eq. unfold pre at 1. cbn [cur].
    rewrite Hv, open_eq. unfold with_element. cbn [cur]. rewrite (addr_abbrev H32 i).
    destruct (Nat.leb_spec (limit a) i); [|lia]. cbn [cur idx truncated fetched out].
    destruct (i =? 0)%nat; rewrite <- ?app_assoc; reflexivity.
  Qed.

  Lemma step_stop (H32 : ok32) f i v : (i < limit a)%nat -> fetch a (addr a i) = Some v -> cont a v = false ->
    loop (S f) a (at_i i) = mk_st (end_addr a) (N.of_nat i) false (addrs (S i)) (text (S i)).
  Proof.
    intros Hi Hv Hc. pose proof limit_le as HL.
    assert (Hn : (i < N.to_nat (nmemb a))%nat) by lia.
    rewrite (loop_S f i Hn). unfold iter. cbv zeta. rewrite pre_eq. unfold pre at 1. cbn [cur]. rewrite Hv, open_eq.
    unfold with_element. cbn [cur]. rewrite (addr_abbrev H32 i).
    destruct (Nat.leb_spec (limit a) i); [lia|]. cbv zeta. rewrite (element_eq i v _ _ Hv), Hc.
    cbn [negb cur idx truncated fetched out]. rewrite addrs_local, text_S, <- app_assoc. reflexivity.
  Qed.

  Lemma loop_end f : loop f a (at_i (N.to_nat (nmemb a))) = at_i (N.to_nat (nmemb a)).
  Proof.
    destruct f; [reflexivity|]. cbn [loop]. unfold at_i at 1. cbn [cur]. rewrite addr_end, N.ltb_irrefl. reflexivity.
  Qed.

  Lemma enter : print_array_ex a =
    let s := loop (N.to_nat (nmemb a)) a (at_i 0) in
    let s :=
      if negb (cur s =? start a) || local a then
        let s := if paf_truncated a && negb (truncated s) then
                   say s ((if cur s =? start a then [] else [Next]) ++ [More])
                 else s in
        say s [End]
      else s in
    (end_addr a <=? cur s, fetched s, out s).
  Proof.
    unfold print_array_ex. destruct F as (H1 & H2 & H3 & H4).
    destruct (N.eqb_spec (start a) 0); [lia|]. destruct (N.eqb_spec (nmemb a) 0); [lia|].
    rewrite size_eq, end_eq. rewrite N.div_mul by lia. rewrite N.eqb_refl.
    destruct (N.leb_spec (start a + nmemb a * esize a) (start a)) as [X|X]; [nia|]. cbn [orb negb].
    replace (at_i 0) with (mk_st (start a) 0 false [] []); [reflexivity|].
    unfold at_i, addrs, addr. cbn. destruct (local a); f_equal; lia.
  Qed.
End P.
