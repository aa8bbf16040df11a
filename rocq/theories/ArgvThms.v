(** C86: the vectors of execve. *)
From Verif Require Import Base Printf ArgvModel ArgvSpec.
Local Open Scope N_scope.

(** every address starts exactly one vector *)
Lemma u64_id a : a < 2^64 -> u64 a = a.
Proof. intros L. unfold u64. apply N.mod_small. exact L. Qed.
Theorem C86_vector : forall rd wsz a, 0 < wsz -> exists l e, vector rd wsz a l e /\ forall l' e', vector rd wsz a l' e' -> l' = l /\ e' = e.
Proof.
  intros rd wsz a P.
  assert (Ex : exists l e, vector rd wsz a l e).
  { remember (N.to_nat (2^64 - a)) as k eqn:K. revert a K. induction k as [k IH] using lt_wf_ind. intros a ->.
    destruct (N.lt_ge_cases a (2^64)) as [L|L]; [|exists [], (Bad (u64 a)); apply v_bad; left; exact L].
    destruct (rd a) as [w|] eqn:R; [|exists [], (Bad (u64 a)); apply v_bad; right; exact R].
    destruct (N.eq_dec w 0) as [->|Nz]; [exists [], Null; apply v_null; assumption|].
    destruct (IH (N.to_nat (2^64 - (a + wsz))) ltac:(lia) (a + wsz) eq_refl) as (l & e & V). exists (w :: l), e. apply v_word; assumption. }
  destruct Ex as (l & e & V). exists l, e. split; [exact V|]. induction V as [a L R|a B|a w l e L R Nz V IH]; intros l' e' V'.
  - inversion V' as [b L' R'|b [B|B]|b w' l2 e2 L' R' Nz' V2]; subst; [split; reflexivity|lia|congruence|congruence].
  - inversion V' as [b L' R'|b B'|b w' l2 e2 L' R' Nz' V2]; subst; [destruct B; [lia|congruence]|split; reflexivity|destruct B; [lia|congruence]].
  - inversion V' as [b L' R'|b [B|B]|b w' l2 e2 L' R' Nz' V2]; subst; [congruence|lia|congruence|]. destruct (IH _ _ V2) as [-> ->]. rewrite R in R'. injection R' as ->. split; reflexivity.
Qed.
Print Assumptions C86_vector.

Definition limit (e : env) : option N := if abbrev e then Some (max_strlen e) else None.
(** the elements from the n-th on *)
Definition rest (e : env) (n : N) (l : list N) (x : ending) : list (list N) :=
  if match limit e with Some m => m <? n + N.of_nat (length l) | None => false end
  then map (str e) (firstn (N.to_nat (match limit e with Some m => m - n | None => 0 end)) l) ++ [bs "..."]
  else map (str e) l ++ match x with Null => [] | Bad a => [bs "... /* " ++ hex a ++ bs " */"] end.
Lemma join_cons x l : join (x :: l) = x ++ match l with [] => [] | _ => bs ", " ++ join l end.
Proof. destruct l; cbn [join]; [rewrite app_nil_r; reflexivity|reflexivity]. Qed.
Definition after (n : N) (l : list (list N)) : list N := (if n =? 0 then bs "[" else match l with [] => [] | _ => bs ", " end) ++ join l ++ bs "]".

Lemma argv_loop_spec e l x : 0 < wsz e < 2^63 -> max_strlen e < 2^32 - 1 -> forall addr prev n fuel, vector (rd e) (wsz e) addr l x ->
  (n = 0 \/ prev + wsz e = addr) -> prev < 2^64 -> (n = 0 -> prev <= addr < 2^64) -> (match limit e with Some m => n <= m | None => True end) -> n + N.of_nat (length l) + 1 < 2^32 -> (length l < fuel)%nat ->
  argv_loop fuel e prev (u64 addr) n = Some (match l, x with [], Bad _ => if n =? 0 then printaddr addr else after n (rest e n l x) | _, _ => after n (rest e n l x) end).
Proof.
  intros W M addr prev n fuel V. revert prev n fuel.
  assert (Step : forall addr prev n, (n = 0 \/ prev + wsz e = addr) -> prev < 2^64 -> (n = 0 -> prev <= addr < 2^64) -> (u64 addr <? prev) = (2^64 <=? addr)).
  { clear - W. intros addr prev n H L H0. destruct H as [H|H].
    - destruct (H0 H) as [A B]. rewrite u64_id by exact B. lia.
    - destruct (N.lt_ge_cases addr (2^64)) as [A|A]; [rewrite u64_id by exact A; lia|]. assert (U : u64 addr = addr - 2^64).
      { unfold u64. symmetry. apply (N.mod_unique addr (2^64) 1); [lia|]. rewrite N.mul_1_r, N.add_comm, N.sub_add; [reflexivity|exact A]. }
      rewrite U. lia. }
  induction V as [a L R|a B|a w l x L R Nz V IH]; intros prev n fuel H1 H2 H3 H4 H5 H6; (destruct fuel as [|fuel]; [inversion H6|]); cbn [argv_loop]; rewrite (Step a prev n H1 H2 H3).
  - replace (2^64 <=? a) with false by lia. rewrite (u64_id a L), R. cbn [N.eqb]. unfold rest, after. cbn [length map firstn].
    assert (Q : match limit e with Some m => m <? n + N.of_nat 0 | None => false end = false) by (destruct (limit e); [lia|reflexivity]). rewrite Q. cbn [app join].
    destruct (n =? 0); reflexivity.
  - assert (Q : match limit e with Some m => m <? n + N.of_nat (@length N []) | None => false end = false) by (cbn [length]; destruct (limit e); [lia|reflexivity]).
    assert (T : (if 2^64 <=? a then None else rd e (u64 a)) = None). { destruct (N.leb_spec (2^64) a) as [C|C]; [reflexivity|]. destruct B as [B|B]; [lia|]. rewrite u64_id by exact C. exact B. }
    rewrite T. destruct (N.eqb_spec n 0) as [->|Nn].
    + rewrite u64_id by (apply H3; reflexivity). reflexivity.
    + unfold rest, after. rewrite Q. cbn [map app join]. replace (n =? 0) with false by lia. unfold printaddr_comment, hex. reflexivity.
  - replace (2^64 <=? a) with false by lia. rewrite (u64_id a L), R. destruct (N.eqb_spec w 0) as [|_]; [contradiction|]. unfold sequence_truncation_needed.
    cbn [length] in H5, H6. assert (U : u32 (n + 1) = n + 1) by (unfold u32; apply N.mod_small; lia). rewrite U.
    destruct (abbrev e && (max_strlen e <? n + 1)) eqn:Tr.
    + apply andb_true_iff in Tr. destruct Tr as [Ab Lt]. assert (Lm : limit e = Some (max_strlen e)) by (unfold limit; rewrite Ab; reflexivity). rewrite Lm in H4.
      unfold rest. rewrite Lm. replace (max_strlen e <? n + N.of_nat (length (w :: l))) with true by (cbn [length]; lia). replace (max_strlen e - n) with 0 by lia. cbn [N.to_nat firstn map app].
      unfold after. cbn [join]. destruct (n =? 0); cbn [negb]; destruct x; rewrite ?app_nil_r, <- ?app_assoc; reflexivity.
    + assert (K : match limit e with Some m => n + 1 <= m | None => True end). { unfold limit in *. destruct (abbrev e); [cbn [andb] in Tr; lia|exact I]. }
      rewrite (IH a (n + 1) fuel); [|right; reflexivity|exact L|intros; lia|exact K|lia|lia].
      assert (N1 : (n + 1 =? 0) = false) by lia.
      assert (G : match l, x with [], Bad _ => if n + 1 =? 0 then printaddr (a + wsz e) else after (n + 1) (rest e (n + 1) l x) | _, _ => after (n + 1) (rest e (n + 1) l x) end = after (n + 1) (rest e (n + 1) l x)).
      { rewrite N1. destruct l, x; reflexivity. } rewrite G. clear G.
      assert (Re : rest e n (w :: l) x = str e w :: rest e (n + 1) l x).
      { unfold rest. destruct (limit e) as [m|]; [|reflexivity]. cbn [length]. replace (m <? n + N.of_nat (S (length l))) with (m <? n + 1 + N.of_nat (length l)) by lia.
        destruct (m <? n + 1 + N.of_nat (length l)); [|reflexivity]. replace (N.to_nat (m - n)) with (S (N.to_nat (m - (n + 1)))) by lia. reflexivity. }
      assert (F : after n (rest e n (w :: l) x) = ((if n =? 0 then bs "[" else []) ++ (if negb (n =? 0) then bs ", " else [])) ++ str e w ++ after (n + 1) (rest e (n + 1) l x)).
      { rewrite Re. unfold after. rewrite N1, join_cons. generalize (rest e (n + 1) l x), (str e w). clear. intros r y. destruct (n =? 0), r; cbn [negb]; rewrite ?app_nil_r, <- ?app_assoc; reflexivity. }
      destruct x; rewrite F; reflexivity.
Qed.

(** The elements of the vector are shown in order; strings past the limit, and a vector that cannot be read to its end, are marked. *)
Theorem C86_argv : forall e addr l x fuel, (wsz e = 4 \/ wsz e = 8) -> max_strlen e < 2^32 / 4 -> addr < 2^64 -> vector (rd e) (wsz e) addr l x -> N.of_nat (length l) + 1 < 2^32 -> (length l < fuel)%nat ->
  printargv fuel e addr = Some (if (addr =? 0) || negb (verbose e) then (if addr =? 0 then bs "NULL" else hex addr) else listed (str e) (if abbrev e then Some (max_strlen e) else None) addr l x).
Proof.
  intros e addr l x fuel W M L V B F. unfold printargv.
  assert (A : printaddr addr = (if addr =? 0 then bs "NULL" else hex addr)) by (unfold printaddr, hex; destruct (addr =? 0); reflexivity).
  destruct (addr =? 0) eqn:Z; cbn [orb]; [rewrite A; reflexivity|]. destruct (negb (verbose e)); [rewrite A; reflexivity|].
  rewrite <- (u64_id addr L) at 1. assert (W2 : 0 < wsz e < 2^63) by (destruct W as [-> | ->]; split; reflexivity). rewrite (argv_loop_spec e l x W2) with (2 := V); [|change (2^32/4) with 1073741824 in M; lia|left; reflexivity|lia|intros; lia| |lia|exact F].
  - f_equal. unfold listed. rewrite Z. change (if abbrev e then Some (max_strlen e) else None) with (limit e).
    assert (R : after 0 (rest e 0 l x) = bs "[" ++ join (items (str e) (limit e) l x) ++ bs "]").
    { unfold after, rest, items. cbn [N.eqb]. rewrite N.add_0_l. destruct (limit e) as [m|]; [rewrite N.sub_0_r|]; reflexivity. }
    rewrite R. cbn [N.eqb]. destruct l, x; try reflexivity. exact (f_equal (fun t => t) A).
  - unfold limit. destruct (abbrev e); [lia|exact I].
Qed.
Print Assumptions C86_argv.

Lemma argc_loop_spec e l x : 0 < wsz e < 2^63 -> forall addr prev n fuel, vector (rd e) (wsz e) addr l x ->
  (n = 0 \/ prev + wsz e = addr) -> prev < addr -> prev < 2^64 -> (n = 0 -> addr < 2^64) -> (n <> 0 -> prev <> 0) -> n + N.of_nat (length l) + 1 < 2^32 -> (length l < fuel)%nat ->
  argc_loop fuel e prev (u64 addr) n = Some (match x with Bad _ => if n + N.of_nat (length l) =? 0 then None else Some (n + N.of_nat (length l), true) | Null => Some (n + N.of_nat (length l), false) end).
Proof.
  intros W addr prev n fuel V. revert prev n fuel.
  induction V as [a L R|a B|a w l x L R Nz V IH]; intros prev n fuel H1 H2 H3 H4 H5 H6 H7; (destruct fuel as [|fuel]; [inversion H7|]); cbn [argc_loop].
  - rewrite (u64_id a L). replace (a <=? prev) with false by lia. rewrite R. cbn [N.eqb]. replace (a <? prev) with false by lia. cbn [length]. rewrite N.add_0_r. reflexivity.
  - cbn [length]. rewrite N.add_0_r. destruct (N.lt_ge_cases a (2^64)) as [L|L].
    + rewrite (u64_id a L). replace (a <=? prev) with false by lia. destruct B as [B|B]; [lia|]. rewrite B. destruct (N.eqb_spec n 0); [reflexivity|]. replace (0 <? prev) with true by lia. reflexivity.
    + assert (U : u64 a = a - 2^64). { unfold u64. symmetry. apply (N.mod_unique a (2^64) 1); [lia|]. rewrite N.mul_1_r, N.add_comm, N.sub_add; [reflexivity|exact L]. }
      rewrite U. assert (n <> 0) by (intros ->; lia). replace (a - 2^64 <=? prev) with true by lia. replace (a - 2^64 <? prev) with true by lia. replace (n =? 0) with false by lia. reflexivity.
  - rewrite (u64_id a L). replace (a <=? prev) with false by lia. rewrite R. destruct (N.eqb_spec w 0) as [|_]; [contradiction|]. cbn [length] in *.
    assert (U : u32 (n + 1) = n + 1) by (unfold u32; apply N.mod_small; lia). rewrite U.
    rewrite (IH a (n + 1) fuel); [|right; reflexivity|lia|exact L|intros; lia|intros; lia|lia|lia]. replace (n + 1 + N.of_nat (length l)) with (n + N.of_nat (S (length l))) by lia. reflexivity.
Qed.
(** abbreviated, the environment is counted *)
Theorem C86_argc : forall e addr l x fuel, (wsz e = 4 \/ wsz e = 8) -> addr < 2^64 -> vector (rd e) (wsz e) addr l x -> N.of_nat (length l) + 1 < 2^32 -> (length l < fuel)%nat ->
  printargc fuel e addr = Some (if (addr =? 0) || negb (verbose e) then (if addr =? 0 then bs "NULL" else hex addr) else counted addr l x).
Proof.
  intros e addr l x fuel W L V B F. unfold printargc.
  assert (A : printaddr addr = (if addr =? 0 then bs "NULL" else hex addr)) by (unfold printaddr, hex; destruct (addr =? 0); reflexivity).
  destruct (addr =? 0) eqn:Z; cbn [orb]; [rewrite A; reflexivity|]. destruct (negb (verbose e)); [rewrite A; reflexivity|].
  rewrite <- (u64_id addr L) at 1. assert (W2 : 0 < wsz e < 2^63) by (destruct W as [-> | ->]; split; reflexivity). rewrite (argc_loop_spec e l x W2) with (1 := V); [|left; reflexivity|lia|lia|intros; lia|intros; lia|lia|exact F].
  rewrite N.add_0_l. unfold counted. rewrite Z, A.
  assert (Sg : (if N.of_nat (length l) =? 1 then [] else bs "s") = match l with [_] => [] | _ => bs "s" end). { destruct l as [|a [|b r]]; [reflexivity|reflexivity|]. cbn [length]. replace (N.of_nat (S (S (length r))) =? 1) with false by lia. reflexivity. }
  assert (V2 : bs " vars" = bs " var" ++ bs "s") by reflexivity.
  destruct x.
  - rewrite Sg. destruct l as [|a [|b r]]; rewrite ?V2, <- ?app_assoc, ?app_nil_l; reflexivity.
  - destruct l as [|a0 [|b r]]; [cbn [length N.of_nat N.eqb]; rewrite app_nil_r; reflexivity|cbn [length]|].
    + reflexivity.
    + replace (N.of_nat (length (a0 :: b :: r)) =? 0) with false by (cbn [length]; lia). rewrite Sg, V2, <- ?app_assoc. reflexivity.
Qed.
Print Assumptions C86_argc.

(** ** Example *)
Definition e1 : env := {| rd := fun a => if a =? 16 then Some 5 else if a =? 24 then Some 6 else if a =? 32 then Some 7 else if a =? 40 then Some 0 else None; str := fun w => bs """" ++ pr_num 10 w ++ bs """"; wsz := 8; verbose := true; abbrev := true; max_strlen := 2 |}.
Example C86_nonvacuous : vector (rd e1) 8 16 [5; 6; 7] Null /\
  decode_execve 9 e1 (bs """/bin/ls""") 16 24 = Some (bs """/bin/ls"", [""5"", ""6"", ...], 0x18 /* 2 vars */").
Proof. split; [|vm_compute; reflexivity]. repeat (apply v_word; [lia|reflexivity|discriminate|]). apply v_null; [lia|reflexivity]. Qed.
(** the vector may be long *)
Theorem C86_execve : forall e path argv envp la xa lb xb fuel, (wsz e = 4 \/ wsz e = 8) -> max_strlen e < 2^32 / 4 -> verbose e = true -> 0 < argv < 2^64 -> 0 < envp < 2^64 ->
  vector (rd e) (wsz e) argv la xa -> vector (rd e) (wsz e) envp lb xb -> N.of_nat (length la) + 1 < 2^32 -> N.of_nat (length lb) + 1 < 2^32 -> (length la < fuel)%nat -> (length lb < fuel)%nat ->
  decode_execve fuel e path argv envp = Some (path ++ bs ", " ++ listed (str e) (if abbrev e then Some (max_strlen e) else None) argv la xa ++ bs ", " ++
    (if abbrev e then counted envp lb xb else listed (str e) None envp lb xb)).
Proof.
  intros e path argv envp la xa lb xb fuel W M Vb La Lb Va Vx Ba Bb Fa Fb. unfold decode_execve. rewrite (C86_argv e argv la xa fuel W M) by (assumption || lia). rewrite Vb. replace (argv =? 0) with false by lia. cbn [orb negb].
  destruct (abbrev e) eqn:Ab; [rewrite (C86_argc e envp lb xb fuel W)|rewrite (C86_argv e envp lb xb fuel W M)]; try (assumption || lia); rewrite Vb; replace (envp =? 0) with false by lia; cbn [orb negb]; rewrite ?Ab; reflexivity.
Qed.
Print Assumptions C86_execve.
