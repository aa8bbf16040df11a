From Verif Require Import Base TimeModel NumSetModel NumSetProofs StrtouModel StrtouSpec StrtouProofs QualModel QualSpec QualProofs InjectModel InjectSpec InjectProofs FtsModel FtsSpec FtsText IexpModel IexpSpec IexpProofs.
Local Open Scope N_scope.

(** ---- retval= ---- *)
Lemma dval_ge base c v : dval base c v -> 48 <= c. Proof. unfold dval. lia. Qed.
Lemma strtoull_sound s v : strtoull0 s = Some v -> int_text s v.
Proof.
  unfold strtoull0. destruct (skip_space_spec s) as (b & E & FB & _). set (s1 := skip_space s) in *. clearbody s1. intros H.
  assert (SG : exists neg s2 sg, (match s1 with c :: r => if c =? 45 then (true, r) else if c =? 43 then (false, r) else (false, s1) | [] => (false, s1) end) = (neg, s2) /\ s1 = sg ++ s2 /\ (((sg = [] \/ sg = [43]) /\ neg = false) \/ (sg = [45] /\ neg = true))).
  { destruct s1 as [|c r]; [exists false, [], []; auto 10|]. destruct (N.eqb_spec c 45) as [->|]; [exists true, r, [45]; auto 10|]. destruct (N.eqb_spec c 43) as [->|]; [exists false, r, [43]; auto 10|]. exists false, (c :: r), []. auto 10. }
  destruct SG as (neg & s2 & sg & EQ & -> & SG). rewrite EQ in H. clear EQ.
  assert (BS : exists base s3 pre, (match s2 with
                    | c :: r =>
                        if c =? 48 then
                          match r with
                          | x :: y :: r2 => if (tolower x =? 120) && (match digit_of 16 y with Some _ => true | None => false end) then (16, y :: r2) else (8, s2)
                          | _ => (8, s2)
                          end
                        else (10, s2)
                    | [] => (10, s2)
                    end) = (base, s3) /\ s2 = pre ++ s3 /\ ((pre = [] /\ base = 10 /\ hd 0 s3 <> 48) \/ (pre = [] /\ base = 8 /\ hd 0 s3 = 48) \/ ((pre = bs "0x" \/ pre = bs "0X") /\ base = 16))).
  { destruct s2 as [|c r]; [exists 10, [], []; split; [reflexivity|]; split; [reflexivity|]; left; repeat split; discriminate|].
    destruct (N.eqb_spec c 48) as [->|C]; [|exists 10, (c :: r), []; split; [reflexivity|]; split; [reflexivity|]; left; auto].
    destruct r as [|x [|y r]]; [exists 8, [48], []; auto 10|exists 8, [48; x], []; auto 10|].
    destruct ((tolower x =? 120) && _) eqn:X; [|exists 8, (48 :: x :: y :: r), []; auto 10].
    apply andb_true_iff in X as [X _]. apply N.eqb_eq in X. exists 16, (y :: r), [48; x]. split; [reflexivity|]. split; [reflexivity|]. right. right. split; [|reflexivity].
    change (bs "0x") with [48; 120]. change (bs "0X") with [48; 88]. unfold tolower in X. destruct ((65 <=? x) && (x <=? 90)); [right|left]; f_equal; f_equal; lia. }
  destruct BS as (base & s3 & pre & EQ & -> & BS). rewrite EQ in H. clear EQ.
  assert (B16 : base <= 16) by lia. destruct (digs base s3) as [a r] eqn:D. destruct (digs_sound base s3 a r B16 D) as (_ & t & -> & F). destruct a as [|d a]; [discriminate|]. destruct r as [|]; [|discriminate].
  rewrite dnum0 in H. rewrite app_nil_r in *. destruct (dsum base (d :: a) <? 2^64) eqn:L; [|discriminate]. apply N.ltb_lt in L. injection H as <-.
  exists b, sg, pre, t, base, (d :: a). split; [exact E|]. split; [exact FB|]. split; [inversion F; discriminate|]. split; [exact F|]. split; [exact BS|]. split; [exact L|].
  destruct SG as [[SG ->]|[-> ->]]; [left|right]; auto.
Qed.
Lemma strtoull_run t v : int_text t v -> strtoull0 t = Some v.
Proof.
  intros (blanks & sg & pre & ds & base & vs & -> & FB & NE & F & BS & L & SG). unfold strtoull0.
  destruct F as [|c v1 ds vs D F]; [contradiction|]. pose proof (dval_ge _ _ _ D) as C48.
  assert (HD : exists c0 r0, pre ++ c :: ds = c0 :: r0 /\ 48 <= c0) by (destruct BS as [(-> & _)|[(-> & _)|([-> | ->] & _)]]; do 2 eexists; (split; [reflexivity|]); (exact C48 || (vm_compute; discriminate))).
  destruct HD as (c0 & r0 & HD & C0).
  rewrite skip_space_app; [|exact FB|].
  2:{ intros x r X. assert (32 < x) as LX; [|unfold blank; lia]. destruct SG as [[[-> | ->] _]|[-> _]]; cbn [app] in X; [rewrite HD in X|..]; injection X as <- _; lia. }
  assert (B16 : base <= 16) by lia.
  assert (SN : (match sg ++ pre ++ c :: ds with c :: r => if c =? 45 then (true, r) else if c =? 43 then (false, r) else (false, sg ++ pre ++ c0 :: ds) | [] => (false, sg ++ pre ++ c0 :: ds) end) = (beqs sg [45], pre ++ c :: ds) \/ sg = []) by (destruct SG as [[[-> | ->] _]|[-> _]]; [right; reflexivity|left; reflexivity..]).
  assert (SN' : (match sg ++ pre ++ c :: ds with x :: r => if x =? 45 then (true, r) else if x =? 43 then (false, r) else (false, sg ++ pre ++ c :: ds) | [] => (false, sg ++ pre ++ c :: ds) end) = (beqs sg [45], pre ++ c :: ds)).
  { destruct SG as [[[-> | ->] _]|[-> _]]; [|reflexivity..]. cbn [app]. rewrite HD. destruct (N.eqb_spec c0 45); [lia|]. destruct (N.eqb_spec c0 43); [lia|]. reflexivity. }
  rewrite SN'. clear SN SN' HD C0 c0 r0.
  assert (RUN : digs base ((c :: ds) ++ []) = (v1 :: vs, [])) by (apply digs_run; [exact B16|constructor; assumption|exact Logic.I]). rewrite app_nil_r in RUN.
  assert (BM : (match pre ++ c :: ds with
                    | c :: r =>
                        if c =? 48 then
                          match r with
                          | x :: y :: r2 => if (tolower x =? 120) && (match digit_of 16 y with Some _ => true | None => false end) then (16, y :: r2) else (8, pre ++ c :: ds)
                          | _ => (8, pre ++ c :: ds)
                          end
                        else (10, pre ++ c :: ds)
                    | [] => (10, pre ++ c :: ds)
                    end) = (base, c :: ds) \/ True) by auto. clear BM.
  destruct BS as [(-> & -> & H0)|[(-> & -> & H0)|(PX & ->)]].
  - cbn [app hd] in *. destruct (N.eqb_spec c 48); [contradiction|]. rewrite RUN, dnum0. apply N.ltb_lt in L. rewrite L. apply N.ltb_lt in L. f_equal. destruct SG as [[[-> | ->] ->]|[-> ->]]; reflexivity.
  - cbn [app hd] in *. subst c. cbn [N.eqb Pos.eqb]. assert (E : (match ds with x :: y :: r2 => if (tolower x =? 120) && (match digit_of 16 y with Some _ => true | None => false end) then (16, y :: r2) else (8, 48 :: ds) | _ => (8, 48 :: ds) end) = (8, 48 :: ds)).
    { destruct F as [|x vx ds1 vs1 DX [|y vy ds2 vs2 DY F]]; [reflexivity..|]. destruct DX as [LX DX]. assert (TX : tolower x = x) by (unfold tolower; destruct ((65 <=? x) && (x <=? 90)) eqn:W; [lia|reflexivity]). rewrite TX. destruct (N.eqb_spec x 120); [lia|reflexivity]. }
    rewrite E. rewrite RUN, dnum0. apply N.ltb_lt in L. rewrite L. f_equal. destruct SG as [[[-> | ->] ->]|[-> ->]]; reflexivity.
  - assert (E : exists x, pre = [48; x] /\ tolower x =? 120 = true) by (destruct PX as [-> | ->]; eexists; split; reflexivity). destruct E as (x & -> & TX). cbn [app]. cbn [N.eqb Pos.eqb]. rewrite TX. apply dval_of in D; [|lia]. rewrite D. cbn [andb].
    rewrite RUN, dnum0. apply N.ltb_lt in L. rewrite L. f_equal. destruct SG as [[[-> | ->] ->]|[-> ->]]; reflexivity.
Qed.
Lemma strtoull_iff t v : strtoull0 t = Some v <-> int_text t v.
Proof. split; [apply strtoull_sound|apply strtoull_run]. Qed.

(** ---- poke_ ---- *)
Lemma scan2_hex a b x y r : dval 16 a x -> dval 16 b y -> scan2 (a :: b :: r) = Some (16 * x + y).
Proof.
  intros A B. unfold scan2. assert (SK : skip_space (a :: b :: r) = a :: b :: r) by (apply (skip_space_app []); [constructor|]; intros c r' X; injection X as <- _; pose proof (dval_ge _ _ _ A); unfold blank; lia).
  rewrite SK. pose proof (dval_ge _ _ _ A). destruct (N.eqb_spec a 45); [lia|]. destruct (N.eqb_spec a 43); [lia|]. cbn [firstn].
  assert (R : digs 16 ([a; b] ++ []) = ([x; y], [])) by (apply digs_run; [lia|constructor; [exact A|constructor; [exact B|constructor]]|exact Logic.I]). cbn [app] in R. rewrite R. cbn [fst dnum]. f_equal. lia.
Qed.
Lemma scan_hex n : forall h, length h = (2 * n)%nat -> Forall (fun c => exists x, dval 16 c x) h -> exists d, scan_bytes h n = Some d /\ hex_pairs h d /\ length d = n.
Proof.
  induction n as [|n IH]; intros h L F; cbn [scan_bytes].
  - destruct h; [|discriminate]. exists []. repeat split.
  - destruct h as [|a [|b h]]; [discriminate|cbn in L; lia|]. inversion F as [|? ? (x & A) F1]; subst. inversion F1 as [|? ? (y & B) F2]; subst. rewrite (scan2_hex _ _ _ _ _ A B). cbn [obind skipn].
    destruct (IH h) as (d & E & HP & LD); [cbn in L; lia|exact F2|]. rewrite E. exists (16 * x + y :: d). split; [reflexivity|]. split; [|cbn; congruence]. cbn [hex_pairs]. split; [|exact HP]. exists x, y. auto.
Qed.
Lemma hex_pairs_uniq h : forall d d', hex_pairs h d -> hex_pairs h d' -> d = d'.
Proof.
  assert (G : forall n h, (length h <= n)%nat -> forall d d', hex_pairs h d -> hex_pairs h d' -> d = d').
  { intros n. induction n as [|n IH]; intros h0 L d d'; destruct h0 as [|a [|b h0]], d as [|v d], d' as [|v' d']; cbn [hex_pairs]; try tauto; cbn in L; try lia.
    - intros [(x & y & A & B & ->) H] [(x' & y' & A' & B' & ->) H']. apply dval_of in A, B, A', B'; try lia. f_equal; [congruence|]. eapply IH; [|exact H|exact H']. lia. }
  intros. eapply G; eauto.
Qed.
Lemma hex_pairs_len h : forall d, hex_pairs h d -> length h = (2 * length d)%nat.
Proof.
  assert (G : forall n h, (length h <= n)%nat -> forall d, hex_pairs h d -> length h = (2 * length d)%nat).
  { intros n. induction n as [|n IH]; intros h0 L d; destruct h0 as [|a [|b h0]], d as [|v d]; cbn [hex_pairs]; try tauto; cbn in L; try lia. intros [_ H]. apply IH in H; [cbn; lia|lia]. }
  intros. eapply G; eauto.
Qed.
Lemma poke_one_iff l tok l' : (forall a h, tok = bs "@arg" ++ [a] ++ bs "=" ++ h -> Forall (fun c => exists x, dval 16 c x) h) ->
  poke_one l tok = Some l' <-> exists p, poke_text tok p /\ l' = p :: l /\ ~ In (fst p) (map fst l).
Proof.
  intros HX. unfold poke_one.
  assert (EX : forall a, existsb (fun p : N * list N => fst p =? a) l = true <-> In a (map fst l)).
  { intros a. rewrite existsb_exists, in_map_iff. split; [intros (p & P & Q); apply N.eqb_eq in Q; eauto|intros (p & Q & P); exists p; split; [exact P|apply N.eqb_eq, Q]]. }
  split.
  - intros H. destruct (strip (bs "@arg") tok) as [val|] eqn:E; [|discriminate]. apply strip_iff in E. cbn [obind] in H. destruct val as [|a [|e data]]; [discriminate..|].
    destruct ((49 <=? a) && (a <=? 55)) eqn:A; [|discriminate]. destruct (N.eqb_spec e 61) as [->|]; [|discriminate]. cbn [negb] in H. cbv zeta in H.
    destruct ((length data =? 0)%nat || negb (Nat.even (length data)) || (2048 <? length data)%nat) eqn:LN; [discriminate|].
    apply orb_false_iff in LN as [LN L3]. apply orb_false_iff in LN as [L1 L2]. apply negb_false_iff, Nat.even_spec in L2. destruct L2 as (n & L2). rewrite L2 in H. replace (2 * n / 2)%nat with n in H by (rewrite Nat.mul_comm, Nat.div_mul; lia).
    destruct (scan_hex n data L2 (HX a data ltac:(rewrite E; reflexivity))) as (d & SD & HP & LD). rewrite SD in H. cbn [obind] in H.
    destruct (existsb _ l) eqn:X in H; [discriminate|]. injection H as <-. exists (a - 48, d). split; [|split; [reflexivity|]].
    + exists data. cbn [fst snd]. replace (48 + (a - 48)) with a by lia. split; [rewrite E; reflexivity|]. split; [lia|]. split; [exact HP|]. lia.
    + cbn [fst]. rewrite <- EX. congruence.
  - intros ([n d] & (h & -> & N1 & HP & L) & -> & NI). cbn [fst snd] in *. rewrite strip_app. cbn [obind]. change ([48 + n] ++ bs "=" ++ h) with (48 + n :: 61 :: h). cbv iota.
    replace ((49 <=? 48 + n) && (48 + n <=? 55)) with true by lia. cbn [negb]. cbn [N.eqb Pos.eqb negb]. cbv zeta. pose proof (hex_pairs_len _ _ HP) as LH.
    replace ((length h =? 0)%nat || negb (Nat.even (length h)) || (2048 <? length h)%nat) with false by (rewrite LH, Nat.even_mul; cbn [Nat.even orb negb]; lia).
    rewrite LH. replace (2 * length d / 2)%nat with (length d) by (rewrite Nat.mul_comm, Nat.div_mul; lia).
    destruct (scan_hex (length d) h LH (HX _ _ eq_refl)) as (d' & SD & HP' & _). rewrite SD. cbn [obind]. rewrite (hex_pairs_uniq _ _ _ HP' HP). replace (48 + n - 48) with n by lia.
    destruct (existsb _ l) eqn:X; [apply EX in X; contradiction|]. reflexivity.
Qed.
Lemma poke_loop_iff toks : (forall tok a h, In tok toks -> tok = bs "@arg" ++ [a] ++ bs "=" ++ h -> Forall (fun c => exists x, dval 16 c x) h) -> forall l l',
  NoDup (map fst l) -> poke_loop l toks = Some l' <-> exists k, Forall2 poke_text toks k /\ l' = rev k ++ l /\ NoDup (map fst (rev k ++ l)).
Proof.
  induction toks as [|t toks IH]; intros HX l l' ND; cbn [poke_loop].
  - split; [intros H; injection H as <-; exists []; repeat split; [constructor|exact ND]|]. intros (k & F & -> & _). inversion F. reflexivity.
  - split.
    + intros H. destruct (poke_one l t) as [l1|] eqn:E; [|discriminate]. cbn [obind] in H. apply poke_one_iff in E as (p & PT & -> & NI); [|intros a h X; eapply HX; [left; reflexivity|exact X]].
      apply IH in H as (k & F & -> & N2); [|intros tok a h I X; eapply HX; [right; exact I|exact X]|cbn [map]; constructor; assumption].
      exists (p :: k). split; [constructor; assumption|]. cbn [rev]. rewrite <- app_assoc. auto.
    + intros (k & F & -> & N2). inversion F as [|? p ? k' PT F']; subst. cbn [rev] in *. rewrite <- app_assoc in *. cbn [app] in *.
      assert (NI : ~ In (fst p) (map fst l)). { rewrite map_app in N2. cbn [map] in N2. apply NoDup_remove_2 in N2. intros X. apply N2, in_or_app. auto. }
      rewrite (proj2 (poke_one_iff l t (p :: l) ltac:(intros a h X; eapply HX; [left; reflexivity|exact X])) ltac:(eauto)). cbn [obind].
      apply IH; [intros tok a h I X; eapply HX; [right; exact I|exact X]|cbn [map]; constructor; assumption|]. exists k'. auto.
Qed.
Lemma pokes_iff v l' : (forall tok a h, In tok (comma_tokens v) -> tok = bs "@arg" ++ [a] ++ bs "=" ++ h -> Forall (fun c => exists x, dval 16 c x) h) ->
  (v <> [] /\ poke_loop [] (strtok_all 44 v) = Some l') <-> exists l, pokes_denote v l /\ l' = rev l.
Proof.
  intros HX. rewrite strtok_all_spec, (poke_loop_iff _ HX) by constructor. unfold pokes_denote. split.
  - intros [NE (k & F & -> & ND)]. rewrite app_nil_r in *. exists k. split; [|reflexivity]. split; [exact NE|]. split; [exact F|]. rewrite map_rev in ND. apply NoDup_rev in ND. rewrite rev_involutive in ND. exact ND.
  - intros (k & (NE & F & ND) & ->). split; [exact NE|]. exists k. split; [exact F|]. rewrite app_nil_r. split; [reflexivity|]. rewrite map_rev. apply NoDup_rev, ND.
Qed.
