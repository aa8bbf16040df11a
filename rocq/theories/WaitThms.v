(** C55: wait statuses. *)
From Verif Require Import Base Printf BitsModel BitsSpec XlatModel XlatSpec XlatProofs XlatText XlatThms WaitModel.
Local Open Scope N_scope.

(** ** What the printed form says *)
Inductive decoded :=
| Stopped (sig : N) (b80 : bool) (event : N)
| Signaled (sig : N) (core : bool) (event rest : N)
| Exited (code event rest : N)
| Continued
| Other (status : N).
Definition bit80 (b : bool) : N := if b then 0x80 else 0.
(** the status a form stands for *)
Definition status_of (d : decoded) : N :=
  match d with
  | Stopped sig b ev => ev * 2^16 + (sig + bit80 b) * 2^8 + 0x7f
  | Signaled sig core ev rest => ev * 2^16 + rest + bit80 core + sig
  | Exited code ev rest => ev * 2^16 + code * 2^8 + rest
  | Continued => 0xffff
  | Other s => s
  end.
Definition decoded_ok (d : decoded) : Prop :=
  match d with
  | Stopped sig b ev => sig < 128 /\ ev < 2^16
  | Signaled sig core ev rest => 1 <= sig <= 126 /\ ev < 2^16 /\ exists k, rest = k * 2^8 /\ k < 2^8
  | Exited code ev rest => code < 2^8 /\ ev < 2^16 /\ (rest = 0 \/ rest = 0x80)
  | Continued => True
  | Other s => s < 2^32
  end.
(** the text of a form *)
Definition tail_text (event_text : N -> list N) (ev rest : N) : list N :=
  (if ev =? 0 then [] else bs "|" ++ event_text ev ++ bs "<<16") ++ (if rest =? 0 then [] else bs "|" ++ pr_hex rest).
Definition text_of (name : N -> list N) (event_text : N -> list N) (d : decoded) : list N :=
  bs "[" ++
  match d with
  | Stopped sig b ev => bs "{WIFSTOPPED(s) && WSTOPSIG(s) == " ++ name sig ++ (if b then bs " | 0x80" else []) ++ bs "}" ++ tail_text event_text ev 0
  | Signaled sig core ev rest => bs "{WIFSIGNALED(s) && WTERMSIG(s) == " ++ name sig ++ (if core then bs " && WCOREDUMP(s)" else []) ++ bs "}" ++ tail_text event_text ev rest
  | Exited code ev rest => bs "{WIFEXITED(s) && WEXITSTATUS(s) == " ++ pr_num 10 code ++ bs "}" ++ tail_text event_text ev rest
  | Continued => bs "{WIFCONTINUED(s)}"
  | Other s => pr_hex s
  end ++ bs "]".
Definition event_text (events : xlat) (st : xstyle_t) (ev : N) : list N :=
  printxvals_ex ev (Some (bs "PTRACE_EVENT_???")) st FMT_X [events].

(** ** Bits *)
Lemma land_ones' a k : N.land a (2 ^ k - 1) = a mod 2 ^ k.
Proof. rewrite <- N.land_ones, N.ones_equiv, N.sub_1_r. reflexivity. Qed.
Lemma f7f a : N.land a 0x7f = a mod 2^7. Proof. apply (land_ones' a 7). Qed.
Lemma fff a : N.land a 0xff = a mod 2^8. Proof. apply (land_ones' a 8). Qed.
Lemma fffff a : N.land a 0xffff = a mod 2^16. Proof. apply (land_ones' a 16). Qed.
Lemma tb a i : N.testbit a i = N.odd (a / 2 ^ i).
Proof. rewrite N.testbit_odd, N.shiftr_div_pow2. reflexivity. Qed.
Lemma f80 a : N.land a 0x80 = if N.odd (a / 2^7) then 0x80 else 0.
Proof.
  rewrite <- tb. apply N.bits_inj. intros i. rewrite N.land_spec. change 0x80 with (2^7) at 1.
  destruct (N.eq_dec i 7) as [->|Ne].
  - rewrite N.pow2_bits_true. destruct (N.testbit a 7); reflexivity.
  - rewrite N.pow2_bits_false by congruence. rewrite andb_false_r. destruct (N.testbit a 7); [|symmetry; apply N.bits_0].
    symmetry. change 128 with (2^7). apply N.pow2_bits_false. congruence.
Qed.
Lemma fexit a : WEXITSTATUS a = (a / 2^8) mod 2^8.
Proof.
  unfold WEXITSTATUS. rewrite N.shiftr_land. change (N.shiftr 0xff00 8) with 0xff. rewrite fff, N.shiftr_div_pow2. reflexivity.
Qed.
(** splitting a status into event, code, bit 7 and low 7 bits *)
Definition mk (ev code : N) (b : bool) (low : N) : N := ev * 2^16 + code * 2^8 + bit80 b + low.
Lemma split_status s : s < 2^32 -> exists ev code b low, s = mk ev code b low /\ ev < 2^16 /\ code < 2^8 /\ low < 2^7.
Proof.
  intros H. exists (s / 2^16), ((s / 2^8) mod 2^8), (N.odd (s / 2^7)), (s mod 2^7).
  assert (A : s = 2^7 * (s / 2^7) + s mod 2^7) by (apply N.div_mod; discriminate).
  assert (B : s / 2^7 = 2 * (s / 2^7 / 2) + (s / 2^7) mod 2) by (apply N.div_mod; discriminate).
  rewrite N.div_div in B by discriminate. change (2^7 * 2) with (2^8) in B.
  assert (C : s / 2^8 = 2^8 * (s / 2^8 / 2^8) + (s / 2^8) mod 2^8) by (apply N.div_mod; discriminate).
  rewrite N.div_div in C by discriminate. change (2^8 * 2^8) with (2^16) in C.
  assert (D : (s / 2^7) mod 2 = if N.odd (s / 2^7) then 1 else 0).
  { rewrite <- N.bit0_mod, N.bit0_odd. destruct (N.odd _); reflexivity. }
  assert (E : s / 2^16 < 2^16) by (apply N.div_lt_upper_bound; [discriminate|exact H]).
  pose proof (N.mod_lt s (2^7) ltac:(discriminate)). pose proof (N.mod_lt (s / 2^8) (2^8) ltac:(discriminate)).
  unfold mk, bit80. destruct (N.odd (s / 2^7)); split; try (split; [|split]); try assumption; lia.
Qed.
Lemma div_eq a b q r : b <> 0 -> a = b * q + r -> r < b -> a / b = q.
Proof. intros H1 H2 H3. symmetry. eapply N.div_unique; eauto. Qed.
Lemma mod_eq a b q r : b <> 0 -> a = b * q + r -> r < b -> a mod b = r.
Proof. intros H1 H2 H3. symmetry. eapply N.mod_unique; eauto. Qed.
Section Fields.
Variables ev code low : N.
Variable b : bool.
Hypothesis (He : ev < 2^16) (Hc : code < 2^8) (Hl : low < 2^7).
Let s := mk ev code b low.
Lemma m7 : N.land s 0x7f = low.
Proof. rewrite f7f. apply (mod_eq _ _ (ev * 2^9 + code * 2 + if b then 1 else 0)); [discriminate| |exact Hl]. unfold s, mk, bit80. destruct b; lia. Qed.
Lemma m8 : N.land s 0xff = bit80 b + low.
Proof. rewrite fff. apply (mod_eq _ _ (ev * 2^8 + code)); [discriminate| |]; unfold s, mk, bit80; destruct b; lia. Qed.
Lemma mx : WEXITSTATUS s = code.
Proof.
  rewrite fexit. apply (mod_eq _ _ ev); [discriminate| |exact Hc]. apply (div_eq _ _ _ (bit80 b + low)); [discriminate| |]; unfold s, mk, bit80; destruct b; lia.
Qed.
Lemma m80 : N.land s 0x80 = bit80 b.
Proof.
  rewrite f80. replace (s / 2^7) with (2 * (ev * 2^8 + code) + N.b2n b); [|symmetry; apply (div_eq _ _ _ low); [discriminate| |exact Hl]; unfold s, mk, bit80; destruct b; cbn [N.b2n]; lia].
  rewrite N.odd_add, N.odd_mul. cbn [N.odd]. destruct b; reflexivity.
Qed.
End Fields.
Lemma testbit_lt a n i : a < 2^n -> n <= i -> N.testbit a i = false.
Proof.
  intros H L. destruct (N.eq_dec a 0) as [->|Z]; [apply N.bits_0|]. apply N.bits_above_log2. apply N.log2_lt_pow2 in H; lia.
Qed.
Lemma add_low hi lo n : lo < 2^n -> hi * 2^n + lo = N.lor (N.shiftl hi n) lo.
Proof.
  intros H. rewrite <- N.shiftl_mul_pow2. rewrite N.add_nocarry_lxor; [rewrite N.lxor_lor; [reflexivity|]|];
    (apply N.bits_inj; intros i; rewrite N.land_spec, N.bits_0; destruct (N.lt_ge_cases i n) as [L|L];
     [rewrite N.shiftl_spec_low by exact L; reflexivity|rewrite (testbit_lt lo n) by assumption; apply andb_false_r]).
Qed.
(** clearing the low bits *)
Lemma ldiff_split hi lo n m : lo < 2^n -> m < 2^n -> N.ldiff (hi * 2^n + lo) m = hi * 2^n + N.ldiff lo m.
Proof.
  intros H1 H2. rewrite add_low by exact H1.
  assert (L : N.ldiff lo m < 2^n).
  { assert (N.ldiff lo m <= lo) by (apply N.ldiff_le; apply N.bits_inj; intros i; rewrite !N.ldiff_spec, N.bits_0; destruct (N.testbit lo i), (N.testbit m i); reflexivity). lia. }
  rewrite add_low by exact L. apply N.bits_inj. intros i. rewrite N.ldiff_spec, !N.lor_spec, N.ldiff_spec.
  destruct (N.lt_ge_cases i n) as [C|C].
  - rewrite N.shiftl_spec_low by exact C. reflexivity.
  - rewrite (testbit_lt m n) by assumption. cbn. rewrite !andb_true_r. reflexivity.
Qed.
Lemma ldiff_self_lor a b : N.ldiff a (N.lor a b) = 0.
Proof. apply N.bits_inj. intros i. rewrite N.ldiff_spec, N.lor_spec, N.bits_0. destruct (N.testbit a i), (N.testbit b i); reflexivity. Qed.

(** ** The text *)
Lemma tail_eq events st ev rest : ev < 2^16 -> rest < 2^16 ->
  status_tail events st (ev * 2^16 + rest) = tail_text (event_text events st) ev rest.
Proof.
  intros He Hr. unfold status_tail, tail_text. rewrite N.shiftr_div_pow2.
  assert (E1 : (ev * 2^16 + rest) / 2^16 = ev) by (apply (div_eq _ _ _ rest); [discriminate|lia|exact Hr]).
  assert (E2 : N.land (ev * 2^16 + rest) 0xffff = rest) by (rewrite fffff; apply (mod_eq _ _ ev); [discriminate|lia|exact Hr]).
  rewrite E1, E2. destruct (N.eqb_spec ev 0) as [->|Z].
  - rewrite N.mul_0_l, N.add_0_l. destruct (rest =? 0); reflexivity.
  - replace (ev * 2^16 + rest =? 0) with false by (symmetry; apply N.eqb_neq; lia).
    change (bs "<<16") with (bs "<<" ++ bs "16"). destruct (rest =? 0); rewrite <- ?app_assoc, ?app_nil_r; reflexivity.
Qed.
Lemma printstatus_text g events st s : s < 2^32 -> exists d, decoded_ok d /\ status_of d = s /\
  fst (printstatus g events st s) = text_of (sprintsigname g) (event_text events st) d /\
  (snd (printstatus g events st s) = true <-> exists c e r, d = Exited c e r).
Proof.
  intros Hs. destruct (split_status s Hs) as (ev & code & b & low & -> & He & Hc & Hl).
  unfold printstatus, WIFSTOPPED, WIFSIGNALED, WIFEXITED, WIFCONTINUED, WCOREDUMP, WTERMSIG, WSTOPSIG.
  rewrite m8, m7, mx, m80 by assumption.
  assert (TB : tail_text (event_text events st) 0 0 = []) by reflexivity.
  destruct (N.eqb_spec (bit80 b + low) 0x7f) as [E|E].
  - assert (b = false) by (unfold bit80 in E; destruct b; [lia|reflexivity]). subst b. assert (low = 0x7f) by (cbn in E; lia). subst low. clear E.
    exists (Stopped (code mod 2^7) (N.odd (code / 2^7)) ev). cbn [fst snd].
    pose proof (N.mod_lt code (2^7) ltac:(discriminate)) as ML.
    pose proof (N.div_mod code (2^7) ltac:(discriminate)) as DM.
    assert (DV : code / 2^7 < 2) by (apply N.div_lt_upper_bound; [discriminate|exact Hc]).
    split; [split; assumption|]. split; [|split].
    + cbn [status_of]. unfold mk, bit80. assert (X : code / 2^7 = 0 \/ code / 2^7 = 1) by lia. destruct X as [X|X]; rewrite X in DM |- *; [change (N.odd 0) with false|change (N.odd 1) with true]; cbv iota; lia.
    + unfold text_of. rewrite f7f, f80.
      assert (T : N.ldiff (mk ev code false 127) (W_STOPCODE code) = ev * 2^16 + 0).
      { unfold mk, W_STOPCODE. cbn [bit80]. replace (ev * 2^16 + code * 2^8 + 0 + 127) with (ev * 2^16 + (code * 2^8 + 127)) by lia.
        rewrite <- (add_low code 127 8) by reflexivity. rewrite ldiff_split by lia. rewrite N.ldiff_diag. reflexivity. }
      rewrite T, tail_eq by (try assumption; reflexivity). destruct (N.odd (code / 2^7)); cbn [N.eqb]; rewrite <- ?app_assoc; reflexivity.
    + split; [discriminate|]. intros (? & ? & ? & X). discriminate.
  - cbv zeta. destruct (N.ltb_spec (low + 1) 128) as [L|L].
    + destruct (N.eq_dec low 0) as [->|Z].
      * change (1 <=? N.shiftr (0 + 1) 1) with false. cbv iota. change (0 =? 0) with true. cbv iota.
        exists (Exited code ev (bit80 b)). cbn [fst snd].
        split; [split; [assumption|split; [assumption|destruct b; [right|left]; reflexivity]]|]. split; [cbn [status_of]; unfold mk; lia|]. split.
        -- unfold text_of. assert (T : N.ldiff (mk ev code b 0) (W_EXITCODE code 0) = ev * 2^16 + bit80 b).
           { unfold mk, W_EXITCODE. rewrite N.lor_0_r, N.shiftl_mul_pow2. replace (ev * 2^16 + code * 2^8 + bit80 b + 0) with (ev * 2^16 + (code * 2^8 + bit80 b)) by lia.
             rewrite ldiff_split by (unfold bit80; destruct b; lia). f_equal. assert (BL : bit80 b < 2^8) by (destruct b; reflexivity). rewrite add_low by exact BL.
             rewrite <- N.shiftl_mul_pow2. apply N.bits_inj. intros i. rewrite N.ldiff_spec, N.lor_spec. destruct (N.lt_ge_cases i 8) as [C|C].
             - rewrite N.shiftl_spec_low by exact C. cbn. apply andb_true_r.
             - rewrite (testbit_lt (bit80 b) 8) by assumption. rewrite orb_false_r. destruct (N.testbit (N.shiftl code 8) i); reflexivity. }
           rewrite T, tail_eq; [rewrite <- ?app_assoc; reflexivity|assumption|unfold bit80; destruct b; lia].
        -- split; eauto.
      * assert (SH : (1 <=? N.shiftr (low + 1) 1) = true).
        { apply N.leb_le. rewrite N.shiftr_div_pow2. apply N.div_le_lower_bound; [discriminate|]. change (2^1) with 2. lia. }
        rewrite SH. exists (Signaled low b ev (code * 2^8)). cbn [fst snd].
        split; [split; [lia|split; [assumption|exists code; split; [reflexivity|assumption]]]|]. split; [cbn [status_of]; unfold mk; lia|]. split.
        -- unfold text_of.
           assert (T : N.ldiff (mk ev code b low) (N.lor (W_EXITCODE 0 low) 128) = ev * 2^16 + code * 2^8).
           { unfold mk, W_EXITCODE. rewrite N.shiftl_0_l, N.lor_0_l. replace (ev * 2^16 + code * 2^8 + bit80 b + low) with ((ev * 2^8 + code) * 2^8 + (bit80 b + low)) by lia.
             assert (LM : N.lor low 128 = 128 + low) by (rewrite N.lor_comm; change (128 + low) with (1 * 2^7 + low); rewrite add_low by exact Hl; reflexivity).
             rewrite ldiff_split by (rewrite ?LM; unfold bit80; destruct b; lia).
             replace (N.ldiff (bit80 b + low) (N.lor low 128)) with 0; [lia|]. symmetry.
             unfold bit80. destruct b; [rewrite <- LM; apply N.ldiff_diag|]. rewrite N.add_0_l. apply ldiff_self_lor. }
           rewrite T, tail_eq by (try assumption; lia). destruct b; cbn [bit80 N.eqb negb]; rewrite <- ?app_assoc; reflexivity.
        -- split; [discriminate|]. intros (? & ? & ? & X). discriminate.
    + assert (low = 127) by lia. subst low. assert (b = true) by (destruct b; [reflexivity|cbn in E; lia]). subst b.
      change (127 =? 0) with false. cbv iota. destruct (N.eqb_spec (mk ev code true 127) 0xffff) as [F|F].
      * exists Continued. cbn [fst snd decoded_ok status_of]. rewrite F. split; [exact I|]. split; [reflexivity|]. split; [|split; [discriminate|intros (? & ? & ? & X); discriminate]].
        change (N.ldiff 65535 65535) with 0. reflexivity.
      * exists (Other (mk ev code true 127)). cbn [fst snd decoded_ok status_of]. split; [exact Hs|]. split; [reflexivity|]. split; [reflexivity|].
        split; [discriminate|intros (? & ? & ? & X); discriminate].
Qed.

(** For every status the text printed is that of a decoded form standing for exactly this
    status; the caller is told that the process exited iff the form is the exit form. *)
Theorem C55_status_reading : forall g events st s, s < 2^32 -> exists d, decoded_ok d /\ status_of d = s /\
  fst (printstatus g events st s) = text_of (sprintsigname g) (event_text events st) d /\
  (snd (printstatus g events st s) = true <-> exists c e r, d = Exited c e r).
Proof. exact printstatus_text. Qed.
Print Assumptions C55_status_reading.

(** ** Distinct statuses print differently *)
Definition signames_ok (g : sigcfg) : Prop :=
  (forall i, i < 128 -> ~ In 32 (sprintsigname g i) /\ ~ In 125 (sprintsigname g i)) /\
  (forall i j, i < 128 -> j < 128 -> sprintsigname g i = sprintsigname g j -> i = j).
Definition events_ok (x : xlat) : Prop :=
  table_ok x /\ names_readable (data x) /\ forall v s, named x v s -> ~ In 60 s.

Lemma text_inj nm et d1 d2 :
  (forall i, i < 128 -> ~ In 32 (nm i) /\ ~ In 125 (nm i)) -> (forall i j, i < 128 -> j < 128 -> nm i = nm j -> i = j) ->
  (forall e, ~ In 60 (et e)) -> (forall a b, a < 2^16 -> b < 2^16 -> et a = et b -> a = b) ->
  decoded_ok d1 -> decoded_ok d2 -> text_of nm et d1 = text_of nm et d2 -> d1 = d2.
Proof.
  intros N1 N2 E1 E2 D1 D2 E. unfold text_of in E. apply app_inv_head in E. apply app_inv_tail in E.
  assert (HX : forall v, v <> 0 -> ~ In 60 (pr_hex v)) by (intros v _; apply (sprint_not_in 60 FMT_X); unfold plain; lia).
  assert (RT : forall r, ~ In 60 (if r =? 0 then [] else bs "|" ++ pr_hex r)).
  { intros r. destruct (N.eqb_spec r 0) as [->|Z]; [auto|]. intros X. apply in_app_iff in X as [[X|[]]|X]; [discriminate|]. apply (HX r Z X). }
  assert (TAIL : forall e1 r1 e2 r2, e1 < 2^16 -> e2 < 2^16 -> r1 < 2^64 -> r2 < 2^64 -> tail_text et e1 r1 = tail_text et e2 r2 -> e1 = e2 /\ r1 = r2).
  { intros e1 r1 e2 r2 Ha Hb Hr1 Hr2. unfold tail_text.
    assert (RR : (if r1 =? 0 then [] else bs "|" ++ pr_hex r1) = (if r2 =? 0 then [] else bs "|" ++ pr_hex r2) -> r1 = r2).
    { destruct (N.eqb_spec r1 0) as [->|Z1], (N.eqb_spec r2 0) as [->|Z2]; intros X; try discriminate; auto.
      apply app_inv_head in X. apply (sprint_inj FMT_X) in X; auto. }
    set (R1 := if r1 =? 0 then [] else _) in *. set (R2 := if r2 =? 0 then [] else _) in *.
    assert (LT : forall x y, In 60 ((bs "|" ++ x ++ bs "<<16") ++ y)) by (intros x y; apply in_or_app; left; apply in_or_app; right; apply in_or_app; right; left; reflexivity).
    destruct (N.eqb_spec e1 0) as [->|Z1], (N.eqb_spec e2 0) as [->|Z2]; intros X.
    - split; [reflexivity|apply RR; exact X].
    - exfalso. apply (RT r1). fold R1. change ([] ++ R1) with R1 in X. rewrite X. apply LT.
    - exfalso. apply (RT r2). fold R2. change ([] ++ R2) with R2 in X. rewrite <- X. apply LT.
    - rewrite <- !app_assoc in X. apply app_inv_head in X. apply (split_at 60) in X; auto; try (right; eexists; reflexivity).
      destruct X as [X1 X2]. apply app_inv_head in X2. split; [apply E2; auto|apply RR; exact X2]. }
  assert (NAME : forall n1 n2 s1 s2 t1 t2, ~ In 125 n1 -> ~ In 125 n2 -> ~ In 125 s1 -> ~ In 125 s2 -> ~ In 32 n1 -> ~ In 32 n2 -> head_is 32 s1 -> head_is 32 s2 ->
    n1 ++ s1 ++ bs "}" ++ t1 = n2 ++ s2 ++ bs "}" ++ t2 -> n1 = n2 /\ s1 = s2 /\ t1 = t2).
  { intros n1 n2 s1 s2 t1 t2 A1 A2 A3 A4 A5 A6 A7 A8 X. rewrite !app_assoc in X. rewrite <- (app_assoc _ (bs "}") t1), <- (app_assoc _ (bs "}") t2) in X.
    apply (split_at 125) in X; try (right; eexists; reflexivity); try (intros Y; apply in_app_iff in Y; tauto).
    destruct X as [X1 X2]. apply app_inv_head in X2. apply (split_at 32) in X1; auto. tauto. }
  assert (P32 : forall c, ~ In 32 (pr_num 10 c)) by (intros c; apply pr_num_not_in; [lia|lia]).
  assert (P125 : forall c, ~ In 125 (pr_num 10 c)) by (intros c; apply pr_num_not_in; [lia|lia]).
  assert (OTH : forall v (t : list N), pr_hex v <> 123 :: t).
  { intros v t X. destruct (sprint_head FMT_X v) as (c & r & Ec & Hc). change (pr_hex v = c :: r) in Ec. rewrite Ec in X. inversion X. subst. unfold digit_like in Hc. lia. }
  assert (H32 : forall (b : bool) x, head_is 32 x -> head_is 32 (if b then x else [])) by (intros [] x Hx; [exact Hx|left; reflexivity]).
  destruct d1 as [sg1 b1 e1|sg1 b1 e1 r1|c1 e1 r1| |o1], d2 as [sg2 b2 e2|sg2 b2 e2 r2|c2 e2 r2| |o2];
    try (exfalso; eapply OTH; exact E); try (exfalso; eapply OTH; symmetry; exact E); try discriminate E; cbn [decoded_ok] in D1, D2.
  - apply app_inv_head in E. destruct (N1 sg1 ltac:(tauto)), (N1 sg2 ltac:(tauto)). apply NAME in E; auto;
      try (apply H32; right; eexists; reflexivity); try (destruct b1 || destruct b2; [intros X; vm_compute in X; intuition discriminate|auto]).
    2:{ destruct b2; [intros X; vm_compute in X; intuition discriminate|auto]. }
    destruct E as (X1 & X2 & X3). apply TAIL in X3; try tauto; try reflexivity. destruct X3 as [-> _]. apply N2 in X1; try tauto. subst.
    destruct b1, b2; try discriminate; reflexivity.
  - apply app_inv_head in E. destruct D1 as (D1 & D1' & k1 & -> & Hk1), D2 as (D2 & D2' & k2 & -> & Hk2). destruct (N1 sg1 ltac:(lia)), (N1 sg2 ltac:(lia)). apply NAME in E; auto;
      try (apply H32; right; eexists; reflexivity); try (destruct b1 || destruct b2; [intros X; vm_compute in X; intuition discriminate|auto]).
    2:{ destruct b2; [intros X; vm_compute in X; intuition discriminate|auto]. }
    destruct E as (X1 & X2 & X3). apply TAIL in X3; try assumption; try lia. destruct X3 as [-> X3]. rewrite X3. apply N2 in X1; try lia. subst.
    destruct b1, b2; try discriminate; reflexivity.
  - apply app_inv_head in E. destruct D1 as (D1 & D1' & H1), D2 as (D2 & D2' & H2).
    apply (NAME _ _ [] []) in E; auto; try (left; reflexivity). destruct E as (X1 & _ & X3). apply TAIL in X3; try assumption; try (destruct H1, H2; subst; reflexivity).
    destruct X3 as [-> ->]. apply pr_num_inj in X1; [subst; reflexivity|lia].
  - reflexivity.
  - apply (sprint_inj FMT_X) in E; [subst; reflexivity|lia|lia].
Qed.
Theorem C55_status_lossless : forall g events st s1 s2, signames_ok g -> events_ok events ->
  s1 < 2^32 -> s2 < 2^32 -> fst (printstatus g events st s1) = fst (printstatus g events st s2) -> s1 = s2.
Proof.
  intros g events st s1 s2 [N1 N2] (T & R & L) H1 H2 E.
  destruct (printstatus_text g events st s1 H1) as (d1 & O1 & S1 & E1 & _). destruct (printstatus_text g events st s2 H2) as (d2 & O2 & S2 & E2 & _).
  rewrite E1, E2 in E. apply text_inj in E; auto; [congruence| |].
  - intros e X. unfold event_text, printxvals_ex in X. pose proof (xlookup_spec events e T) as XS.
    assert (C : ~ In 60 (comment (Some (bs "PTRACE_EVENT_???")))) by (intros Y; vm_compute in Y; intuition discriminate).
    assert (P : ~ In 60 (sprint_xlat_val FMT_X e)) by (apply sprint_not_in; unfold plain; lia).
    cbn [xlookups] in X. destruct st; [| contradiction |]; destruct (xlookup events e) as [s|].
    + eapply L; eauto.
    + apply in_app_iff in X; tauto.
    + apply in_app_iff in X as [X|X]; [tauto|]. revert X. apply comment_not_in; try discriminate. intros d Ed. inversion Ed; subst. eapply L; eauto.
    + apply in_app_iff in X; tauto.
  - intros a b Ha Hb Eab. unfold event_text in Eab. eapply C37_value_lossless; [| | | |exact Eab]; try lia; [constructor; [exact T|constructor]|].
    intros _. unfold all_entries. cbn [map concat]. rewrite app_nil_r. exact R.
Qed.
Print Assumptions C55_status_lossless.

Example ex_signames_ok : signames_ok generic_sigs.
Proof.
  set (ls := map N.of_nat (seq 0 128)).
  assert (IN : forall i, i < 128 -> In i ls) by (intros i Hi; unfold ls; rewrite <- (N2Nat.id i); apply in_map, in_seq; lia).
  assert (C1 : forallb (fun i => forallb (fun c => negb (c =? 32) && negb (c =? 125)) (sprintsigname generic_sigs i)) ls = true) by (vm_compute; reflexivity).
  assert (C2 : forallb (fun i => forallb (fun j => implb (beqs (sprintsigname generic_sigs i) (sprintsigname generic_sigs j)) (i =? j)) ls) ls = true) by (vm_compute; reflexivity).
  rewrite forallb_forall in C1, C2. split.
  - intros i Hi. specialize (C1 i (IN i Hi)). rewrite forallb_forall in C1. split; intros X; specialize (C1 _ X); discriminate.
  - intros i j Hi Hj E. specialize (C2 i (IN i Hi)). rewrite forallb_forall in C2. specialize (C2 j (IN j Hj)). rewrite E, beqs_refl in C2. apply N.eqb_eq. exact C2.
Qed.
Definition ptrace_events : xlat := {| ty := XT_NORMAL; data := [(1, Some (bs "PTRACE_EVENT_FORK")); (2, Some (bs "PTRACE_EVENT_VFORK")); (3, Some (bs "PTRACE_EVENT_CLONE"));
  (4, Some (bs "PTRACE_EVENT_EXEC")); (5, Some (bs "PTRACE_EVENT_VFORK_DONE")); (6, Some (bs "PTRACE_EVENT_EXIT")); (7, Some (bs "PTRACE_EVENT_SECCOMP")); (128, Some (bs "PTRACE_EVENT_STOP"))] |}.
Example ex_events_ok : events_ok ptrace_events.
Proof.
  split; [repeat constructor; discriminate|split; [split|]].
  - intros v s H. cbn -[bs] in H. repeat (destruct H as [H|H]; [inversion H; subst; clear H; split; [intros X; vm_compute in X; intuition discriminate|];
      eexists; eexists; split; [vm_compute; reflexivity|unfold digit_like; lia]|]). contradiction.
  - intros v1 v2 s H1 H2. cbn -[bs] in H1, H2.
    repeat (destruct H1 as [H1|H1]; [inversion H1; subst; clear H1; repeat (destruct H2 as [H2|H2]; [vm_compute in H2; inversion H2; reflexivity|]); contradiction|]).
    contradiction.
  - intros v s H. unfold named in H. cbn -[bs] in H. repeat (destruct H as [H|H]; [inversion H; subst; intros X; vm_compute in X; intuition discriminate|]). contradiction.
Qed.
Example ex_stop : fst (printstatus generic_sigs ptrace_events XABBREV 0x4057f) = bs "[{WIFSTOPPED(s) && WSTOPSIG(s) == SIGTRAP}|PTRACE_EVENT_EXEC<<16]".
Proof. reflexivity. Qed.
Example ex_core : printstatus generic_sigs ptrace_events XABBREV 0x128b = (bs "[{WIFSIGNALED(s) && WTERMSIG(s) == SIGSEGV && WCOREDUMP(s)}|0x1200]", false).
Proof. reflexivity. Qed.

(** ** The names of signals *)
(** What a signal is called: its name in the table; SIGRT_n for the n-th real-time
    signal, both ends included; otherwise (and for 0) its number. *)
Inductive called (g : sigcfg) (sig : N) : list N -> Prop :=
| called_table s : sig <> 0 -> nth_error (signalent g) (N.to_nat sig) = Some s -> called g sig s
| called_rt hi : sig <> 0 -> nth_error (signalent g) (N.to_nat sig) = None -> rtmax g = Some hi ->
    rtmin g <= sig <= hi -> called g sig (bs "SIGRT_" ++ pr_num 10 (sig - rtmin g))
| called_number : sig = 0 \/ nth_error (signalent g) (N.to_nat sig) = None /\
    (forall hi, rtmax g = Some hi -> ~ rtmin g <= sig <= hi) -> called g sig (pr_num 10 sig).
Theorem C55_signal_name : forall g sig s, sprintsigname g sig = s <-> called g sig s.
Proof.
  assert (F : forall g sig, called g sig (sprintsigname g sig)).
  { intros g sig. unfold sprintsigname, signame. destruct (N.eqb_spec sig 0) as [Z|Z]; [apply called_number; auto|].
    destruct (N.ltb_spec sig (N.of_nat (length (signalent g)))) as [L|L].
    - destruct (nth_error (signalent g) (N.to_nat sig)) as [s|] eqn:E; [apply called_table; assumption|].
      apply nth_error_None in E. lia.
    - assert (E : nth_error (signalent g) (N.to_nat sig) = None) by (apply nth_error_None; lia).
      destruct (rtmax g) as [hi|] eqn:ER.
      + destruct (N.leb_spec (rtmin g) sig); destruct (N.leb_spec sig hi); cbn [andb];
          try (apply called_number; right; split; [exact E|intros hi' X; assert (hi' = hi) by congruence; lia]).
        eapply called_rt; eauto.
      + apply called_number. right. split; [exact E|]. intros hi X. congruence. }
  assert (U : forall g sig a b, called g sig a -> called g sig b -> a = b).
  { intros g sig a b HA HB. destruct HA as [s Z E|hi Z E R HR|H]; destruct HB as [s' Z' E'|hi' Z' E' R' HR'|H'];
      try reflexivity; try congruence; try (destruct H as [H|[H H0]]; try congruence); try (destruct H' as [H'|[H' H1]]; try congruence).
    - exfalso. apply (H1 hi); assumption.
    - exfalso. apply (H0 hi'); assumption. }
  intros g sig s. split; [intros <-; apply F|]. intros H. eapply U; [apply F|exact H].
Qed.
Print Assumptions C55_signal_name.
(** Different signals are called differently, if the table's names are different and
    none of them looks like SIGRT_n or begins with a digit. *)
Theorem C55_signal_distinct : forall g,
  NoDup (signalent g) ->
  (forall i s, nth_error (signalent g) i = Some s -> i <> O -> firstn 6 s <> bs "SIGRT_" /\ ~ 48 <= hd 0 s <= 57) ->
  forall a b, sprintsigname g a = sprintsigname g b -> a = b.
Proof.
  intros g ND NM a b E.
  pose proof (proj1 (C55_signal_name g a _) eq_refl) as HA. pose proof (proj1 (C55_signal_name g b _) eq_refl) as HB.
  rewrite <- E in HB. remember (sprintsigname g a) as s eqn:Es. clear Es E.
  assert (PI : forall x y, pr_num 10 x = pr_num 10 y -> x = y) by (intros x y; apply pr_num_inj; lia).
  assert (HD : forall x, 48 <= hd 0 (pr_num 10 x) <= 57).
  { intros x. destruct (pr_num_head 10 x) as (c & r & -> & Hc); [lia|]. exact Hc. }
  assert (TT : forall x i, nth_error (signalent g) (N.to_nat x) = Some (bs "SIGRT_" ++ pr_num 10 i) -> x <> 0 -> False).
  { intros x i H Z. destruct (NM _ _ H) as [C _]; [lia|]. apply C. reflexivity. }
  assert (TN : forall x i, nth_error (signalent g) (N.to_nat x) = Some (pr_num 10 i) -> x <> 0 -> False).
  { intros x i H Z. destruct (NM _ _ H) as [_ C]; [lia|]. apply C. apply HD. }
  inversion HA as [s1 Z1 E1 Q1|hi1 Z1 E1 R1 HR1 Q1|H1 Q1]; subst; inversion HB as [s2 Z2 E2 Q2|hi2 Z2 E2 R2 HR2 Q2|H2 Q2]; subst.
  - apply N2Nat.inj. eapply (proj1 (NoDup_nth_error _) ND); [apply nth_error_Some; congruence|congruence].
  - exfalso. eapply TT; eauto.
  - exfalso. eapply TN; eauto.
  - exfalso. eapply TT; eauto.
  - assert (X : pr_num 10 (b - rtmin g) = pr_num 10 (a - rtmin g)) by exact Q2. apply PI in X. lia.
  - exfalso. pose proof (HD b) as C. rewrite Q2 in C. cbn in C. lia.
  - exfalso. eapply TN; eauto.
  - exfalso. pose proof (HD a) as C. rewrite <- Q2 in C. cbn in C. lia.
  - symmetry. apply PI. exact Q2.
Qed.
Print Assumptions C55_signal_distinct.
Example ex_signal_distinct : NoDup (signalent generic_sigs) /\
  sprintsigname generic_sigs 64 = bs "SIGRT_32" /\ sprintsigname generic_sigs 65 = bs "65" /\ sprintsigname generic_sigs 15 = bs "SIGTERM".
Proof.
  split; [|vm_compute; auto].
  assert (G : forall l : list (list N), (fix nd (l : list (list N)) : bool := match l with [] => true | x :: r => negb (existsb (beqs x) r) && nd r end) l = true -> NoDup l).
  { induction l as [|x r IH]; intros H; constructor; apply andb_true_iff in H as [H1 H2].
    - intros C. apply negb_true_iff in H1. assert (existsb (beqs x) r = true); [|congruence]. apply existsb_exists. exists x. split; [exact C|apply beqs_refl].
    - apply IH. exact H2. }
  apply G. vm_compute. reflexivity.
Qed.
