From Verif Require Import Base SeccompModel SeccompSpec.
Local Open Scope N_scope.

Lemma exec_mono f l a x nr arch v f' : exec f l a x nr arch = Some v -> (f <= f')%nat ->
  exec f' l a x nr arch = Some v.
Proof.
  revert l a x f'; induction f as [|f IH]; intros l a x f' H Hf; [discriminate|].
  destruct f' as [|f']; [lia|]. simpl in *. destruct l as [|i r]; [discriminate|].
  assert (Hf' : (f <= f')%nat) by lia.
  destruct (op i); try (eapply IH; eassumption); auto.
  - destruct (k i =? OFF_NR); [eapply IH; eassumption|]. destruct (k i =? OFF_ARCH); [eapply IH; eassumption|auto].
  - destruct (x <? 32); [eapply IH; eassumption|auto].
Qed.

Section Bpf.
Variables nr arch : N.
Definition ex (l : list insn) (a x v : N) : Prop := exec (length l) l a x nr arch = Some v.

Lemma ex_skip off i r a x v a' x' :
  ex (skipn off r) a x v ->
  (forall f, exec (S f) (i :: r) a' x' nr arch = exec f (skipn off r) a x nr arch) ->
  ex (i :: r) a' x' v.
Proof.
  unfold ex. intros H E. cbn [length]. rewrite E. eapply exec_mono; [exact H|].
  rewrite skipn_length. lia.
Qed.

Lemma ex_ret kk r a x : ex (stmt RET kk :: r) a x kk.
Proof. reflexivity. Qed.
Lemma ex_ld_nr r a x v : ex r nr x v -> ex (stmt LD_ABS OFF_NR :: r) a x v.
Proof. intros H. apply (ex_skip 0 _ r nr x); auto. Qed.
Lemma ex_ld_arch r a x v : ex r arch x v -> ex (stmt LD_ABS OFF_ARCH :: r) a x v.
Proof. intros H. apply (ex_skip 0 _ r arch x); auto. Qed.
Lemma ex_ld_imm kk r a x v : ex r kk x v -> ex (stmt LD_IMM kk :: r) a x v.
Proof. intros H. apply (ex_skip 0 _ r kk x); auto. Qed.
Lemma ex_and kk r a x v : ex r (N.land a kk) x v -> ex (stmt AND_K kk :: r) a x v.
Proof. intros H. apply (ex_skip 0 _ r (N.land a kk) x); auto. Qed.
Lemma ex_rsh kk r a x v : ex r (N.shiftr a kk) x v -> ex (stmt RSH_K kk :: r) a x v.
Proof. intros H. apply (ex_skip 0 _ r (N.shiftr a kk) x); auto. Qed.
Lemma ex_tax kk r a x v : ex r a a v -> ex (stmt TAX kk :: r) a x v.
Proof. intros H. apply (ex_skip 0 _ r a a); auto. Qed.
Lemma ex_txa kk r a x v : ex r x x v -> ex (stmt TXA kk :: r) a x v.
Proof. intros H. apply (ex_skip 0 _ r x x); auto. Qed.
Lemma ex_lsh kk r a x v : x < 32 -> ex r (u32 (N.shiftl a x)) x v -> ex (stmt LSH_X kk :: r) a x v.
Proof.
  intros Hx H. apply (ex_skip 0 _ r (u32 (N.shiftl a x)) x); auto. intros f. simpl.
  replace (x <? 32) with true by lia. reflexivity.
Qed.
Lemma ex_jeq kk t f r a x v : ex (skipn (N.to_nat (if a =? kk then t else f)) r) a x v ->
  ex (jump JEQ kk t f :: r) a x v.
Proof. intros H. eapply ex_skip; [exact H|]. reflexivity. Qed.
Lemma ex_jge kk t f r a x v : ex (skipn (N.to_nat (if kk <=? a then t else f)) r) a x v ->
  ex (jump JGE kk t f :: r) a x v.
Proof. intros H. eapply ex_skip; [exact H|]. reflexivity. Qed.
Lemma ex_jset kk t f r a x v : ex (skipn (N.to_nat (if N.land a kk =? 0 then f else t)) r) a x v ->
  ex (jump JSET kk t f :: r) a x v.
Proof. intros H. eapply ex_skip; [exact H|]. reflexivity. Qed.
Lemma ex_ja kk t f r a x v : ex (skipn (N.to_nat kk) r) a x v ->
  ex (jump JA kk t f :: r) a x v.
Proof. intros H. eapply ex_skip; [exact H|]. reflexivity. Qed.

Lemma patch_length b tl : length (patch b tl) = length b.
Proof. induction b; simpl; auto. Qed.

(** where the patched jumps lead; [tail] ends with RET ALLOW, RET TRACE *)
Definition good_tail (tail : list insn) : Prop :=
  exists t0, tail = t0 ++ [stmt RET RET_ALLOW; stmt RET RET_TRACE].

Lemma skipn_exact {A} (l r : list A) n : n = length l -> skipn n (l ++ r) = r.
Proof. intros ->. rewrite skipn_app, skipn_all, Nat.sub_diag. reflexivity. Qed.

Lemma go_next b tail rest a x v : ex rest a x v ->
  ex (skipn (length b + length tail) (patch b (length tail) ++ tail ++ rest)) a x v.
Proof.
  intros H. rewrite app_assoc, skipn_exact; auto. rewrite app_length, patch_length. reflexivity.
Qed.
Lemma go_trace b tail rest a x : good_tail tail ->
  ex (skipn (length b + length tail - 1) (patch b (length tail) ++ tail ++ rest)) a x RET_TRACE.
Proof.
  intros [t0 ->].
  set (tl := length (t0 ++ [stmt RET RET_ALLOW; stmt RET RET_TRACE])).
  replace (patch b tl ++ (t0 ++ [stmt RET RET_ALLOW; stmt RET RET_TRACE]) ++ rest)
    with ((patch b tl ++ t0 ++ [stmt RET RET_ALLOW]) ++ stmt RET RET_TRACE :: rest).
  2:{ rewrite <- !app_assoc. reflexivity. }
  rewrite skipn_exact; [apply ex_ret|].
  subst tl. rewrite !app_length, patch_length. simpl. lia.
Qed.
Lemma go_allow b tail rest a x : good_tail tail ->
  ex (skipn (length b + length tail - 2) (patch b (length tail) ++ tail ++ rest)) a x RET_ALLOW.
Proof.
  intros [t0 ->].
  set (tl := length (t0 ++ [stmt RET RET_ALLOW; stmt RET RET_TRACE])).
  replace (patch b tl ++ (t0 ++ [stmt RET RET_ALLOW; stmt RET RET_TRACE]) ++ rest)
    with ((patch b tl ++ t0) ++ stmt RET RET_ALLOW :: stmt RET RET_TRACE :: rest).
  2:{ rewrite <- !app_assoc. reflexivity. }
  rewrite skipn_exact; [apply ex_ret|].
  subst tl. rewrite !app_length, patch_length. simpl. lia.
Qed.

Lemma tail_len tail : good_tail tail -> (2 <= length tail)%nat.
Proof. intros [t0 ->]. rewrite app_length. simpl. lia. Qed.

(** section code: patched [b], then [tail], then [rest] *)
Section Sec.
Variables (tail rest : list insn).
Hypothesis GT : good_tail tail.
Definition sec (b : list insn) : list insn := patch b (length tail) ++ tail ++ rest.
Definition fits (b : list insn) : Prop := (length b + length tail <= 255)%nat.

Lemma off_next r : fits r -> N.to_nat (u8 (N.of_nat (length r + length tail))) = (length r + length tail)%nat.
Proof. unfold fits, u8. intros H. rewrite N.mod_small by lia. lia. Qed.
Lemma off_trace r : fits r ->
  N.to_nat (u8 (N.of_nat (length r + length tail) + 256 - 1)) = (length r + length tail - 1)%nat.
Proof.
  unfold fits, u8. intros H. pose proof (tail_len _ GT).
  replace (N.of_nat (length r + length tail) + 256 - 1) with (N.of_nat (length r + length tail - 1) + 1 * 2^8) by lia.
  rewrite N.mod_add by lia. rewrite N.mod_small by lia. lia.
Qed.
Lemma off_allow r : fits r ->
  N.to_nat (u8 (N.of_nat (length r + length tail) + 256 - 2)) = (length r + length tail - 2)%nat.
Proof.
  unfold fits, u8. intros H. pose proof (tail_len _ GT).
  replace (N.of_nat (length r + length tail) + 256 - 2) with (N.of_nat (length r + length tail - 2) + 1 * 2^8) by lia.
  rewrite N.mod_add by lia. rewrite N.mod_small by lia. lia.
Qed.

Lemma sec_stmt o kk r : is_jmp o = false -> sec (stmt o kk :: r) = stmt o kk :: sec r.
Proof. intros H. unfold sec. cbn [patch]. unfold patch1. cbn [op stmt]. rewrite H. reflexivity. Qed.

Lemma sec_jmp o kk t f r : is_jmp o = true -> o <> JA ->
  sec (jump o kk t f :: r) =
  jump o kk (replace_ph t (u8 (N.of_nat (length r + length tail))) (u8 (N.of_nat (length r + length tail) + 256 - 1))
               (u8 (N.of_nat (length r + length tail) + 256 - 2)))
            (replace_ph f (u8 (N.of_nat (length r + length tail))) (u8 (N.of_nat (length r + length tail) + 256 - 1))
               (u8 (N.of_nat (length r + length tail) + 256 - 2))) :: sec r.
Proof.
  intros H Hj. unfold sec. cbn [patch]. unfold patch1. cbn [op jump jt jf k]. rewrite H. 
  destruct o; try discriminate; try congruence; reflexivity.
Qed.

Lemma sec_jeq_trace kk r a x v : fits (jump JEQ kk PH_TRACE 0 :: r) ->
  (if a =? kk then v = RET_TRACE else ex (sec r) a x v) ->
  ex (sec (jump JEQ kk PH_TRACE 0 :: r)) a x v.
Proof.
  intros HF H. rewrite sec_jmp by (auto; discriminate).
  assert (HF' : fits r) by (unfold fits in *; cbn [length] in HF; lia).
  apply ex_jeq. destruct (a =? kk).
  - subst v. change (replace_ph PH_TRACE ?a ?b ?c) with b. rewrite off_trace by auto. apply go_trace; auto.
  - exact H.
Qed.
Lemma sec_jeq_allow kk r a x v : fits (jump JEQ kk PH_ALLOW 0 :: r) ->
  (if a =? kk then v = RET_ALLOW else ex (sec r) a x v) ->
  ex (sec (jump JEQ kk PH_ALLOW 0 :: r)) a x v.
Proof.
  intros HF H. rewrite sec_jmp by (auto; discriminate).
  assert (HF' : fits r) by (unfold fits in *; cbn [length] in HF; lia).
  apply ex_jeq. destruct (a =? kk).
  - subst v. change (replace_ph PH_ALLOW ?a ?b ?c) with c. rewrite off_allow by auto. apply go_allow; auto.
  - exact H.
Qed.
Lemma sec_jeq_next kk r a x v : fits (jump JEQ kk 0 PH_NEXT :: r) ->
  (if a =? kk then ex (sec r) a x v else ex rest a x v) ->
  ex (sec (jump JEQ kk 0 PH_NEXT :: r)) a x v.
Proof.
  intros HF H. rewrite sec_jmp by (auto; discriminate).
  assert (HF' : fits r) by (unfold fits in *; cbn [length] in HF; lia).
  apply ex_jeq. destruct (a =? kk).
  - exact H.
  - change (replace_ph PH_NEXT ?a ?b ?c) with a. rewrite off_next by auto. apply go_next; auto.
Qed.

(** [lower, upper) comparison *)
Lemma sec_cmp lower upper r x v : fits (bpf_syscalls_cmp lower upper ++ r) -> lower < upper ->
  (if (lower <=? nr) && (nr <? upper) then v = RET_TRACE else ex (sec r) nr x v) ->
  ex (sec (bpf_syscalls_cmp lower upper ++ r)) nr x v.
Proof.
  unfold bpf_syscalls_cmp. intros HF Hlt H. destruct (N.eqb_spec (lower + 1) upper) as [He|He]; cbn [app] in *.
  - apply sec_jeq_trace; auto.
    destruct (N.eqb_spec nr lower) as [->|Hn].
    + replace (lower <=? lower) with true in H by lia. replace (lower <? upper) with true in H by lia. exact H.
    + replace ((lower <=? nr) && (nr <? upper)) with false in H by lia. exact H.
  - rewrite sec_jmp by (auto; discriminate). apply ex_jge.
    assert (HF' : fits r) by (unfold fits in *; cbn [length] in HF; lia).
    destruct (N.leb_spec lower nr) as [Hl|Hl].
    + cbn [andb] in H. change (skipn (N.to_nat (replace_ph 0 ?a ?b ?c)) ?l) with l.
      rewrite sec_jmp by (auto; discriminate). apply ex_jge.
      destruct (N.leb_spec upper nr) as [Hu|Hu].
      * replace (nr <? upper) with false in H by lia. exact H.
      * replace (nr <? upper) with true in H by lia. subst v.
        change (replace_ph PH_TRACE ?a ?b ?c) with b. rewrite off_trace by auto. apply go_trace; auto.
    + cbn [andb] in H. change (skipn (N.to_nat (replace_ph 1 ?a ?b ?c)) ?l) with (skipn 1 l).
      rewrite sec_jmp by (auto; discriminate). exact H.
Qed.
End Sec.
End Bpf.

Arguments fits : clear implicits.

(** ---- the table loop of the linear generator ---- *)
Definition mem (tr : list bool) (d : N) : bool :=
  match nth_error tr (N.to_nat d) with Some b => b | None => false end.

Lemma mem_cons b tr d : mem (b :: tr) d = if d =? 0 then b else mem tr (d - 1).
Proof.
  unfold mem. destruct (N.eqb_spec d 0) as [->|]; [reflexivity|].
  replace (N.to_nat d) with (S (N.to_nat (d - 1))) by lia. reflexivity.
Qed.
Lemma mem_nil d : mem [] d = false.
Proof. unfold mem. destruct (N.to_nat d); reflexivity. Qed.

Definition hit (flag : N) (tr : list bool) (i : N) (lower : option N) (nr : N) : bool :=
  (match lower with Some lo => (lo + flag <=? nr) && (nr <? i + flag) | None => false end)
  || ((i + flag <=? nr) && mem tr (nr - (i + flag))).

Definition flag_ok (flag bound : N) : Prop := flag = 0 \/ exists e, flag = 2^e /\ bound < 2^e.

Lemma lor_flag flag bound i : flag_ok flag bound -> i <= bound -> N.lor i flag = i + flag.
Proof.
  intros [->|(e & -> & Hb)] Hi.
  - rewrite N.lor_0_r. lia.
  - rewrite <- N.lxor_lor. 
    + symmetry. apply N.add_nocarry_lxor.
      apply N.bits_inj. intros j. rewrite N.land_spec, N.bits_0.
      destruct (N.eq_dec j e) as [->|Hne].
      * rewrite <- (N.mod_small i (2^e)) by lia. rewrite N.mod_pow2_bits_high by lia. reflexivity.
      * rewrite N.pow2_bits_false by auto. apply andb_false_r.
    + apply N.bits_inj. intros j. rewrite N.land_spec, N.bits_0.
      destruct (N.eq_dec j e) as [->|Hne].
      * rewrite <- (N.mod_small i (2^e)) by lia. rewrite N.mod_pow2_bits_high by lia. reflexivity.
      * rewrite N.pow2_bits_false by auto. apply andb_false_r.
Qed.

Lemma cmp_loop_spec nr arch tail rest flag bound tr i lower x v : good_tail tail ->
  flag_ok flag bound -> i + N.of_nat (length tr) <= bound ->
  (forall lo, lower = Some lo -> lo < i) ->
  fits tail (cmp_loop flag tr i lower) ->
  (if hit flag tr i lower nr then v = RET_TRACE else ex nr arch (tail ++ rest) nr x v) ->
  ex nr arch (sec tail rest (cmp_loop flag tr i lower)) nr x v.
Proof.
  intros GT HFL. revert i lower; induction tr as [|b tr IH]; intros i lower Hi Hlo HF H.
  - cbn [cmp_loop] in *. destruct lower as [lo|].
    + specialize (Hlo lo eq_refl). cbn [length] in Hi.
      rewrite (lor_flag flag bound lo), (lor_flag flag bound i) in * by (auto; lia).
      rewrite <- (app_nil_r (bpf_syscalls_cmp _ _)) in *. apply sec_cmp; auto; [lia|].
      unfold hit in H. rewrite mem_nil, andb_false_r, orb_false_r in H. exact H.
    + unfold hit in H. rewrite mem_nil, andb_false_r in H. exact H.
  - cbn [length] in Hi.
    destruct b; cbn [cmp_loop] in *.
    + assert (EQ : hit flag (true :: tr) i lower nr =
                   hit flag tr (i + 1) (match lower with None => Some i | _ => lower end) nr).
      { unfold hit. rewrite mem_cons. destruct lower as [lo|]; [specialize (Hlo lo eq_refl)|].
        - destruct (N.ltb_spec nr (i + flag)) as [Hn|Hn].
          + replace (i + flag <=? nr) with false by lia. replace (i + 1 + flag <=? nr) with false by lia.
            replace (nr <? i + 1 + flag) with true by lia. reflexivity.
          + replace (lo + flag <=? nr) with true by lia. replace (i + flag <=? nr) with true by lia.
            destruct (N.eqb_spec (nr - (i + flag)) 0).
            * replace (nr <? i + 1 + flag) with true by lia. reflexivity.
            * replace (nr <? i + 1 + flag) with false by lia. replace (i + 1 + flag <=? nr) with true by lia.
              cbn. f_equal. lia.
        - destruct (N.leb_spec (i + flag) nr) as [Hn|Hn].
          + destruct (N.eqb_spec (nr - (i + flag)) 0).
            * replace (nr <? i + 1 + flag) with true by lia. reflexivity.
            * replace (nr <? i + 1 + flag) with false by lia. replace (i + 1 + flag <=? nr) with true by lia.
              cbn. f_equal. lia.
          + replace (i + 1 + flag <=? nr) with false by lia. reflexivity. }
      rewrite EQ in H. apply IH; auto; [lia|].
      intros lo. destruct lower as [lo'|]; intros E; inversion E; subst; [specialize (Hlo lo eq_refl)|]; lia.
    + destruct lower as [lo|].
      * specialize (Hlo lo eq_refl).
        rewrite (lor_flag flag bound lo), (lor_flag flag bound i) in * by (auto; lia).
        apply sec_cmp; auto; [lia|].
        assert (fits tail (cmp_loop flag tr (i + 1) None)) by (unfold fits in *; rewrite app_length in HF; lia).
        destruct ((lo + flag <=? nr) && (nr <? i + flag)) eqn:E1.
        -- unfold hit in H. rewrite E1 in H. exact H.
        -- apply IH; auto; [lia|discriminate|].
           replace (hit flag tr (i + 1) None nr) with (hit flag (false :: tr) i (Some lo) nr); auto.
           unfold hit. rewrite E1, mem_cons. cbn [orb].
           destruct (N.leb_spec (i + 1 + flag) nr).
           ++ replace (i + flag <=? nr) with true by lia. replace (nr - (i + flag) =? 0) with false by lia.
              cbn. f_equal. lia.
           ++ destruct (N.leb_spec (i + flag) nr); [|reflexivity].
              replace (nr - (i + flag) =? 0) with true by lia. reflexivity.
      * apply IH; auto; [lia|discriminate|].
        replace (hit flag tr (i + 1) None nr) with (hit flag (false :: tr) i None nr); auto.
        unfold hit. rewrite mem_cons. cbn [orb].
        destruct (N.leb_spec (i + 1 + flag) nr).
        -- replace (i + flag <=? nr) with true by lia. replace (nr - (i + flag) =? 0) with false by lia.
           cbn. f_equal. lia.
        -- destruct (N.leb_spec (i + flag) nr); [|reflexivity].
           replace (nr - (i + flag) =? 0) with true by lia. reflexivity.
Qed.

Lemma pers_flag_ok p : pers_ok p -> flag_ok (p_flag p) (N.of_nat (length (traced p))).
Proof. intros (_ & _ & [H|(e & _ & H1 & H2)]); [left|right; exists e]; auto. Qed.

Lemma linear_good_tail p : good_tail (linear_tail p).
Proof. exists [jump JGE (N.lor (N.of_nat (length (traced p))) (p_flag p)) 1 0]. reflexivity. Qed.
Lemma binary_good_tail p : good_tail (binary_tail p).
Proof. exists []. reflexivity. Qed.

Lemma mem_verdict oot p nr : p_flag p <= nr ->
  pers_verdict oot p nr = if nr - p_flag p <? N.of_nat (length (traced p))
       then (if mem (traced p) (nr - p_flag p) then RET_TRACE else RET_ALLOW) else oot.
Proof.
  intros H. unfold pers_verdict, mem. destruct (_ <? _); auto.
  destruct (nth_error _ _) as [[]|]; reflexivity.
Qed.
Lemma mem_out tr d : N.of_nat (length tr) <= d -> mem tr d = false.
Proof. intros H. unfold mem. rewrite (proj2 (nth_error_None tr (N.to_nat d))); auto. lia. Qed.

(** body of a section once nr is loaded and known to belong to the personality *)
Lemma linear_decide nr arch p rest x : pers_ok p -> p_flag p <= nr ->
  fits (linear_tail p) (cmp_loop (p_flag p) (traced p) 0 None) ->
  ex nr arch (sec (linear_tail p) rest (cmp_loop (p_flag p) (traced p) 0 None)) nr x
     (pers_verdict RET_TRACE p nr).
Proof.
  intros Hok Hnr HF. pose proof (pers_flag_ok _ Hok) as HFL.
  eapply cmp_loop_spec with (bound := N.of_nat (length (traced p))); eauto.
  - apply linear_good_tail.
  - lia.
  - discriminate.
  - unfold hit. cbn [orb]. rewrite N.add_0_l. replace (p_flag p <=? nr) with true by lia. cbn [andb].
    rewrite mem_verdict by auto.
    destruct (mem (traced p) (nr - p_flag p)) eqn:EM.
    + destruct (nr - p_flag p <? N.of_nat (length (traced p))) eqn:EL; reflexivity.
    + unfold linear_tail. cbn [app]. apply ex_jge.
      rewrite (lor_flag _ _ _ HFL) by lia.
      destruct (N.leb_spec (N.of_nat (length (traced p)) + p_flag p) nr).
      * replace (nr - p_flag p <? N.of_nat (length (traced p))) with false by lia. apply ex_ret.
      * replace (nr - p_flag p <? N.of_nat (length (traced p))) with true by lia. apply ex_ret.
Qed.

(** section head in the multi-personality case; [b] is the rest of the body *)
Lemma head_spec nr arch p tail rest b x v : good_tail tail ->
  fits tail (section_head true p ++ b) ->
  (if handles arch nr p then forall x', ex nr arch (sec tail rest b) nr x' v
   else forall x', ex nr arch rest arch x' v) ->
  ex nr arch (sec tail rest (section_head true p ++ b)) arch x v.
Proof.
  intros GT HF H. unfold section_head in *. cbn [andb app] in *.
  assert (G : forall kk t f r, fits tail (jump kk t f 0 :: r) -> fits tail r) by
    (intros; unfold fits in *; cbn [length] in *; lia).
  apply sec_jeq_next; auto.
  unfold handles in H. rewrite N.eqb_sym in H.
  destruct (arch =? p_arch p); [|apply H].
  cbn [andb] in H. rewrite sec_stmt by reflexivity. apply ex_ld_nr.
  destruct (p_flag p =? 0) eqn:E0; cbn [negb app].
  - replace (p_flag p <=? nr) with true in H by lia. apply H.
  - rewrite sec_jmp by (auto; discriminate). apply ex_jge.
    destruct (p_flag p <=? nr).
    + change (skipn (N.to_nat (replace_ph 2 ?a ?b ?c)) ?l) with (skipn 2 l).
      unfold sec. cbn [app patch skipn]. apply H.
    + change (skipn (N.to_nat (replace_ph 0 ?a ?b ?c)) ?l) with l.
      rewrite sec_stmt by reflexivity. apply ex_ld_arch.
      unfold sec. cbn [patch app]. unfold patch1. cbn [is_jmp op jump k]. 
      apply ex_ja. rewrite off_next. { apply go_next. apply H. }
      unfold fits in *. cbn [negb length app] in HF. lia.
Qed.

(** ---- binary generator ---- *)
Lemma not_jmp_fits tail i b : fits tail (i :: b) -> fits tail b.
Proof. unfold fits. cbn [length]. lia. Qed.

Lemma land_pow2 a e : (N.land (2^e) a =? 0) = negb (N.testbit a e).
Proof.
  destruct (N.testbit a e) eqn:E.
  - apply N.eqb_neq. intros H. assert (N.testbit (N.land (2^e) a) e = false) by (rewrite H; apply N.bits_0).
    rewrite N.land_spec, E, N.pow2_bits_true in H0. discriminate.
  - apply N.eqb_eq. apply N.bits_inj. intros j. rewrite N.land_spec, N.bits_0.
    destruct (N.eq_dec e j) as [<-|Hne]; [rewrite E; apply andb_false_r|].
    rewrite N.pow2_bits_false by auto. reflexivity.
Qed.

Lemma ones_testbit e : e < 32 -> N.testbit (2^32 - 1) e = true.
Proof.
  intros H. replace (2^32 - 1) with (N.ones 32) by reflexivity. apply N.ones_spec_low. auto.
Qed.

Lemma match_spec nr arch tail rest ba idx n r v : good_tail tail ->
  fits tail (bpf_syscalls_match ba idx ++ r) ->
  (if n / 32 =? idx then v = if N.testbit ba (n mod 32) then RET_TRACE else RET_ALLOW
   else ex nr arch (sec tail rest r) (n / 32) (2^(n mod 32)) v) ->
  ex nr arch (sec tail rest (bpf_syscalls_match ba idx ++ r)) (n / 32) (2^(n mod 32)) v.
Proof.
  intros GT HF H. unfold bpf_syscalls_match in *.
  assert (Hm : n mod 32 < 32) by (apply N.mod_lt; lia).
  destruct (N.eqb_spec ba 0) as [->|H0]; cbn [app] in *.
  { apply sec_jeq_allow; auto. }
  destruct (N.eqb_spec ba (2^32 - 1)) as [->|H1]; cbn [app] in *.
  { apply sec_jeq_trace; auto. destruct (n / 32 =? idx); auto. rewrite ones_testbit in H by auto. exact H. }
  rewrite sec_jmp by (auto; discriminate). apply ex_jeq.
  destruct (n / 32 =? idx).
  - change (skipn (N.to_nat (replace_ph 0 ?a ?b ?c)) ?l) with l.
    rewrite sec_stmt by reflexivity. apply ex_txa.
    rewrite sec_jmp by (auto; discriminate). apply ex_jset.
    assert (HF' : fits tail r) by (unfold fits in *; cbn [length] in HF; lia).
    rewrite land_pow2. subst v. destruct (N.testbit ba (n mod 32)); cbn [negb].
    + change (replace_ph PH_TRACE ?a ?b ?c) with b. rewrite off_trace by auto. apply go_trace; auto.
    + change (replace_ph PH_ALLOW ?a ?b ?c) with c. rewrite off_allow by auto. apply go_allow; auto.
  - change (skipn (N.to_nat (replace_ph 2 ?a ?b ?c)) ?l) with (skipn 2 l).
    rewrite sec_stmt by reflexivity. rewrite sec_jmp by (auto; discriminate). exact H.
Qed.

Lemma testbit_lt a e j : a < 2^e -> e <= j -> N.testbit a j = false.
Proof.
  intros Ha Hj. rewrite <- (N.mod_small a (2^e)) by auto. apply N.mod_pow2_bits_high. auto.
Qed.

Lemma match_loop_spec nr arch tail rest tr i ba n : good_tail tail ->
  (exists t0, tail = stmt RET RET_ALLOW :: t0) ->
  fits tail (match_loop tr i ba) ->
  32 * (i / 32) <= n -> ba < 2^(i mod 32) ->
  ex nr arch (sec tail rest (match_loop tr i ba)) (n / 32) (2^(n mod 32))
   (if (if n <? i then N.testbit ba (n mod 32) else mem tr (n - i)) then RET_TRACE else RET_ALLOW).
Proof.
  intros GT (t0 & HT). revert i ba; induction tr as [|b tr IH]; intros i ba HF Hn Hba.
  - cbn [match_loop] in *. rewrite mem_nil. destruct (N.eqb_spec (i mod 32) 0) as [E|E].
    + assert (ba = 0) by (rewrite E in Hba; change (2^0) with 1 in Hba; lia). subst ba.
      rewrite N.bits_0. replace (if n <? i then false else false) with false by (destruct (n <? i); reflexivity).
      unfold sec. cbn [patch app]. rewrite HT. cbn [app]. apply ex_ret.
    + rewrite <- (app_nil_r (bpf_syscalls_match _ _)) in *. apply match_spec; auto.
      destruct (N.eqb_spec (n / 32) (i / 32)) as [Ed|Ed].
      * destruct (N.ltb_spec n i) as [Hl|Hl]; [reflexivity|].
        rewrite (testbit_lt ba (i mod 32)); auto. 
        pose proof (N.div_mod n 32 ltac:(lia)). pose proof (N.div_mod i 32 ltac:(lia)). lia.
      * assert (i <= n).
        { pose proof (N.div_mod n 32 ltac:(lia)). pose proof (N.div_mod i 32 ltac:(lia)).
          pose proof (N.mod_lt n 32 ltac:(lia)). pose proof (N.mod_lt i 32 ltac:(lia)).
          assert (i / 32 <= n / 32) by (apply N.div_le_lower_bound; lia). lia. }
        replace (n <? i) with false by lia.
        unfold sec. cbn [patch app]. rewrite HT. cbn [app]. apply ex_ret.
  - cbn [match_loop] in *.
    set (ba' := if b then N.lor ba (N.shiftl 1 (i mod 32)) else ba) in *.
    assert (Hi32 : i mod 32 < 32) by (apply N.mod_lt; lia).
    assert (Hba' : ba' < 2^(i mod 32 + 1)).
    { subst ba'. rewrite N.add_1_r, N.pow_succ_r'. destruct b; [|lia].
      rewrite N.shiftl_1_l. 
      destruct (N.eq_dec (N.lor ba (2^(i mod 32))) 0) as [->|Hz]; [lia|].
      rewrite <- N.pow_succ_r'. apply N.log2_lt_pow2; [lia|]. rewrite N.log2_lor, N.log2_pow2 by lia.
      destruct (N.eq_dec ba 0) as [->|]; [simpl; lia|]. apply N.log2_lt_pow2 in Hba; lia. }
    assert (Hbit : N.testbit ba' (i mod 32) = b).
    { subst ba'. destruct b; [rewrite N.lor_spec, N.shiftl_1_l, N.pow2_bits_true; apply orb_true_r|].
      apply (testbit_lt ba (i mod 32)); auto. lia. }
    assert (Hother : forall j, j <> i mod 32 -> N.testbit ba' j = N.testbit ba j).
    { intros j Hj. subst ba'. destruct b; auto. rewrite N.lor_spec, N.shiftl_1_l, N.pow2_bits_false by auto.
      apply orb_false_r. }
    pose proof (N.div_mod n 32 ltac:(lia)) as Dn. pose proof (N.div_mod i 32 ltac:(lia)) as Di.
    pose proof (N.mod_lt n 32 ltac:(lia)) as Mn.
    (* value at n in terms of ba' *)
    assert (VAL : n / 32 = i / 32 -> n <= i ->
       (if n <? i then N.testbit ba (n mod 32) else mem (b :: tr) (n - i)) = N.testbit ba' (n mod 32)).
    { intros Hd Hle. destruct (N.ltb_spec n i) as [Hl|Hl].
      - symmetry. apply Hother. lia.
      - assert (n = i) by lia. subst n. rewrite mem_cons. replace (i - i =? 0) with true by lia. auto. }
    assert (VAL2 : i < n -> (if n <? i then N.testbit ba (n mod 32) else mem (b :: tr) (n - i)) = mem tr (n - (i + 1))).
    { intros Hl. replace (n <? i) with false by lia. rewrite mem_cons. replace (n - i =? 0) with false by lia.
      f_equal. lia. }
    destruct (N.eqb_spec (i mod 32) 31) as [E31|E31].
    + apply match_spec; auto.
      destruct (N.eqb_spec (n / 32) (i / 32)) as [Hd|Hd].
      * assert (n <= i) by lia. rewrite VAL; auto.
      * assert (i < n).
        { assert (i / 32 <= n / 32) by (apply N.div_le_lower_bound; lia). lia. }
        rewrite VAL2 by auto. 
        assert (Ediv : (i + 1) / 32 = i / 32 + 1).
        { symmetry. apply (N.div_unique (i+1) 32 (i / 32 + 1) 0); lia. }
        assert (Emod : (i + 1) mod 32 = 0).
        { symmetry. apply (N.mod_unique (i+1) 32 (i / 32 + 1) 0); lia. }
        assert (HX := IH (i + 1) 0).
        replace (n <? i + 1) with false in HX by lia. apply HX.
        -- unfold fits in *. rewrite app_length in HF. lia.
        -- rewrite Ediv. assert (i / 32 <= n / 32) by (apply N.div_le_lower_bound; lia). lia.
        -- rewrite Emod. simpl. lia.
    + assert (Ediv : (i + 1) / 32 = i / 32).
      { symmetry. apply (N.div_unique (i+1) 32 (i / 32) (i mod 32 + 1)); lia. }
      assert (Emod : (i + 1) mod 32 = i mod 32 + 1).
      { symmetry. apply (N.mod_unique (i+1) 32 (i / 32) (i mod 32 + 1)); lia. }
      assert (HX := IH (i + 1) ba' HF). rewrite Ediv, Emod in HX. specialize (HX Hn Hba').
      destruct (N.ltb_spec i n) as [Hl|Hl].
      * rewrite VAL2 by auto. replace (n <? i + 1) with false in HX by lia. exact HX.
      * replace (n <? i + 1) with true in HX by lia.
        assert (Hd : n / 32 = i / 32).
        { assert (i / 32 <= n / 32) by (apply N.div_le_lower_bound; lia).
          assert (n / 32 <= i / 32) by (apply N.div_le_mono; lia). lia. }
        rewrite VAL by auto. exact HX.
Qed.

Lemma land_not32 nr e : e < 32 -> nr < 2^32 -> 
  N.land nr (not32 (2^e)) = if N.testbit nr e then nr - 2^e else nr.
Proof.
  intros He Hnr. unfold not32.
  assert (B : forall j, N.testbit (N.land nr (N.lxor (2^e) (2^32 - 1))) j = N.testbit nr j && negb (j =? e)).
  { intros j. rewrite N.land_spec, N.lxor_spec. destruct (N.ltb_spec j 32) as [Hj|Hj].
    - rewrite ones_testbit by auto. destruct (N.eqb_spec j e) as [->|Hne].
      + rewrite N.pow2_bits_true. reflexivity.
      + rewrite N.pow2_bits_false by auto. reflexivity.
    - rewrite (testbit_lt nr 32) by auto. reflexivity. }
  destruct (N.testbit nr e) eqn:E.
  - assert (P : nr = N.lor (N.land nr (N.lxor (2^e) (2^32-1))) (2^e)).
    { apply N.bits_inj. intros j. rewrite N.lor_spec, B. destruct (N.eqb_spec j e) as [->|Hne].
      - rewrite N.pow2_bits_true, E. reflexivity.
      - rewrite N.pow2_bits_false by auto. rewrite andb_true_r, orb_false_r. reflexivity. }
    assert (D : N.land (N.land nr (N.lxor (2^e) (2^32-1))) (2^e) = 0).
    { apply N.bits_inj. intros j. rewrite N.land_spec, B, N.bits_0. destruct (N.eqb_spec j e) as [->|Hne].
      - rewrite andb_false_r. reflexivity.
      - rewrite N.pow2_bits_false by auto. apply andb_false_r. }
    rewrite <- N.lxor_lor in P by auto. rewrite <- N.add_nocarry_lxor in P by auto. lia.
  - apply N.bits_inj. intros j. rewrite B. destruct (N.eqb_spec j e) as [->|Hne]; [rewrite E; reflexivity|].
    apply andb_true_r.
Qed.

(** nr reduced by the mask decides exactly as nr - flag *)
Lemma masked_verdict p nr : pers_ok p -> p_flag p <= nr -> nr < 2^32 ->
  let n := if p_flag p =? 0 then nr else N.land nr (not32 (p_flag p)) in
  (if mem (traced p) n then RET_TRACE else RET_ALLOW) = pers_verdict RET_ALLOW p nr.
Proof.
  intros Hok Hnr H32 n. rewrite mem_verdict by auto.
  assert (HN : n = nr - p_flag p \/ (N.of_nat (length (traced p)) <= n /\ N.of_nat (length (traced p)) <= nr - p_flag p)).
  { subst n. destruct Hok as (_ & _ & [H|(e & He & H1 & H2)]).
    - rewrite H. left. simpl. lia.
    - rewrite H1. replace (2^e =? 0) with false by lia.
      rewrite land_not32 by lia. destruct (N.testbit nr e) eqn:E; [auto|]. right.
      rewrite H1 in Hnr. split; [lia|].
      (* nr >= 2^e with bit e clear: nr >= 2^(e+1) *)
      assert (2^(e+1) <= nr).
      { apply N.nlt_ge. intros Hlt. 
        assert (T : N.testbit nr e = true).
        { apply N.testbit_true. 
          assert (nr / 2^e = 1).
          { symmetry. apply (N.div_unique nr (2^e) 1 (nr - 2^e)); [|lia].
            rewrite N.add_1_r, N.pow_succ_r' in Hlt. lia. }
          rewrite H. reflexivity. }
        congruence. }
      rewrite N.add_1_r, N.pow_succ_r' in H. lia. }
  destruct HN as [->|[Ha Hb]].
  - destruct (nr - p_flag p <? N.of_nat (length (traced p))) eqn:EL; auto.
    rewrite mem_out by lia. reflexivity.
  - rewrite mem_out by auto. replace (_ <? _) with false by lia. reflexivity.
Qed.

Lemma shl1_mod n : u32 (N.shiftl 1 (n mod 32)) = 2^(n mod 32).
Proof.
  rewrite N.shiftl_1_l. unfold u32. apply N.mod_small. apply N.pow_lt_mono_r; [lia|]. apply N.mod_lt. lia.
Qed.
Lemma land31 n : N.land n 31 = n mod 32.
Proof. change 31 with (N.ones 5). rewrite N.land_ones. reflexivity. Qed.
Lemma shr5 n : N.shiftr n 5 = n / 32.
Proof. rewrite N.shiftr_div_pow2. reflexivity. Qed.

Definition bin_rest (p : pers) : list insn :=
  [stmt AND_K 31; stmt TAX 0; stmt LD_IMM 1; stmt LSH_X 0; stmt TAX 0; stmt LD_ABS OFF_NR] ++
  (if negb (p_flag p =? 0) then [stmt AND_K (not32 (p_flag p))] else []) ++
  [stmt RSH_K 5] ++ match_loop (traced p) 0 0.

Lemma bin_rest_spec nr arch p rest x a : pers_ok p -> p_flag p <= nr -> nr < 2^32 ->
  fits (binary_tail p) (bin_rest p) ->
  a mod 32 = (if p_flag p =? 0 then nr else N.land nr (not32 (p_flag p))) mod 32 ->
  ex nr arch (sec (binary_tail p) rest (bin_rest p)) a x (pers_verdict RET_ALLOW p nr).
Proof.
  intros Hok Hnr H32 HF Ha. unfold bin_rest in *. cbn [app] in *.
  rewrite !sec_stmt by reflexivity.
  apply ex_and, ex_tax, ex_ld_imm. rewrite land31.
  apply ex_lsh; [apply N.mod_lt; lia|]. rewrite shl1_mod. apply ex_tax, ex_ld_nr.
  rewrite <- masked_verdict by auto. cbv zeta. rewrite Ha.
  assert (FITS : fits (binary_tail p) (match_loop (traced p) 0 0)).
  { unfold fits in *. cbn [length] in HF. rewrite !app_length in HF.
    cbn [length] in HF. lia. }
  destruct (p_flag p =? 0) eqn:E0; cbn [negb app].
  - rewrite sec_stmt by reflexivity. apply ex_rsh. rewrite shr5.
    assert (HX := match_loop_spec nr arch (binary_tail p) rest (traced p) 0 0 nr (binary_good_tail p)
                   (ex_intro _ _ eq_refl) FITS).
    replace (nr <? 0) with false in HX by lia. rewrite N.sub_0_r in HX. apply HX; simpl; lia.
  - rewrite !sec_stmt by reflexivity. apply ex_and, ex_rsh. rewrite shr5.
    set (n := N.land nr (not32 (p_flag p))).
    assert (HX := match_loop_spec nr arch (binary_tail p) rest (traced p) 0 0 n (binary_good_tail p)
                   (ex_intro _ _ eq_refl) FITS).
    replace (n <? 0) with false in HX by lia. rewrite N.sub_0_r in HX. apply HX; simpl; lia.
Qed.

(** ---- whole programs ---- *)
Lemma sections_spec nr arch oot body tail ps l final :
  Forall pers_ok ps -> nr < 2^32 ->
  (forall p, good_tail (tail p)) ->
  (forall p rest x v, pers_ok p -> fits (tail p) (body p) ->
     (if handles arch nr p then v = pers_verdict oot p nr else forall x', ex nr arch rest arch x' v) ->
     ex nr arch (sec (tail p) rest (body p)) arch x v) ->
  gen_sections body tail ps = Some l ->
  (forall x, ex nr arch final arch x RET_TRACE) ->
  forall x, ex nr arch (l ++ final) arch x
    (match find (handles arch nr) ps with Some p => pers_verdict oot p nr | None => RET_TRACE end).
Proof.
  intros HP H32 GT HS. revert l; induction ps as [|p ps IH]; intros l HG HFin x; cbn [gen_sections] in HG.
  - inversion HG; subst l. simpl. apply HFin.
  - destruct (Nat.ltb 255 (length (body p) + length (tail p))) eqn:EF; [discriminate|].
    destruct (gen_sections body tail ps) as [l'|] eqn:EG; [|discriminate]. inversion HG; subst l.
    inversion HP as [|? ? Hp HP']; subst.
    rewrite <- !app_assoc. change (patch ?b (length ?t) ++ ?t ++ ?r) with (sec t r b).
    apply HS; auto.
    + unfold fits. apply Nat.ltb_ge in EF. lia.
    + cbn [find]. destruct (handles arch nr p); [reflexivity|].
      intros x'. apply IH; auto.
Qed.

Lemma linear_section nr arch p rest x v : pers_ok p -> fits (linear_tail p) (linear_body true p) ->
  (if handles arch nr p then v = pers_verdict RET_TRACE p nr else forall x', ex nr arch rest arch x' v) ->
  ex nr arch (sec (linear_tail p) rest (linear_body true p)) arch x v.
Proof.
  intros Hok HF H. unfold linear_body in *. apply head_spec; auto; [apply linear_good_tail|].
  destruct (handles arch nr p) eqn:EH; auto. intros x'. subst v.
  unfold handles in EH. apply linear_decide; auto; [lia|].
  unfold fits in *. rewrite app_length in HF. lia.
Qed.

Lemma binary_section nr arch p rest x v : nr < 2^32 -> pers_ok p -> fits (binary_tail p) (binary_body true p) ->
  (if handles arch nr p then v = pers_verdict RET_ALLOW p nr else forall x', ex nr arch rest arch x' v) ->
  ex nr arch (sec (binary_tail p) rest (binary_body true p)) arch x v.
Proof.
  intros H32 Hok HF H. unfold binary_body in *. apply head_spec; auto; [apply binary_good_tail|].
  destruct (handles arch nr p) eqn:EH; auto. intros x'. subst v. unfold handles in EH.
  cbn [andb] in *.
  assert (HF2 : fits (binary_tail p) (bin_rest p)).
  { unfold fits, bin_rest in *. rewrite !app_length in *. cbn [length] in *. lia. }
  destruct (p_flag p =? 0) eqn:E0; cbn [negb] in *.
  - change ([] ++ ?l) with l.
    replace ([stmt AND_K 31; stmt TAX 0; stmt LD_IMM 1; stmt LSH_X 0; stmt TAX 0; stmt LD_ABS OFF_NR] ++
      [] ++ [stmt RSH_K 5] ++ match_loop (traced p) 0 0) with (bin_rest p).
    2:{ unfold bin_rest. rewrite E0. reflexivity. }
    apply bin_rest_spec; auto; [lia|]. rewrite E0. reflexivity.
  - assert (EB : bin_rest p = [stmt AND_K 31; stmt TAX 0; stmt LD_IMM 1; stmt LSH_X 0; stmt TAX 0; stmt LD_ABS OFF_NR] ++
      [stmt AND_K (not32 (p_flag p))] ++ [stmt RSH_K 5] ++ match_loop (traced p) 0 0).
    { unfold bin_rest. rewrite E0. reflexivity. }
    rewrite <- EB. change ([?i] ++ bin_rest p) with (i :: bin_rest p).
    rewrite sec_stmt by reflexivity. apply ex_and.
    apply bin_rest_spec; auto; [lia|]. rewrite E0. reflexivity.
Qed.

Lemma find_multi {A B} (f : list A -> B) (g h : B) (ps : list A) : (1 < length ps)%nat ->
  (match ps with [_] => g | _ => h end) = h.
Proof. destruct ps as [|a [|b ps]]; simpl; intros; auto; lia. Qed.

Lemma multi_case body tail oot ps l nr arch :
  (1 < length ps)%nat -> Forall pers_ok ps -> nr < 2^32 ->
  (forall p, good_tail (tail p)) ->
  (forall p rest x v, pers_ok p -> fits (tail p) (body p) ->
     (if handles arch nr p then v = pers_verdict oot p nr else forall x', ex nr arch rest arch x' v) ->
     ex nr arch (sec (tail p) rest (body p)) arch x v) ->
  gen_sections body tail (rev ps) = Some l ->
  run_bpf ([stmt LD_ABS OFF_ARCH] ++ l ++ [stmt RET RET_TRACE]) arch nr = Some (verdict oot ps arch nr).
Proof.
  intros Hm HP H32 GT HS HG. unfold run_bpf.
  change (ex nr arch ([stmt LD_ABS OFF_ARCH] ++ l ++ [stmt RET RET_TRACE]) 0 0 (verdict oot ps arch nr)).
  cbn [app]. apply ex_ld_arch. unfold verdict.
  assert (E : match ps with [p] => pers_verdict oot p nr
      | _ => match find (handles arch nr) (rev ps) with Some p => pers_verdict oot p nr | None => RET_TRACE end end
      = match find (handles arch nr) (rev ps) with Some p => pers_verdict oot p nr | None => RET_TRACE end).
  { destruct ps as [|a [|b ps]]; simpl in Hm; auto; lia. }
  rewrite E. eapply sections_spec; eauto.
  - apply Forall_rev. auto.
  - intros x. apply ex_ret.
Qed.

Lemma single_fits body tail p l : gen_sections body tail [p] = Some l ->
  fits (tail p) (body p) /\ l = sec (tail p) [] (body p).
Proof.
  cbn [gen_sections]. destruct (Nat.ltb 255 (length (body p) + length (tail p))) eqn:E; [discriminate|].
  intros H; inversion H; subst. split; [|reflexivity]. unfold fits. apply Nat.ltb_ge in E. lia.
Qed.

Lemma linear_correct ps prog arch nr : perss_ok ps -> arch < 2^32 -> nr < 2^32 ->
  linear_filter_generator ps = Some prog ->
  run_bpf prog arch nr = Some (verdict RET_TRACE ps arch nr).
Proof.
  intros (HP & Hne & Hone) Ha H32. unfold linear_filter_generator.
  destruct (Nat.ltb 1 (length ps)) eqn:EM.
  - apply Nat.ltb_lt in EM.
    destruct (gen_sections (linear_body true) linear_tail (rev ps)) as [l|] eqn:EG; [|discriminate].
    intros H; inversion H; subst prog. eapply multi_case; eauto.
    + apply linear_good_tail.
    + intros; apply linear_section; auto.
  - apply Nat.ltb_ge in EM. destruct ps as [|p [|]]; [congruence| |simpl in EM; lia].
    cbn [rev app]. destruct (gen_sections (linear_body false) linear_tail [p]) as [l|] eqn:EG; [|discriminate].
    intros H; inversion H; subst prog. cbn [app]. rewrite app_nil_r.
    destruct (single_fits _ _ _ _ EG) as [HF ->].
    specialize (Hone p eq_refl). inversion HP as [|? ? Hp _]; subst.
    unfold run_bpf. change (ex nr arch (sec (linear_tail p) [] (linear_body false p)) 0 0 (verdict RET_TRACE [p] arch nr)).
    unfold linear_body, section_head in *. cbn [app andb] in *. rewrite sec_stmt by reflexivity.
    apply ex_ld_nr. apply linear_decide; auto; [lia|]. eapply not_jmp_fits; eauto.
Qed.

Lemma binary_correct ps prog arch nr : perss_ok ps -> arch < 2^32 -> nr < 2^32 ->
  binary_match_filter_generator ps = Some prog ->
  run_bpf prog arch nr = Some (verdict RET_ALLOW ps arch nr).
Proof.
  intros (HP & Hne & Hone) Ha H32. unfold binary_match_filter_generator.
  destruct (Nat.ltb 1 (length ps)) eqn:EM.
  - apply Nat.ltb_lt in EM.
    destruct (gen_sections (binary_body true) binary_tail (rev ps)) as [l|] eqn:EG; [|discriminate].
    intros H; inversion H; subst prog. eapply multi_case; eauto.
    + apply binary_good_tail.
    + intros; apply binary_section; auto.
  - apply Nat.ltb_ge in EM. destruct ps as [|p [|]]; [congruence| |simpl in EM; lia].
    cbn [rev app]. destruct (gen_sections (binary_body false) binary_tail [p]) as [l|] eqn:EG; [|discriminate].
    intros H; inversion H; subst prog. cbn [app]. rewrite app_nil_r.
    destruct (single_fits _ _ _ _ EG) as [HF ->].
    specialize (Hone p eq_refl). inversion HP as [|? ? Hp _]; subst.
    unfold run_bpf. change (ex nr arch (sec (binary_tail p) [] (binary_body false p)) 0 0 (verdict RET_ALLOW [p] arch nr)).
    assert (E : binary_body false p = stmt LD_ABS OFF_NR :: bin_rest p) by reflexivity.
    rewrite E in *. rewrite sec_stmt by reflexivity.
    apply ex_ld_nr. apply bin_rest_spec; auto; [lia|eapply not_jmp_fits; eauto|].
    rewrite Hone. reflexivity.
Qed.

(** ---- selection and sizes ---- *)
Lemma selection ps prog : check_seccomp_filter_properties ps = Some prog ->
  (linear_filter_generator ps = Some prog \/ binary_match_filter_generator ps = Some prog) /\
  N.of_nat (length prog) <= BPF_MAXINSNS /\
  (forall q, linear_filter_generator ps = Some q -> (length prog <= length q)%nat) /\
  (forall q, binary_match_filter_generator ps = Some q -> (length prog <= length q)%nat).
Proof.
  unfold check_seccomp_filter_properties, pick, BPF_MAXINSNS.
  destruct (linear_filter_generator ps) as [a|], (binary_match_filter_generator ps) as [b|];
    try (destruct (N.ltb_spec (N.of_nat (length a)) 65535));
    repeat match goal with |- context[if N.ltb ?x ?y then _ else _] => destruct (N.ltb_spec x y) end;
    try match goal with |- context[Nat.ltb ?x ?y] => destruct (Nat.ltb_spec x y) end;
    intros HH; inversion HH; subst;
    (split; [auto|split; [lia|split; intros q Hq; inversion Hq; subst; lia]]).
Qed.

Lemma cmp_len lo up : (length (bpf_syscalls_cmp lo up) <= 2)%nat.
Proof. unfold bpf_syscalls_cmp. destruct (_ =? _); simpl; lia. Qed.
Lemma cmp_loop_len flag tr i lower :
  (length (cmp_loop flag tr i lower) <= length tr + match lower with Some _ => 2 | None => 1 end)%nat.
Proof.
  revert i lower; induction tr as [|b tr IH]; intros i lower; cbn [cmp_loop length].
  - destruct lower as [lo|]; [pose proof (cmp_len (N.lor lo flag) (N.lor i flag)); lia|cbn [length]; lia].
  - destruct b.
    + specialize (IH (i + 1) (match lower with None => Some i | _ => lower end)).
      destruct lower; lia.
    + destruct lower as [lo|].
      * rewrite app_length. specialize (IH (i + 1) None). cbv iota in IH.
        pose proof (cmp_len (N.lor lo flag) (N.lor i flag)). lia.
      * specialize (IH (i + 1) None). cbv iota in IH. lia.
Qed.

(** ---- jumps stay inside ---- *)
Definition iv (i : insn) (after : nat) : Prop :=
  is_jmp (op i) = true ->
  if match op i with JA => true | _ => false end then (N.to_nat (k i) < after)%nat
  else (N.to_nat (jt i) < after)%nat /\ (N.to_nat (jf i) < after)%nat.
Fixpoint vj (l : list insn) : Prop :=
  match l with [] => True | i :: r => iv i (length r) /\ vj r end.

Definition off_ok (mn : bool) (after : nat) (o : N) : Prop :=
  (o = PH_NEXT /\ mn = true) \/ o = PH_TRACE \/ o = PH_ALLOW \/ (o < 253 /\ (N.to_nat o < after)%nat).
Definition ijok (mn : bool) (after : nat) (i : insn) : Prop :=
  is_jmp (op i) = true ->
  if match op i with JA => true | _ => false end then mn = true
  else off_ok mn after (jt i) /\ off_ok mn after (jf i).
Fixpoint jok (mn : bool) (tl : nat) (b : list insn) : Prop :=
  match b with [] => True | i :: r => ijok mn (length r + tl) i /\ jok mn tl r end.

Lemma replace_ok mn after o rl : off_ok mn after o -> (2 <= after <= 255)%nat -> (mn = true -> 1 <= rl)%nat ->
  (N.to_nat (replace_ph o (u8 (N.of_nat after)) (u8 (N.of_nat after + 256 - 1)) (u8 (N.of_nat after + 256 - 2))) < after + rl)%nat.
Proof.
  intros HO Ha Hr. unfold replace_ph, u8.
  assert (E1 : N.of_nat after mod 2^8 = N.of_nat after) by (apply N.mod_small; lia).
  assert (E2 : (N.of_nat after + 256 - 1) mod 2^8 = N.of_nat after - 1).
  { replace (N.of_nat after + 256 - 1) with (N.of_nat after - 1 + 1 * 2^8) by lia.
    rewrite N.mod_add by lia. apply N.mod_small. lia. }
  assert (E3 : (N.of_nat after + 256 - 2) mod 2^8 = N.of_nat after - 2).
  { replace (N.of_nat after + 256 - 2) with (N.of_nat after - 2 + 1 * 2^8) by lia.
    rewrite N.mod_add by lia. apply N.mod_small. lia. }
  rewrite E1, E2, E3.
  destruct HO as [[-> Hm]|[->|[->|[H1 H2]]]]; unfold PH_NEXT, PH_TRACE, PH_ALLOW; cbn [N.eqb Pos.eqb].
  - specialize (Hr Hm). lia.
  - lia.
  - lia.
  - replace (o =? 255) with false by lia. replace (o =? 254) with false by lia. replace (o =? 253) with false by lia. lia.
Qed.

Lemma vj_patch mn tail rest b : jok mn (length tail) b -> (2 <= length tail)%nat ->
  (length b + length tail <= 255)%nat -> (mn = true -> 1 <= length rest)%nat -> vj (tail ++ rest) ->
  vj (sec tail rest b).
Proof.
  intros HJ Ht HL Hr Hv. unfold sec. induction b as [|i b IH]; [exact Hv|].
  cbn [jok length] in *. destruct HJ as [Hi HJ]. cbn [patch app vj]. split; [|apply IH; auto; lia].
  rewrite !app_length, patch_length. unfold iv, patch1. destruct (is_jmp (op i)) eqn:EJ; [|congruence].
  cbn [op jt jf k]. intros _. specialize (Hi EJ).
  replace (length b + (length tail + length rest))%nat with ((length b + length tail) + length rest)%nat by lia.
  destruct (op i) eqn:EO; cbn in EJ; try discriminate.
  1-3: destruct Hi as [H1 H2]; split; eapply replace_ok; eauto; lia.
  unfold u8. rewrite N.mod_small by lia. specialize (Hr Hi). lia.
Qed.

Lemma jok_app mn tl a b : jok mn (length b + tl) a -> jok mn tl b -> jok mn tl (a ++ b).
Proof.
  induction a as [|i a IH]; cbn [jok app]; auto. intros [H1 H2] Hb. split; auto.
  rewrite app_length. replace (length a + length b + tl)%nat with (length a + (length b + tl))%nat by lia. auto.
Qed.
Ltac conjs := repeat match goal with |- True => exact I | |- _ /\ _ => split end.
Ltac offok := unfold ijok; cbn; intros _; try split; unfold off_ok; unfold PH_NEXT, PH_TRACE, PH_ALLOW;
  first [now auto|now (left; split; auto)|right; now left|right; right; now left|right; right; right; split; simpl; lia|idtac].
Lemma jok_cmp mn tl lo up : (1 <= tl)%nat -> jok mn tl (bpf_syscalls_cmp lo up).
Proof.
  intros H. unfold bpf_syscalls_cmp. destruct (_ =? _); cbn [jok length]; conjs; offok.
Qed.
Lemma jok_cmp_loop mn tl flag tr i lower : (1 <= tl)%nat -> jok mn tl (cmp_loop flag tr i lower).
Proof.
  intros H. revert i lower; induction tr as [|b tr IH]; intros i lower; cbn [cmp_loop].
  - destruct lower; [apply jok_cmp; auto|exact I].
  - destruct b; [apply IH|]. destruct lower; [|apply IH]. apply jok_app; [apply jok_cmp; lia|apply IH].
Qed.
Lemma jok_match mn tl ba idx : (1 <= tl)%nat -> jok mn tl (bpf_syscalls_match ba idx).
Proof.
  intros H. unfold bpf_syscalls_match. destruct (ba =? 0); [|destruct (ba =? 2^32 - 1)];
    cbn [jok length]; conjs; try discriminate; offok.
Qed.
Lemma jok_match_loop mn tl tr i ba : (1 <= tl)%nat -> jok mn tl (match_loop tr i ba).
Proof.
  intros H. revert i ba; induction tr as [|b tr IH]; intros i ba; cbn [match_loop].
  - destruct (_ =? 0); [exact I|apply jok_match; auto].
  - destruct (_ =? 31); [|apply IH]. apply jok_app; [apply jok_match; lia|apply IH].
Qed.
Lemma jok_head mn tl p : (3 <= tl)%nat -> jok mn tl (section_head mn p).
Proof.
  intros H. unfold section_head. destruct mn, (p_flag p =? 0); cbn [andb negb app jok length];
    conjs; try discriminate; offok.
Qed.
Lemma jok_stmt mn tl o kk b : is_jmp o = false -> jok mn tl b -> jok mn tl (stmt o kk :: b).
Proof. intros H Hb. split; auto. unfold ijok. cbn [op stmt]. congruence. Qed.
Lemma jok_linear mn p : jok mn (length (linear_tail p)) (linear_body mn p).
Proof. unfold linear_body. apply jok_app; [apply jok_head; simpl; lia|apply jok_cmp_loop; simpl; lia]. Qed.
Lemma jok_binary mn p : jok mn (length (binary_tail p)) (binary_body mn p).
Proof.
  unfold binary_body. apply jok_app; [apply jok_head; rewrite !app_length; simpl; lia|].
  destruct (mn && _), (negb (p_flag p =? 0)); cbn [app]; repeat (apply jok_stmt; [reflexivity|]);
    apply jok_match_loop; simpl; lia.
Qed.

Lemma gen_vj (mn : bool) body tail ps l final :
  (forall p, jok mn (length (tail p)) (body p)) -> (forall p, good_tail (tail p)) ->
  (forall p rest, vj rest -> vj (tail p ++ rest)) ->
  gen_sections body tail ps = Some l -> vj final -> (mn = true -> final <> []) ->
  vj (l ++ final).
Proof.
  intros HJ GT HT. revert l; induction ps as [|p ps IH]; intros l HG HV HF; cbn [gen_sections] in HG.
  - inversion HG; subst. exact HV.
  - destruct (Nat.ltb 255 (length (body p) + length (tail p))) eqn:EF; [discriminate|].
    destruct (gen_sections body tail ps) as [l'|] eqn:EG; [|discriminate]. inversion HG; subst l.
    rewrite <- !app_assoc. change (patch ?b (length ?t) ++ ?t ++ ?r) with (sec t r b).
    apply Nat.ltb_ge in EF. apply vj_patch with (mn := mn); auto.
    + apply tail_len; auto.
    + intros Hm. specialize (HF Hm). rewrite app_length. destruct final; [congruence|simpl; lia].
Qed.

Lemma vj_linear_tail p rest : vj rest -> vj (linear_tail p ++ rest).
Proof.
  intros H. cbn [linear_tail app vj length]. split; [|split; [discriminate|split; [discriminate|auto]]].
  unfold iv. cbn. intros _. split; lia.
Qed.
Lemma vj_binary_tail p rest : vj rest -> vj (binary_tail p ++ rest).
Proof. intros H. cbn [binary_tail app vj length]. split; [discriminate|split; [discriminate|auto]]. Qed.

Lemma linear_vj ps prog : linear_filter_generator ps = Some prog -> vj prog.
Proof.
  unfold linear_filter_generator. destruct (gen_sections _ _ _) as [l|] eqn:EG; [|discriminate].
  intros H; inversion H; subst.
  assert (vj (l ++ (if Nat.ltb 1 (length ps) then [stmt RET RET_TRACE] else []))).
  { eapply gen_vj; eauto using jok_linear, linear_good_tail, vj_linear_tail; destruct (Nat.ltb _ _); simpl;
      try discriminate; auto. split; auto. discriminate. }
  destruct (Nat.ltb _ _); auto. split; [discriminate|auto].
Qed.
Lemma binary_vj ps prog : binary_match_filter_generator ps = Some prog -> vj prog.
Proof.
  unfold binary_match_filter_generator. destruct (gen_sections _ _ _) as [l|] eqn:EG; [|discriminate].
  intros H; inversion H; subst.
  assert (vj (l ++ (if Nat.ltb 1 (length ps) then [stmt RET RET_TRACE] else []))).
  { eapply gen_vj; eauto using jok_binary, binary_good_tail, vj_binary_tail; destruct (Nat.ltb _ _); simpl;
      try discriminate; auto. split; auto. discriminate. }
  destruct (Nat.ltb _ _); auto. split; [discriminate|auto].
Qed.

Lemma vj_inside prog : vj prog -> jumps_inside prog.
Proof.
  intros H pre i r ->. induction pre as [|a pre IH]; cbn [app vj] in H.
  - destruct H as [H _]. intros HJ. specialize (H HJ). destruct (op i); cbn in HJ; try discriminate;
      (split; [intros; try discriminate; tauto|intros; try tauto]).
  - apply IH. tauto.
Qed.

Lemma last_app_cons {A} (l : list A) a d : last (l ++ [a]) d = a.
Proof. apply last_last. Qed.
Lemma gen_last body tail ps l : (forall p, good_tail (tail p)) -> ps <> [] ->
  gen_sections body tail ps = Some l -> exists l0, l = l0 ++ [stmt RET RET_TRACE].
Proof.
  intros GT. revert l; induction ps as [|p ps IH]; intros l Hne HG; [congruence|].
  cbn [gen_sections] in HG. destruct (Nat.ltb _ _); [discriminate|].
  destruct (gen_sections body tail ps) as [l'|] eqn:EG; [|discriminate]. inversion HG; subst l.
  destruct ps as [|q ps].
  - cbn in EG. inversion EG; subst. destruct (GT p) as [t0 E]. 
    exists (patch (body p) (length (tail p)) ++ t0 ++ [stmt RET RET_ALLOW]).
    rewrite app_nil_r. rewrite E at 2. rewrite <- !app_assoc. reflexivity.
  - destruct (IH l' ltac:(discriminate) eq_refl) as [l0 ->].
    exists (patch (body p) (length (tail p)) ++ tail p ++ l0). rewrite <- !app_assoc. reflexivity.
Qed.
Lemma linear_last ps prog : ps <> [] -> linear_filter_generator ps = Some prog ->
  exists l0, prog = l0 ++ [stmt RET RET_TRACE].
Proof.
  unfold linear_filter_generator. intros Hne. destruct (gen_sections _ _ _) as [l|] eqn:EG; [|discriminate].
  intros H; inversion H; subst. destruct (Nat.ltb 1 (length ps)).
  - eexists. rewrite app_assoc. reflexivity.
  - assert (Hr : rev ps <> []) by (intros E; apply Hne; rewrite <- (rev_involutive ps), E; reflexivity).
    destruct (gen_last _ _ _ _ linear_good_tail Hr EG) as [l0 ->].
    exists l0. rewrite app_nil_r. reflexivity.
Qed.
Lemma binary_last ps prog : ps <> [] -> binary_match_filter_generator ps = Some prog ->
  exists l0, prog = l0 ++ [stmt RET RET_TRACE].
Proof.
  unfold binary_match_filter_generator. intros Hne. destruct (gen_sections _ _ _) as [l|] eqn:EG; [|discriminate].
  intros H; inversion H; subst. destruct (Nat.ltb 1 (length ps)).
  - eexists. rewrite app_assoc. reflexivity.
  - assert (Hr : rev ps <> []) by (intros E; apply Hne; rewrite <- (rev_involutive ps), E; reflexivity).
    destruct (gen_last _ _ _ _ binary_good_tail Hr EG) as [l0 ->].
    exists l0. rewrite app_nil_r. reflexivity.
Qed.

(** in-table verdicts do not depend on the out-of-table answer *)
Lemma verdict_in_table oot1 oot2 ps arch nr : in_table ps arch nr -> verdict oot1 ps arch nr = verdict oot2 ps arch nr.
Proof.
  unfold in_table, verdict, pers_verdict. destruct ps as [|p [|q ps]].
  - reflexivity.
  - intros H. rewrite H. reflexivity.
  - destruct (find _ _); auto. intros H. rewrite H. reflexivity.
Qed.
