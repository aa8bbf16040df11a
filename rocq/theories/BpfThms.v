(** C77: BPF programs. *)
From Verif Require Import Base Printf QuoteModel BitsModel BitsSpec XlatModel XlatSpec XlatText XlatThms ModeModel RetModel RetSpec RetProofs ModeSpec ModeProofs CompModel CompSpec CompProofs BpfModel BpfSpec.
Local Open Scope N_scope.

(** * Words *)
Definition marks : list N := [40; 41; 43; 44].
Definition clean (t : list N) : Prop := forall c, In c marks -> ~ In c t.
Definition cleanb (t : list N) : bool := forallb (fun c => nochar c t) marks.
Lemma cleanb_ok t : cleanb t = true -> clean t.
Proof. unfold cleanb. intros H c I. rewrite forallb_forall in H. apply nochar_in, H, I. Qed.
Lemma clean_app a b : clean a -> clean b -> clean (a ++ b).
Proof. intros A B c I. apply not_in_app; [apply A, I|apply B, I]. Qed.
Lemma marks_plain c : In c marks -> plain c /\ c <> 32 /\ c <> 47 /\ c <> 42.
Proof. intros I. cbn in I. unfold plain. intuition (subst; lia). Qed.
Lemma clean_hex n : clean (pr_hex n).
Proof. intros c I. apply hex_not_in, (marks_plain c I). Qed.
Lemma clean_dec n : clean (pr_num 10 n).
Proof. intros c I. apply pr_num_not_in; [lia|]. cbn in I. intuition (subst; lia). Qed.
Lemma clean_comment d : (forall s, d = Some s -> clean s) -> clean (comment d).
Proof. intros H c I. pose proof (marks_plain c I) as (A & B & C & D). apply comment_not_in; auto. intros s E. apply (H s E), I. Qed.
Lemma clean_argument t : clean t -> argument t.
Proof. intros H. repeat split; apply H; cbn; auto. Qed.

Definition okw (t : list N) (v : N) : Prop := cst bpf_names t v /\ clean t.
Definition okd (t : list N) (v : N) : Prop := den bpf_names t v /\ clean t.
Lemma lett : lettered bpf_names = true.
Proof. comp. Qed.
Lemma okw_okd t v : okw t v -> okd t v.
Proof. intros (A & B). split; [apply cst_den, A|exact B]. Qed.
Lemma okw_hex v : okw (pr_hex v) v.
Proof. split; [apply cst_hex, lett|apply clean_hex]. Qed.
Lemma clean_bar : clean bar.
Proof. apply cleanb_ok. comp. Qed.
Lemma okd_or a b x y : okd a x -> okd b y -> okd (a ++ bar ++ b) (N.lor x y).
Proof. intros (A & A') (B & B'). split; [apply den_or; assumption|]. apply clean_app; [exact A'|apply clean_app; [apply clean_bar|exact B']]. Qed.
Lemma okd_rest a x i : okd a x -> okd (a ++ rest_text i) (N.lor x i).
Proof.
  intros A. unfold rest_text. destruct (N.eqb_spec i 0) as [->|_]; [rewrite app_nil_r, N.lor_0_r; exact A|]. apply okd_or; [exact A|]. split.
  - apply den_remark; [apply cst_den, cst_hex, lett|]. intros s E. injection E as <-. noin.
  - apply clean_app; [apply clean_hex|]. apply clean_comment. intros s E. injection E as <-. apply cleanb_ok. comp.
Qed.

(** * Tables *)
Definition tabx (x : xlat) (l : list (N * list N)) : Prop := x = normal l \/ (x = indexed l /\ numbered 0 l = true).
Definition tab_good (l : list (N * list N)) : bool := tab_cst bpf_names l && forallb (fun e => cleanb (snd e)) l.
Lemma xlookups_in xs ls : Forall2 tabx xs ls -> forall v s, xlookups xs v = Some s -> exists l, In l ls /\ In (v, s) l.
Proof.
  intros F. induction F as [|x l xs ls T F IH]; intros v s E; [discriminate E|]. cbn [xlookups] in E. destruct (xlookup x v) as [s'|] eqn:X.
  - injection E as ->. exists l. split; [left; reflexivity|]. destruct T as [->|(-> & NB)]; [apply lookup_in, X|apply lookup_in_indexed; [exact NB|exact X]].
  - destruct (IH v s E) as (l' & A & B). exists l'. split; [right; exact A|exact B].
Qed.
Lemma words st v d xs ls : Forall2 tabx xs ls -> forallb tab_good ls = true -> cleanb d && nochar 42 d = true -> okw (printxvals_ex v (Some d) st FMT_X xs) v.
Proof.
  intros F G D. apply andb_prop in D as (D & D42). apply cleanb_ok in D. apply nochar_in in D42.
  assert (HX : forall s, xlookups xs v = Some s -> cst bpf_names s v /\ ~ In 42 s /\ clean s).
  { intros s E. destruct (xlookups_in xs ls F v s E) as (l & I & J). rewrite forallb_forall in G. specialize (G l I). unfold tab_good in G. apply andb_prop in G as (G1 & G2).
    destruct (tab_cst_in _ _ _ _ G1 J) as (A & B). rewrite forallb_forall in G2. split; [exact A|]. split; [exact B|]. apply cleanb_ok, (G2 _ J). }
  unfold printxvals_ex. change (sprint_xlat_val FMT_X v) with (pr_hex v).
  assert (K : forall s, ~ In 42 s -> clean s -> okw (pr_hex v ++ comment (Some s)) v).
  { intros s A B. split; [apply cst_comment; [apply cst_hex, lett|intros s' E; injection E as <-; exact A]|]. apply clean_app; [apply clean_hex|]. apply clean_comment. intros s' E. injection E as <-. exact B. }
  destruct st; [|apply okw_hex|]; destruct (xlookups xs v) as [s|] eqn:E; try (apply K; assumption); destruct (HX s eq_refl) as (A & B & C).
  - split; assumption.
  - apply K; assumption.
Qed.
Ltac wordx := eapply words; [repeat (apply Forall2_cons; [(left; reflexivity) || (right; split; [reflexivity|comp])|]); apply Forall2_nil|comp|comp].
Lemma wordd st v d xs ls : Forall2 tabx xs ls -> forallb tab_good ls = true -> cleanb d && nochar 42 d = true -> okd (printxvals_ex v (Some d) st FMT_X xs) v.
Proof. intros A B C. apply okw_okd. eapply words; eassumption. Qed.
Ltac wordy := eapply wordd; [repeat (apply Forall2_cons; [(left; reflexivity) || (right; split; [reflexivity|comp])|]); apply Forall2_nil|comp|comp].

(** * Codes *)
Ltac bitw c := apply N.bits_inj; intros n; repeat (rewrite N.lor_spec || rewrite N.ldiff_spec || rewrite N.land_spec).
Lemma bits_st c : N.lor (N.land c 7) (N.ldiff c (N.land c 7)) = c.
Proof. bitw c. destruct (N.testbit c n), (N.testbit 7 n); reflexivity. Qed.
Lemma bits_rest c m : N.lor (N.lor (N.land c 7) (N.land c m)) (N.ldiff (N.ldiff c (N.land c 7)) (N.land c m)) = c.
Proof. bitw c. destruct (N.testbit c n), (N.testbit 7 n), (N.testbit m n); reflexivity. Qed.
Lemma bits_part m c : N.lor (N.land m c) (N.ldiff c (N.land m c)) = c.
Proof. bitw c. destruct (N.testbit c n), (N.testbit m n); reflexivity. Qed.
Lemma bits_three c a b : N.lor 7 (N.lor a b) = 255 -> N.lor (N.lor (N.land c 7) (N.land c a)) (N.land c b) = N.land c 255.
Proof. intros <-. rewrite !lor_land, <- N.lor_assoc. reflexivity. Qed.
Lemma class_cases c : CLASS c = 0 \/ CLASS c = 1 \/ CLASS c = 2 \/ CLASS c = 3 \/ CLASS c = 4 \/ CLASS c = 5 \/ CLASS c = 6 \/ CLASS c = 7.
Proof. unfold CLASS. pose proof (land_le c 7). lia. Qed.
(** what is shown of a code *)
Definition visible (extended : bool) (c : N) : N :=
  if extended then (if CLASS c =? 6 then c else N.land c 255)
  else if (CLASS c =? 2) || (CLASS c =? 3) || (CLASS c =? 6) || (CLASS c =? 7) then c else N.land c 255.
Lemma app4 {A} (a b c d e : list A) : a ++ (b ++ c ++ d ++ e) = (a ++ b ++ c) ++ d ++ e.
Proof. rewrite <- !app_assoc. reflexivity. Qed.
Lemma code_okd st x c : okd (filter_code st x c) (visible x c).
Proof.
  unfold filter_code, visible. cbv zeta.
  assert (C0 : okd (printxval st (if x then ebpf_class else bpf_class) (CLASS c) unknown) (CLASS c)) by (destruct x; wordy).
  assert (LD : okd ((printxval st (if x then ebpf_class else bpf_class) (CLASS c) unknown) ++ bar ++ printxvals_ex (SIZE c) unknown st FMT_X (bpf_size :: (if x then [ebpf_size] else []))
            ++ bar ++ printxval st (if x then ebpf_mode else bpf_mode) (MODE c) unknown) (N.land c 255)).
  { rewrite app4. rewrite <- (bits_three c 24 224 eq_refl). apply okd_or; [apply okd_or; [exact C0|destruct x; wordy]|destruct x; wordy]. }
  assert (AL : okd ((printxval st (if x then ebpf_class else bpf_class) (CLASS c) unknown) ++ bar ++ printxval st bpf_src (SRC c) unknown
            ++ bar ++ printxvals_ex (OP c) unknown st FMT_X (bpf_op_alu :: (if x then [ebpf_op_alu] else []))) (N.land c 255)).
  { rewrite app4. rewrite <- (bits_three c 8 240 eq_refl). apply okd_or; [apply okd_or; [exact C0|wordy]|destruct x; wordy]. }
  assert (JM : okd ((printxval st (if x then ebpf_class else bpf_class) (CLASS c) unknown) ++ bar ++ printxval st bpf_src (SRC c) unknown
            ++ bar ++ printxvals_ex (OP c) unknown st FMT_X (bpf_op_jmp :: (if x then [ebpf_op_jmp] else []))) (N.land c 255)).
  { rewrite app4. rewrite <- (bits_three c 8 240 eq_refl). apply okd_or; [apply okd_or; [exact C0|wordy]|destruct x; wordy]. }
  assert (RS : okd ((printxval st (if x then ebpf_class else bpf_class) (CLASS c) unknown) ++ rest_text (N.ldiff c (CLASS c))) c).
  { rewrite <- (bits_st c) at 4. apply okd_rest, C0. }
  assert (MI : okd ((printxval st (if x then ebpf_class else bpf_class) (CLASS c) unknown) ++ bar ++ printxval st bpf_miscop (MISCOP c) unknown ++ rest_text (N.ldiff (N.ldiff c (CLASS c)) (MISCOP c))) c).
  { rewrite (app_assoc bar), (app_assoc _ (bar ++ _)). rewrite <- (bits_rest c 248) at 6. apply okd_rest, okd_or; [exact C0|wordy]. }
  assert (RT : okd ((printxval st (if x then ebpf_class else bpf_class) (CLASS c) unknown) ++ bar ++ printxval st bpf_rval (RVAL c) unknown ++ rest_text (N.ldiff (N.ldiff c (CLASS c)) (RVAL c))) c).
  { rewrite (app_assoc bar), (app_assoc _ (bar ++ _)). rewrite <- (bits_rest c 24) at 6. apply okd_rest, okd_or; [exact C0|wordy]. }
  destruct (class_cases c) as [E|[E|[E|[E|[E|[E|[E|E]]]]]]]; rewrite E in *; cbn [N.eqb Pos.eqb orb]; destruct x; cbn [negb]; assumption.
Qed.

Lemma visible_spec c : c < 2^16 -> visible false c = if all_bits_shown c then c else c mod 256.
Proof.
  intros H. unfold visible, all_bits_shown. change 255 with (N.ones 8). rewrite N.land_ones. change (2^8) with 256. fold (CLASS c). cbn [existsb].
  destruct (class_cases c) as [E|[E|[E|[E|[E|[E|[E|E]]]]]]]; rewrite E; cbn [N.eqb Pos.eqb orb]; rewrite ?orb_true_r, ?orb_false_r; try reflexivity;
    destruct (N.ltb_spec c 256) as [L|L]; try reflexivity; apply N.mod_small, L.
Qed.
(** The code of an instruction is shown as an expression of its value; of loads, arithmetic and jumps without the bits above 255. *)
Theorem C77_code st c : c < 2^16 -> denotes bpf_names (filter_code st false c) (if all_bits_shown c then c else c mod 256).
Proof. intros H. rewrite <- visible_spec by exact H. apply den_denotes, code_okd. Qed.
Print Assumptions C77_code.
(** Those bits are lost: two codes, one of which the kernel rejects, look the same. *)
Theorem C77_code_refuted : exists c c', c < 2^16 /\ c' < 2^16 /\ c <> c' /\ forall st, filter_code st false c = filter_code st false c'.
Proof. exists 0x20, 0x120. split; [lia|]. split; [lia|]. split; [discriminate|]. intros []; vm_compute; reflexivity. Qed.
Print Assumptions C77_code_refuted.

Lemma uncomment_sub c s : forall b, In c (uncomment b s) -> In c s.
Proof.
  enough (G : forall n s, (length s <= n)%nat -> forall b, In c (uncomment b s) -> In c s) by (intros b; apply (G (length s) s (le_n _))).
  intros n. induction n as [|n IH]; intros t L b I; [destruct t; [destruct b; exact I|cbn in L; lia]|]. destruct t as [|x t]; [destruct b; exact I|]. cbn [length] in L.
  destruct b; cbn [uncomment] in I.
  - destruct (x =? 42).
    + destruct t as [|y t]; [destruct I|]. destruct (y =? 47).
      * right. right. cbn [length] in L. apply (IH t ltac:(lia) false I).
      * right. apply (IH (y :: t) ltac:(lia) true I).
    + right. apply (IH t ltac:(lia) true I).
  - destruct (x =? 32); [right; apply (IH t ltac:(lia) false I)|]. destruct (x =? 47).
    + destruct t as [|y t]; [exact I|]. destruct (y =? 42).
      * right. right. cbn [length] in L. apply (IH t ltac:(lia) true I).
      * destruct I as [->|I]; [left; reflexivity|]. right. apply (IH (y :: t) ltac:(lia) false I).
    + destruct I as [->|I]; [left; reflexivity|]. right. apply (IH t ltac:(lia) false I).
Qed.
Lemma utext_plus : utext plus plus.
Proof. apply utext_word; noin. Qed.
Lemma sum_value a b x y : okw a x -> cst bpf_names b y -> has_value (a ++ plus ++ b) ((x + y) mod 2^32).
Proof.
  intros ((w & U & _ & _ & V) & A) (w' & U' & _ & _ & V'). right. exists w, w', x, y. split.
  - apply utext_end. apply utext_app; [exact U|]. apply utext_app; [apply utext_plus|exact U'].
  - split; [|auto]. intros I. apply (A 43); [cbn; auto|]. apply (uncomment_sub 43 a false). rewrite (utext_end _ _ U). exact I.
Qed.
Lemma okd_value t v : okd t v -> has_value t v.
Proof. intros (A & _). left. apply den_denotes, A. Qed.
Lemma xlat_word st v s : cleanb s && tab_cst bpf_names [(v, s)] = true -> okw (print_xlat st v s) v.
Proof.
  intros H. apply andb_prop in H as (C & T). apply cleanb_ok in C. destruct (tab_cst_in _ _ v s T (or_introl eq_refl)) as (A & B). split; [apply print_xlat_cst; [apply lett|exact A|exact B]|].
  unfold print_xlat. destruct st; [exact C|apply clean_hex|]. apply clean_app; [apply clean_hex|]. apply clean_comment. intros s' E. injection E as <-. exact C.
Qed.
Lemma sum_back off k : off <= k -> k < 2^32 -> (off + (k - off)) mod 2^32 = k.
Proof. intros A B. replace (off + (k - off)) with k by lia. apply N.mod_small, B. Qed.
Lemma some_inj {A} (a b : A) : Some a = Some b -> a = b.
Proof. intros E. injection E as ->. reflexivity. Qed.
Lemma k_value u st f t : k f < 2^32 -> print_k u st f = Some t -> has_value t (k f) /\ argument t.
Proof.
  intros K E. destruct u; cbn [print_k] in E; [discriminate E| |].
  - unfold seccomp_k in E. destruct (CLASS (code f) =? 6); [|discriminate E]. cbv zeta in E. apply some_inj in E. rewrite <- E. clear E t.
    assert (A : okd (printxval st seccomp_ret_action (N.land 0xffff0000 (k f)) (Some (bs "SECCOMP_RET_???"))) (N.land 0xffff0000 (k f))) by wordy.
    assert (B : N.lor (N.land 0xffff0000 (k f)) (N.ldiff (k f) (N.land 0xffff0000 (k f))) = k f) by apply bits_part.
    set (d := N.ldiff _ _) in *. enough (G : okd (printxval st seccomp_ret_action (N.land 0xffff0000 (k f)) (Some (bs "SECCOMP_RET_???")) ++ (if d =? 0 then [] else bar ++ pr_hex d)) (k f)).
    { split; [apply okd_value, G|apply clean_argument, G]. }
    rewrite <- B at 2. destruct (N.eqb_spec d 0) as [->|_]; [rewrite app_nil_r, N.lor_0_r; exact A|]. apply okd_or; [exact A|apply okw_okd, okw_hex].
  - unfold sock_k in E. destruct (_ && _); [|discriminate E].
    assert (AR : forall a b, clean a -> clean b -> argument (a ++ plus ++ b)).
    { intros a b A B. repeat split; (apply not_in_app; [apply A; cbn; auto|apply not_in_app; [noin|apply B; cbn; auto]]). }
    destruct (N.leb_spec SKF_AD_OFF (k f)) as [L|_]; [|destruct (N.leb_spec SKF_NET_OFF (k f)) as [L|_]; [|destruct (N.leb_spec SKF_LL_OFF (k f)) as [L|_]; [|discriminate E]]]; apply some_inj in E; rewrite <- E; clear E t.
    + assert (W : okw (print_xlat st SKF_AD_OFF (bs "SKF_AD_OFF")) SKF_AD_OFF) by (apply xlat_word; comp).
      assert (W' : okw (printxval st skf_ad (k f - SKF_AD_OFF) (Some (bs "SKF_AD_???"))) (k f - SKF_AD_OFF)) by wordx.
      split; [|apply AR; [apply W|apply W']]. rewrite <- (sum_back _ _ L K) at 2. apply sum_value; [exact W|apply W'].
    + assert (W : okw (print_xlat st SKF_NET_OFF (bs "SKF_NET_OFF")) SKF_NET_OFF) by (apply xlat_word; comp).
      split; [|apply AR; [apply W|apply clean_dec]]. rewrite <- (sum_back _ _ L K) at 2. apply sum_value; [exact W|apply cst_dec, lett].
    + assert (W : okw (print_xlat st SKF_LL_OFF (bs "SKF_LL_OFF")) SKF_LL_OFF) by (apply xlat_word; comp).
      split; [|apply AR; [apply W|apply clean_dec]]. rewrite <- (sum_back _ _ L K) at 2. apply sum_value; [exact W|apply cst_dec, lett].
Qed.
Lemma hex_value n : c_number (pr_hex n) = Some (Z.of_N n).
Proof. apply vtext_c, vtext_x. Qed.
(** Every instruction of a seccomp, socket or other filter is shown as the C source of it. *)
Theorem C77_source u st f : code f < 2^16 -> k f < 2^32 ->
  source (one_block u st f) {| code := if all_bits_shown (code f) then code f else code f mod 256; jt := jt f; jf := jf f; k := k f |}.
Proof.
  intros HC K. unfold source. cbn [code jt jf k].
  assert (HX : has_value (pr_hex (k f)) (k f) /\ argument (pr_hex (k f))) by (split; [apply okd_value, okw_okd, okw_hex|apply clean_argument, clean_hex]).
  assert (CO : argument (filter_code st false (code f))) by (apply clean_argument; pose proof (code_okd st false (code f)) as Q; apply Q).
  unfold one_block. destruct (N.eqb_spec (jt f) 0) as [T|T], (N.eqb_spec (jf f) 0) as [F|F]; cbn [negb orb].
  1: { exists (filter_code st false (code f)), (match print_k u st f with Some t => t | None => pr_hex (k f) end). split; [exact CO|].
       assert (Q : has_value (match print_k u st f with Some t => t | None => pr_hex (k f) end) (k f) /\ argument (match print_k u st f with Some t => t | None => pr_hex (k f) end)).
       { destruct (print_k u st f) as [t|] eqn:E; [apply (k_value u st f t K E)|exact HX]. }
       split; [apply Q|]. split; [apply C77_code, HC|]. split; [apply Q|]. left. auto. }
  all: exists (filter_code st false (code f)), (pr_hex (k f)); split; [exact CO|]; split; [apply HX|]; split; [apply C77_code, HC|]; split; [apply HX|]; right;
    exists (pr_hex (jt f)), (pr_hex (jf f)); split; [apply clean_argument, clean_hex|]; split; [apply clean_argument, clean_hex|]; split; [reflexivity|]; split; apply hex_value.
Qed.
Print Assumptions C77_source.

(** Instructions of bpf(2): all members, the code entirely. *)
Theorem C77_ebpf st i : icode i < 256 -> off i < 2^16 -> members (one_insn st i) i.
Proof.
  intros HC HO. unfold members, one_insn. pose proof (code_okd st true (icode i)) as C.
  replace (visible true (icode i)) with (icode i) in C.
  2: { unfold visible. destruct (CLASS (icode i) =? 6); [reflexivity|]. change 255 with (N.ones 8). rewrite N.land_ones. symmetry. apply N.mod_small, HC. }
  assert (D : okd (printxval st ebpf_regs (dst_reg i) (Some (bs "BPF_REG_???"))) (dst_reg i)) by wordy.
  assert (S1 : okd (printxval st ebpf_regs (src_reg i) (Some (bs "BPF_REG_???"))) (src_reg i)) by wordy.
  eexists; eexists; eexists; eexists; eexists. split; [apply clean_argument, C|]. split; [apply clean_argument, D|]. split; [apply clean_argument, S1|]. split; [reflexivity|].
  split; [apply den_denotes, C|]. split; [apply den_denotes, D|]. split; [apply den_denotes, S1|]. split; [|apply hex_value]. apply vtext_c, vtext_z.
Qed.
Print Assumptions C77_ebpf.

(** Every instruction is shown, in order; only the first 4096 of a program, the most that the kernel takes of a filter, and then an ellipsis. *)
Theorem C77_program {A} (show : A -> list N) l :
  blocks show 0 l = map show (firstn 4096 l) ++ (if (4096 <? length l)%nat then [bs "..."] else []).
Proof.
  assert (G : forall l n, N.of_nat n <= 4096 -> blocks show (4096 - N.of_nat n) l = map show (firstn n l) ++ (if (n <? length l)%nat then [bs "..."] else [])).
  { clear l. induction l as [|f r IH]; intros n H; [destruct n; reflexivity|]. cbn [blocks]. unfold BPF_MAXINSNS. destruct n as [|n].
    - reflexivity.
    - replace (4096 <=? 4096 - N.of_nat (S n)) with false by (symmetry; apply N.leb_gt; lia). cbn [firstn map length app]. change (S n <? S (length r))%nat with (n <? length r)%nat. f_equal.
      replace (4096 - N.of_nat (S n) + 1) with (4096 - N.of_nat n) by lia. apply IH. lia. }
  specialize (G l 4096%nat ltac:(lia)). exact G.
Qed.
Print Assumptions C77_program.

(** An instruction with a valid code is written with the macros of its class. *)
Definition all_some (l : list (option (list N))) : option (list (list N)) := fold_right (fun o a => match o, a with Some x, Some l => Some (x :: l) | _, _ => None end) (Some []) l.
Lemma all_some_map : forall names l, l = map Some names -> all_some l = Some names.
Proof. induction names as [|n names IH]; intros l ->; [reflexivity|]. cbn [map all_some fold_right]. unfold all_some in IH. rewrite (IH _ eq_refl). reflexivity. Qed.
Definition named_ok (c : N) : bool :=
  match all_some (map (fun f => one_of (fst f) (snd f)) (fields c)) with
  | Some names => negb (fold_right (fun f a => fst f + a) 0 (fields c) =? c) || beqs (filter_code XABBREV false c) (ored names)
  | None => true
  end.
Lemma fields_small c : c < 2^16 -> fold_right (fun f a => fst f + a) 0 (fields c) = c -> c < 256.
Proof.
  intros B E. rewrite <- E. unfold fields, field. cbn [fold_right fst].
  assert (M : c mod 8 < 8) by (apply N.mod_lt; discriminate). assert (W : forall f w, c / 2^f mod 2^w < 2^w) by (intros; apply N.mod_lt, N.pow_nonzero; discriminate).
  pose proof (W 0 3). pose proof (W 3 2). pose proof (W 5 3). pose proof (W 3 1). pose proof (W 4 4). pose proof (W 3 5).
  change (2^0) with 1 in *. change (2^1) with 2 in *. change (2^2) with 4 in *. change (2^3) with 8 in *. change (2^4) with 16 in *. change (2^5) with 32 in *.
  destruct (c mod 8) as [|[[[|[]|]|[]|]|[[]|[]|]|]]; cbn [fold_right fst]; lia.
Qed.
Theorem C77_named c names : c < 2^16 -> named c names -> filter_code XABBREV false c = ored names.
Proof.
  intros B [E M]. pose proof (fields_small c B E) as L.
  assert (A : forallb (fun i => named_ok (N.of_nat i)) (seq 0 256) = true) by (vm_compute; reflexivity).
  rewrite forallb_forall in A. specialize (A (N.to_nat c)). rewrite N2Nat.id in A. specialize (A ltac:(apply in_seq; lia)). unfold named_ok in A.
  rewrite (all_some_map _ _ M) in A. rewrite E, N.eqb_refl in A. cbn [negb orb] in A. apply beqs_eq, A.
Qed.
Print Assumptions C77_named.
Example named_met : named 0x15 [bs "BPF_JMP"; bs "BPF_K"; bs "BPF_JEQ"] /\ named 0x28 [bs "BPF_LD"; bs "BPF_H"; bs "BPF_ABS"].
Proof. split; split; reflexivity. Qed.

(** What is returned by a seccomp filter is written as an action, and what is loaded by a socket filter from an offset beyond the packet
    (and from no other) as the name of the area and the offset in it. *)
Theorem C77_operand f :
  (print_k Seccomp XABBREV f <> None <-> code f mod 8 = 6) /\
  (print_k Socket XABBREV f <> None <-> code f mod 8 = 0 /\ field (code f) 5 3 = 0x20 /\ 2^32 - 0x200000 <= k f) /\
  (forall t, print_k Socket XABBREV f = Some t -> exists area off, In (k f - off, area) [(2^32 - 0x1000, bs "SKF_AD_OFF"); (2^32 - 0x100000, bs "SKF_NET_OFF"); (2^32 - 0x200000, bs "SKF_LL_OFF")] /\
     off <= k f /\ exists u, t = area ++ bs "+" ++ u).
Proof.
  assert (C : CLASS (code f) = code f mod 8) by (unfold CLASS; change 7 with (N.ones 3); apply N.land_ones).
  assert (M : MODE (code f) = field (code f) 5 3).
  { unfold MODE, field. change 224 with (N.shiftl (N.ones 3) 5). rewrite <- N.shiftr_div_pow2, <- N.land_ones, <- N.shiftl_mul_pow2.
    apply N.bits_inj. intros i. rewrite N.land_spec. destruct (N.ltb_spec i 5) as [L|L].
    - rewrite !N.shiftl_spec_low by exact L. apply andb_false_r.
    - rewrite !N.shiftl_spec_high' by exact L. rewrite N.land_spec, N.shiftr_spec'. replace (i - 5 + 5) with i by lia. reflexivity. }
  cbn [print_k]. unfold seccomp_k, sock_k. rewrite C, M. split; [|split].
  - destruct (N.eqb_spec (code f mod 8) 6) as [E|E]; split; intros H; try tauto; try discriminate.
  - destruct (N.eqb_spec (code f mod 8) 0) as [E|E]; cbn [andb]; [|split; [intros H; destruct H; reflexivity|tauto]].
    destruct (N.eqb_spec (field (code f) 5 3) 32) as [E'|E']; [|split; [intros H; destruct H; reflexivity|tauto]].
    unfold SKF_AD_OFF, SKF_NET_OFF, SKF_LL_OFF. change (2^32 - 0x200000) with 0xffe00000.
    destruct (N.leb_spec 0xfffff000 (k f)); [split; [intros _; repeat split; try assumption; lia|discriminate]|].
    destruct (N.leb_spec 0xfff00000 (k f)); [split; [intros _; repeat split; try assumption; lia|discriminate]|].
    destruct (N.leb_spec 0xffe00000 (k f)); [split; [intros _; repeat split; try assumption; lia|discriminate]|].
    split; [intros Q; destruct Q; reflexivity|lia].
  - intros t. destruct (_ && _); [|discriminate].
    destruct (N.leb_spec SKF_AD_OFF (k f)) as [L|_]; [|destruct (N.leb_spec SKF_NET_OFF (k f)) as [L|_]; [|destruct (N.leb_spec SKF_LL_OFF (k f)) as [L|_]; [|discriminate]]];
      intros E; apply some_inj in E; rewrite <- E; clear E.
    + exists (bs "SKF_AD_OFF"), (k f - SKF_AD_OFF). split; [left; f_equal; change (2^32 - 0x1000) with SKF_AD_OFF; lia|]. split; [lia|]. eexists. reflexivity.
    + exists (bs "SKF_NET_OFF"), (k f - SKF_NET_OFF). split; [right; left; f_equal; change (2^32 - 0x100000) with SKF_NET_OFF; lia|]. split; [lia|]. eexists. reflexivity.
    + exists (bs "SKF_LL_OFF"), (k f - SKF_LL_OFF). split; [right; right; left; f_equal; change (2^32 - 0x200000) with SKF_LL_OFF; lia|]. split; [lia|]. eexists. reflexivity.
Qed.
Print Assumptions C77_operand.

(** A seccomp filter: load the number of the system call, compare, return an error. *)
Example ex_load : one_block Socket XABBREV (Blk 0x20 0 0 0xfffff004) = bs "BPF_STMT(BPF_LD|BPF_W|BPF_ABS, SKF_AD_OFF+SKF_AD_PKTTYPE)".
Proof. vm_compute. reflexivity. Qed.
Example ex_jump : one_block Seccomp XVERBOSE (Blk 0x15 1 0 39) = bs "BPF_JUMP(0x5 /* BPF_JMP */|0 /* BPF_K */|0x10 /* BPF_JEQ */, 0x27, 0x1, 0)".
Proof. vm_compute. reflexivity. Qed.
Example ex_ret : one_block Seccomp XABBREV (Blk 0x206 0 0 0x50001) = bs "BPF_STMT(BPF_RET|BPF_K|0x200 /* BPF_??? */, SECCOMP_RET_ERRNO|0x1)".
Proof. vm_compute. reflexivity. Qed.
Example ex_shown : all_bits_shown 0x20 = true /\ all_bits_shown 0x206 = true /\ all_bits_shown 0x120 = false.
Proof. repeat split. Qed.

Theorem C77_filter u st l : fprog u st l = map (one_block u st) (firstn 4096 l) ++ (if (4096 <? length l)%nat then [bs "..."] else []).
Proof. apply C77_program. Qed.
Print Assumptions C77_filter.
Theorem C77_ebpf_program st l : ebpf_prog st l = map (one_insn st) (firstn 4096 l) ++ (if (4096 <? length l)%nat then [bs "..."] else []).
Proof. apply C77_program. Qed.
Print Assumptions C77_ebpf_program.
