From Verif Require Import Base Printf QuoteModel BitsModel BitsSpec XlatModel XlatSpec XlatText XlatThms ModeModel RetModel RetSpec RetProofs ModeSpec ModeProofs CompModel CompSpec.
Local Open Scope N_scope.

(** * Comments *)
Definition utext (t w : list N) : Prop := forall s, uncomment false (t ++ s) = w ++ uncomment false s.
Lemma utext_nil : utext [] [].
Proof. intros s. reflexivity. Qed.
Lemma utext_app a b x y : utext a x -> utext b y -> utext (a ++ b) (x ++ y).
Proof. intros A B s. rewrite <- !app_assoc, A, B. reflexivity. Qed.
Lemma utext_word t : ~ In 32 t -> ~ In 47 t -> utext t t.
Proof.
  induction t as [|c t IH]; intros A B s; [reflexivity|]. cbn [app uncomment].
  replace (c =? 32) with false by (symmetry; apply N.eqb_neq; intros ->; apply A; left; reflexivity).
  replace (c =? 47) with false by (symmetry; apply N.eqb_neq; intros ->; apply B; left; reflexivity).
  rewrite IH; [reflexivity| |]; intros I; [apply A|apply B]; right; exact I.
Qed.
Lemma uncomment_in d s : ~ In 42 d -> uncomment true (d ++ bs " */" ++ s) = uncomment false s.
Proof.
  change (bs " */") with [32; 42; 47]. induction d as [|c d IH]; intros A; [reflexivity|]. cbn [app uncomment].
  replace (c =? 42) with false by (symmetry; apply N.eqb_neq; intros ->; apply A; left; reflexivity).
  apply IH. intros I. apply A. right. exact I.
Qed.
Lemma utext_remark d : ~ In 42 d -> utext (bs " /* " ++ d ++ bs " */") [].
Proof.
  intros A s. rewrite <- !app_assoc. change (bs " /* ") with [32; 47; 42; 32]. cbn [app].
  change (uncomment false (32 :: 47 :: 42 :: 32 :: d ++ bs " */" ++ s)) with (uncomment true (32 :: d ++ bs " */" ++ s)).
  change (32 :: d ++ bs " */" ++ s) with ((32 :: d) ++ bs " */" ++ s). apply uncomment_in. intros [E|I]; [discriminate|auto].
Qed.
Lemma utext_comment d : (forall s, d = Some s -> ~ In 42 s) -> utext (comment d) [].
Proof.
  intros A. destruct d as [[|c r]|]; [apply utext_nil| |apply utext_nil]. unfold comment. apply utext_remark. apply A. reflexivity.
Qed.
Lemma utext_end t w : utext t w -> uncomment false t = w.
Proof. intros H. rewrite <- (app_nil_r t), H. apply app_nil_r. Qed.

(** * Expressions *)
Lemma split_bar_ne s : split_bar s <> [].
Proof. destruct s as [|c s]; cbn; [discriminate|]. destruct (c =? 124); [discriminate|]. destruct (split_bar s); discriminate. Qed.
Lemma split_bar_cat a b : split_bar (a ++ bs "|" ++ b) = split_bar a ++ split_bar b.
Proof.
  change (bs "|") with [124]. induction a as [|c a IH]; [reflexivity|]. cbn [app split_bar]. cbn [app] in IH. rewrite IH.
  destruct (c =? 124); [reflexivity|]. pose proof (split_bar_ne a). destruct (split_bar a) as [|w l]; [congruence|]. reflexivity.
Qed.
Lemma expression_or names a b x y : expression names a = Some x -> expression names b = Some y -> expression names (a ++ bs "|" ++ b) = Some (N.lor x y).
Proof.
  unfold expression. rewrite split_bar_cat, fold_right_app. intros A B. rewrite B. clear B. revert x A. induction (split_bar a) as [|w l IH]; cbn [fold_right]; intros x A.
  - injection A as <-. rewrite N.lor_0_l. reflexivity.
  - destruct (term names w) as [v|]; [|discriminate A]. cbn in *. destruct (fold_right _ (Some 0) l) as [z|]; [|discriminate A]. cbn in A. injection A as <-.
    rewrite (IH z eq_refl). cbn. rewrite N.lor_assoc. reflexivity.
Qed.
Lemma split_shl_word w : ~ In 60 w -> split_shl w = (w, None).
Proof.
  induction w as [|c w IH]; [reflexivity|]. intros H. cbn [split_shl]. rewrite IH by (intros I; apply H; right; exact I).
  replace (c =? 60) with false by (symmetry; apply N.eqb_neq; intros ->; apply H; left; reflexivity). reflexivity.
Qed.
Lemma split_shl_app w s : ~ In 60 w -> split_shl (w ++ bs "<<" ++ s) = (w, Some s).
Proof.
  change (bs "<<") with [60; 60]. induction w as [|c w IH]; [reflexivity|]. intros H. cbn [app split_shl]. cbn [app] in IH. rewrite IH by (intros I; apply H; right; exact I).
  replace (c =? 60) with false by (symmetry; apply N.eqb_neq; intros ->; apply H; left; reflexivity). reflexivity.
Qed.
Lemma expression_word names w v : ~ In 124 w -> term names w = Some v -> expression names w = Some v.
Proof. intros H E. unfold expression. rewrite split_bar_word by exact H. cbn. rewrite E. cbn. rewrite N.lor_0_r. reflexivity. Qed.

(** a printed text of known value *)
Definition den (names : list (N * list N)) (t : list N) (v : N) : Prop := exists w, utext t w /\ expression names w = Some v.
(** one that is a single constant *)
Definition cst (names : list (N * list N)) (t : list N) (v : N) : Prop := exists w, utext t w /\ ~ In 124 w /\ ~ In 60 w /\ value_of names w = Some v.
Lemma den_denotes names t v : den names t v -> denotes names t v.
Proof. intros (w & U & E). unfold denotes. rewrite (utext_end _ _ U). exact E. Qed.
Lemma cst_den names t v : cst names t v -> den names t v.
Proof. intros (w & U & A & B & E). exists w. split; [exact U|]. apply expression_word; [exact A|]. unfold term. rewrite split_shl_word by exact B. exact E. Qed.
Lemma utext_bar : utext bar bar.
Proof. apply utext_word; unfold bar; noin. Qed.
Lemma den_or names a b x y : den names a x -> den names b y -> den names (a ++ bar ++ b) (N.lor x y).
Proof.
  intros (w & U & E) (w' & U' & E'). exists (w ++ bar ++ w'). split; [apply utext_app; [exact U|apply utext_app; [apply utext_bar|exact U']]|].
  apply expression_or; auto.
Qed.
Lemma cst_shl names a b x k : cst names a x -> cst names b k -> den names (a ++ shl ++ b) (N.shiftl x k).
Proof.
  intros (w & U & A & B & E) (w' & U' & A' & B' & E'). exists (w ++ shl ++ w').
  split; [apply utext_app; [exact U|apply utext_app; [apply utext_word; unfold shl; noin|exact U']]|].
  apply expression_word; [|unfold term, shl; rewrite split_shl_app by exact B; rewrite E, E'; reflexivity].
  intros I. apply in_app_iff in I as [I|I]; [auto|]. apply in_app_iff in I as [I|I]; [revert I; unfold shl; noin|auto].
Qed.
Lemma den_remark names t v d : den names t v -> (forall s, d = Some s -> ~ In 42 s) -> den names (t ++ comment d) v.
Proof. intros (w & U & E) H. exists w. split; [|exact E]. rewrite <- (app_nil_r w). apply utext_app; [exact U|apply utext_comment; exact H]. Qed.
Lemma cst_remark names t v d : cst names t v -> ~ In 42 d -> cst names (t ++ bs " /* " ++ d ++ bs " */") v.
Proof. intros (w & U & A & B & E) H. exists w. split; [|auto]. rewrite <- (app_nil_r w). apply utext_app; [exact U|apply utext_remark; exact H]. Qed.
Lemma cst_comment names t v d : cst names t v -> (forall s, d = Some s -> ~ In 42 s) -> cst names (t ++ comment d) v.
Proof. intros (w & U & A & B & E) H. exists w. split; [|auto]. rewrite <- (app_nil_r w). apply utext_app; [exact U|apply utext_comment; exact H]. Qed.

(** * Numbers *)
Lemma hex_not_in c n : plain c -> ~ In c (pr_hex n).
Proof. intros H. apply (sprint_not_in c FMT_X n H). Qed.
Ltac plain_ := unfold plain; lia.
Lemma cst_hex names n : lettered names = true -> cst names (pr_hex n) n.
Proof.
  intros L. exists (pr_hex n). split; [apply utext_word; apply hex_not_in; plain_|]. split; [apply hex_not_in; plain_|]. split; [apply hex_not_in; plain_|]. apply value_hex, L.
Qed.
Lemma c_number_dec n : c_number (pr_num 10 n) = Some (Z.of_N n).
Proof. apply vtext_c, vtext_u. Qed.
Lemma cst_dec names n : lettered names = true -> cst names (pr_num 10 n) n.
Proof.
  intros L. exists (pr_num 10 n). split; [apply utext_word; apply pr_num_not_in; lia|]. split; [apply pr_num_not_in; lia|]. split; [apply pr_num_not_in; lia|].
  pose proof (c_number_dec n) as V. destruct (pr_num_head 10 n ltac:(lia)) as (c & r & E & H). rewrite E in *. apply value_of_num; auto.
Qed.

(** * Tables *)
Definition nochar (c : N) (s : list N) : bool := forallb (fun x => negb (x =? c)) s.
Lemma nochar_in c s : nochar c s = true -> ~ In c s.
Proof. unfold nochar. intros H I. rewrite forallb_forall in H. specialize (H c I). rewrite N.eqb_refl in H. discriminate H. Qed.
Definition good_name (s : list N) : bool := nochar 32 s && nochar 47 s && nochar 42 s && negb (beqs s []).
(** every name of the table has its value *)
Definition opt_eqb (a : option N) (v : N) : bool := match a with Some x => x =? v | None => false end.
Lemma opt_eqb_eq a v : opt_eqb a v = true -> a = Some v.
Proof. destruct a; cbn; [|discriminate]. intros E. f_equal. lia. Qed.
Definition tab_den (names : list (N * list N)) (l : list (N * list N)) : bool :=
  forallb (fun e => good_name (snd e) && opt_eqb (expression names (snd e)) (fst e)) l.
Definition tab_cst (names : list (N * list N)) (l : list (N * list N)) : bool :=
  forallb (fun e => good_name (snd e) && nochar 124 (snd e) && nochar 60 (snd e) && opt_eqb (value_of names (snd e)) (fst e)) l.
Lemma name_word s : good_name s = true -> utext s s /\ ~ In 42 s.
Proof.
  unfold good_name. intros H. apply andb_prop in H as (H & _). apply andb_prop in H as (H & C). apply andb_prop in H as (A & B).
  split; [apply utext_word; apply nochar_in; assumption|apply nochar_in; assumption].
Qed.
Lemma tab_den_in names l v s : tab_den names l = true -> In (v, s) l -> den names s v /\ ~ In 42 s.
Proof.
  intros T I. unfold tab_den in T. rewrite forallb_forall in T. specialize (T _ I). cbn [fst snd] in T. apply andb_prop in T as (G & E). destruct (name_word s G) as (U & N42).
  split; [|exact N42]. exists s. split; [exact U|]. apply opt_eqb_eq, E.
Qed.
Lemma tab_cst_in names l v s : tab_cst names l = true -> In (v, s) l -> cst names s v /\ ~ In 42 s.
Proof.
  intros T I. unfold tab_cst in T. rewrite forallb_forall in T. specialize (T _ I). cbn [fst snd] in T. apply andb_prop in T as (T & E). apply andb_prop in T as (T & C). apply andb_prop in T as (G & B).
  destruct (name_word s G) as (U & N42). split; [|exact N42]. exists s. split; [exact U|]. split; [apply nochar_in, B|]. split; [apply nochar_in, C|apply opt_eqb_eq, E].
Qed.
Lemma lookup_in l v s : xlookup (normal l) v = Some s -> In (v, s) l.
Proof.
  intros E. assert (OK : table_ok (normal l)). { cbn. unfold tab. apply Forall_forall. intros e I. apply in_map_iff in I as (x & <- & _). discriminate. }
  apply tab_in. apply (proj1 (C37_lookup _ v OK) s E).
Qed.
(** indexed tables without holes *)
Fixpoint numbered (i : N) (l : list (N * list N)) : bool := match l with [] => true | e :: r => (fst e =? i) && numbered (i + 1) r end.
Lemma numbered_nth l : forall i k v s, numbered i l = true -> nth_error (tab l) k = Some (v, s) -> s <> None /\ v = i + N.of_nat k.
Proof.
  induction l as [|(a & b) l IH]; intros i k v s H E; [destruct k; discriminate E|]. cbn [numbered fst] in H. apply andb_prop in H as (A & B). destruct k as [|k].
  - cbn in E. injection E as <- <-. split; [discriminate|]. cbn. lia.
  - cbn in E. destruct (IH _ k v s B E) as (X & Y). split; [exact X|]. lia.
Qed.
Lemma lookup_in_indexed l v s : numbered 0 l = true -> xlookup (indexed l) v = Some s -> In (v, s) l.
Proof.
  intros H E. assert (OK : table_ok (indexed l)). { cbn. intros i a b X. left. apply (numbered_nth l 0 i a b H X). }
  apply tab_in. apply (proj1 (C37_lookup _ v OK) s E).
Qed.

(** printxval *)
Definition dflt_ok (d : option (list N)) : Prop := forall s, d = Some s -> ~ In 42 s.
Lemma xvals_text st v d x t : printxvals_ex v d st FMT_X [x] = t ->
  st = XRAW /\ t = pr_hex v \/ xlookup x v = None /\ t = pr_hex v ++ comment d \/
  exists s, xlookup x v = Some s /\ (t = s \/ t = pr_hex v ++ comment (Some s)).
Proof.
  unfold printxvals_ex. intros <-. destruct st; [|left; auto|]; right; cbn [xlookups]; destruct (xlookup x v) as [s|]; eauto 6.
Qed.
Lemma xvals_den names st v d x : lettered names = true -> dflt_ok d -> (forall s, xlookup x v = Some s -> den names s v /\ ~ In 42 s) ->
  den names (printxvals_ex v d st FMT_X [x]) v.
Proof.
  intros L D H. destruct (xvals_text st v d x _ eq_refl) as [(_ & ->)|[(_ & ->)|(s & X & [->| ->])]].
  - apply cst_den, cst_hex, L.
  - apply den_remark; [apply cst_den, cst_hex, L|exact D].
  - apply H, X.
  - apply den_remark; [apply cst_den, cst_hex, L|]. intros s' E. injection E as <-. apply H, X.
Qed.
Lemma xvals_cst names st v d x : lettered names = true -> dflt_ok d -> (forall s, xlookup x v = Some s -> cst names s v /\ ~ In 42 s) ->
  cst names (printxvals_ex v d st FMT_X [x]) v.
Proof.
  intros L D H. destruct (xvals_text st v d x _ eq_refl) as [(_ & ->)|[(_ & ->)|(s & X & [->| ->])]].
  - apply cst_hex, L.
  - apply cst_comment; [apply cst_hex, L|exact D].
  - apply H, X.
  - apply cst_comment; [apply cst_hex, L|]. intros s' E. injection E as <-. apply H, X.
Qed.
Lemma sxval_cst names st v d x : lettered names = true -> ~ In 42 d -> (forall s, xlookup x v = Some s -> cst names s v /\ ~ In 42 s) ->
  cst names (sprintxval_ex x v (Some d) st FMT_X) v.
Proof.
  intros L D H. unfold sprintxval_ex. change (sprint_xlat_val FMT_X v) with (pr_hex v).
  destruct st; [|apply cst_hex, L|]; destruct (xlookup x v) as [s|]; try (apply cst_remark; [apply cst_hex, L|]); auto; apply H; reflexivity.
Qed.

(** printflags *)
Lemma join_den names l vs : Forall2 (fun w v => den names w v) l vs -> l <> [] -> den names (join_bar l) (fold_right N.lor 0 vs).
Proof.
  intros F. induction F as [|w v l vs H F IH]; [congruence|]. intros _. destruct F as [|w' v' l vs H' F].
  - cbn [join_bar fold_right]. rewrite N.lor_0_r. exact H.
  - change (join_bar (w :: w' :: l)) with (w ++ bar ++ join_bar (w' :: l)). cbn [fold_right]. apply den_or; [exact H|]. apply IH. discriminate.
Qed.
Lemma join_not_in c l : c <> 124 -> Forall (fun w => ~ In c w) l -> ~ In c (join_bar l).
Proof.
  intros C F. induction F as [|w l H F IH]; [cbn; tauto|]. destruct l as [|w' l]; [exact H|].
  change (join_bar (w :: w' :: l)) with (w ++ [124] ++ join_bar (w' :: l)). intros I. apply in_app_iff in I as [I|I]; [auto|]. apply in_app_iff in I as [[I|[]]|I]; [congruence|auto].
Qed.
Lemma flags_den names st flags d l : lettered names = true -> dflt_ok d -> tab_den names l = true -> flags <> 0 \/ d <> None ->
  den names (printflags_ex flags d st FMT_X [normal l]) flags.
Proof.
  intros L D T NZ. destruct (C36_flags_reading flags d st FMT_X [normal l]) as (ch & rest & R & -> & _).
  destruct R as [Rn _ Ro _ _ _ _ _]. change (all_entries [normal l]) with (tab l ++ []) in Rn. rewrite app_nil_r in Rn.
  assert (Rn' : Forall (fun e => den names (snd e) (fst e) /\ ~ In 42 (snd e)) ch).
  { eapply Forall_impl; [|exact Rn]. intros (v & s) I. apply (tab_den_in names l v s T). apply tab_in. exact I. }
  assert (TK : ch <> [] -> den names (join_bar (tokens FMT_X ch rest)) flags /\ ~ In 42 (join_bar (tokens FMT_X ch rest))).
  { intros NE. unfold tokens. change (sprint_xlat_val FMT_X rest) with (pr_hex rest).
    assert (F2 : Forall2 (fun w v => den names w v) (map snd ch) (map fst ch)). { clear -Rn'. induction Rn' as [|e l (A & _) F IH]; constructor; auto. }
    assert (F42 : Forall (fun w => ~ In 42 w) (map snd ch)). { clear -Rn'. induction Rn' as [|e l (_ & A) F IH]; constructor; auto. }
    rewrite <- Ro. destruct (rest =? 0) eqn:E0.
    - rewrite app_nil_r. split; [|apply join_not_in; [discriminate|exact F42]]. replace (N.lor (ors ch) rest) with (fold_right N.lor 0 (map fst ch)).
      + apply join_den; [exact F2|destruct ch; [congruence|discriminate]].
      + rewrite fold_ors0. replace rest with 0 by lia. rewrite N.lor_0_r. reflexivity.
    - split.
      + rewrite <- fold_ors. apply join_den; [|destruct ch; discriminate]. apply Forall2_app; [exact F2|]. constructor; [apply cst_den, cst_hex, L|constructor].
      + apply join_not_in; [discriminate|]. apply Forall_app. split; [exact F42|]. constructor; [apply hex_not_in; plain_|constructor]. }
  assert (Z : den names (bs "0") 0). { apply cst_den. exact (cst_dec names 0 L). }
  change (sprint_xlat_val FMT_X flags) with (pr_hex flags) in *.
  assert (HX : den names (pr_hex flags) flags) by (apply cst_den, cst_hex, L).
  assert (NC : ch = [] -> den names (if flags =? 0 then match d with Some _ => bs "0" | None => [] end else pr_hex flags ++ comment d) flags).
  { intros _. destruct (N.eqb_spec flags 0) as [->|X]; [destruct d; [exact Z|destruct NZ; congruence]|]. apply den_remark; auto. }
  destruct st; cbn [render]; change (sprint_xlat_val FMT_X flags) with (pr_hex flags).
  - destruct ch; [apply NC; reflexivity|apply TK; discriminate].
  - destruct ch; (destruct ((flags =? 0) && match d with None => true | Some _ => false end) eqn:B; [destruct d; [apply andb_prop in B as (_ & B); discriminate B|destruct NZ; [lia|congruence]]|exact HX]).
  - destruct ch as [|e ch']; [apply NC; reflexivity|]. set (ch := e :: ch') in *. destruct (TK ltac:(discriminate)) as (_ & N42).
    destruct HX as (w & U & E). exists w. split; [|exact E]. rewrite <- (app_nil_r w). apply utext_app; [exact U|apply utext_remark; exact N42].
Qed.
Lemma print_xlat_cst names st v s : lettered names = true -> cst names s v -> ~ In 42 s -> cst names (print_xlat st v s) v.
Proof.
  intros L H N42. destruct st; cbn [print_xlat]; [exact H|apply cst_hex, L|]. apply cst_comment; [apply cst_hex, L|]. intros s' E. injection E as <-. exact N42.
Qed.

(** * Bits *)
Lemma field v k m : N.shiftl (N.land (N.shiftr v k) m) k = N.land v (N.shiftl m k).
Proof.
  apply N.bits_inj. intros i. destruct (N.lt_ge_cases i k) as [H|H].
  - rewrite N.shiftl_spec_low by exact H. rewrite N.land_spec, N.shiftl_spec_low by exact H. rewrite andb_false_r. reflexivity.
  - rewrite N.shiftl_spec_high' by exact H. rewrite !N.land_spec, N.shiftl_spec_high' by exact H. rewrite N.shiftr_spec'. replace (i - k + k) with i by lia. reflexivity.
Qed.
Lemma lor_land v a b : N.lor (N.land v a) (N.land v b) = N.land v (N.lor a b).
Proof. symmetry. apply N.land_lor_distr_r. Qed.
Lemma land_all v n : v < 2 ^ n -> N.land v (N.ones n) = v.
Proof. intros H. rewrite N.land_ones. apply N.mod_small, H. Qed.
Lemma wake_parts v : v < 2^32 ->
  N.lor (N.shiftl (N.land (N.shiftr v 28) 8) 28) (N.lor (N.shiftl (N.land (N.shiftr v 28) 7) 28) (N.lor (N.shiftl (N.land (N.shiftr v 12) 4095) 12)
    (N.lor (N.shiftl (N.land (N.shiftr v 24) 15) 24) (N.land v 4095)))) = v.
Proof.
  intros H. rewrite !field, !lor_land.
  change (N.lor (N.shiftl 8 28) (N.lor (N.shiftl 7 28) (N.lor (N.shiftl 4095 12) (N.lor (N.shiftl 15 24) 4095)))) with (N.ones 32). apply land_all, H.
Qed.
Lemma low_rest v m : N.lor (N.land v m) (N.ldiff v m) = v.
Proof. apply N.bits_inj. intros i. rewrite N.lor_spec, N.land_spec, N.ldiff_spec. destruct (N.testbit v i), (N.testbit m i); reflexivity. Qed.

(** * The values *)
Ltac comp := vm_compute; reflexivity.
Lemma futex_op_den st op d : dflt_ok d -> den futex_names (printxval st futexops op d) op.
Proof.
  intros D. unfold printxval. apply xvals_den; [comp|exact D|]. intros s E. apply lookup_in in E. eapply tab_den_in; [|exact E]. comp.
Qed.
Lemma wakeops_cst st v : cst futex_names (printxval st futexwakeops v None) v.
Proof.
  unfold printxval. apply xvals_cst; [comp|intros s E; discriminate E|]. intros s E. apply lookup_in_indexed in E; [|comp]. eapply tab_cst_in; [|exact E]. comp.
Qed.
Lemma wakecmps_cst st v : cst futex_names (printxval st futexwakecmps v None) v.
Proof.
  unfold printxval. apply xvals_cst; [comp|intros s E; discriminate E|]. intros s E. apply lookup_in_indexed in E; [|comp]. eapply tab_cst_in; [|exact E]. comp.
Qed.
Lemma bitset_den st v : den futex_names (printxval st futexbitset v None) v.
Proof.
  unfold printxval. apply xvals_den; [comp|intros s E; discriminate E|]. intros s E. apply lookup_in in E. eapply tab_den_in; [|exact E]. comp.
Qed.
Lemma shl_or st x y k a b names : cst names a x -> lettered names = true -> den names b y -> (forall s : list N, st = Some s -> ~ In 42 s) ->
  den names (a ++ shl ++ pr_num 10 k ++ comment st ++ bar ++ b) (N.lor (N.shiftl x k) y).
Proof.
  intros A L B C. replace (a ++ shl ++ pr_num 10 k ++ comment st ++ bar ++ b) with (((a ++ shl ++ pr_num 10 k) ++ comment st) ++ bar ++ b) by (rewrite <- !app_assoc; reflexivity).
  apply den_or; [|exact B]. apply den_remark; [|exact C]. apply cst_shl; [exact A|apply cst_dec, L].
Qed.
Lemma shl_or0 x y k a b names : cst names a x -> lettered names = true -> den names b y ->
  den names (a ++ shl ++ pr_num 10 k ++ bar ++ b) (N.lor (N.shiftl x k) y).
Proof. intros A L B. exact (shl_or None x y k a b names A L B ltac:(discriminate)). Qed.
Lemma wake_op_den st v : v < 2^32 -> den futex_names (wake_op st v) v.
Proof.
  intros H. rewrite <- (wake_parts v H) at 2. unfold wake_op.
  assert (L : lettered futex_names = true) by comp.
  set (T := printxval st futexwakeops _ None ++ _).
  assert (DT : den futex_names T (N.lor (N.shiftl (N.land (N.shiftr v 28) 7) 28) (N.lor (N.shiftl (N.land (N.shiftr v 12) 4095) 12)
    (N.lor (N.shiftl (N.land (N.shiftr v 24) 15) 24) (N.land v 4095))))).
  { unfold T. clear T. apply shl_or; [apply wakeops_cst|exact L| |].
    - apply shl_or0; [apply cst_hex, L|exact L|]. apply shl_or; [apply wakecmps_cst|exact L| |].
      + apply cst_den, cst_hex, L.
      + intros s E. destruct (has_name _ _ _); [discriminate E|injection E as <-]. noin.
    - intros s E. destruct (has_name _ _ _); [discriminate E|injection E as <-]. noin. }
  clearbody T. change 8 with (2^3) at 1 3. rewrite land_bit. destruct (N.testbit (N.shiftr v 28) 3).
  - cbn [negb]. change (2^3 =? 0) with false. cbn [negb]. rewrite <- !app_assoc. apply shl_or0; [|exact L|exact DT].
    apply print_xlat_cst; [exact L| |noin]. apply (tab_cst_in futex_names [(8, bs "FUTEX_OP_OPARG_SHIFT")]); [comp|left; reflexivity].
  - cbn [negb N.eqb]. rewrite N.shiftl_0_l, N.lor_0_l. exact DT.
Qed.
Lemma sock_den st v : den sock_names (tprint_sock_type st v) v.
Proof.
  assert (L : lettered sock_names = true) by comp. unfold tprint_sock_type.
  assert (F : forall x, den sock_names (printflags_in st sock_type_flags x (Some (bs "SOCK_???"))) x).
  { intros x. apply flags_den; [exact L|intros s E; injection E as <-; noin|comp|right; discriminate]. }
  destruct (xlookup socktypes (N.land v 15)) as [s|] eqn:X; [|apply F]. cbv zeta.
  apply lookup_in in X. eapply (tab_cst_in sock_names) in X; [|comp]. destruct X as (X & N42).
  pose proof (cst_den _ _ _ (print_xlat_cst sock_names st _ s L X N42)) as D. pose proof (low_rest v 15) as R.
  set (a := N.land v 15) in *. set (b := N.ldiff v 15) in *. clearbody a b. rewrite <- R.
  destruct (N.eqb_spec b 0) as [E|E].
  - rewrite E, app_nil_r, N.lor_0_r. exact D.
  - apply den_or; [exact D|apply F].
Qed.

(** memfd *)
Lemma huge_parts v : v < 2^32 -> N.shiftl (N.shiftr (N.land v HUGE_MASK) 26) 26 = N.land v HUGE_MASK.
Proof.
  intros H. change HUGE_MASK with (N.shiftl 63 26). rewrite <- field. rewrite N.shiftr_shiftl_l by lia. replace (26 - 26) with 0 by lia. rewrite N.shiftl_0_r. reflexivity.
Qed.
Definition memfd_text (flags : N) : list N :=
  let huge := N.land flags HUGE_MASK in let fl := N.ldiff flags HUGE_MASK in
  (if negb (fl =? 0) || (huge =? 0) then printflags_ex fl (Some (bs "MFD_???")) XABBREV FMT_X [memfd_create_flags] else [])
  ++ (if negb (huge =? 0) then (if negb (fl =? 0) then bar else []) ++ pr_num 10 (N.shiftr huge 26) ++ shl ++ bs "MFD_HUGE_SHIFT" else []).
Lemma memfd_den v : v < 2^32 -> den memfd_names (memfd_text v) v.
Proof.
  intros H. assert (L : lettered memfd_names = true) by comp. unfold memfd_text. cbv zeta.
  assert (F : forall x, den memfd_names (printflags_ex x (Some (bs "MFD_???")) XABBREV FMT_X [memfd_create_flags]) x).
  { intros x. apply flags_den; [exact L|intros s E; injection E as <-; noin|comp|right; discriminate]. }
  assert (G : den memfd_names (pr_num 10 (N.shiftr (N.land v HUGE_MASK) 26) ++ shl ++ bs "MFD_HUGE_SHIFT") (N.land v HUGE_MASK)).
  { rewrite <- (huge_parts v H) at 2. apply cst_shl; [apply cst_dec, L|]. apply (tab_cst_in memfd_names [(26, bs "MFD_HUGE_SHIFT")]); [comp|left; reflexivity]. }
  pose proof (low_rest v HUGE_MASK) as R.
  set (huge := N.land v HUGE_MASK) in *. set (fl := N.ldiff v HUGE_MASK) in *. clearbody huge fl.
  destruct (N.eqb_spec fl 0) as [E|E]; destruct (N.eqb_spec huge 0) as [E'|E']; cbn [negb orb app].
  - rewrite app_nil_r. subst. apply F.
  - subst fl. rewrite N.lor_0_r in R. rewrite <- R. exact G.
  - rewrite app_nil_r. subst huge. rewrite N.lor_0_l in R. rewrite <- R. apply F.
  - rewrite N.lor_comm in R. rewrite <- R. apply den_or; [apply F|exact G].
Qed.

(** personality *)
Lemma per_low st v : cst personality_names (printxval st personality_types (N.land v 255) (Some (bs "PER_???"))) (N.land v 255) /\
  cst personality_names (sprintxval_ex personality_types (N.land v 255) (Some (bs "PER_???")) st FMT_X) (N.land v 255).
Proof.
  assert (L : lettered personality_names = true) by comp.
  assert (X : forall s, xlookup personality_types (N.land v 255) = Some s -> cst personality_names s (N.land v 255) /\ ~ In 42 s).
  { assert (B : N.land v 255 < 256). { change 255 with (N.ones 8). rewrite N.land_ones. apply N.mod_lt. discriminate. }
    set (a := N.land v 255) in *. clearbody a. intros s E. apply lookup_in in E.
    eapply (tab_cst_in personality_names (filter (fun e => fst e <? 256) _)); [|apply filter_In; split; [exact E|cbn [fst]; lia]]. comp. }
  split; [apply xvals_cst|apply sxval_cst]; auto; [intros s E; injection E as <-|]; noin.
Qed.
Lemma pers_flags st v : v <> 0 -> den personality_names (printflags_in st personality_flags v None) v.
Proof. intros H. apply flags_den; [comp|intros s E; discriminate E|comp|left; exact H]. Qed.

(** ** Lengths *)
Lemma flags_len st flags l : flags <> 0 -> flags < 2^64 -> forallb (fun e => negb (fst e =? 0)) l = true ->
  (length (printflags_ex flags None st FMT_X [normal l]) <= 50 + list_sum (map (fun e => S (length (snd e))) l))%nat.
Proof.
  intros NZ FL VZ. destruct (C36_flags_reading flags None st FMT_X [normal l]) as (ch & rest & R & -> & _).
  pose proof (reading_rest_le _ _ _ _ R) as RL. destruct R as [Rn _ _ _ Rp _ _ _]. change (all_entries [normal l]) with (tab l ++ []) in Rn. rewrite app_nil_r in Rn.
  assert (Rn' : incl ch l). { intros (v & s) I. rewrite Forall_forall in Rn. specialize (Rn _ I). apply tab_in. exact Rn. }
  assert (ND : NoDup ch).
  { clear -Rp Rn' VZ. induction Rp as [|e m F Rp IH]; constructor.
    - intros I. rewrite Forall_forall in F. specialize (F e I). rewrite N.land_diag in F. rewrite forallb_forall in VZ. specialize (VZ e (Rn' _ (or_introl eq_refl))). lia.
    - apply IH. intros x Hx. apply Rn'. right. exact Hx. }
  pose proof (NoDup_sum (fun e => S (length (snd e))) ch l ND Rn') as SL.
  pose proof (pr_hex_length flags FL) as H1. pose proof (pr_hex_length rest ltac:(lia)) as H2.
  assert (TL : (length (join_bar (tokens FMT_X ch rest)) <= 20 + list_sum (map (fun e => S (length (snd e))) l))%nat).
  { eapply Nat.le_trans; [apply join_length|]. unfold tokens. rewrite map_app, list_sum_app, map_map. change (sprint_xlat_val FMT_X rest) with (pr_hex rest).
    destruct (rest =? 0); cbn [map list_sum fold_right]; lia. }
  unfold render. change (sprint_xlat_val FMT_X flags) with (pr_hex flags). replace (flags =? 0) with false by lia. cbn [andb comment]. rewrite ?app_nil_r.
  destruct st; [destruct ch; lia|destruct ch; lia|]. destruct ch; [lia|]. rewrite !app_length. change (length (bs " /* ")) with 4%nat. change (length (bs " */")) with 3%nat. lia.
Qed.
Lemma sxval_len st v x d n : v < 2^64 -> (length d <= n)%nat -> (forall s, xlookup x v = Some s -> (length s <= n)%nat) ->
  (length (sprintxval_ex x v (Some d) st FMT_X) <= 25 + n)%nat.
Proof.
  intros HV HD HS. unfold sprintxval_ex. change (sprint_xlat_val FMT_X v) with (pr_hex v). pose proof (pr_hex_length v HV) as H.
  assert (C : forall s, (length s <= n -> length (pr_hex v ++ bs " /* " ++ s ++ bs " */") <= 25 + n)%nat).
  { intros s K. rewrite !app_length. change (length (bs " /* ")) with 4%nat. change (length (bs " */")) with 3%nat. lia. }
  destruct st; [|lia|]; (destruct (xlookup x v) as [s|]; [specialize (HS s eq_refl)|]); auto; lia.
Qed.
Lemma snprintf_ok cap t : N.of_nat (length t) < cap -> snprintf cap t = Ok t.
Proof. intros H. unfold snprintf. replace (N.of_nat (length t) <? cap) with true by lia. reflexivity. Qed.
Lemma u32_lt x : u32 x < 2^32.
Proof. unfold u32. apply N.mod_lt. discriminate. Qed.
Lemma ldiff_le v m : N.ldiff v m <= v.
Proof.
  apply N.ldiff_le. apply N.bits_inj. intros i. rewrite !N.ldiff_spec, N.bits_0. destruct (N.testbit v i), (N.testbit m i); reflexivity.
Qed.
Lemma land_le v m : N.land v m <= m.
Proof.
  apply N.ldiff_le. apply N.bits_inj. intros i. rewrite !N.ldiff_spec, N.land_spec, N.bits_0. destruct (N.testbit v i), (N.testbit m i); reflexivity.
Qed.
Lemma pers_ret st v : exists t, personality_ret st v = Ok t /\ den personality_names t (u32 v).
Proof.
  unfold personality_ret. cbv zeta. pose proof (u32_lt v) as HV. set (u := u32 v) in *. clearbody u.
  destruct (per_low st u) as (_ & C).
  pose proof (land_le u 255) as LA. pose proof (ldiff_le u 255) as LB.
  assert (LN : (length (sprintxval_ex personality_types (N.land u 255) (Some (bs "PER_???")) st FMT_X) <= 25 + 20)%nat).
  { apply sxval_len; [lia|cbn; lia|]. intros s E. apply lookup_in in E.
    assert (Q : forallb (fun e : N * list N => Nat.leb (length (snd e)) 20) (map (fun e : entry => (fst e, match snd e with Some s => s | None => [] end)) (data personality_types)) = true) by (vm_compute; reflexivity).
    rewrite forallb_forall in Q. specialize (Q _ E). apply Nat.leb_le in Q. exact Q. }
  pose proof (low_rest u 255) as R.
  rewrite snprintf_ok by lia. cbn [rbind]. set (p := sprintxval_ex _ _ _ _ _) in *. clearbody p.
  destruct (N.eqb_spec (N.ldiff u 255) 0) as [E|E].
  - exists p. split; [reflexivity|]. rewrite E, N.lor_0_r in R. rewrite R in C. apply cst_den, C.
  - assert (FL : (length (printflags_ex (N.ldiff u 255) None st FMT_X [personality_flags]) <= 300)%nat).
    { eapply Nat.le_trans; [apply flags_len; [exact E|lia|vm_compute; reflexivity]|vm_compute; lia]. }
    pose proof (C36_sprintflags_same bar personality_flags (N.ldiff u 255) 0 st FMT_X) as S0. cbv zeta in S0.
    pose proof (pers_flags st _ E) as D. unfold printflags_in in D.
    set (t := printflags_ex _ None st FMT_X [personality_flags]) in *.
    rewrite S0; [|left; discriminate|vm_compute; repeat (constructor; try discriminate)|rewrite !app_length; change (length bar) with 1%nat; change (0 =? 0) with true; cbn [length]; lia].
    change (0 =? 0) with true. cbn [rbind app]. 
    assert (NE : t <> []). { intros X. rewrite X in D. destruct D as (w & U & EX). pose proof (utext_end _ _ U) as UE. cbn in UE. subst w. vm_compute in EX. discriminate EX. }
    assert (Y : match t with [] => None | _ :: _ => Some (bar ++ t) end = Some (bar ++ t)) by (destruct t; [congruence|reflexivity]).
    rewrite Y. unfold stpcpy. rewrite app_length. change (length bar) with 1%nat. replace (N.of_nat (length p) + N.of_nat (1 + length t) <? 1024) with true by lia.
    eexists. split; [reflexivity|]. rewrite <- R. apply den_or; [apply cst_den, C|exact D].
Qed.

(** ioprio, quota *)
Lemma not_in_app (c : N) a b : ~ In c a -> ~ In c b -> ~ In c (a ++ b).
Proof. intros A B I. apply in_app_iff in I as [I|I]; auto. Qed.
Lemma sxval_not_in c st v x d : plain c -> c <> 32 -> c <> 47 -> c <> 42 -> ~ In c d -> (forall s, xlookup x v = Some s -> ~ In c s) ->
  ~ In c (sprintxval_ex x v (Some d) st FMT_X).
Proof.
  intros P C1 C2 C3 HD HS. unfold sprintxval_ex. pose proof (sprint_not_in c FMT_X v P) as H.
  assert (K : forall s, ~ In c s -> ~ In c (sprint_xlat_val FMT_X v ++ bs " /* " ++ s ++ bs " */")).
  { intros s Hs. change (bs " /* ") with [32; 47; 42; 32]. change (bs " */") with [32; 42; 47].
    repeat apply not_in_app; auto; intros I; cbn [In] in I; intuition congruence. }
  destruct st; auto; destruct (xlookup x v) as [s|]; auto.
Qed.
Lemma ioprio_text st p : p < 2^32 -> exists t, sprint_ioprio st p = Ok t /\ macro (bs "IOPRIO_PRIO_VALUE") IOPRIO_PRIO_VALUE ioprio_names t p.
Proof.
  intros H. unfold sprint_ioprio. assert (L : lettered ioprio_names = true) by comp.
  assert (HS : N.shiftr p 13 < 2^64). { rewrite N.shiftr_div_pow2. eapply N.le_lt_trans; [apply N.div_le_upper_bound with (q := p); lia|lia]. }
  assert (LK : forall s, xlookup ioprio_class (N.shiftr p 13) = Some s -> cst ioprio_names s (N.shiftr p 13) /\ ~ In 42 s /\ ~ In 44 s /\ (length s <= 17)%nat).
  { intros s E. apply lookup_in_indexed in E; [|comp]. pose proof E as E'. eapply (tab_cst_in ioprio_names) in E'; [|comp]. destruct E' as (A & B). split; [exact A|]. split; [exact B|].
    cbn in E. repeat (destruct E as [E|E]; [injection E as _ <-; split; [noin|cbn; lia]|]). destruct E. }
  assert (C : cst ioprio_names (sprintxval_ex ioprio_class (N.shiftr p 13) (Some (bs "IOPRIO_CLASS_???")) st FMT_X) (N.shiftr p 13)).
  { apply sxval_cst; [exact L|noin|]. intros s E. split; apply (LK s E). }
  assert (LN : (length (sprintxval_ex ioprio_class (N.shiftr p 13) (Some (bs "IOPRIO_CLASS_???")) st FMT_X) <= 25 + 17)%nat).
  { apply sxval_len; [exact HS|cbn; lia|]. intros s E. apply (LK s E). }
  assert (NC : ~ In 44 (sprintxval_ex ioprio_class (N.shiftr p 13) (Some (bs "IOPRIO_CLASS_???")) st FMT_X)).
  { apply sxval_not_in; [plain_|discriminate|discriminate|discriminate|noin|]. intros s E. apply (LK s E). }
  set (c := sprintxval_ex _ _ _ _ _) in *. clearbody c. rewrite snprintf_ok by lia. cbn [rbind].
  pose proof (land_le p 8191) as LA. pose proof (pr_num_length 10 (N.land p 8191) 9 ltac:(lia)) as PL. change (10 ^ N.of_nat 10) with 10000000000 in PL. specialize (PL ltac:(lia)).
  rewrite snprintf_ok; [|rewrite !app_length; change (length (bs "IOPRIO_PRIO_VALUE(")) with 18%nat; change (length (bs ", ")) with 2%nat; change (length (bs ")")) with 1%nat; lia].
  eexists. split; [reflexivity|]. exists c, (pr_num 10 (N.land p 8191)), (N.shiftr p 13), (N.land p 8191).
  split; [reflexivity|]. split; [exact NC|]. split; [apply pr_num_not_in; lia|]. split; [apply den_denotes, cst_den, C|]. split; [apply den_denotes, cst_den, cst_dec, L|].
  unfold IOPRIO_PRIO_VALUE. rewrite <- (low_rest p 8191) at 3. change 8191 with (N.ones 13). rewrite N.ldiff_ones_r. apply N.lor_comm.
Qed.
Lemma qcmd_parts q : QCMD (N.shiftr q 8) (N.land q 255) = q.
Proof.
  unfold QCMD. rewrite <- N.land_assoc. change (N.land 255 0xff) with 255. rewrite <- (low_rest q 255) at 3. change 255 with (N.ones 8). rewrite N.ldiff_ones_r. apply N.lor_comm.
Qed.
Lemma xvals_not_in c st v x d : plain c -> c <> 32 -> c <> 47 -> c <> 42 -> ~ In c d -> (forall s, xlookup x v = Some s -> ~ In c s) ->
  ~ In c (printxvals_ex v (Some d) st FMT_X [x]).
Proof.
  intros P C1 C2 C3 HD HS. pose proof (hex_not_in c v P) as H.
  destruct (xvals_text st v (Some d) x _ eq_refl) as [(_ & ->)|[(_ & ->)|(s & X & [->| ->])]]; auto; apply not_in_app; auto; apply comment_not_in; auto; intros s' E; injection E as <-; auto.
Qed.
Lemma tab_not_in c l v s : forallb (fun e : N * list N => nochar c (snd e)) l = true -> In (v, s) l -> ~ In c s.
Proof. intros F I. rewrite forallb_forall in F. apply nochar_in, (F _ I). Qed.
Lemma qcmd_text q :
  macro (bs "QCMD") QCMD quota_names (bs "QCMD(" ++ printxvals_ex (N.shiftr q 8) (Some (bs "Q_???")) XABBREV FMT_X [quotacmds] ++ bs ", "
                         ++ printxvals_ex (N.land q 255) (Some (bs "???QUOTA")) XABBREV FMT_X [quotatypes] ++ bs ")") q.
Proof.
  assert (L : lettered quota_names = true) by comp.
  eexists; eexists; exists (N.shiftr q 8), (N.land q 255). split; [reflexivity|]. split; [|split; [|split; [|split]]].
  - apply xvals_not_in; [plain_|discriminate|discriminate|discriminate|noin|]. intros s E. apply lookup_in in E. eapply tab_not_in; [|exact E]. comp.
  - apply xvals_not_in; [plain_|discriminate|discriminate|discriminate|noin|]. intros s E. apply lookup_in_indexed in E; [|comp]. eapply tab_not_in; [|exact E]. comp.
  - apply den_denotes, cst_den, xvals_cst; [exact L|intros s E; injection E as <-; noin|]. intros s E. apply lookup_in in E. eapply tab_cst_in; [|exact E]. comp.
  - apply den_denotes, cst_den, xvals_cst; [exact L|intros s E; injection E as <-; noin|]. intros s E. apply lookup_in_indexed in E; [|comp]. eapply tab_cst_in; [|exact E]. comp.
  - apply qcmd_parts.
Qed.

(** signals *)
Definition sig_check (names : list (N * list N)) (k : N) : bool :=
  match signame generic_sigs k with
  | Some s => good_name s && nochar 124 s && nochar 60 s && opt_eqb (value_of names s) k
  | None => true
  end.
Lemma signame_none sig : 64 < sig -> signame generic_sigs sig = None.
Proof.
  intros H. unfold signame. replace (sig =? 0) with false by lia.
  replace (nth_error (signalent generic_sigs) (N.to_nat sig)) with (@None (list N)); [|symmetry; apply nth_error_None; cbn; lia].
  cbn [rtmax generic_sigs]. replace (sig <=? 64) with false by lia. rewrite andb_false_r. reflexivity.
Qed.
Lemma signame_cst names sig s : forallb (fun k => sig_check names (N.of_nat k)) (seq 0 65) = true -> signame generic_sigs sig = Some s -> cst names s sig /\ ~ In 42 s.
Proof.
  intros F E. destruct (N.lt_ge_cases 64 sig) as [H|H]; [rewrite signame_none in E by exact H; discriminate E|].
  rewrite forallb_forall in F. specialize (F (N.to_nat sig)). rewrite in_seq, N2Nat.id in F. specialize (F ltac:(lia)). unfold sig_check in F. rewrite E in F.
  apply andb_prop in F as (T & X). apply andb_prop in T as (T & C). apply andb_prop in T as (G & B).
  destruct (name_word s G) as (U & N42). split; [|exact N42]. exists s. split; [exact U|]. split; [apply nochar_in, B|]. split; [apply nochar_in, C|apply opt_eqb_eq, X].
Qed.
Lemma sgn32_small sig : sig < 2^31 -> pr_z (sgn32 sig) = pr_num 10 sig.
Proof.
  intros H. unfold sgn32, u32. rewrite N.mod_small by (eapply N.lt_trans; [exact H|reflexivity]). replace (sig <? 2^31) with true by lia.
  unfold pr_z. replace (Z.of_N sig <? 0)%Z with false by lia. rewrite N2Z.id. reflexivity.
Qed.
Lemma signal_cst names st sig : sig < 2^31 -> lettered names = true -> forallb (fun k => sig_check names (N.of_nat k)) (seq 0 65) = true -> cst names (printsignal generic_sigs st sig) sig.
Proof.
  intros B0 L F. unfold printsignal. rewrite !sgn32_small by exact B0. destruct (signame generic_sigs sig) as [s|] eqn:E; [|apply cst_dec, L].
  destruct (signame_cst names sig s F E) as (A & B). destruct st; [exact A|apply cst_dec, L|]. apply cst_comment; [apply cst_dec, L|]. intros s' X. injection X as <-. exact B.
Qed.
Lemma clone_flags_den st v : den clone_names (clone_flags_text generic_sigs st v) v.
Proof.
  assert (L : lettered clone_names = true) by comp.
  assert (G : forall x, x < 2^31 -> cst clone_names (printsignal generic_sigs st x) x) by (intros x B; apply signal_cst; [exact B|exact L|comp]).
  assert (F : forall x, den clone_names (printflags_in st clone_flags x (Some (bs "CLONE_???"))) x).
  { intros x. apply flags_den; [exact L|intros s E; injection E as <-; noin|comp|right; discriminate]. }
  unfold clone_flags_text. cbv zeta. pose proof (low_rest v 255) as R. pose proof (land_le v 255) as B. set (a := N.land v 255) in *. set (b := N.ldiff v 255) in *. clearbody a b. rewrite <- R.
  assert (B' : a < 2^31) by (eapply N.le_lt_trans; [exact B|reflexivity]). destruct (N.eqb_spec b 0) as [E|E]; cbn [negb].
  - subst b. rewrite N.lor_0_r. apply cst_den, G, B'.
  - destruct (N.eqb_spec a 0) as [E'|E']; cbn [negb].
    + subst a. rewrite app_nil_r, N.lor_0_l. apply F.
    + rewrite N.lor_comm. apply den_or; [apply F|apply cst_den, G, B'].
Qed.
