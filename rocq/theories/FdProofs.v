From Verif Require Import Base StrtouModel StrtouSpec StrtouProofs QuoteModel QuoteSpec QuoteProofs QuoteHexSpec QuoteHexProofs Printf BitsModel BitsSpec XlatModel XlatText RetModel RetProofs TimeModel QualModel InjectModel FtsModel FtsSpec FtsText IexpModel IexpSpec IexpProofs IexpParse FdModel FdSpec.
Local Open Scope N_scope.

(** ---- the link ---- *)
Lemma fd_path_spec path u id lookup : (2 <= length path)%nat -> (u = false -> lookup path = Some id) ->
  let (p, d) := fd_path (kernel_link path u) (Some id) lookup in
  (d = true -> u = true /\ p = path) /\ (d = false -> u = false /\ p = path \/ lookup p = Some id).
Proof.
  intros L F. unfold fd_path, kernel_link. set (l := path ++ _).
  assert (SF : same_file (Some id) (lookup l) = true -> lookup l = Some id) by (destruct id as [i e]; unfold same_file; destruct (lookup l) as [[j f]|]; [intros H; apply andb_true_iff in H as [H1 H2]; apply N.eqb_eq in H1, H2; subst; reflexivity|discriminate]).
  assert (NS : u = false -> same_file (Some id) (lookup l) = true) by (intros ->; subst l; rewrite app_nil_r, F by reflexivity; destruct id as [i e]; unfold same_file; rewrite !N.eqb_refl; reflexivity).
  destruct (Nat.leb_spec (length l) 11) as [S1|S1].
  - split; [discriminate|intros _; left]. destruct u; [subst l; rewrite app_length in S1; cbn in S1; lia|]. subst l. rewrite app_nil_r. auto.
  - destruct (beqs (skipn (length l - 10) l) del_sfx) eqn:B; cbn [negb].
    + destruct (same_file (Some id) (lookup l)) eqn:E; (split; [|]).
      * discriminate.
      * intros _. right. apply SF. reflexivity.
      * intros _. destruct u; [|exfalso; specialize (NS eq_refl); congruence]. split; [reflexivity|]. subst l. rewrite app_length. change (length (bs " (deleted)")) with 10%nat. replace (length path + 10 - 10)%nat with (length path + 0)%nat by lia. rewrite firstn_app_2. cbn. apply app_nil_r.
      * discriminate.
    + split; [discriminate|intros _]. destruct u; [|left; subst l; rewrite app_nil_r; auto]. exfalso. subst l. rewrite app_length in B. change (length (bs " (deleted)")) with 10%nat in B.
      replace (length path + 10 - 10)%nat with (length path) in B by lia. rewrite skipn_app, skipn_all, Nat.sub_diag in B. discriminate B.
Qed.

(** ---- fdinfo ---- *)
Definition takes (s : search) (line : list N) : option (list N) := olet v := strip (pfx s) line in if accept s v then Some v else None.
Fixpoint first_acc (s : search) (lines : list (list N)) : option (list N) :=
  match lines with [] => None | l :: r => match takes s l with Some v => Some v | None => first_acc s r end end.
Definition orelse {A} (a b : option A) : option A := match a with Some _ => a | None => b end.
Fixpoint zipw (g : search -> option (list N)) (ss : list search) (found : list (option (list N))) : list (option (list N)) :=
  match ss, found with s :: ss', f :: found' => orelse f (g s) :: zipw g ss' found' | _, _ => [] end.
Definition nones (l : list (option (list N))) : nat := length (filter (fun o => match o with None => true | Some _ => false end) l).
Definition excl (ss : list search) : Prop := ForallOrdPairs (fun a b => forall l v, strip (pfx a) l = Some v -> strip (pfx b) l = None) ss.
Lemma zip_none g ss found : length ss = length found -> (forall s, In s ss -> g s = None) -> zipw g ss found = found.
Proof. revert found; induction ss as [|s ss IH]; intros [|f found] L H; try discriminate; [reflexivity|]. cbn. injection L as L. rewrite IH, (H s); [destruct f; reflexivity|left; reflexivity|exact L|]. intros x I. apply H. right. exact I. Qed.
Lemma scan_line_spec ss found line : excl ss -> length ss = length found ->
  match scan_line ss found line with
  | Some f => f = zipw (fun s => takes s line) ss found /\ S (nones f) = nones found
  | None => zipw (fun s => takes s line) ss found = found
  end.
Proof.
  intros X. revert found. induction X as [|s ss X1 X2 IH]; intros [|f found] L; try discriminate; [reflexivity|]. injection L as L. specialize (IH found L). cbn [scan_line zipw].
  assert (R : orelse f (takes s line) = f ->
     match (olet r := scan_line ss found line in Some (f :: r)) with
     | Some x => x = orelse f (takes s line) :: zipw (fun s => takes s line) ss found /\ S (nones x) = nones (f :: found)
     | None => orelse f (takes s line) :: zipw (fun s => takes s line) ss found = f :: found
     end).
  { intros ->. destruct (scan_line ss found line) as [r|]; cbn [obind].
    - destruct IH as [-> C]. split; [reflexivity|]. unfold nones in *. cbn [filter]. destruct f; cbn [length]; lia.
    - rewrite IH. reflexivity. }
  destruct f as [w|]; [apply R; reflexivity|].
  destruct (strip (pfx s) line) as [v|] eqn:E.
  - destruct (accept s v) eqn:A.
    + clear R. assert (T : takes s line = Some v) by (unfold takes; rewrite E; cbn [obind]; rewrite A; reflexivity). rewrite T. cbn [orelse]. split; [|reflexivity]. f_equal. symmetry. apply zip_none; [exact L|]. intros y I. rewrite Forall_forall in X1. unfold takes. rewrite (X1 y I line v E). reflexivity.
    + apply R. unfold takes. rewrite E. cbn [obind]. rewrite A. reflexivity.
  - apply R. unfold takes. rewrite E. reflexivity.
Qed.
Lemma zip_zip g h ss found : length ss = length found -> zipw h ss (zipw g ss found) = zipw (fun s => orelse (g s) (h s)) ss found.
Proof. revert found; induction ss as [|s ss IH]; intros [|f found] L; try discriminate; [reflexivity|]. injection L as L. cbn. rewrite IH by exact L. destruct f; reflexivity. Qed.
Lemma zip_length g ss found : length ss = length found -> length (zipw g ss found) = length found.
Proof. revert found; induction ss as [|s ss IH]; intros [|f found] L; try discriminate; [reflexivity|]. injection L as L. cbn. rewrite IH by exact L. reflexivity. Qed.
Lemma zip_ext g h ss found : (forall s, In s ss -> g s = h s) -> zipw g ss found = zipw h ss found.
Proof. revert found; induction ss as [|s ss IH]; intros [|f found] H; try reflexivity. cbn. rewrite (H s) by (left; reflexivity). f_equal. apply IH. intros x I. apply H. right. exact I. Qed.
Lemma zip_full g ss found : length ss = length found -> nones found = 0%nat -> zipw g ss found = found.
Proof. revert found; induction ss as [|s ss IH]; intros [|f found] L H; try discriminate; [reflexivity|]. injection L as L. destruct f as [v|]; [|discriminate]. cbn. rewrite IH; auto. Qed.
Lemma scan_lines_spec ss lines : forall found left, excl ss -> length ss = length found -> left = nones found ->
  scan_lines ss left found lines = zipw (fun s => first_acc s lines) ss found.
Proof.
  induction lines as [|l lines IH]; intros found left X L C.
  - destruct left; cbn [scan_lines]; symmetry; apply zip_none; auto.
  - destruct left as [|k]; cbn [scan_lines]; [symmetry; apply zip_full; auto|].
    pose proof (scan_line_spec ss found l X L) as S1. destruct (scan_line ss found l) as [f|].
    + destruct S1 as [-> C1]. rewrite IH; [|exact X|rewrite zip_length; auto|lia]. rewrite zip_zip by exact L. apply zip_ext. intros s _. cbn [first_acc]. destruct (takes s l); reflexivity.
    + rewrite IH by auto. rewrite <- S1 at 1. rewrite zip_zip by exact L. apply zip_ext. intros s _. cbn [first_acc]. destruct (takes s l); reflexivity.
Qed.
Lemma nones_none (ss : list search) : nones (map (fun _ => None) ss) = length ss.
Proof. induction ss; [reflexivity|]. cbn. f_equal. exact IHss. Qed.
Lemma zip_map g ss : zipw g ss (map (fun _ => None) ss) = map g ss.
Proof. induction ss; [reflexivity|]. cbn. f_equal. exact IHss. Qed.
Lemma scan_info_spec ss lines : excl ss -> scan_fdinfo_lines ss (Some lines) = map (fun s => first_acc s lines) ss.
Proof. intros X. unfold scan_fdinfo_lines. rewrite scan_lines_spec; [apply zip_map|exact X|rewrite map_length; reflexivity|rewrite nones_none; reflexivity]. Qed.
Lemma scan_one p acc lines : scan_fdinfo p acc (Some lines) = first_acc {| pfx := p; accept := acc |} lines.
Proof. unfold scan_fdinfo. rewrite scan_info_spec by (repeat constructor). reflexivity. Qed.
Lemma not_starts p l : ~ starts_with p l -> strip p l = None.
Proof. intros H. destruct (strip p l) as [v|] eqn:E; [|reflexivity]. exfalso. apply H. exists v. apply strip_iff, E. Qed.
Lemma first_acc_with p acc v lines : first_with p v lines -> acc v = true -> first_acc {| pfx := p; accept := acc |} lines = Some v.
Proof.
  intros (pre & post & -> & F) A. induction F as [|l pre N F IH]; cbn [app first_acc]; unfold takes; cbn [pfx accept].
  - rewrite strip_app. cbn [obind]. rewrite A. reflexivity.
  - rewrite not_starts by exact N. exact IH.
Qed.
Lemma first_acc_none p acc lines : none_with p lines -> first_acc {| pfx := p; accept := acc |} lines = None.
Proof. intros F. induction F as [|l pre N F IH]; cbn [first_acc]; unfold takes; cbn [pfx accept]; [reflexivity|]. rewrite not_starts by exact N. exact IH. Qed.

(** ---- numbers ---- *)
Lemma pr_num_digit n : Forall digit (pr_num 10 n).
Proof. eapply Forall_impl; [|apply pr_num_digits; lia]. intros c (d & H & ->). unfold digit, hex_char. destruct (N.ltb_spec d 10); lia. Qed.
Lemma rd_decimal s : forall acc, Forall digit s -> rd_num 10 acc s = Some (acc * 10 ^ N.of_nat (length s) + decimal s).
Proof.
  induction s as [|c s IH]; intros acc F; [cbn; f_equal; lia|]. inversion F as [|? ? D F']; subst. cbn [rd_num decimal length]. unfold digit in D. unfold hex_val.
  destruct (N.leb_spec 48 c); [|lia]. destruct (N.leb_spec c 57); [|lia]. cbn [andb]. destruct (N.ltb_spec (c - 48) 10); [|lia]. rewrite IH by exact F'. f_equal.
  rewrite Nat2N.inj_succ, N.pow_succ_r'. lia.
Qed.
Lemma decimal_pr n : decimal (pr_num 10 n) = n.
Proof. pose proof (rd_decimal (pr_num 10 n) 0 (pr_num_digit n)) as H. rewrite pr_num_rd in H by lia. injection H as H. lia. Qed.
Lemma pr_num_ne base n : pr_num base n <> [].
Proof. unfold pr_num. intros H. pose proof (digits_from_pos base (S (N.size_nat n)) n ltac:(lia)) as P. rewrite H in P. cbn in P. lia. Qed.
Lemma uint_dec pad n : n < 2^31 -> Forall blank pad -> uint_line (pad ++ dec n ++ [10]) = Z.of_N n.
Proof.
  intros H B. unfold uint_line. rewrite (proj2 (string_to_uint_ex_iff (pad ++ dec n ++ [10]) (2^31 - 1) (Some [10]) (Z.of_N n) [10])); [reflexivity|].
  rewrite N2Z.id. split; [lia|]. split.
  - exists pad, [], (dec n). split; [reflexivity|]. split; [exact B|]. split; [auto|]. split; [apply pr_num_ne|]. split; [apply pr_num_digit|]. split; [|symmetry; apply decimal_pr]. intros c r X. injection X as <- _. unfold digit. lia.
  - split; [lia|]. split; [unfold LLONG_MAX; lia|]. right. exists 10, [], [10]. repeat split. left. reflexivity.
Qed.
Lemma uint_sdec z : (-1 <= z < 2^31)%Z -> uint_line (sdec z ++ [10]) = z.
Proof.
  intros H. unfold sdec. destruct (Z.ltb_spec z 0) as [L|L]; [replace z with (-1)%Z by lia; reflexivity|]. change (dec (Z.to_N z) ++ [10]) with ([] ++ dec (Z.to_N z) ++ [10]). rewrite uint_dec; [lia|lia|constructor].
Qed.
Lemma pr_z_dec n : pr_z (Z.of_N n) = dec n.
Proof. unfold pr_z, dec. destruct (Z.ltb_spec (Z.of_N n) 0); [lia|]. rewrite N2Z.id. reflexivity. Qed.
Lemma pr_z_sdec z : pr_z z = sdec z. Proof. reflexivity. Qed.

(** hexadecimal *)
Lemma hex_digit_dval d : d < 16 -> dval 16 (hex_char d) d.
Proof. intros H. unfold dval, hex_char. destruct (N.ltb_spec d 10); lia. Qed.
Lemma hex16_pad pad n : n < 2^64 -> length (hex16 pad n) = 16%nat.
Proof.
  intros H. unfold hex16. rewrite app_length, repeat_length. pose proof (pr_num_length 16 n 15 ltac:(lia)) as L. change (16 ^ N.of_nat 16) with (2^64) in L. specialize (L H). lia.
Qed.
Lemma hex16_digits n : Forall (fun c => exists d, d < 16 /\ c = hex_char d) (hex16 48 n).
Proof. unfold hex16. apply Forall_app. split; [|apply pr_num_digits; lia]. apply Forall_forall. intros c I. apply repeat_spec in I as ->. exists 0. split; [lia|reflexivity]. Qed.
Lemma hex16_rd n : rd_num 16 0 (hex16 48 n) = Some n.
Proof. unfold hex16. rewrite rd_zeros by lia. apply pr_num_rd. lia. Qed.
(** the number whose bytes are given, the highest first *)
Definition be_num (acc : N) (l : list N) : N := fold_left (fun a b => 256 * a + b) l acc.
Lemma scan_bytes_hex k : forall s r acc m, length s = (2 * k)%nat -> Forall (fun c => exists d, d < 16 /\ c = hex_char d) s -> rd_num 16 acc s = Some m ->
  exists l, scan_bytes (s ++ r) k = Some l /\ length l = k /\ bytes_ok l /\ m = be_num acc l.
Proof.
  induction k as [|k IH]; intros s r acc m L F R.
  - destruct s; [|discriminate]. injection R as <-. exists []. repeat split. constructor.
  - destruct s as [|a [|b s]]; [discriminate|cbn in L; lia|]. inversion F as [|? ? (x & X & ->) F1]; subst. inversion F1 as [|? ? (y & Y & ->) F2]; subst.
    cbn [rd_num] in R. rewrite !hex_val_char in R by lia. destruct (N.ltb_spec x 16); [|lia]. destruct (N.ltb_spec y 16); [|lia].
    cbn [app scan_bytes]. rewrite (scan2_hex _ _ _ _ _ (hex_digit_dval x X) (hex_digit_dval y Y)). cbn [obind skipn].
    destruct (IH s r _ m ltac:(cbn in L; lia) F2 R) as (l & E & L1 & B & M). rewrite E. exists (16 * x + y :: l). split; [reflexivity|]. split; [cbn; lia|]. split; [constructor; [unfold is_byte; lia|exact B]|].
    rewrite M. unfold be_num. cbn [fold_left]. f_equal. lia.
Qed.
Lemma be_num_app acc l b : be_num acc (l ++ [b]) = 256 * be_num acc l + b.
Proof. unfold be_num. rewrite fold_left_app. reflexivity. Qed.
Lemma be_num_bit l : bytes_ok l -> forall b, b < 8 * N.of_nat (length l) ->
  N.testbit (be_num 0 l) b = N.testbit (nth (length l - 1 - N.to_nat (b / 8)) l 0) (b mod 8).
Proof.
  induction l as [|c l IH] using rev_ind; intros F b H; [cbn in H; lia|]. rewrite be_num_app. apply Forall_app in F as [F FC]. inversion FC as [|? ? C _]; subst. unfold is_byte in C.
  rewrite app_length in H |- *. cbn [length] in H |- *. destruct (N.lt_ge_cases b 8) as [B|B].
  - rewrite (N.div_small b 8), (N.mod_small b 8) by lia. cbn [N.to_nat]. rewrite app_nth2 by lia. replace (length l + 1 - 1 - 0 - length l)%nat with 0%nat by lia. cbn [nth].
    replace (256 * be_num 0 l + c) with (c + be_num 0 l * 2^8) by lia. rewrite <- (N.mod_pow2_bits_low _ 8 b) by lia. rewrite N.mod_add by lia. rewrite N.mod_small by (change (2^8) with 256; lia). reflexivity.
  - replace (256 * be_num 0 l + c) with (c + be_num 0 l * 2^8) by lia. replace b with (b - 8 + 8) at 1 by lia. rewrite <- N.div_pow2_bits. rewrite N.div_add by lia. rewrite (N.div_small c) by (change (2^8) with 256; lia). rewrite N.add_0_l.
    assert (D : b / 8 = (b - 8) / 8 + 1) by (rewrite <- (N.div_add (b - 8) 1 8) by lia; f_equal; lia). assert (M : b mod 8 = (b - 8) mod 8) by (rewrite <- (N.mod_add (b - 8) 1 8) by lia; f_equal; lia).
    rewrite IH by (auto; lia). rewrite D, M. assert ((b - 8) / 8 < N.of_nat (length l)) by (apply N.div_lt_upper_bound; lia). rewrite app_nth1 by lia. f_equal. f_equal. lia.
Qed.
Lemma sigmask_spec xm m : In xm [0; 3; 7] -> m < 2^64 -> exists mask, sigmask_bytes xm (hex16 48 m ++ [10]) = Some mask /\ length mask = 8%nat /\ bytes_ok mask /\
  forall b, b < 64 -> (bit_set mask xm b <-> N.testbit m b = true).
Proof.
  intros X H. unfold sigmask_bytes. assert (LN : (length (hex16 48 m ++ [10%N]) / 2 = 8)%nat) by (rewrite app_length, hex16_pad by exact H; reflexivity). rewrite LN. cbv zeta.
  destruct (scan_bytes_hex 8 (hex16 48 m) [10] 0 m (hex16_pad _ _ H) (hex16_digits m) (hex16_rd m)) as (l & -> & L & B & M). cbn [obind].
  eexists. split; [reflexivity|]. split; [rewrite map_length, seq_length; reflexivity|].
  assert (XL : forall p, p < 8 -> N.lxor p xm < 8 /\ N.lxor (N.lxor p xm) xm = p) by (intros p P; split; [|rewrite N.lxor_assoc, N.lxor_nilpotent; apply N.lxor_0_r];
     assert (C : p = 0 \/ p = 1 \/ p = 2 \/ p = 3 \/ p = 4 \/ p = 5 \/ p = 6 \/ p = 7) by lia; destruct X as [<-|[<-|[<-|[]]]]; repeat (destruct C as [->|C]; [reflexivity|]); subst; reflexivity).
  split.
  - apply Forall_forall. intros c I. apply in_map_iff in I as (j & <- & J). apply in_seq in J. pose proof (proj1 (Forall_forall _ _) B) as B2. apply B2, nth_In. pose proof (XL (N.of_nat j) ltac:(lia)). lia.
  - intros b Hb. assert (P : b / 8 < 8) by (apply N.div_lt_upper_bound; lia). destruct (XL _ P) as [P1 P2]. unfold bit_set.
    assert (NE : nth_error (map (fun j => nth (8 - 1 - N.to_nat (N.lxor (N.of_nat j) xm)) l 0) (seq 0 8)) (N.to_nat (N.lxor (b / 8) xm)) = Some (nth (length l - 1 - N.to_nat (b / 8)) l 0)).
    { rewrite nth_error_map, nth_error_nth' with (d := 0%nat) by (rewrite seq_length; lia). rewrite seq_nth by lia. cbn [option_map]. rewrite Nat.add_0_l, N2Nat.id, P2, L. reflexivity. }
    rewrite NE, M, be_num_bit by (auto; rewrite L; lia). split; [intros (y & Y & T); injection Y as <-; exact T|intros T; eexists; split; [reflexivity|exact T]].
Qed.
Lemma upto_nl_app a : ~ In 10 a -> upto_nl (a ++ [10]) = a.
Proof. induction a as [|c a IH]; intros H; [reflexivity|]. cbn. destruct (N.eqb_spec c 10) as [->|_]; [exfalso; apply H; left; reflexivity|]. rewrite IH; [reflexivity|]. intros I. apply H. right. exact I. Qed.
Lemma skip_blank_rep k s : (forall c r, s = c :: r -> c <> 32 /\ c <> 9) -> skip_blank (repeat 32 k ++ s) = s.
Proof. intros H. induction k as [|k IH]; [|exact IH]. destruct s as [|c r]; [reflexivity|]. destruct (H c r eq_refl). cbn. destruct (N.eqb_spec c 32); [contradiction|]. destruct (N.eqb_spec c 9); [contradiction|reflexivity]. Qed.
Lemma hex_pr_range n c : In c (pr_num 16 n) -> 48 <= c <= 57 \/ 97 <= c <= 102.
Proof. intros I. pose proof (pr_num_digits 16 n ltac:(lia)) as F. rewrite Forall_forall in F. destruct (F c I) as (d & D & ->). unfold hex_char. destruct (N.ltb_spec d 10); lia. Qed.
Lemma counter_text n : upto_nl (skip_blank (bs " " ++ hex16 32 n ++ [10])) = pr_num 16 n.
Proof.
  unfold hex16. rewrite <- app_assoc. change (bs " " ++ repeat 32 (16 - length (pr_num 16 n)) ++ pr_num 16 n ++ [10]) with (repeat 32 (S (16 - length (pr_num 16 n))) ++ pr_num 16 n ++ [10]).
  rewrite skip_blank_rep; [apply upto_nl_app; intros I; apply hex_pr_range in I; lia|]. intros c r E. destruct (pr_num 16 n) as [|d l] eqn:P; [exfalso; eapply pr_num_ne, P|].
  injection E as <- _. assert (I : In d (pr_num 16 n)) by (rewrite P; left; reflexivity). apply hex_pr_range in I. lia.
Qed.
Lemma counter_lead n : exists c r, pr_num 16 n = c :: r /\ (c = 48 <-> n = 0).
Proof.
  destruct (N.eq_dec n 0) as [->|Z]; [exists 48, []; split; [reflexivity|tauto]|]. unfold pr_num. destruct (digits_lead 16 (S (N.size_nat n)) n ltac:(lia) ltac:(lia)) as (d & r & E & H).
  - rewrite Nat2N.inj_succ, N.pow_succ_r'. pose proof (size_nat_bound n). lia.
  - exists (hex_char d), r. split; [exact E|]. split; [|contradiction]. unfold hex_char. destruct (N.ltb_spec d 10); lia.
Qed.
(** ---- the path ---- *)
Lemma angle_free_default (num : N -> list N -> Prop) c t : (forall c t, num c t -> ~ In 60 t /\ ~ In 62 t) -> default_form num (Some (bs "<>")) c t -> ~ In 60 t /\ ~ In 62 t.
Proof.
  intros NF [R1 R2 R3 R4 ->|e -> SE R|R1 R2 R3 R4].
  - split; intros [->|[]]; apply R4; eexists; (split; [reflexivity|]); cbn; auto.
  - split; intros [X|[X|[]]]; try discriminate X; subst e; discriminate SE.
  - eapply NF, R4.
Qed.
Lemma angle_free_hex c t : hex_form c t -> ~ In 60 t /\ ~ In 62 t.
Proof.
  intros (a & b & x & y & -> & A & B & _). assert (HV : forall z v, hex_val z = Some v -> z <> 60 /\ z <> 62) by (intros z v HV; split; intros ->; discriminate HV).
  destruct (HV _ _ A), (HV _ _ B). cbn. split; intros Q; repeat (destruct Q as [Q|Q]; [congruence || discriminate Q|]); exact Q.
Qed.
Lemma angle_free_oct c t : oct_form c t -> ~ In 60 t /\ ~ In 62 t.
Proof.
  intros (ds & -> & _ & F & _). rewrite Forall_forall in F. split; intros [X|X]; try discriminate X; apply F in X; discriminate X.
Qed.
Lemma shown_free (form : N -> list N -> Prop) b body : (forall c t, In c b -> form c t -> ~ In 60 t /\ ~ In 62 t) -> shown_as form b body -> ~ In 60 body /\ ~ In 62 body.
Proof.
  intros H (ts & -> & F). induction F as [|c t b ts A F IH]; [cbn; tauto|]. destruct (H c t (or_introl eq_refl) A) as [A1 A2]. destruct IH as [I1 I2]; [intros c' t' I; apply H; right; exact I|].
  cbn [concat]. split; intros X; apply in_app_iff in X as [X|X]; auto.
Qed.
Lemma ascii_dec c : ascii_text c \/ ~ ascii_text c. Proof. unfold ascii_text. lia. Qed.
Lemma wanted_free x p body : shown_as (wanted_form x (Some (bs "<>")) p) p body -> ~ In 60 body /\ ~ In 62 body.
Proof.
  intros H. destruct x; cbn [wanted_form] in H.
  - eapply shown_free; [|exact H]. intros c t _. apply angle_free_default, angle_free_oct.
  - assert (D : Forall ascii_text p \/ Exists (fun d => ~ ascii_text d) p).
    { clear H. induction p as [|c p [IH|IH]]; [left; constructor| |right; apply Exists_cons_tl, IH]. destruct (ascii_dec c); [left; constructor; auto|right; apply Exists_cons_hd; auto]. }
    eapply shown_free; [|exact H]. intros c t _ [W1 W2]. destruct D as [D|D]; [eapply angle_free_default; [apply angle_free_oct|apply W2, D]|eapply angle_free_hex, W1, D].
  - eapply shown_free; [|exact H]. intros c t _. apply angle_free_hex.
  - eapply shown_free; [|exact H]. intros c t _. apply angle_free_default, angle_free_hex.
Qed.
Lemma path_quoted_spec h x p : bytes_ok p -> N.of_nat (length p) < 2^30 -> rule_ok h (path_style x) -> exists body, path_quoted x p = Ok body /\ escaped h p body.
Proof.
  intros B L R. unfold path_quoted, print_quoted_string_ex. cbn [q0term path_style]. rewrite andb_false_r. unfold quote_alloc_size.
  assert (U : u32 (4 * N.of_nat (length p)) = 4 * N.of_nat (length p)) by (apply N.mod_small; lia). rewrite U. rewrite N.mul_comm, N.div_mul by lia. rewrite N.eqb_refl. cbn [negb].
  destruct (string_quote_total p (N.to_nat (N.of_nat (length p))) (path_style x) (Some (bs "<>")) B) as (out & rc & E); [unfold readable; cbn [q0term path_style]; lia|]. rewrite E. cbn [rbind].
  exists out. split; [reflexivity|]. rewrite Nat2N.id in E. pose proof (string_quote_form _ _ _ _ _ _ B E) as (body & b & W & SH & S1). destruct (string_quote_lossless h _ _ _ _ _ _ B R E) as (body' & b' & W' & UQ & S2 & _).
  assert (WE : forall y, wrap (path_style x) y = y) by (intros y; unfold wrap; cbn [comment omit_quotes path_style app]; apply app_nil_r). rewrite WE in W, W'. subst body body'.
  unfold subject in *. cbn [q0term omit0 path_style] in *. rewrite firstn_all in *. destruct S1 as [->|(_ & X & _)]; [|discriminate X]. destruct S2 as [->|(_ & X & _)]; [|discriminate X].
  split; [exact UQ|]. eapply wanted_free, SH.
Qed.
