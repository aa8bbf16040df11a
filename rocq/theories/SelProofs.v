From Coq Require Import Sorted.
From Verif Require Import Base Printf RetModel BitsModel BitsSpec BitsProofs SelModel SelSpec.
Local Open Scope N_scope.

(** ---- members ---- *)
Lemma members_spec arr xm n : n <= 2^32 - 8 -> covers arr xm n ->
  forall fuel j, j < 2^32 -> n < N.of_nat fuel + j -> (1 <= fuel)%nat ->
  exists l, members fuel arr xm n j = Ok l /\ StronglySorted N.lt l /\ forall b, In b l <-> j <= b < n /\ bit_set arr xm b.
Proof.
  intros HN HC. induction fuel as [|f IH]; intros j HJ HF H1; [lia|].
  cbn [members]. destruct (next_set_bit_spec arr xm j n HN HJ HC) as (r & E & A). rewrite E. cbn [rbind].
  destruct r as [b|]; cbn in A.
  - destruct A as (A1 & A2 & A3).
    destruct (IH (b + 1) ltac:(lia) ltac:(lia) ltac:(lia)) as (l & E2 & S2 & I2).
    rewrite E2. cbn [rbind]. exists (b :: l). split; [reflexivity|]. split.
    + constructor; [exact S2|]. apply Forall_forall. intros x Hx. apply I2 in Hx. lia.
    + intros x. cbn. rewrite I2. split.
      * intros [<-|[K1 K2]]; split; try assumption; lia.
      * intros [K1 K2]. destruct (N.eq_dec b x) as [e|ne]; [left; exact e|right]. split; [|exact K2].
        destruct (N.lt_ge_cases x b) as [L|G]; [|lia]. exfalso. apply (A3 x); [lia|exact K2].
  - exists []. split; [reflexivity|]. split; [constructor|]. intros b. cbn. split; [tauto|]. intros [K1 K2]. exact (A b K1 K2).
Qed.
Lemma sorted_unique : forall l1 l2, StronglySorted N.lt l1 -> StronglySorted N.lt l2 -> (forall b, In b l1 <-> In b l2) -> l1 = l2.
Proof.
  induction l1 as [|a l1 IH]; intros [|c l2] S1 S2 H; try reflexivity.
  - exfalso. apply (proj2 (H c)). left; reflexivity.
  - exfalso. apply (proj1 (H a)). left; reflexivity.
  - inversion S1 as [|? ? S1' F1]; inversion S2 as [|? ? S2' F2]; subst.
    rewrite Forall_forall in F1, F2.
    assert (E : a = c).
    { destruct (proj1 (H a) (or_introl eq_refl)) as [e|i]; [symmetry; exact e|].
      destruct (proj2 (H c) (or_introl eq_refl)) as [e|i2]; [exact e|].
      specialize (F1 c i2). specialize (F2 a i). lia. }
    subst c. f_equal. apply IH; auto. intros b. split; intros I.
    + destruct (proj1 (H b) (or_intror I)) as [<-|K]; [|exact K]. specialize (F1 a I). lia.
    + destruct (proj2 (H b) (or_intror I)) as [<-|K]; [|exact K]. specialize (F2 a I). lia.
Qed.
Lemma members_is arr xm n l : n <= 2^32 - 8 -> covers arr xm n -> members_of arr xm n l ->
  members (N.to_nat n + 1) arr xm n 0 = Ok l.
Proof.
  intros HN HC [S1 I1]. destruct (members_spec arr xm n HN HC (N.to_nat n + 1) 0) as (l' & E & S2 & I2); try lia.
  rewrite E. f_equal. apply sorted_unique; auto. intros b. rewrite I1, I2. split; intros [A B]; split; auto; lia.
Qed.
Lemma members_ex arr xm n : n <= 2^32 - 8 -> covers arr xm n -> exists l, members (N.to_nat n + 1) arr xm n 0 = Ok l /\ members_of arr xm n l.
Proof.
  intros HN HC. destruct (members_spec arr xm n HN HC (N.to_nat n + 1) 0) as (l' & E & S2 & I2); try lia.
  exists l'. split; [exact E|]. split; [exact S2|]. intros b. rewrite I2. split; intros [A B]; split; auto; lia.
Qed.

(** ---- sizes ---- *)
Lemma roundup_ge size ws : 0 < ws -> size <= roundup size ws.
Proof.
  intros H. unfold roundup. pose proof (N.div_mod (size + ws - 1) ws ltac:(lia)) as D.
  pose proof (N.mod_lt (size + ws - 1) ws ltac:(lia)). nia.
Qed.
Lemma xor_word p k : 0 < k -> N.lxor p (2 ^ k - 1) < 2 ^ k * (p / 2 ^ k) + 2 ^ k.
Proof.
  intros K0. assert (K : 2 ^ k <> 0) by (apply N.pow_nonzero; lia).
  assert (E : N.lxor p (2 ^ k - 1) / 2 ^ k = p / 2 ^ k).
  { rewrite <- !N.shiftr_div_pow2, N.shiftr_lxor.
    replace (2 ^ k - 1) with (N.pred (2 ^ k)) by lia. rewrite <- N.ones_equiv.
    rewrite (N.shiftr_eq_0 (N.ones k) k), N.lxor_0_r; [reflexivity|].
    rewrite N.ones_equiv.
    rewrite N.log2_pred_pow2 by lia. lia. }
  pose proof (N.div_mod (N.lxor p (2 ^ k - 1)) (2 ^ k) K). pose proof (N.mod_lt (N.lxor p (2 ^ k - 1)) (2 ^ k) K). nia.
Qed.
Lemma word_covers p size k : 0 < k -> p < size -> N.lxor p (2 ^ k - 1) < roundup size (2 ^ k).
Proof.
  intros K0 H. pose proof (xor_word p k K0) as X. assert (K : 2 ^ k <> 0) by (apply N.pow_nonzero; lia).
  eapply N.lt_le_trans; [exact X|]. unfold roundup.
  assert (p / 2 ^ k + 1 <= (size + 2 ^ k - 1) / 2 ^ k); [|nia].
  apply N.div_le_lower_bound; [exact K|]. pose proof (N.mul_div_le p (2 ^ k) K). nia.
Qed.
(** words of 4 or 8 bytes; bytes in order, or reversed within a word on big-endian hosts *)
Definition layout (ws xm : N) : Prop := (ws = 4 \/ ws = 8) /\ (xm = 0 \/ xm = ws - 1).
Lemma layout_covers ws xm arr size n : layout ws xm -> n <= 8 * roundup size ws -> length arr = N.to_nat (roundup size ws) -> covers arr xm n.
Proof.
  intros [W X] HN HL p HP.
  assert (P : p < roundup size ws) by lia.
  assert (G : N.lxor p xm < roundup size ws); [|lia].
  destruct X as [-> | ->]; [rewrite N.lxor_0_r; exact P|].
  assert (E : exists k, 0 < k /\ ws = 2 ^ k) by (destruct W as [-> | ->]; [exists 2|exists 3]; split; reflexivity).
  destruct E as (k & K0 & ->). pose proof (word_covers p (roundup size (2 ^ k)) k K0 P) as Q.
  replace (roundup (roundup size (2 ^ k)) (2 ^ k)) with (roundup size (2 ^ k)) in Q; [exact Q|].
  assert (K : 2 ^ k <> 0) by (apply N.pow_nonzero; lia).
  unfold roundup at 2. unfold roundup. set (q := (size + 2 ^ k - 1) / 2 ^ k).
  replace (q * 2 ^ k + 2 ^ k - 1) with (q * 2 ^ k + (2 ^ k - 1)) by lia.
  rewrite N.div_add_l by exact K. rewrite (N.div_small (2 ^ k - 1)) by lia. lia.
Qed.
Lemma nfds_covered nfds ws : 0 < ws -> nfds <= 8 * fdsize nfds ws.
Proof.
  intros H. unfold fdsize. pose proof (roundup_ge ((nfds + 7) / 8) ws H).
  pose proof (N.div_mod (nfds + 7) 8 ltac:(lia)). pose proof (N.mod_lt (nfds + 7) 8 ltac:(lia)). lia.
Qed.
Lemma clamp_le a : clamp_nfds a <= 1024 * 1024.
Proof. unfold clamp_nfds. destruct (_ <=? _); [lia|]. destruct (_ <? _) eqn:E; lia. Qed.

(** ---- texts ---- *)
Lemma bitset_tail_join l : bitset_tail l = match l with [] => [] | _ => [32] ++ join l end.
Proof.
  induction l as [|x r IH]; [reflexivity|]. cbn [bitset_tail]. rewrite IH.
  destruct r as [|y r']; cbn [join]; [rewrite app_nil_r; reflexivity|reflexivity].
Qed.
Lemma bitset_body_join l : bitset_body l = join l.
Proof. destruct l as [|x r]; [reflexivity|]. cbn [bitset_body]. rewrite bitset_tail_join. destruct r; cbn [join]; [apply app_nil_r|reflexivity]. Qed.

Definition readable (mem : memory) : Prop := forall a n arr, mem a n = Some arr -> length arr = N.to_nat n.

Lemma enter_spec pfd paddr mem ws xm nfds addr : layout ws xm -> nfds <= 2^20 -> 0 < nfds -> readable mem ->
  (addr = 0 \/ mem addr (fdsize nfds ws) = None -> enter_set pfd paddr mem true ws xm nfds addr = Ok (paddr addr)) /\
  (forall arr, addr <> 0 -> mem addr (fdsize nfds ws) = Some arr ->
     exists l, members_of arr xm nfds l /\ enter_set pfd paddr mem true ws xm nfds addr = Ok (set_text (map pfd l))).
Proof.
  intros HL HN H0 HR. assert (W : 0 < ws) by (destruct HL as [[-> | ->] _]; lia).
  pose proof (nfds_covered nfds ws W) as NC.
  assert (FS : 0 <? fdsize nfds ws = true) by lia.
  unfold enter_set. rewrite FS. cbn [andb negb]. split.
  - intros [-> | E]; [reflexivity|]. rewrite E. destruct (addr =? 0); reflexivity.
  - intros arr NZ E. replace (addr =? 0) with false by lia. rewrite E.
    assert (C : covers arr xm nfds) by (eapply layout_covers; [exact HL|exact NC|exact (HR _ _ _ E)]).
    destruct (members_ex arr xm nfds ltac:(lia) C) as (l & EM & ML). rewrite EM. cbn [rbind].
    exists l. split; [exact ML|]. unfold set_text. rewrite bitset_body_join. reflexivity.
Qed.

(** ---- leaving select ---- *)
Fixpoint exit_list (i : N) (l : list N) (s : est) : res est :=
  match l with
  | [] => Ok s
  | b :: r => rlet s1 := exit_bit i b s in
              let s2 := mkest (out s1) (ready s1 - 1) (first s1) (sep s1) in
              if (ready s2 =? 0)%Z then Ok s2 else exit_list i r s2
  end.
Lemma exit_bits_list arr xm n i : forall fuel j l s, members fuel arr xm n j = Ok l -> exit_bits fuel arr xm n i j s = exit_list i l s.
Proof.
  induction fuel as [|f IH]; intros j l s; cbn [members exit_bits]; [discriminate|].
  destruct (next_set_bit arr xm j n) as [r| |]; cbn [rbind]; try discriminate.
  destruct r as [b|]; [|intros E; injection E as <-; reflexivity].
  destruct (members f arr xm n (b + 1)) as [l'| |] eqn:E2; cbn [rbind]; try discriminate.
  intros E; injection E as <-. cbn [exit_list]. destruct (exit_bit i b s) as [s1| |]; cbn [rbind]; try reflexivity.
  destruct (_ =? 0)%Z; [reflexivity|]. apply IH. exact E2.
Qed.

Definition len (l : list N) : N := N.of_nat (length l).
Lemma len_app a b : len (a ++ b) = len a + len b.
Proof. unfold len. rewrite app_length. lia. Qed.
Lemma xapp_fits c o s : len o + len s < c -> xappendstr c o s = Ok (o ++ s).
Proof. intros H. apply xappendstr_fits. change (len (o ++ s) < c). rewrite len_app. exact H. Qed.

(** the decimal text of a number below 2^20 has at most 7 digits *)
Lemma dec7 j : j < 2^20 -> len (pr_num 10 j) <= 7.
Proof.
  intros H. unfold len. pose proof (pr_num_length 10 j 6 ltac:(lia) ltac:(change (10 ^ N.of_nat 7) with 10000000; lia)). lia.
Qed.

Definition small (s : est) (B : N) : Prop := len (out s) <= B /\ len (sep s) <= 2.
Lemma set_name_len i : len (set_name i) <= 6.
Proof. unfold set_name. destruct (_ =? 0); [vm_compute; discriminate|]. destruct (_ =? 1); vm_compute; discriminate. Qed.
Lemma exit_bit_safe i j s B : j < 2^20 -> 1015 <= B -> B <= 1023 -> small s B -> exists s', exit_bit i j s = Ok s' /\ small s' B.
Proof.
  intros HJ HB HB2 [S1 S2]. unfold exit_bit. fold (len (out s)). unfold cap.
  pose proof (dec7 j HJ) as D. pose proof (set_name_len i) as NM.
  destruct (len (out s) <? _) eqn:L.
  - destruct (first s).
    + assert (LL : len (sep s ++ set_name i ++ bs " [" ++ pr_num 10 j) <= 17).
      { rewrite !len_app. change (len (bs " [")) with 2. lia. }
      rewrite xapp_fits by lia. cbn [rbind]. eexists; split; [reflexivity|]. split; cbn [out sep]; [|vm_compute; discriminate].
      rewrite len_app. lia.
    + assert (LL : len ([32] ++ pr_num 10 j) <= 8). { rewrite len_app. change (len [32]) with 1. lia. }
      rewrite xapp_fits by lia. cbn [rbind]. eexists; split; [reflexivity|]. split; cbn [out sep]; [|exact S2].
      rewrite len_app. lia.
  - exists s. split; [reflexivity|]. split; assumption.
Qed.
Lemma exit_list_safe i B : 1015 <= B -> B <= 1023 -> forall l s, Forall (fun j => j < 2^20) l -> small s B ->
  exists s', exit_list i l s = Ok s' /\ small s' B.
Proof.
  intros HB HB2. induction l as [|b r IH]; intros s F HS; cbn [exit_list]; [exists s; auto|].
  inversion F as [|? ? F1 F2]; subst. destruct (exit_bit_safe i b s B F1 HB HB2 HS) as (s1 & -> & S1). cbn [rbind].
  match goal with |- context [mkest ?a ?b ?c ?d] => assert (S2 : small (mkest a b c d) B) by exact S1 end.
  destruct (_ =? 0)%Z; [eexists; split; [reflexivity|exact S2]|]. apply IH; auto.
Qed.
Lemma put_fits' c o x : len o < c -> put c o x = Ok (o ++ [x]).
Proof. intros H. apply put_fits. exact H. Qed.
Lemma members_small arr xm nfds l : nfds <= 2^20 -> members_of arr xm nfds l -> Forall (fun j => j < 2^20) l.
Proof. intros HN [_ I]. apply Forall_forall. intros x Hx. apply I in Hx. lia. Qed.
Lemma exit_sets_safe mem ws xm nfds : layout ws xm -> nfds <= 2^20 -> readable mem ->
  forall addrs i s B, 1015 <= B -> B + N.of_nat (length addrs) <= 1023 -> small s B ->
  exists s', exit_sets mem ws xm nfds i addrs s = Ok s' /\ small s' (B + N.of_nat (length addrs)).
Proof.
  intros HL HN HR. assert (W : 0 < ws) by (destruct HL as [[-> | ->] _]; lia). pose proof (nfds_covered nfds ws W) as NC.
  induction addrs as [|addr r IH]; intros i s B HB HB2 HS; cbn [exit_sets length] in *.
  { exists s. split; [reflexivity|]. destruct HS. split; [lia|assumption]. }
  destruct (ready s <=? 0)%Z.
  { exists s. split; [reflexivity|]. destruct HS. split; [lia|assumption]. }
  assert (NEXT : forall s1 i1, small s1 (B + 1) -> exists s', exit_sets mem ws xm nfds i1 r s1 = Ok s' /\ small s' (B + N.of_nat (S (length r)))).
  { intros s1 i1 H1. destruct (IH i1 s1 (B + 1) ltac:(lia) ltac:(lia) H1) as (s' & E & S'). exists s'. split; [exact E|].
    replace (B + N.of_nat (S (length r))) with (B + 1 + N.of_nat (length r)) by lia. exact S'. }
  assert (UP : forall s1, small s1 B -> small s1 (B + 1)) by (intros s1 []; split; [lia|assumption]).
  destruct (if addr =? 0 then None else mem addr (fdsize nfds ws)) as [arr|] eqn:E; [|apply NEXT; auto].
  assert (LA : length arr = N.to_nat (fdsize nfds ws)) by (destruct (addr =? 0); [discriminate|exact (HR _ _ _ E)]).
  assert (C : covers arr xm nfds) by (eapply layout_covers; [exact HL|exact NC|exact LA]).
  destruct (members_ex arr xm nfds ltac:(lia) C) as (l & EM & ML).
  rewrite (exit_bits_list arr xm nfds i _ _ _ _ EM).
  destruct (exit_list_safe i B HB ltac:(lia) l (mkest (out s) (ready s) true (sep s)) (members_small _ _ _ _ HN ML) HS) as (s1 & -> & S1).
  cbn [rbind]. destruct (out s1) as [|c o] eqn:EO; [apply NEXT; auto|].
  destruct S1 as [S1 S1']. rewrite EO in S1.
  rewrite put_fits' by (unfold cap; lia). cbn [rbind]. apply NEXT. split; cbn [out sep]; [|exact S1'].
  rewrite len_app. change (len [93]) with 1. lia.
Qed.
Lemma exit_select_safe mem ws xm nfds rval a1 a2 a3 left : layout ws xm -> nfds <= 2^20 -> readable mem ->
  exists t, exit_select mem ws xm nfds rval [a1; a2; a3] left = Ok t /\ len t < cap.
Proof.
  intros HL HN HR. unfold exit_select. destruct (_ =? 0)%Z; [eexists; split; [reflexivity|reflexivity]|].
  destruct (exit_sets_safe mem ws xm nfds HL HN HR [a1; a2; a3] 0 (mkest [] rval true []) 1015) as (s & -> & S1 & S2);
    [lia|cbn; lia|split; vm_compute; discriminate|]. cbn [rbind].
  change (1015 + N.of_nat (length [a1; a2; a3])) with 1018 in S1.
  fold (len (out s)). fold (len (sep s)).
  destruct left as [str|]; [|cbn [rbind]; fold (len (out s)); replace (len (out s) <? cap) with true by (unfold cap; lia); eexists; split; [reflexivity|unfold cap; lia]].
  fold (len str). destruct (_ <? cap) eqn:E.
  - rewrite xapp_fits by (rewrite !len_app; change (len (bs "left ")) with 5; lia). cbn [rbind].
    match goal with |- context [N.of_nat (length ?x)] => assert (LX : len x < cap) end.
    { rewrite !len_app. change (len (bs "left ")) with 5. lia. }
    match goal with |- context [N.of_nat (length ?x)] => fold (len x) end.
    eexists. split; [|exact LX]. replace (len _ <? cap) with true by lia. reflexivity.
  - cbn [rbind]. fold (len (out s)). replace (len (out s) <? cap) with true by (unfold cap; lia). eexists; split; [reflexivity|unfold cap; lia].
Qed.

(** exact text *)
Lemma exit_list_cont i : forall l s, first s = false -> len (out s) + len (bitset_tail (map (pr_num 10) l)) < 999 -> (Z.of_nat (length l) <= ready s)%Z ->
  exit_list i l s = Ok (mkest (out s ++ bitset_tail (map (pr_num 10) l)) (ready s - Z.of_nat (length l)) false (sep s)).
Proof.
  induction l as [|b r IH]; intros s HF HL HR; cbn [exit_list map bitset_tail length] in *.
  - rewrite app_nil_r. destruct s as [o rd f sp]; cbn in *. subst f. f_equal. f_equal. lia.
  - unfold exit_bit. rewrite HF. fold (len (out s)). unfold cap in *. rewrite !len_app in HL. change (len [32]) with 1 in HL.
    replace (len (out s) <? 1024 - (11 + 4 * 3 + 2)) with true by lia.
    rewrite xapp_fits by (rewrite len_app; change (len [32]) with 1; lia). cbn [rbind out ready first sep].
    destruct (_ =? 0)%Z eqn:Z.
    + assert (r = []) as -> by (destruct r; [reflexivity|cbn [length] in *; lia]). cbn [map bitset_tail length]. rewrite app_nil_r. reflexivity.
    + rewrite IH; cbn [out ready first sep].
      * f_equal. f_equal; [|lia]. rewrite <- app_assoc. reflexivity.
      * reflexivity.
      * rewrite !len_app. change (len [32]) with 1. lia.
      * lia.
Qed.
Lemma exit_list_first i b l s : first s = true ->
  len (out s) + len (sep s ++ set_name i ++ bs " [" ++ join (map (pr_num 10) (b :: l))) < 999 -> (Z.of_nat (length (b :: l)) <= ready s)%Z ->
  exit_list i (b :: l) s = Ok (mkest (out s ++ sep s ++ set_name i ++ bs " [" ++ join (map (pr_num 10) (b :: l))) (ready s - Z.of_nat (length (b :: l))) false (bs ", ")).
Proof.
  intros HF HL HR. rewrite <- bitset_body_join in *. cbn [map bitset_body] in *. rewrite !len_app in HL.
  cbn [exit_list length] in *. unfold exit_bit. rewrite HF. fold (len (out s)). unfold cap.
  replace (len (out s) <? 1024 - (11 + 4 * 3 + 2)) with true by lia.
  rewrite xapp_fits by (rewrite !len_app; lia). cbn [rbind out ready first sep].
  destruct (_ =? 0)%Z eqn:Z.
  - assert (l = []) as -> by (destruct l; [reflexivity|cbn [length] in *; lia]). cbn [map bitset_tail length]. rewrite app_nil_r. reflexivity.
  - rewrite exit_list_cont; cbn [out ready first sep]; [|reflexivity|rewrite !len_app; lia|lia].
    f_equal. f_equal; [|lia]. rewrite <- !app_assoc. reflexivity.
Qed.

Definition comma_sep (ps : list (list N)) : list N := match ps with [] => [] | _ => bs ", " end.
Definition St (ps : list (list N)) (rd : Z) (f : bool) : est := mkest (commas ps) rd f (comma_sep ps).
Lemma commas_snoc ps x : commas (ps ++ [x]) = commas ps ++ comma_sep ps ++ x.
Proof.
  induction ps as [|a r IH]; [reflexivity|]. cbn [app commas comma_sep]. destruct r as [|b r'].
  - reflexivity.
  - cbn [app] in *. cbn [commas comma_sep] in *. rewrite IH, <- !app_assoc. reflexivity.
Qed.
Lemma commas_len ps qs : len (commas ps) <= len (commas (ps ++ qs)).
Proof.
  revert ps; induction qs as [|q qs IH]; intros ps; [rewrite app_nil_r; lia|].
  replace (ps ++ q :: qs) with ((ps ++ [q]) ++ qs) by (rewrite <- app_assoc; reflexivity).
  eapply N.le_trans; [|apply IH]. rewrite commas_snoc, len_app. lia.
Qed.
Definition piece (i : N) (o : option (list N)) : list (list N) := ready_text (set_name i) (mem_list o).
Fixpoint pieces (i : N) (os : list (option (list N))) : list (list N) :=
  match os with [] => [] | o :: r => piece i o ++ pieces (i + 1) r end.
Fixpoint total (os : list (option (list N))) : Z :=
  match os with [] => 0 | o :: r => Z.of_nat (length (mem_list o)) + total r end.
Fixpoint nogap (i : N) (ps : list (list N)) (os : list (option (list N))) : Prop :=
  match os with [] => True | o :: r => (ps <> [] -> o = Some [] -> total r = 0%Z) /\ nogap (i + 1) (ps ++ piece i o) r end.
Lemma total_pos os : (0 <= total os)%Z.
Proof. induction os as [|o r IH]; cbn [total]; lia. Qed.
Lemma total_none os i : total os = 0%Z -> pieces i os = [].
Proof.
  revert i; induction os as [|o r IH]; intros i; cbn [total pieces]; [reflexivity|]. pose proof (total_pos r). intros E.
  rewrite IH by lia. unfold piece. destruct (mem_list o); [reflexivity|cbn [length] in E; lia].
Qed.
Lemma sets_step mem ws xm nfds i addr r s o : layout ws xm -> nfds <= 2^20 -> readable mem ->
  set_result mem (fdsize nfds ws) xm nfds addr o -> (0 < ready s)%Z ->
  exit_sets mem ws xm nfds i (addr :: r) s =
  match o with
  | None => exit_sets mem ws xm nfds (i + 1) r s
  | Some l => rlet s1 := exit_list i l (mkest (out s) (ready s) true (sep s)) in
              match out s1 with
              | [] => exit_sets mem ws xm nfds (i + 1) r s1
              | _ => rlet o := put cap (out s1) 93 in exit_sets mem ws xm nfds (i + 1) r (mkest o (ready s1) (first s1) (sep s1))
              end
  end.
Proof.
  intros HL HN HR SR HS. cbn [exit_sets]. replace (ready s <=? 0)%Z with false by lia.
  assert (W : 0 < ws) by (destruct HL as [[-> | ->] _]; lia). pose proof (nfds_covered nfds ws W) as NC.
  inversion SR as [HX|arr l NZ E ML]; subst.
  - destruct HX as [-> | E]; [reflexivity|]. rewrite E. destruct (addr =? 0); reflexivity.
  - replace (addr =? 0) with false by lia. rewrite E.
    assert (C : covers arr xm nfds) by (eapply layout_covers; [exact HL|exact NC|exact (HR _ _ _ E)]).
    rewrite (exit_bits_list arr xm nfds i _ _ _ _ (members_is arr xm nfds l ltac:(lia) C ML)). reflexivity.
Qed.
Lemma item_text i b l ps : commas ps ++ comma_sep ps ++ set_name i ++ bs " [" ++ join (map (pr_num 10) (b :: l)) ++ [93] = commas (ps ++ piece i (Some (b :: l))).
Proof.
  unfold piece. cbn [mem_list ready_text]. rewrite commas_snoc. unfold set_text. do 2 f_equal.
Qed.
Lemma nonempty_app (a b : list N) c : exists x r, a ++ b ++ [c] = x :: r.
Proof. destruct a; [|eexists; eexists; reflexivity]. destruct b; eexists; eexists; reflexivity. Qed.
Lemma step_full mem ws xm nfds i addr r ps rd f b l : layout ws xm -> nfds <= 2^20 -> readable mem ->
  set_result mem (fdsize nfds ws) xm nfds addr (Some (b :: l)) -> (Z.of_nat (length (b :: l)) <= rd)%Z ->
  len (commas (ps ++ piece i (Some (b :: l)))) < 999 ->
  exit_sets mem ws xm nfds i (addr :: r) (St ps rd f) =
  exit_sets mem ws xm nfds (i + 1) r (St (ps ++ piece i (Some (b :: l))) (rd - Z.of_nat (length (b :: l))) false).
Proof.
  intros HL HN HR SR HS HF. rewrite (sets_step mem ws xm nfds i addr r (St ps rd f) (Some (b :: l))); auto; [|cbn [ready St length] in *; lia].
  rewrite <- item_text in HF. rewrite !len_app in HF. change (len [93]) with 1 in HF.
  unfold St at 1 2 3. cbn [out ready sep].
  rewrite exit_list_first; cbn [first out ready sep]; [|reflexivity|rewrite !len_app; lia|exact HS].
  cbn [rbind out ready first sep].
  assert (NE : commas ps ++ comma_sep ps ++ set_name i ++ bs " [" ++ join (map (pr_num 10) (b :: l)) <> []).
  { intros E. apply app_eq_nil in E. destruct E as [_ E]. apply app_eq_nil in E. destruct E as [_ E]. apply app_eq_nil in E. destruct E as [_ E]. discriminate E. }
  destruct (commas ps ++ comma_sep ps ++ set_name i ++ bs " [" ++ join (map (pr_num 10) (b :: l))) as [|x t] eqn:EX; [congruence|].
  rewrite <- EX. rewrite put_fits' by (unfold cap; rewrite !len_app; lia). cbn [rbind].
  unfold St. rewrite <- item_text. rewrite <- !app_assoc.
  replace (comma_sep (ps ++ piece i (Some (b :: l)))) with (bs ", ") by (unfold piece; destruct ps; reflexivity). reflexivity.
Qed.
Lemma step_skip mem ws xm nfds i addr r rd f ps o : layout ws xm -> nfds <= 2^20 -> readable mem ->
  set_result mem (fdsize nfds ws) xm nfds addr o -> (0 < rd)%Z -> o = None \/ (o = Some [] /\ ps = []) ->
  exists f', exit_sets mem ws xm nfds i (addr :: r) (St ps rd f) = exit_sets mem ws xm nfds (i + 1) r (St ps rd f').
Proof.
  intros HL HN HR SR HS HO. rewrite (sets_step mem ws xm nfds i addr r (St ps rd f) o); auto.
  destruct HO as [-> | [-> ->]]; [exists f; reflexivity|]. exists true. reflexivity.
Qed.
Lemma sets_stop mem ws xm nfds i addrs ps f : exit_sets mem ws xm nfds i addrs (St ps 0 f) = Ok (St ps 0 f).
Proof. destruct addrs; reflexivity. Qed.
Lemma sets_run mem ws xm nfds : layout ws xm -> nfds <= 2^20 -> readable mem ->
  forall addrs os i ps f, Forall2 (set_result mem (fdsize nfds ws) xm nfds) addrs os -> nogap i ps os ->
  len (commas (ps ++ pieces i os)) < 999 ->
  exists f', exit_sets mem ws xm nfds i addrs (St ps (total os) f) = Ok (St (ps ++ pieces i os) 0 f').
Proof.
  intros HL HN HR. induction addrs as [|addr r IH]; intros os i ps f F2 NG FT; inversion F2 as [|? o ? os' SR F2']; subst.
  { cbn [total pieces]. rewrite app_nil_r. eexists. reflexivity. }
  destruct NG as [NG1 NG2]. cbn [total pieces] in *. pose proof (total_pos os') as TP.
  destruct (mem_list o) as [|b l] eqn:EO.
  - assert (EP : piece i o = []) by (unfold piece; rewrite EO; reflexivity). rewrite EP in *. rewrite app_nil_r in NG2. cbn [app] in *.
    change (Z.of_nat (length (@nil N)) + total os')%Z with (0 + total os')%Z. rewrite Z.add_0_l.
    destruct (Z.eq_dec (total os') 0) as [T0|T0].
    + rewrite T0. rewrite (total_none _ _ T0), app_nil_r in *. rewrite sets_stop. eexists. reflexivity.
    + destruct (step_skip mem ws xm nfds i addr r (total os') f ps o HL HN HR SR ltac:(lia)) as (f' & E).
      { destruct o as [[|? ?]|]; [right|discriminate|left; reflexivity]. split; [reflexivity|].
        destruct ps as [|p q]; [reflexivity|]. exfalso. apply T0. apply NG1; [discriminate|reflexivity]. }
      rewrite E. apply IH; auto.
  - destruct o as [l'|]; [|discriminate]. cbn [mem_list] in EO. subst l'.
    rewrite (step_full mem ws xm nfds i addr r ps _ f b l); auto.
    + replace (Z.of_nat (length (b :: l)) + total os' - Z.of_nat (length (b :: l)))%Z with (total os') by lia.
      rewrite app_assoc in *. apply IH; auto.
    + lia.
    + eapply N.le_lt_trans; [|exact FT]. rewrite app_assoc. apply commas_len.
Qed.
Definition left_piece (left : option (list N)) : list (list N) := match left with Some t => [bs "left " ++ t] | None => [] end.
Lemma finish ps left : len (commas (ps ++ left_piece left)) < 999 ->
  (rlet o := (match left with
              | None => Ok (commas ps)
              | Some str => if N.of_nat (length (commas ps)) + 6 + N.of_nat (length (comma_sep ps)) + N.of_nat (length str) <? cap
                            then xappendstr cap (commas ps) (comma_sep ps ++ bs "left " ++ str) else Ok (commas ps)
              end) in
   if N.of_nat (length o) <? cap then Ok o else Undef) = Ok (commas (ps ++ left_piece left)).
Proof.
  intros HF. assert (FC : len (commas (ps ++ left_piece left)) <? cap = true) by (unfold cap; lia).
  destruct left as [t|]; cbn [left_piece] in *.
  - rewrite commas_snoc, !len_app in *. change (len (bs "left ")) with 5 in *.
    fold (len (commas ps)). fold (len (comma_sep ps)). fold (len t).
    replace (_ <? cap) with true by (unfold cap; lia).
    rewrite xapp_fits by (rewrite !len_app; change (len (bs "left ")) with 5; unfold cap; lia). cbn [rbind].
    match goal with |- context [N.of_nat (length ?x)] => fold (len x) end. rewrite !len_app. change (len (bs "left ")) with 5. rewrite FC. reflexivity.
  - rewrite app_nil_r in *. cbn [rbind]. fold (len (commas ps)). rewrite FC. reflexivity.
Qed.
Lemma select_exact mem ws xm nfds a1 a2 a3 o1 o2 o3 left : layout ws xm -> nfds <= 2^20 -> readable mem ->
  set_result mem (fdsize nfds ws) xm nfds a1 o1 -> set_result mem (fdsize nfds ws) xm nfds a2 o2 -> set_result mem (fdsize nfds ws) xm nfds a3 o3 ->
  ~ (mem_list o1 <> [] /\ o2 = Some [] /\ mem_list o3 <> []) ->
  total [o1; o2; o3] <> 0%Z ->
  len (select_text (mem_list o1) (mem_list o2) (mem_list o3) left) < 999 ->
  exit_select mem ws xm nfds (total [o1; o2; o3]) [a1; a2; a3] left = Ok (select_text (mem_list o1) (mem_list o2) (mem_list o3) left).
Proof.
  intros HL HN HR R1 R2 R3 NG T0 FT. unfold exit_select. replace (_ =? 0)%Z with false by lia.
  assert (EP : select_text (mem_list o1) (mem_list o2) (mem_list o3) left = commas (pieces 0 [o1; o2; o3] ++ left_piece left)).
  { unfold select_text. cbn [pieces]. unfold piece. change (set_name 0) with (bs "in"). change (set_name (0 + 1)) with (bs "out").
    change (set_name (0 + 1 + 1)) with (bs "except"). rewrite app_nil_r, <- !app_assoc. reflexivity. }
  rewrite EP in *. change (mkest [] (total [o1; o2; o3]) true []) with (St [] (total [o1; o2; o3]) true).
  destruct (sets_run mem ws xm nfds HL HN HR [a1; a2; a3] [o1; o2; o3] 0 [] true) as (f' & E).
  - repeat constructor; assumption.
  - cbn [nogap total app]. repeat split; try tauto.
    + intros NE E2. rewrite ?app_nil_l in *. subst o2. destruct (mem_list o3) as [|x y] eqn:E3; [reflexivity|]. exfalso. apply NG. repeat split; try congruence.
      intros E1. apply NE. unfold piece. rewrite E1. reflexivity.
  - cbn [app]. eapply N.le_lt_trans; [|exact FT]. apply commas_len.
  - rewrite E. cbn [rbind app]. unfold St. cbn [out sep]. apply finish. exact FT.
Qed.
(** an empty set between two sets with ready descriptors *)
Lemma select_gap mem ws xm nfds a1 a2 a3 l1 l3 : layout ws xm -> nfds <= 2^20 -> readable mem ->
  set_result mem (fdsize nfds ws) xm nfds a1 (Some l1) -> set_result mem (fdsize nfds ws) xm nfds a2 (Some []) -> set_result mem (fdsize nfds ws) xm nfds a3 (Some l3) ->
  l1 <> [] -> l3 <> [] -> len (select_text l1 [] l3 None) < 998 ->
  exit_select mem ws xm nfds (total [Some l1; Some []; Some l3]) [a1; a2; a3] None =
  Ok (commas (ready_text (bs "in") l1) ++ bs "]" ++ bs ", " ++ commas (ready_text (bs "except") l3)).
Proof.
  intros HL HN HR R1 R2 R3 N1 N3 FT. destruct l1 as [|b1 l1]; [congruence|]. destruct l3 as [|b3 l3]; [congruence|].
  unfold exit_select. cbn [total mem_list]. replace (_ =? 0)%Z with false by (cbn [length]; lia).
  match goal with |- context [mkest [] ?rd true []] => change (mkest [] rd true []) with (St [] rd true) end.
  assert (FX : len (commas ([] ++ piece 0 (Some (b1 :: l1)))) + 2 + len (commas (piece 2 (Some (b3 :: l3)))) < 998).
  { unfold select_text in FT. cbn [mem_list ready_text app commas] in FT. rewrite !len_app in FT.
    unfold piece. cbn [mem_list ready_text app commas]. rewrite !len_app.
    change (len (set_name 0)) with (len (bs "in")). change (len (set_name 2)) with (len (bs "except")). change (len (bs ", ")) with 2 in FT. lia. }
  rewrite (step_full mem ws xm nfds 0 a1 [a2; a3] [] _ true b1 l1); auto; [|cbn [length]; lia|lia].
  rewrite (sets_step mem ws xm nfds _ a2 [a3] _ (Some [])); auto; [|cbn [ready St length]; lia].
  cbn [exit_list rbind]. change (0 + 1 + 1) with 2. change ([] ++ piece 0 (Some (b1 :: l1))) with (piece 0 (Some (b1 :: l1))) in *.
  assert (EC : exists x r, commas (piece 0 (Some (b1 :: l1))) = x :: r) by (unfold piece; cbn; eexists; eexists; reflexivity).
  destruct EC as (x & r & EC).
  unfold St. cbn [out ready sep first]. rewrite EC at 1. rewrite put_fits' by (unfold cap; lia). cbn [rbind].
  set (Q := commas (piece 0 (Some (b1 :: l1))) ++ [93]).
  replace (mkest Q _ true (comma_sep (piece 0 (Some (b1 :: l1))))) with (St [Q] (Z.of_nat (length (b3 :: l3))) true).
  2:{ unfold St. cbn [commas]. f_equal. cbn [length]. lia. }
  assert (LQ : len (commas ([Q] ++ piece 2 (Some (b3 :: l3)))) < 999).
  { change ([Q] ++ piece 2 (Some (b3 :: l3))) with ([Q] ++ [set_name 2 ++ bs " " ++ set_text (map (pr_num 10) (b3 :: l3))]). rewrite commas_snoc.
    change (commas (piece 2 (Some (b3 :: l3)))) with (set_name 2 ++ bs " " ++ set_text (map (pr_num 10) (b3 :: l3))) in FX.
    cbn [commas comma_sep]. rewrite !(len_app (Q)), len_app. unfold Q. rewrite len_app. change (len [93]) with 1. change (len (bs ", ")) with 2. lia. }
  rewrite (step_full mem ws xm nfds 2 a3 [] [Q] _ true b3 l3); auto; [|lia]. rewrite Z.sub_diag. rewrite sets_stop. cbn [rbind].
  pose proof (finish ([Q] ++ piece 2 (Some (b3 :: l3))) None) as FN. cbn [left_piece] in FN. rewrite app_nil_r in FN. specialize (FN LQ).
  unfold St. cbn [out sep]. etransitivity; [exact FN|]. f_equal. unfold Q, piece. cbn [mem_list ready_text app commas].
  change (set_name 0) with (bs "in"). change (set_name 2) with (bs "except"). rewrite <- !app_assoc. reflexivity.
Qed.

(** ---- CPU masks ---- *)
Lemma affinity_spec paddr mem ws xm cs addr ln : layout ws xm -> readable mem -> ln < 2^32 -> 0 < cs <= 2^28 -> addr <> 0 -> 0 < ln ->
  (mem addr (N.min ln cs) = None -> affinity paddr mem true false ws xm cs addr ln = Ok (paddr addr)) /\
  (forall a, mem addr (N.min ln cs) = Some a ->
     exists l, members_of (a ++ zeros (roundup (N.min ln cs) ws - N.min ln cs)) xm (8 * roundup (N.min ln cs) ws) l /\
       affinity paddr mem true false ws xm cs addr ln = Ok (set_text (map (pr_num 10) l ++ (if roundup (N.min ln cs) ws <? ln then [bs "..."] else [])))).
Proof.
  intros HL HR H32 [HC0 HC] HA H0. unfold affinity. cbn [negb orb]. replace (addr =? 0) with false by lia. replace (ln =? 0) with false by lia.
  set (u := N.min ln cs) in *. assert (W : 0 < ws <= 8) by (destruct HL as [[-> | ->] _]; lia).
  assert (RG : u <= roundup u ws < u + ws).
  { split; [apply roundup_ge; lia|]. unfold roundup. pose proof (N.mul_div_le (u + ws - 1) ws ltac:(lia)). lia. }
  split; [intros ->; reflexivity|]. intros a E. rewrite E. pose proof (HR _ _ _ E) as LA.
  set (sz := roundup u ws) in *.
  assert (LC : length (a ++ zeros (sz - u)) = N.to_nat sz). { rewrite app_length. unfold zeros. rewrite repeat_length. lia. }
  assert (C : covers (a ++ zeros (sz - u)) xm (8 * sz)) by (eapply (layout_covers ws xm _ u); [exact HL| |]; fold sz; [lia|exact LC]).
  rewrite (N.mul_comm sz 8). destruct (members_ex _ xm (8 * sz) ltac:(subst u; lia) C) as (l & EM & ML). rewrite EM. cbn [rbind].
  exists l. split; [exact ML|]. unfold set_text. rewrite bitset_body_join. reflexivity.
Qed.
Lemma zeros_bits a n b : bit_set (a ++ zeros n) 0 b <-> bit_set a 0 b.
Proof.
  unfold bit_set. rewrite N.lxor_0_r. set (k := N.to_nat (b / 8)). split.
  - intros (y & E & T). destruct (Nat.lt_ge_cases k (length a)) as [L|G].
    + rewrite nth_error_app1 in E by exact L. exists y. auto.
    + rewrite nth_error_app2 in E by exact G. unfold zeros in E. apply nth_error_In, repeat_spec in E. subst y. rewrite N.bits_0 in T. discriminate.
  - intros (y & E & T). exists y. split; [|exact T]. rewrite nth_error_app1; [exact E|]. apply nth_error_Some. congruence.
Qed.

(** ---- leaving poll ---- *)
Definition psep (ps : list (list N)) : list N := match ps with [] => bs "[" | _ => bs ", " end.
Definition ltext (ps : list (list N)) : list N := match ps with [] => [] | _ => bs "[" ++ commas ps end.
Lemma ltext_snoc ps x : ltext (ps ++ [x]) = (ltext ps ++ psep ps) ++ x.
Proof.
  destruct ps as [|p q]; [reflexivity|]. change (ltext ((p :: q) ++ [x])) with (bs "[" ++ commas ((p :: q) ++ [x])).
  rewrite commas_snoc. unfold ltext, psep, comma_sep. rewrite <- !app_assoc. reflexivity.
Qed.
Lemma stp_fits c o s : len o + len s < c -> stpcpy c o s = Ok (o ++ s).
Proof. intros H. apply stpcpy_fits. change (len (o ++ s) < c). rewrite len_app. exact H. Qed.
Lemma psep_len ps : 1 <= len (psep ps) <= 2.
Proof. destruct ps; vm_compute; split; discriminate. Qed.
Lemma poll_sep_ok ps : len (ltext ps) + 2 < cap -> poll_sep (ltext ps) = Ok (ltext ps ++ psep ps).
Proof.
  intros H. destruct ps as [|p q]; [reflexivity|].
  unfold poll_sep. destruct (ltext (p :: q)) as [|x y] eqn:E; [discriminate E|]. rewrite stp_fits; [reflexivity|].
  change (len (bs ", ")) with 2. lia.
Qed.
Definition room (wl : N) : N := cap - (2 + 2 * wl + 9).
Lemma item_len fl e : len (poll_item fl e) = len (bs "{fd=" ++ pr_z (fst e) ++ bs ", revents=") + len (fl (snd e)) + 1.
Proof. unfold poll_item. rewrite !len_app. change (len (bs "}")) with 1. lia. Qed.
Definition cut_reason (wl : N) (fl : N -> list N) (mx : option N) (n0 : nat) (ps : list (list N)) (k : nat) (es : list (Z * N)) : Prop :=
  (exists m, mx = Some m /\ m <= N.of_nat (n0 + k)) \/ room wl <= len (ltext (ps ++ map (poll_item fl) (firstn (S k) es))).
Definition tail_ok (wl : N) (fl : N -> list N) (mx : option N) (ps : list (list N)) (k : nat) (es : list (Z * N)) (bad : option N) (tail : list (list N)) : Prop :=
  (tail = [] /\ k = length es /\ bad = None) \/
  (tail = [bs "..."] /\ (k < length es)%nat /\ cut_reason wl fl mx (length ps) ps k es) \/
  (exists a, tail = [alt_hex a] /\ k = length es /\ bad = Some a).
Lemma poll_loop_spec wl fl mx mem : wl = 4 \/ wl = 8 ->
  forall n cur ps, (forall i, (i < n)%nat -> len (alt_hex (cur + 8 * N.of_nat i)) <= 2 + 2 * wl) ->
  len (ltext ps) < room wl ->
  exists k tail, (k <= length (with_events (fst (walk mem cur n))))%nat /\
    poll_loop n wl fl mx mem cur (N.of_nat (length ps)) (ltext ps) = Ok (ltext (ps ++ map (poll_item fl) (firstn k (with_events (fst (walk mem cur n)))) ++ tail)) /\
    tail_ok wl fl mx ps k (with_events (fst (walk mem cur n))) (snd (walk mem cur n)) tail /\
    len (ltext (ps ++ map (poll_item fl) (firstn k (with_events (fst (walk mem cur n)))) ++ tail)) <= cap - 8.
Proof.
  intros HW. assert (RW : room wl = 1024 - (11 + 2 * wl)) by (unfold room, cap; lia).
  induction n as [|n IH]; intros cur ps HX HP.
  { exists 0%nat, []. cbn [walk fst snd with_events filter length poll_loop firstn map app]. rewrite app_nil_r.
    split; [lia|]. split; [reflexivity|]. split; [left; auto|]. unfold cap. lia. }
  cbn [poll_loop walk]. pose proof (psep_len ps) as PL.
  assert (SEP : poll_sep (ltext ps) = Ok (ltext ps ++ psep ps)) by (apply poll_sep_ok; unfold cap; lia).
  destruct (mem cur) as [[fd rev]|].
  2:{ exists 0%nat, [alt_hex cur]. cbn [fst snd with_events filter length firstn map app]. specialize (HX 0%nat ltac:(lia)).
      replace (cur + 8 * N.of_nat 0) with cur in HX by lia.
      rewrite SEP. cbn [rbind]. rewrite xapp_fits by (rewrite len_app; unfold cap; lia). rewrite ltext_snoc.
      split; [lia|]. split; [reflexivity|]. split; [right; right; eauto|]. rewrite !len_app. unfold cap; lia. }
  specialize (IH (cur + 8)). destruct (walk mem (cur + 8) n) as [es bad] eqn:EW. cbn [fst snd].
  assert (HX' : forall i, (i < n)%nat -> len (alt_hex (cur + 8 + 8 * N.of_nat i)) <= 2 + 2 * wl).
  { intros i Hi. replace (cur + 8 + 8 * N.of_nat i) with (cur + 8 * N.of_nat (S i)) by lia. apply HX. lia. }
  unfold with_events. cbn [filter snd]. fold (with_events es).
  destruct (rev =? 0) eqn:ER; cbn [negb].
  { apply IH; assumption. }
  rewrite SEP. cbn [rbind].
  set (e := (fd, rev)).
  assert (DOTS : stpcpy cap (ltext ps ++ psep ps) (bs "...") = Ok (ltext (ps ++ [bs "..."])) /\ len (ltext (ps ++ [bs "..."])) <= cap - 8).
  { rewrite ltext_snoc. split; [apply stp_fits|]; rewrite ?len_app; change (len (bs "...")) with 3; unfold cap; lia. }
  assert (CUT : cut_reason wl fl mx (length ps) ps 0 (e :: with_events es) ->
    exists k tail, (k <= length (e :: with_events es))%nat /\
    stpcpy cap (ltext ps ++ psep ps) (bs "...") = Ok (ltext (ps ++ map (poll_item fl) (firstn k (e :: with_events es)) ++ tail)) /\
    tail_ok wl fl mx ps k (e :: with_events es) bad tail /\
    len (ltext (ps ++ map (poll_item fl) (firstn k (e :: with_events es)) ++ tail)) <= cap - 8).
  { intros CR. exists 0%nat, [bs "..."]. cbn [firstn map app]. destruct DOTS as [D1 D2]. split; [cbn; lia|]. split; [exact D1|]. split; [|exact D2].
    right; left. split; [reflexivity|]. split; [cbn; lia|exact CR]. }
  destruct (match mx with Some m => m <? N.of_nat (length ps) + 1 | None => false end) eqn:EM.
  { apply CUT. left. destruct mx as [m|]; [|discriminate]. exists m. split; [reflexivity|lia]. }
  assert (LT : len (ltext (ps ++ [poll_item fl e])) = len (ltext ps ++ psep ps) + len (bs "{fd=" ++ pr_z fd ++ bs ", revents=") + len (fl rev) + 1).
  { rewrite ltext_snoc, len_app, item_len. cbn [fst snd e]. lia. }
  fold (room wl). fold (len (ltext ps ++ psep ps)). fold (len (bs "{fd=" ++ pr_z fd ++ bs ", revents=")). fold (len (fl rev)).
  rewrite <- LT. destruct (room wl <=? _) eqn:EL.
  { apply CUT. right. cbn [firstn map]. change (firstn 0 (with_events es)) with (@nil (Z * N)). cbn [map]. lia. }
  rewrite stp_fits by (unfold cap; lia). cbn [rbind]. rewrite stp_fits by (rewrite len_app; unfold cap; lia). cbn [rbind].
  rewrite put_fits' by (rewrite (len_app (_ ++ _)), (len_app (ltext ps ++ psep ps)); unfold cap; lia). cbn [rbind].
  match goal with |- context [poll_loop n wl fl mx mem (cur + 8) _ ?o] => assert (EO : o = ltext (ps ++ [poll_item fl e])) end.
  { rewrite ltext_snoc. unfold poll_item. cbn [fst snd e]. rewrite <- !app_assoc. reflexivity. }
  rewrite EO. replace (N.of_nat (length ps) + 1) with (N.of_nat (length (ps ++ [poll_item fl e]))) by (rewrite app_length; cbn; lia).
  destruct (IH (ps ++ [poll_item fl e]) HX' ltac:(lia)) as (k & tail & K1 & K2 & K3 & K4). cbn [fst snd] in *.
  exists (S k), tail. cbn [firstn map length]. rewrite <- app_assoc in K2, K4. cbn [app] in K2, K4.
  split; [lia|]. split; [exact K2|]. split; [|exact K4].
  destruct K3 as [(T1 & T2 & T3)|[(T1 & T2 & T3)|(a & T1 & T2 & T3)]].
  - left. split; [exact T1|]. split; [cbn [length]; lia|exact T3].
  - right; left. split; [exact T1|]. split; [cbn [length]; lia|]. destruct T3 as [(m & M1 & M2)|T3].
    + left. exists m. split; [exact M1|]. rewrite app_length in M2. cbn [length] in M2. lia.
    + right. rewrite <- app_assoc in T3. exact T3.
  - right; right. exists a. split; [exact T1|]. split; [cbn [length]; lia|exact T3].
Qed.
Definition poll_left (o1 : list N) (pts : option (list N)) : list (list N) :=
  match pts with None => [] | Some t => [if len o1 + 8 + len t <? cap then bs "left " ++ t else bs "..."] end.
Lemma poll_finish_spec ps pts : len (ltext ps) <= cap - 8 -> (forall t, pts = Some t -> len t < 1000) ->
  poll_finish pts (ltext ps) =
  Ok (match commas (poll_list ps ++ poll_left (commas (poll_list ps)) pts) with [] => None | t => Some t end) /\
  len (commas (poll_list ps ++ poll_left (commas (poll_list ps)) pts)) < cap.
Proof.
  intros HL HT. unfold poll_finish.
  assert (E1 : (match ltext ps with [] => Ok (ltext ps) | _ => put cap (ltext ps) 93 end) = Ok (commas (poll_list ps)) /\ len (commas (poll_list ps)) <= cap - 7).
  { destruct ps as [|p q]; [split; [reflexivity|vm_compute; discriminate]|].
    assert (EC : ltext (p :: q) ++ [93] = commas (poll_list (p :: q))) by (cbn [poll_list commas]; unfold ltext; rewrite <- app_assoc; reflexivity).
    rewrite <- EC. destruct (ltext (p :: q)) as [|x y] eqn:E; [discriminate E|]. rewrite put_fits' by (unfold cap in *; lia). split; [reflexivity|].
    rewrite len_app. change (len [93]) with 1. unfold cap in *. lia. }
  destruct E1 as [E1 L1]. rewrite E1. cbn [rbind]. fold (len (commas (poll_list ps))).
  replace (len (commas (poll_list ps)) <? cap) with true by (unfold cap in *; lia).
  destruct pts as [t|].
  2:{ cbn [rbind poll_left]. rewrite app_nil_r. split; [destruct (commas (poll_list ps)); reflexivity|unfold cap in *; lia]. }
  specialize (HT t eq_refl). fold (len t). cbn [poll_left]. rewrite commas_snoc.
  assert (ES : forall x, (match commas (poll_list ps) with [] => bs "left " | _ => bs ", left " end) = comma_sep (poll_list ps) ++ bs "left " /\
                         (poll_list ps = [] -> commas (poll_list ps) = x -> x = [])).
  { intros x. split; [destruct ps; reflexivity|]. intros -> <-. reflexivity. }
  destruct (ES []) as [ES1 _].
  destruct (_ <? cap) eqn:E.
  - rewrite ES1. assert (LS : len (comma_sep (poll_list ps)) <= 2) by (destruct ps; vm_compute; discriminate).
    rewrite stp_fits by (rewrite len_app; change (len (bs "left ")) with 5; lia). cbn [rbind].
    rewrite stp_fits by (rewrite !len_app; change (len (bs "left ")) with 5; lia). cbn [rbind].
    rewrite <- !app_assoc. split.
    + destruct (commas (poll_list ps) ++ comma_sep (poll_list ps) ++ bs "left " ++ t) eqn:X; reflexivity.
    + rewrite !len_app. change (len (bs "left ")) with 5. lia.
  - assert (NE : poll_list ps <> []) by (intros Z; rewrite Z in E; change (len (commas [])) with 0 in E; unfold cap in *; lia).
    assert (SE : comma_sep (poll_list ps) = bs ", ") by (destruct (poll_list ps); [congruence|reflexivity]). rewrite SE.
    rewrite stp_fits by (change (len (bs ", ...")) with 5; unfold cap in *; lia). cbn [rbind].
    split.
    + change (bs ", " ++ bs "...") with (bs ", ..."). destruct (commas (poll_list ps) ++ bs ", ...") eqn:X; reflexivity.
    + rewrite !len_app. change (len (bs ", ")) with 2. change (len (bs "...")) with 3. unfold cap in *. lia.
Qed.
Lemma alt_hex_len v wa : wa = 4 \/ wa = 8 -> v < 2 ^ (8 * wa) -> len (alt_hex v) <= 2 + 2 * wa.
Proof.
  intros HW HV. unfold alt_hex. destruct (v =? 0); [change (len (bs "0")) with 1; lia|]. rewrite len_app. change (len (bs "0x")) with 2.
  destruct HW as [-> | ->].
  - pose proof (pr_num_length 16 v 7 ltac:(lia) ltac:(exact HV)). unfold len. lia.
  - pose proof (pr_num_length 16 v 15 ltac:(lia) ltac:(exact HV)). unfold len. lia.
Qed.
Lemma exit_poll_spec wl fl mx mem rval start nfds pts : wl = 4 \/ wl = 8 -> rval <> 0 -> start <> 0 -> 0 < nfds -> start + 8 * nfds < 2 ^ (8 * wl) ->
  (forall t, pts = Some t -> len t < 1000) ->
  let es := with_events (fst (walk mem start (N.to_nat nfds))) in
  let bad := snd (walk mem start (N.to_nat nfds)) in
  exists k tail, (k <= length es)%nat /\ tail_ok wl fl mx [] k es bad tail /\
    let L := poll_list (map (poll_item fl) (firstn k es) ++ tail) in
    let t := commas (L ++ poll_left (commas L) pts) in
    exit_poll wl (2 ^ (8 * wl)) fl true mx mem rval start nfds pts = Ok (match t with [] => None | _ => Some t end) /\ len t < cap.
Proof.
  intros HW HV HS HN HE HT es bad. unfold exit_poll. replace (rval =? 0) with false by lia.
  assert (E1 : (8 * nfds) mod 2 ^ (8 * wl) = 8 * nfds) by (apply N.mod_small; lia). rewrite E1.
  assert (E2 : (start + 8 * nfds) mod 2 ^ (8 * wl) = start + 8 * nfds) by (apply N.mod_small; lia). rewrite E2.
  rewrite (N.mul_comm 8 nfds), N.div_mul by lia. replace (nfds =? nfds) with true by lia.
  replace (start =? 0) with false by lia. replace (nfds =? 0) with false by lia. replace (_ <? start) with false by lia. cbn [negb orb].
  destruct (poll_loop_spec wl fl mx mem HW (N.to_nat nfds) start []) as (k & tail & K1 & K2 & K3 & K4).
  - intros i Hi. apply alt_hex_len; [exact HW|]. lia.
  - destruct HW as [-> | ->]; reflexivity.
  - change (N.of_nat (length (@nil (list N)))) with 0 in K2. change (ltext []) with (@nil N) in K2. rewrite K2. cbn [rbind app].
    destruct (poll_finish_spec _ pts K4 HT) as [F1 F2]. cbn [app] in F1, F2.
    exists k, tail. split; [exact K1|]. split; [exact K3|]. cbv zeta. split; [|exact F2]. fold es in F1 |- *. rewrite F1. destruct (commas _); reflexivity.
Qed.
