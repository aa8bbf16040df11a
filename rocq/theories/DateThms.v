(** C95: how times and dates are shown. *)
From Verif Require Import Base Printf InfoModel InfoSpec TvalModel TvalSpec TvalThms.
From Verif Require ExtModel InfoThms DiagProofs.
Local Open Scope N_scope.

Lemma sdec_integer z : integer (sdec z) z.
Proof.
  unfold sdec, integer. destruct (Z.ltb_spec z 0).
  - right. exists (pr_num 10 (Z.to_N (- z))), (Z.to_N (- z)). split; [reflexivity|]. split; [apply udec_number|]. lia.
  - left. exists (Z.to_N z). split; [apply udec_number|]. lia.
Qed.
Lemma sdec_length z k : (- 10 ^ Z.of_nat (S k) < z < 10 ^ Z.of_nat (S k))%Z -> (1 <= length (sdec z) <= S (S k))%nat.
Proof.
  intros H. assert (P : forall a, (0 <= a < 10 ^ Z.of_nat (S k))%Z -> Z.to_N a < 10 ^ N.of_nat (S k)).
  { intros a Ha. apply N2Z.inj_lt. rewrite N2Z.inj_pow, Z2N.id, nat_N_Z by lia. exact (proj2 Ha). }
  revert P H. generalize (10 ^ Z.of_nat (S k))%Z. intros q P H.
  unfold sdec. destruct (Z.ltb_spec z 0).
  - rewrite app_length. change (length (bs "-")) with 1%nat. pose proof (udec_length (Z.to_N (- z)) k (P (- z)%Z ltac:(lia))). unfold udec in *. lia.
  - pose proof (udec_length (Z.to_N z) k (P z ltac:(lia))). unfold udec in *. lia.
Qed.
(** the structures shown this way *)
Definition a_kind (k : kind) : Prop := (w k = 4%nat \/ w k = 8%nat) /\ (sub k = bs "tv_nsec" \/ sub k = bs "tv_usec").
Definition byte_memory (m : N -> option N) : Prop := forall a b, m a = Some b -> b < 256.
(** the text of a time whose bytes are [b] *)
Definition time_text (k : kind) (b t : list N) : Prop := exists s u,
  t = bs "{tv_sec=" ++ s ++ bs ", " ++ sub k ++ bs "=" ++ u ++ bs "}" /\
  integer s (signed_at b 0 (w k)) /\ number u (number_at b (w k) (w k)).
Lemma tv_sec_eq k b : tv_sec k b = signed_at b 0 (w k).
Proof. unfold tv_sec, sx, signed_at. rewrite InfoThms.ld_number. reflexivity. Qed.
Lemma tv_sub_eq k b : tv_sub k b = number_at b (w k) (w k).
Proof. apply InfoThms.ld_number. Qed.
Lemma print_t_ok k b : time_text k b (print_t k b).
Proof.
  exists (sdec (tv_sec k b)), (udec (tv_sub k b)). split; [reflexivity|]. rewrite tv_sec_eq, tv_sub_eq.
  split; [apply sdec_integer|apply udec_number].
Qed.

(** C95: a time is shown as its seconds, signed, and its nanoseconds or microseconds as they are in memory; if it cannot be read, its address is shown. *)
Theorem C95_time : forall k o m a b, a_kind k -> a <> 0 -> ExtModel.verbose o = true -> ExtModel.failed o = false ->
  bytes_at m a b -> length b = size k ->
  exists t, print_time k o m a = (t, true) /\ time_text k b t.
Proof.
  intros k o m a b K A V F B L. unfold print_time. rewrite <- L, fetched by auto. exists (print_t k b). split; [reflexivity|apply print_t_ok].
Qed.
Print Assumptions C95_time.
Theorem C95_address : forall k o m a, a = 0 \/ ExtModel.verbose o = false \/ ExtModel.failed o = true \/ unreadable m a (size k) ->
  exists t, print_time k o m a = (t, false) /\ address t a.
Proof. intros k o m a H. unfold print_time. rewrite not_fetched by exact H. exists (printaddr a). split; [reflexivity|apply printaddr_ok]. Qed.
Print Assumptions C95_address.
(** C95: the two times of a timer, each from its own bytes. *)
Theorem C95_timer : forall k o m a b b', a_kind k -> a <> 0 -> ExtModel.verbose o = true -> ExtModel.failed o = false ->
  bytes_at m a (b ++ b') -> length b = size k -> length b' = size k ->
  exists t t', print_itimer k o m a = (bs "{it_interval=" ++ t ++ bs ", it_value=" ++ t' ++ bs "}", true) /\ time_text k b t /\ time_text k b' t'.
Proof.
  intros k o m a b b' K A V F B L L'. unfold print_itimer.
  assert (E : (2 * size k)%nat = length (b ++ b')) by (rewrite app_length; lia). rewrite E, fetched by auto.
  exists (print_t k b), (print_t k b'). split; [|split; apply print_t_ok]. rewrite <- L at 1 3. rewrite firstn_app, Nat.sub_diag, firstn_all, firstn_O, app_nil_r.
  rewrite skipn_app, Nat.sub_diag, skipn_all, skipn_O. cbn [app]. rewrite <- L', firstn_all. reflexivity.
Qed.
Print Assumptions C95_timer.

(** C95: the text made for the end of a line (select, poll, nanosleep) is the same text, and it always fits its buffer. *)
Lemma umoven_bytes_lt m n : byte_memory m -> forall a b, ExtModel.umoven m a n = Some b -> Forall (fun x => x < 256) b /\ length b = n.
Proof.
  intros H. induction n as [|n IH]; intros a b E; cbn [ExtModel.umoven] in E.
  - inversion E; subst. split; [constructor|reflexivity].
  - destruct (m (u64 a)) as [x|] eqn:X; [|discriminate]. destruct (ExtModel.umoven m (a + 1) n) as [l|] eqn:Q; [|discriminate].
    inversion E; subst. destruct (IH _ _ Q). split; [constructor; eauto|cbn; lia].
Qed.
Lemma pow4 : (2 ^ (8 * Z.of_nat 4) = 4294967296)%Z. Proof. reflexivity. Qed.
Lemma pow8 : (2 ^ (8 * Z.of_nat 8) = 18446744073709551616)%Z. Proof. reflexivity. Qed.
Lemma hexa_length a : a < 2 ^ 64 -> (length (hexa a) <= 18)%nat.
Proof.
  intros H. unfold hexa. destruct (a =? 0); [vm_compute; lia|]. rewrite app_length. change (length (bs "0x")) with 2%nat.
  pose proof (pr_num_length 16 a 15 ltac:(lia) H). lia.
Qed.
Theorem C95_fits : forall k o m a, a_kind k -> byte_memory m -> a < 2 ^ 64 -> sprint_time k o m a = Ok (fst (print_time k o m a)).
Proof.
  intros k o m a [W U] M A. unfold sprint_time, print_time, ExtModel.umoven_or_printaddr. destruct (N.eqb_spec a 0) as [->|NZ]; [reflexivity|]. cbn [orb].
  assert (FL : (length (fmt k) + 1 + 3 * size k = 28 + 3 * size k)%nat).
  { unfold fmt. rewrite !app_length. destruct U as [-> | ->]; reflexivity. }
  rewrite FL. assert (SZ : (size k = 8 \/ size k = 16)%nat) by (unfold size; lia).
  assert (HX : xsprintf (N.of_nat (28 + 3 * size k)) (hexa a) = Ok (printaddr a)).
  { unfold xsprintf. pose proof (hexa_length a A) as HL. replace (N.of_nat (length (hexa a)) <? N.of_nat (28 + 3 * size k)) with true by lia.
    unfold hexa, printaddr. apply N.eqb_neq in NZ. rewrite NZ. reflexivity. }
  destruct (negb (ExtModel.verbose o) || ExtModel.failed o); [exact HX|].
  destruct (ExtModel.umoven m a (size k)) as [b|] eqn:E; [|exact HX]. destruct (umoven_bytes_lt _ _ M _ _ E) as [BB LB].
  unfold xsprintf. cbn [fst]. fold (print_t k b).
  assert (PL : (length (print_t k b) < 28 + 3 * size k)%nat).
  { unfold print_t. rewrite !app_length. change (length (bs "{tv_sec=")) with 8%nat. change (length (bs ", ")) with 2%nat.
    change (length (bs "=")) with 1%nat. change (length (bs "}")) with 1%nat.
    assert (SL : length (sub k) = 7%nat) by (destruct U as [-> | ->]; reflexivity). rewrite SL, tv_sec_eq, tv_sub_eq.
    destruct W as [W|W]; unfold size; rewrite W.
    - pose proof (InfoThms.number4 b 4 BB) as N4. pose proof (InfoThms.number4 b 0 BB) as N0.
      assert (S4 : (-10000000000 < signed_at b 0 4 < 10000000000)%Z).
      { unfold signed_at. cbv zeta. rewrite pow4. change (4294967296 / 2)%Z with 2147483648%Z. destruct (_ <? _)%Z eqn:Q; lia. }
      pose proof (sdec_length _ 9 S4). pose proof (udec_length (number_at b 4 4) 9) as UL. assert (number_at b 4 4 < 10 ^ N.of_nat 10) by (change (10 ^ N.of_nat 10) with 10000000000; lia). specialize (UL ltac:(assumption)). lia.
    - pose proof (InfoThms.number8 b 8 BB) as N8. pose proof (InfoThms.number8 b 0 BB) as N0.
      assert (S8 : (-100000000000000000000 < signed_at b 0 8 < 100000000000000000000)%Z).
      { unfold signed_at. cbv zeta. rewrite pow8. change (18446744073709551616 / 2)%Z with 9223372036854775808%Z. destruct (_ <? _)%Z eqn:Q; lia. }
      pose proof (sdec_length _ 19 S8). pose proof (udec_length (number_at b 8 8) 19) as UL. assert (number_at b 8 8 < 10 ^ N.of_nat 20) by (change (10 ^ N.of_nat 20) with 100000000000000000000; lia). specialize (UL ltac:(assumption)). lia. }
  replace (N.of_nat (length (print_t k b)) <? N.of_nat (28 + 3 * size k)) with true by lia. reflexivity.
Qed.
Print Assumptions C95_fits.

(** C95: times taken from bytes at hand (control messages, ioctl arguments, socket options): exactly if there are enough bytes, each from its own. *)
Theorem C95_data : forall k b, a_kind k ->
  ((length b < size k)%nat -> print_data_size k b (length b) = (bs "???", false)) /\
  ((size k <= length b)%nat -> exists t, print_data_size k b (length b) = (t, true) /\ time_text k (firstn (size k) b) t).
Proof.
  intros k b K. unfold print_data_size. destruct (Nat.ltb_spec (length b) (size k)); split; intros H'; try lia; [reflexivity|].
  eexists. split; [reflexivity|apply print_t_ok].
Qed.
Print Assumptions C95_data.
(** texts separated by commas *)
Fixpoint commas (l : list (list N)) : list N := match l with [] => [] | [x] => x | x :: r => x ++ bs ", " ++ commas r end.
Definition element (k : kind) (b : list N) (i : nat) : list N := firstn (size k) (skipn (i * size k) b).
Lemma skipn_twice (x : nat) : forall y (l : list N), skipn x (skipn y l) = skipn (y + x) l.
Proof. induction y as [|y IH]; intros l; [reflexivity|]. destruct l; [rewrite !skipn_nil; reflexivity|]. cbn [skipn Nat.add]. apply IH. Qed.
Lemma array_loop_eq k : forall n i b, array_loop k (S i) n b = concat (map (fun j => bs ", " ++ print_t k (element k b j)) (seq 0 n)).
Proof.
  induction n as [|n IH]; intros i b; [reflexivity|]. cbn [array_loop seq map concat]. rewrite IH, <- seq_shift, map_map, <- app_assoc.
  change (element k b 0) with (firstn (size k) b). do 3 f_equal. apply map_ext. intros j. do 2 f_equal. unfold element.
  rewrite skipn_twice. reflexivity.
Qed.
Lemma commas_concat f l (x : nat) : commas (map f (x :: l)) = f x ++ concat (map (fun j => bs ", " ++ f j) l).
Proof.
  revert x; induction l as [|y l IH]; intros x; [cbn [map commas concat]; rewrite app_nil_r; reflexivity|].
  change (commas (map f (x :: y :: l))) with (f x ++ bs ", " ++ commas (map f (y :: l))). rewrite IH. cbn [map concat]. rewrite <- !app_assoc. reflexivity.
Qed.
Theorem C95_array : forall k b n, a_kind k ->
  ((length b < n * size k)%nat -> print_array_data_size k b n (length b) = (bs "???", false)) /\
  ((n * size k <= length b)%nat -> exists t, print_array_data_size k b n (length b) = (bs "[" ++ commas t ++ bs "]", true) /\
     length t = n /\ forall i, (i < n)%nat -> time_text k (firstn (size k) (skipn (i * size k) b)) (nth i t [])).
Proof.
  intros k b n K. unfold print_array_data_size.
  assert (SZ : (0 < size k)%nat) by (destruct K as [[W|W] _]; unfold size; rewrite W; lia).
  destruct (Nat.ltb_spec (length b / size k) n) as [H|H]; split; intros H'.
  - reflexivity.
  - exfalso. rewrite Nat.mul_comm in H'. pose proof (Nat.div_le_lower_bound (length b) (size k) n ltac:(lia) H'). lia.
  - exfalso. pose proof (Nat.mul_div_le (length b) (size k) ltac:(lia)). nia.
  - exists (map (fun i => print_t k (element k b i)) (seq 0 n)). split; [|split].
    + do 3 f_equal. destruct n as [|n]; [reflexivity|]. cbn [array_loop seq]. rewrite commas_concat, array_loop_eq. cbn [app].
      assert (E0 : element k b 0 = firstn (size k) b) by reflexivity. rewrite E0. f_equal. rewrite <- seq_shift, map_map. f_equal. apply map_ext.
      intros j. do 2 f_equal. unfold element. rewrite skipn_twice. reflexivity.
    + rewrite map_length, seq_length. reflexivity.
    + intros i Hi. rewrite (nth_indep _ [] (print_t k (element k b 0))) by (rewrite map_length, seq_length; lia).
      rewrite (map_nth (fun i => print_t k (element k b i))), seq_nth by lia. apply print_t_ok.
Qed.
Print Assumptions C95_array.

(** ---- dates ---- *)
(** What localtime returns, if anything: the date and time of the instant, in some zone. *)
Definition honest (lt : Z -> option tm) : Prop := forall s t, lt s = Some t ->
  1 <= mon t <= 12 /\ 1 <= mday t <= 31 /\ hour t < 24 /\ min t < 60 /\ sec t <= 60 /\
  (-10000000000 < year t < 10000000000)%Z /\ (-360000 < gmtoff t < 360000)%Z /\
  instant (year t) (mon t) (mday t) (hour t) (min t) (sec t) (gmtoff t) = s.

Lemma two_digits n : n < 100 -> exists a b, pr_pad 10 2 n = [a; b] /\ two a b = Some n.
Proof.
  intros H. pose proof (pr_pad_length 10 2 n ltac:(lia) H ltac:(lia)) as L. pose proof (pr_pad_rd 10 2 n ltac:(lia)) as R.
  destruct (pr_pad 10 2 n) as [|a [|b [|c r]]]; try discriminate L. exists a, b. split; [reflexivity|exact R].
Qed.
Lemma pad_number w n : number (pr_pad 10 (S w) n) n.
Proof.
  split; [|apply pr_pad_rd; lia]. unfold pr_pad. intros E. apply app_eq_nil in E. destruct E as [_ E].
  destruct (udec_number n) as [Q _]. apply Q. exact E.
Qed.
Lemma digits_number d n c r : number d n -> (48 <=? c) && (c <=? 57) = false -> digits (d ++ c :: r) = (d, c :: r).
Proof.
  intros H C. apply number_digits in H. induction H as [|x d Hx Hd IH]; [cbn [app digits]; rewrite C; reflexivity|].
  cbn [app digits]. replace ((48 <=? x) && (x <=? 57)) with true by lia. rewrite IH. reflexivity.
Qed.
Lemma yr_cases pad y : (exists d n, yr pad y = d /\ number d n /\ y = Z.of_N n) \/ (exists d n, yr pad y = ch "-" :: d /\ number d n /\ y = (- Z.of_N n)%Z).
Proof.
  unfold yr. destruct pad.
  - destruct (Z.ltb_spec y 0).
    + right. do 2 eexists. split; [reflexivity|]. split; [apply pad_number|]. lia.
    + left. do 2 eexists. split; [reflexivity|]. split; [apply pad_number|]. lia.
  - destruct (sdec_integer y) as [(n & H & E)|(d & n & E & H & _ & E')].
    + left. exists (sdec y), n. auto.
    + right. exists d, n. auto.
Qed.
(** the sign and the digits of the year *)
Lemma rd_year pad y r : exists neg d n,
  (let t := yr pad y ++ bs "-" ++ r in match t with c :: r => if c =? ch "-" then (true, r) else (false, t) | [] => (false, t) end) = (neg, d ++ bs "-" ++ r)
  /\ number d n /\ y = int_of neg n.
Proof.
  cbv zeta. destruct (yr_cases pad y) as [(d & n & -> & H & E)|(d & n & -> & H & E)].
  - exists false, d, n. split; [|auto]. pose proof (number_digits _ _ H) as D. destruct H as [NE _]. destruct d as [|c d]; [congruence|]. cbn [app].
    inversion D as [|? ? [D1 _] _]; subst. replace (c =? ch "-") with false by (change (ch "-") with 45; lia). reflexivity.
  - exists true, d, n. auto.
Qed.
Lemma zone_ok off : (-360000 < off < 360000)%Z -> exists sg a b c d hh mm, zone off = [sg; a; b; c; d] /\ two a b = Some hh /\ two c d = Some mm /\
  (sg = ch "+" /\ (0 <= off)%Z \/ sg = ch "-" /\ (off < 0)%Z) /\ Z.of_N (hh * 3600 + mm * 60) = (60 * (Z.abs off / 60))%Z.
Proof.
  intros H. unfold zone. cbv zeta. set (q := Z.to_N (Z.abs off / 60)).
  assert (Q : q < 6000). { subst q. apply N2Z.inj_lt. rewrite Z2N.id by (apply Z.div_pos; lia). apply Z.div_lt_upper_bound; lia. }
  assert (Q1 : q / 60 < 100) by (apply N.div_lt_upper_bound; lia). assert (Q2 : q mod 60 < 100) by (pose proof (N.mod_lt q 60); lia).
  destruct (two_digits _ Q1) as (a & b & -> & E1). destruct (two_digits _ Q2) as (c & d & -> & E2).
  exists (if (off <? 0)%Z then ch "-" else ch "+"), a, b, c, d, (q / 60), (q mod 60).
  split; [destruct (off <? 0)%Z; reflexivity|]. split; [exact E1|]. split; [exact E2|]. split.
  - destruct (Z.ltb_spec off 0); [right|left]; auto.
  - pose proof (N.div_mod q 60 ltac:(lia)) as D. assert (Z.of_N q = Z.abs off / 60)%Z by (subst q; apply Z2N.id, Z.div_pos; lia). lia.
Qed.
(** the fraction of the second *)
Definition frac (width : nat) (part : N) : list N := if 0 <? part then bs "." ++ pr_pad 10 width part else [].
Lemma rd_fraction_ok width part sg r : (1 <= width)%nat \/ part = 0 -> part < 10 ^ N.of_nat width -> sg = ch "+" \/ sg = ch "-" ->
  rd_fraction width (frac width part ++ sg :: r) = Some (part, sg :: r).
Proof.
  intros W P S. unfold frac. destruct (N.ltb_spec 0 part).
  - destruct width as [|width]; [lia|]. change (bs ".") with [ch "."]. cbn [app rd_fraction]. rewrite N.eqb_refl.
    rewrite (digits_number _ part) by (try apply pad_number; destruct S as [-> | ->]; reflexivity).
    rewrite pr_pad_length by (try exact P; lia). rewrite Nat.eqb_refl, pr_pad_rd by lia. reflexivity.
  - cbn [app rd_fraction]. replace part with 0 by lia. destruct S as [-> | ->]; reflexivity.
Qed.
Lemma ft_length pad t : (-10000000000 < year t < 10000000000)%Z -> mon t < 100 -> mday t < 100 -> hour t < 100 -> min t < 100 -> sec t < 100 ->
  (length (ft pad t) <= 27)%nat.
Proof.
  intros Y A B C D E. unfold ft. rewrite !app_length, !pr_pad_length by (try assumption; lia).
  change (length (bs "-")) with 1%nat. change (length (bs "T")) with 1%nat. change (length (bs ":")) with 1%nat.
  assert (L : (length (yr pad (year t)) <= 12)%nat); [|lia]. unfold yr. destruct pad.
  - unfold pr_pad. assert (P : forall x, x < 10000000000 -> (length (pr_num 10 x) <= 10)%nat) by (intros x Hx; apply (pr_num_length 10 x 9); [lia|exact Hx]).
    destruct (Z.ltb_spec (year t) 0); rewrite ?app_length, repeat_length; try change (length (bs "-")) with 1%nat.
    + specialize (P (Z.to_N (- year t)) ltac:(lia)). lia.
    + specialize (P (Z.to_N (year t)) ltac:(lia)). lia.
  - pose proof (sdec_length (year t) 9 Y). lia.
Qed.
Lemma sprinttime_eq lt pad s part max width t : honest lt -> lt s = Some t -> (s <> 0%Z \/ part <> 0) -> part <= max -> max < 10 ^ N.of_nat width -> (width <= 20)%nat -> (1 <= width)%nat \/ part = 0 ->
  sprinttime_ex lt pad s part max width = Ok (Some (ft pad t ++ frac width part ++ zone (gmtoff t))).
Proof.
  intros Ho E NZ P M W W1. unfold sprinttime_ex. cbv zeta.
  replace ((s =? 0)%Z && (part =? 0) || (max <? part)) with false by lia. rewrite E.
  destruct (Ho s t E) as (H1 & H2 & H3 & H4 & H5 & H6 & H7 & _).
  pose proof (ft_length pad t H6 ltac:(lia) ltac:(lia) ltac:(lia) ltac:(lia) ltac:(lia)) as L. unfold strftime at 1.
  replace (N.of_nat (length (ft pad t)) <? 4 * 3 * 6 + 8 * 3 + 6) with true by lia.
  destruct (zone_ok _ H7) as (sg & a & b & c & d & hh & mm & Z & _).
  assert (X : (if 0 <? part then xsprintf (4 * 3 * 6 + 8 * 3 + 6 - N.of_nat (length (ft pad t))) (bs "." ++ pr_pad 10 width part) else Ok []) = Ok (frac width part)
              /\ (length (frac width part) <= 21)%nat).
  { unfold frac. destruct (N.ltb_spec 0 part); [|split; [reflexivity|cbn; lia]].
    assert (LL : length (bs "." ++ pr_pad 10 width part) = S width).
    { rewrite app_length, pr_pad_length by (try lia; eapply N.le_lt_trans; eauto). reflexivity. }
    rewrite LL. split; [|lia]. unfold xsprintf. rewrite LL. replace (_ <? _) with true by lia. reflexivity. }
  destruct X as [-> X]. cbn [rbind]. unfold strftime. rewrite Z at 1. cbn [length].
  replace (_ <? _) with true by lia. reflexivity.
Qed.
(** C95: the date shown of a time reads back as that time, in any zone whose offset is a whole number of minutes.
    Partial: other offsets (see C95_zone_refuted). *)
Theorem C95_date_partial : forall lt pad s part max width t, honest lt -> lt s = Some t ->
  s <> 0%Z \/ part <> 0 -> part <= max -> max < 10 ^ N.of_nat width -> (width <= 20)%nat -> (1 <= width)%nat \/ part = 0 -> (60 | gmtoff t)%Z ->
  exists text, sprinttime_ex lt pad s part max width = Ok (Some text) /\ rd_date width text = Some (s, part).
Proof.
  intros lt pad s part max width t Ho E NZ P M W W1 D. eexists. split; [exact (sprinttime_eq lt pad s part max width t Ho E NZ P M W W1)|].
  destruct (Ho s t E) as (H1 & H2 & H3 & H4 & H5 & H6 & H7 & H8). unfold ft.
  destruct (two_digits (mon t) ltac:(lia)) as (mo1 & mo2 & -> & R1). destruct (two_digits (mday t) ltac:(lia)) as (d1 & d2 & -> & R2).
  destruct (two_digits (hour t) ltac:(lia)) as (h1 & h2 & -> & R3). destruct (two_digits (min t) ltac:(lia)) as (mi1 & mi2 & -> & R4).
  destruct (two_digits (sec t) ltac:(lia)) as (s1 & s2 & -> & R5).
  destruct (zone_ok _ H7) as (sg & a & b & c & d & hh & mm & -> & Z1 & Z2 & Z3 & Z4).
  rewrite <- !app_assoc. destruct (rd_year pad (year t) ([mo1; mo2] ++ bs "-" ++ [d1; d2] ++ bs "T" ++ [h1; h2] ++ bs ":" ++ [mi1; mi2] ++ bs ":" ++ [s1; s2] ++ frac width part ++ [sg; a; b; c; d]))
    as (neg & y & n & Y1 & Y2 & Y3).
  unfold rd_date. cbv zeta in Y1. rewrite Y1. change (bs "-") with [ch "-"]. change (bs "T") with [ch "T"]. change (bs ":") with [ch ":"]. cbn [app]. cbv beta iota. rewrite (digits_number y n) by (auto; reflexivity).
  cbv beta iota. destruct Y2 as [Y2 Y2']. destruct y as [|y0 y]; [congruence|]. rewrite Y2'. cbn [obind].
  rewrite !N.eqb_refl. cbn [andb]. cbv iota.
  rewrite R1. cbn [obind]. rewrite R2. cbn [obind]. rewrite R3. cbn [obind]. rewrite R4. cbn [obind]. rewrite R5. cbn [obind]. rewrite rd_fraction_ok; [|exact W1|eapply N.le_lt_trans; eauto|destruct Z3 as [[-> _]|[-> _]]; auto].
  cbn [obind snd fst]. rewrite Z1, Z2. cbn [obind]. rewrite Z4, <- Y3.
  assert (A : (60 * (Z.abs (gmtoff t) / 60) = Z.abs (gmtoff t))%Z). { symmetry. apply Z.div_exact; [lia|]. apply Z.mod_divide; [lia|]. apply Z.divide_abs_r, D. }
  rewrite A. destruct Z3 as [[-> Z3]|[-> Z3]].
  - rewrite N.eqb_refl. rewrite (Z.abs_eq _ Z3), H8. reflexivity.
  - change (ch "-" =? ch "+") with false. rewrite N.eqb_refl. cbv iota. rewrite Z.abs_neq, Z.opp_involutive, H8 by lia. reflexivity.
Qed.
Print Assumptions C95_date_partial.
Lemma sprint_ok lt pad s part max width : honest lt -> max < 10 ^ N.of_nat width -> (width <= 20)%nat -> (1 <= width)%nat \/ max = 0 ->
  exists c, sprinttime_ex lt pad s part max width = Ok c.
Proof.
  intros Ho M W W1. destruct (((s =? 0)%Z && (part =? 0)) || (max <? part)) eqn:Q.
  - exists None. unfold sprinttime_ex. cbv zeta. rewrite Q. reflexivity.
  - destruct (lt s) as [t|] eqn:E.
    + eexists. apply (sprinttime_eq lt pad s part max width t Ho E); [clear -Q; lia|clear -Q; lia|exact M|exact W|clear -Q W1; lia].
    + exists None. unfold sprinttime_ex. cbv zeta. rewrite Q, E. reflexivity.
Qed.
(** C95: no date is shown exactly of the time 0, of a fraction that is not less than a second, and of times localtime rejects. *)
Theorem C95_no_date : forall lt pad s part max width, honest lt -> max < 10 ^ N.of_nat width -> (width <= 20)%nat -> (1 <= width)%nat \/ max = 0 ->
  (sprinttime_ex lt pad s part max width = Ok None <-> (s = 0%Z /\ part = 0) \/ max < part \/ lt s = None).
Proof.
  intros lt pad s part max width Ho M W W1. split.
  - intros H. destruct (((s =? 0)%Z && (part =? 0)) || (max <? part)) eqn:Q; [lia|]. right. right.
    destruct (lt s) as [t|] eqn:E; [|reflexivity]. exfalso.
    rewrite (sprinttime_eq lt pad s part max width t Ho E) in H; [discriminate|clear -Q; lia|clear -Q; lia|exact M|exact W|clear -Q W1; lia].
  - unfold sprinttime_ex. cbv zeta. intros H. destruct (_ || _) eqn:Q; [reflexivity|]. destruct H as [H|[H|H]]; [lia|lia|]. rewrite H. reflexivity.
Qed.
Print Assumptions C95_no_date.

(** a zone whose offset has seconds: Amsterdam before 1937 was 19 minutes and 32 seconds ahead *)
Definition amsterdam (s : Z) : option tm :=
  if (s =? -1500000000)%Z then Some {| year := 1922; mon := 6; mday := 20; hour := 21; min := 39; sec := 32; gmtoff := 1172 |} else None.
Definition berlin (s : Z) : option tm :=
  if (s =? 1700000000)%Z then Some {| year := 2023; mon := 11; mday := 14; hour := 23; min := 13; sec := 20; gmtoff := 3600 |} else None.
Lemma one_honest s0 t0 : (1 <=? mon t0) && (mon t0 <=? 12) && (1 <=? mday t0) && (mday t0 <=? 31) && (hour t0 <? 24) && (min t0 <? 60) && (sec t0 <=? 60)
  && (-10000000000 <? year t0)%Z && (year t0 <? 10000000000)%Z && (-360000 <? gmtoff t0)%Z && (gmtoff t0 <? 360000)%Z
  && (instant (year t0) (mon t0) (mday t0) (hour t0) (min t0) (sec t0) (gmtoff t0) =? s0)%Z = true ->
  honest (fun s => if (s =? s0)%Z then Some t0 else None).
Proof.
  intros H s t E. destruct (Z.eqb_spec s s0) as [->|]; [|discriminate]. inversion E; subst.
  repeat (apply andb_true_iff in H; destruct H as [H ?]). repeat split; lia.
Qed.
(** C95: with such a zone the date shown is another instant: the seconds of the offset are not shown. *)
Theorem C95_zone_refuted : ~ (forall lt pad s t, honest lt -> lt s = Some t -> s <> 0%Z ->
  exists text, sprinttime lt pad s = Ok (Some text) /\ rd_date 0 text = Some (s, 0)).
Proof.
  intros H. destruct (H amsterdam false (-1500000000)%Z _ (one_honest (-1500000000) {| year := 1922; mon := 6; mday := 20; hour := 21; min := 39; sec := 32; gmtoff := 1172 |} eq_refl) eq_refl ltac:(lia)) as (text & E & R).
  assert (E' : sprinttime amsterdam false (-1500000000) = Ok (Some (bs "1922-06-20T21:39:32+0019"))) by (vm_compute; reflexivity).
  rewrite E' in E. inversion E as [E2]. rewrite <- E2 in R. vm_compute in R. discriminate.
Qed.
Print Assumptions C95_zone_refuted.
Example C95_date_ex : honest berlin /\ sprinttime_nsec berlin true 1700000000 5000 = Ok (Some (bs "2023-11-14T23:13:20.000005000+0100")).
Proof. split; [exact (one_honest 1700000000 {| year := 2023; mon := 11; mday := 14; hour := 23; min := 13; sec := 20; gmtoff := 3600 |} eq_refl)|vm_compute; reflexivity]. Qed.

(** ---- the times of utimensat and utimes ---- *)
(** C95: UTIME_NOW and UTIME_OMIT are named exactly for the values the kernel treats so; with -X raw the numbers are shown, with -X verbose both. *)
Theorem C95_special : forall lt pad st k b, a_kind k -> honest lt ->
  let v := number_at b (w k) (w k) in
  v = 1073741823 \/ v = 1073741822 ->
  exists t, time_text k b t /\
  let name := if v =? 1073741823 then bs "UTIME_NOW" else bs "UTIME_OMIT" in
  print_timespec_t_utime lt pad st k b = Ok (match st with Raw => t | Abbrev => name | Verbose => t ++ bs " /* " ++ name ++ bs " */" end).
Proof.
  intros lt pad st k b K Ho v V. exists (print_t k b). split; [apply print_t_ok|]. cbv zeta. unfold print_timespec_t_utime. cbv zeta. rewrite tv_sub_eq. fold v.
  change UTIME_NOW with 1073741823. change UTIME_OMIT with 1073741822.
  destruct V as [-> | ->]; [change (1073741823 =? 1073741823) with true|change (1073741822 =? 1073741823) with false; change (1073741822 =? 1073741822) with true];
    cbn [orb]; cbv iota; destruct st; rewrite ?app_nil_r; reflexivity.
Qed.
Print Assumptions C95_special.
(** C95: every other time is shown as it is, followed by its date if it has one. *)
Theorem C95_utimens : forall lt pad st k b, a_kind k -> honest lt -> let v := number_at b (w k) (w k) in let s := signed_at b 0 (w k) in
  v <> 1073741823 -> v <> 1073741822 ->
  exists t c, time_text k b t /\ print_timespec_t_utime lt pad st k b = Ok (t ++ c) /\
    ((s = 0%Z /\ v = 0) \/ 999999999 < v \/ lt s = None -> c = []) /\
    (forall x, lt s = Some x -> (60 | gmtoff x)%Z -> v <= 999999999 -> s <> 0%Z \/ v <> 0 -> exists d, c = bs " /* " ++ d ++ bs " */" /\ rd_date 9 d = Some (s, v)).
Proof.
  intros lt pad st k b K Ho v s A B. unfold print_timespec_t_utime. cbv zeta. rewrite tv_sub_eq, tv_sec_eq. fold v. fold s.
  change UTIME_NOW with 1073741823. change UTIME_OMIT with 1073741822. replace ((v =? 1073741823) || (v =? 1073741822)) with false by lia.
  assert (M : 999999999 < 10 ^ N.of_nat 9) by (vm_compute; reflexivity).
  exists (print_t k b). unfold sprinttime_nsec. destruct (sprinttime_ex lt pad s v 999999999 9) as [[d|]| |] eqn:E.
  - exists (comment (Some d)). split; [apply print_t_ok|]. split; [reflexivity|]. split.
    + intros H. apply (C95_no_date lt pad s v 999999999 9 Ho M ltac:(lia) ltac:(lia)) in H. congruence.
    + intros x L D P NZ. destruct (C95_date_partial lt pad s v 999999999 9 x Ho L NZ P M ltac:(lia) ltac:(lia) D) as (tx & E' & R). rewrite E in E'. inversion E'; subst.
      exists tx. split; [|exact R]. destruct tx; [vm_compute in R; discriminate|reflexivity].
  - exists []. split; [apply print_t_ok|]. split; [reflexivity|]. split; [auto|]. intros x L D P NZ.
    destruct (C95_date_partial lt pad s v 999999999 9 x Ho L NZ P M ltac:(lia) ltac:(lia) D) as (tx & E' & R). congruence.
  - exfalso. destruct (sprint_ok lt pad s v 999999999 9 Ho M ltac:(lia) ltac:(lia)) as [c E']. congruence.
  - exfalso. destruct (sprint_ok lt pad s v 999999999 9 Ho M ltac:(lia) ltac:(lia)) as [c E']. congruence.
Qed.
Print Assumptions C95_utimens.
(** C95: the same of utimes, whose times have microseconds. *)
Theorem C95_utimes : forall lt pad k b, a_kind k -> honest lt -> let v := number_at b (w k) (w k) in let s := signed_at b 0 (w k) in
  exists t c, time_text k b t /\ print_timeval_t_utime lt pad k b = Ok (t ++ c) /\
    ((s = 0%Z /\ v = 0) \/ 999999 < v \/ lt s = None -> c = []) /\
    (forall x, lt s = Some x -> (60 | gmtoff x)%Z -> v <= 999999 -> s <> 0%Z \/ v <> 0 -> exists d, c = bs " /* " ++ d ++ bs " */" /\ rd_date 6 d = Some (s, v)).
Proof.
  intros lt pad k b K Ho v s. unfold print_timeval_t_utime. rewrite tv_sub_eq, tv_sec_eq. fold v. fold s.
  assert (M : 999999 < 10 ^ N.of_nat 6) by (vm_compute; reflexivity).
  exists (print_t k b). unfold sprinttime_usec. destruct (sprinttime_ex lt pad s v 999999 6) as [[d|]| |] eqn:E.
  - exists (comment (Some d)). split; [apply print_t_ok|]. split; [reflexivity|]. split.
    + intros H. apply (C95_no_date lt pad s v 999999 6 Ho M ltac:(lia) ltac:(lia)) in H. congruence.
    + intros x L D P NZ. destruct (C95_date_partial lt pad s v 999999 6 x Ho L NZ P M ltac:(lia) ltac:(lia) D) as (tx & E' & R). rewrite E in E'. inversion E'; subst.
      exists tx. split; [|exact R]. destruct tx; [vm_compute in R; discriminate|reflexivity].
  - exists []. split; [apply print_t_ok|]. split; [reflexivity|]. split; [auto|]. intros x L D P NZ.
    destruct (C95_date_partial lt pad s v 999999 6 x Ho L NZ P M ltac:(lia) ltac:(lia) D) as (tx & E' & R). congruence.
  - exfalso. destruct (sprint_ok lt pad s v 999999 6 Ho M ltac:(lia) ltac:(lia)) as [c E']. congruence.
  - exfalso. destruct (sprint_ok lt pad s v 999999 6 Ho M ltac:(lia) ltac:(lia)) as [c E']. congruence.
Qed.
Print Assumptions C95_utimes.
(** C95: the two times, each from its own bytes, in order: both unless abbreviating to fewer than two elements (-s 0, -s 1; see C49). *)
Theorem C95_pair : forall item k most o m a b b' x y, a_kind k -> a <> 0 -> ExtModel.verbose o = true -> ExtModel.failed o = false ->
  bytes_at m a (b ++ b') -> length b = size k -> length b' = size k -> item b = Ok x -> item b' = Ok y ->
  print_utime_pair item k most o m a = Ok (
    (match most with
     | Some n => if n <? 2 then (if n =? 0 then bs "[...]" else bs "[" ++ x ++ bs ", ...]") else bs "[" ++ x ++ bs ", " ++ y ++ bs "]"
     | None => bs "[" ++ x ++ bs ", " ++ y ++ bs "]"
     end), true).
Proof.
  intros item k most o m a b b' x y K A V F B L L' X Y. unfold print_utime_pair.
  assert (E : (2 * size k)%nat = length (b ++ b')) by (rewrite app_length; lia). rewrite E, fetched by auto.
  rewrite <- L at 1 3. rewrite firstn_app, Nat.sub_diag, firstn_all, firstn_O, app_nil_r, skipn_app, Nat.sub_diag, skipn_all, skipn_O. cbn [app].
  rewrite <- L', firstn_all, X, Y. unfold pair_array. destruct most as [n|]; [|reflexivity].
  destruct n as [|[p|p|]]; try reflexivity; replace (_ <? 2) with false by lia; reflexivity.
Qed.
Print Assumptions C95_pair.
Definition ts64 : kind := {| w := 8; sub := bs "tv_nsec" |}.
Definition ts_mem : list N := [0; 241; 83; 101; 0; 0; 0; 0; 136; 19; 0; 0; 0; 0; 0; 0; 7; 0; 0; 0; 0; 0; 0; 0; 255; 255; 255; 63; 0; 0; 0; 0].
Definition ts_m : ExtModel.memory := fun a => if (4096 <=? a) && (a <? 4128) then Some (nth (N.to_nat (a - 4096)) ts_mem 0) else None.
Example C95_ex : print_utime_pair (print_timespec_t_utime berlin true Abbrev ts64) ts64 (Some 32) rl_o ts_m 4096 =
  Ok (bs "[{tv_sec=1700000000, tv_nsec=5000} /* 2023-11-14T23:13:20.000005000+0100 */, UTIME_NOW]", true) /\
  sprint_time ts64 rl_o ts_m 4112 = Ok (bs "{tv_sec=7, tv_nsec=1073741823}") /\ a_kind ts64 /\ byte_memory ts_m.
Proof.
  split; [vm_compute; reflexivity|]. split; [vm_compute; reflexivity|]. split; [split; [right; reflexivity|left; reflexivity]|].
  intros a b. unfold ts_m. destruct (_ && _); [|discriminate]. intros E. assert (E' : b = nth (N.to_nat (a - 4096)) ts_mem 0) by congruence. rewrite E'. clear E E'.
  assert (Q : Forall (fun x => x < 256) ts_mem) by (unfold ts_mem; repeat constructor; reflexivity).
  destruct (Nat.lt_ge_cases (N.to_nat (a - 4096)) (length ts_mem)) as [Y|Y]; [exact (proj1 (Forall_forall _ _) Q _ (nth_In _ 0 Y))|rewrite (nth_overflow _ 0 Y); reflexivity].
Qed.
