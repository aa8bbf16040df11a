(** Reading and writing the memory of a tracee (C32-C35). *)
From Verif Require Import Base UcopyModel UcopySpec UcopyProofs.
Local Open Scope N_scope.

Lemma prefix_holds m n : forall a, readable m a (N.of_nat n) -> length (prefix m a n) = n /\ holds m a (prefix m a n).
Proof.
  intros a R. assert (L : length (prefix m a n) = n) by (apply prefix_full; intros i LI; apply R; lia). split; [exact L|]. intros i LI. rewrite L in LI. clear L. revert a i R LI. induction n as [|n IH]; intros a i R LI; [lia|]. cbn [prefix].
  destruct (m a) as [b|] eqn:E; [|exfalso; apply (R 0); [lia|rewrite N.add_0_r; exact E]]. destruct (N.eq_dec i 0) as [->|NZ]; [rewrite N.add_0_r, E; reflexivity|]. replace (N.to_nat i) with (S (N.to_nat (i - 1))) by lia. cbn [nth].
  replace (a + i) with (a + 1 + (i - 1)) by lia. apply IH; [|lia]. intros j LJ. replace (a + 1 + j) with (a + (1 + j)) by lia. apply R. lia.
Qed.
Lemma after_history M os m0 s m : sane M m0 -> Forall (uop_ok M) os -> urun M (uc0, m0) os = Ok (s, m) -> poked false os = false -> sane M m /\ cache_ok M m s.
Proof. intros SN F E PK. eapply urun_cache; [exact F| |exact E|exact PK]. intros _. split; [exact SN|]. cbn. exact Logic.I. Qed.

(** ** C32: reads *)
(** Whatever was read before and whatever of it is in the cache, a read gives what is in the memory
    now; if the calls themselves do not fail, it fails only if not all of it can be read.
    Partial: strace itself must not have written to the cached page in between (see the refuted theorems). *)
Theorem C32_read_partial : forall M m0 os s m ve pe a len,
  sane M m0 -> Forall (uop_ok M) os -> urun M (uc0, m0) os = Ok (s, m) -> poked false os = false -> a < 2 ^ 64 -> a + len <= 2 ^ 64 -> len < 2 ^ 31 ->
  exists s' r, umoven M false s m ve pe a len = Ok (s', r) /\
  match r with
  | Some l => N.of_nat (length l) = len /\ holds m a l
  | None => no_error ve -> no_error pe -> ~ readable m a len
  end.
Proof.
  intros M m0 os s m ve pe a len SN F E PK LA LT LL. destruct (after_history _ _ _ _ _ SN F E PK) as [SN' K]. destruct (umoven_ok M m ve pe s a len SN' K LT LA LL) as (s' & r & E' & _ & R). exists s', r. split; [exact E'|]. destruct r as [l|]; [|exact R].
  destruct R as [-> R]. destruct (prefix_holds m (N.to_nat len) a) as [L H]; [rewrite N2Nat.id; exact R|]. rewrite L. split; [lia|exact H].
Qed.
Print Assumptions C32_read_partial.
(** such a history is always defined: no byte that was never written to a buffer is copied *)
Theorem C32_defined : forall M m0 os, sane M m0 -> Forall (uop_ok M) os -> (forall a l, ~ In (UPoke a l) os) -> exists s m, urun M (uc0, m0) os = Ok (s, m).
Proof.
  intros M m0 os SN F NP. assert (K : cache_ok M m0 uc0) by exact Logic.I. revert SN K. generalize uc0. revert m0. induction os as [|o os IH]; intros m0 s0 SN K; [cbn; eauto|]. inversion F as [|x y OK F']; subst x y. specialize (IH F' (fun a l H => NP a l (or_intror H))). cbn [urun]. destruct o as [ve pe a len|ve pe a len|a l|m2]; cbn [ustep uop_ok] in *.
  - destruct OK as (O1 & O2 & O3). destruct (umoven_ok M m0 ve pe s0 a len SN K O2 O1 O3) as (s3 & r3 & E3 & C3 & _). rewrite E3. cbn [rbind]. eauto.
  - destruct OK as (O1 & O2 & O3). destruct (umovestr_cache M m0 ve pe s0 a len SN K O2 O1 O3) as (s3 & r3 & E3 & C3). rewrite E3. cbn [rbind]. eauto.
  - destruct (NP a l). left. reflexivity.
  - apply IH; [exact OK|exact Logic.I].
Qed.
Print Assumptions C32_defined.
(** the address of a 32-bit tracee that has more than 32 bits is not read *)
Theorem C32_short : forall M s m ve pe a len, 2 ^ 32 <= a < 2 ^ 64 -> umoven M true s m ve pe a len = Ok (s, None) /\ umovestr M true s m ve pe a len = Ok (s, ((-1)%Z, [])).
Proof.
  intros M s m ve pe a len L. assert (X : tracee_addr_is_invalid true a = true).
  { unfold tracee_addr_is_invalid. cbn [andb]. apply negb_true_iff, N.eqb_neq. intros Z. apply N.ldiff_le in Z. change (4294967295) with (2 ^ 32 - 1) in Z. lia. }
  unfold umoven, umovestr. rewrite X. auto.
Qed.
Print Assumptions C32_short.

(** two pages of 16 bytes, at 16 and at 32, words of 4 bytes; a byte is its address but for NULs *)
Definition M16 : mach := {| pg := 4; wb := 2 |}.
Definition m16 (nul : N -> bool) : mem := fun a => if (16 <=? a) && (a <? 48) then Some (if nul a then 0 else a) else None.
Lemma m16_sane nul : sane M16 (m16 nul).
Proof.
  constructor; [vm_compute; discriminate|vm_compute; reflexivity| |]; unfold m16, page_size; cbn [pg M16]; change (2 ^ 4) with 16.
  - intros a L. destruct (N.leb_spec 16 a), (N.ltb_spec a 48); cbn; try reflexivity. lia.
  - intros a b E. destruct (N.leb_spec 16 a), (N.ltb_spec a 48); cbn [andb]; try discriminate; intros _; destruct (N.leb_spec 16 b), (N.ltb_spec b 48); cbn [andb]; try reflexivity; exfalso; pose proof (N.div_mod a 16 ltac:(lia)); pose proof (N.mod_lt a 16 ltac:(lia)); pose proof (N.div_mod b 16 ltac:(lia)); pose proof (N.mod_lt b 16 ltac:(lia)); lia.
Qed.
Definition fine : N -> option N := fun _ => None.
Definition hist : list uop := [URead fine fine 20 20; UNext (m16 (fun a => a =? 37)); UStr fine fine 18 25; URead fine fine 40 4].
Example C32_read_example : sane M16 (m16 (fun _ => false)) /\ Forall (uop_ok M16) hist /\ poked false hist = false /\ (forall a l, ~ In (UPoke a l) hist) /\
  match urun M16 (uc0, m16 (fun _ => false)) hist with
  | Ok (s, m) => (match cidx s with Some c => Nat.eqb c 1 | None => false end, match umoven M16 false s m fine fine 30 10 with Ok (_, r) => r | _ => None end, match umoven M16 false s m fine fine 40 10 with Ok (_, r) => r | _ => Some [] end)
  | _ => (false, None, Some [])
  end = (true, Some [30; 31; 32; 33; 34; 35; 36; 0; 38; 39], None).
Proof.
  split; [apply m16_sane|]. split; [repeat constructor; try (vm_compute; (reflexivity || discriminate)); try apply m16_sane|]. split; [reflexivity|]. split; [|vm_compute; reflexivity].
  intros a l H. cbn in H. repeat (destruct H as [H|H]; [discriminate|]). exact H.
Qed.

(** The full claim is false in one way: what strace itself pokes into the tracee leaves the cache as it
    was, and until the next event a read gives what was there before. *)
Theorem C32_poked_refuted : exists M m0 os s m l s' l', sane M m0 /\ Forall (uop_ok M) os /\ urun M (uc0, m0) os = Ok (s, m) /\
  umoven M false s m fine fine 32 4 = Ok (s', Some l) /\ N.of_nat (length l') = 4 /\ holds m 32 l' /\ l <> l'.
Proof.
  set (os := [URead fine fine 32 4; UPoke 33 [65; 66]]). set (m0 := m16 (fun _ => false)).
  assert (X : match urun M16 (uc0, m0) os with Ok (s, m) => match umoven M16 false s m fine fine 32 4 with Ok (_, Some l) => (l, prefix m 32 4) | _ => ([], []) end | _ => ([], []) end = ([32; 33; 34; 35], [32; 65; 66; 35])) by (vm_compute; reflexivity).
  destruct (urun M16 (uc0, m0) os) as [[s m]| |] eqn:E; try discriminate. destruct (umoven M16 false s m fine fine 32 4) as [[s' [l|]]| |] eqn:E2; try discriminate. pose proof (f_equal fst X) as X1. pose proof (f_equal snd X) as X2. cbv beta iota delta [fst snd] in X1, X2. clear X. subst l.
  exists M16, m0, os, s, m, [32; 33; 34; 35], s', [32; 65; 66; 35]. split; [apply m16_sane|]. split; [repeat constructor; vm_compute; (reflexivity || discriminate)|]. split; [exact E|]. split; [exact E2|]. split; [reflexivity|]. split; [|discriminate].
  rewrite <- X2. apply (prefix_holds m 4 32). intros i L.
  assert (Y : length (prefix m 32 4) = 4%nat) by (rewrite X2; reflexivity). pose proof (prefix_readable m 32 4 Y) as Z. apply Z. exact L.
Qed.
Print Assumptions C32_poked_refuted.

(** ** C33: strings, read with process_vm_readv *)
(** what was copied is what is there, and not more than [len] bytes of it; the value says where the
    first NUL is, if it is among them, or that there is none in [len] bytes *)
Theorem C33_sound : forall M m0 os s m ve pe a len,
  sane M m0 -> Forall (uop_ok M) os -> urun M (uc0, m0) os = Ok (s, m) -> poked false os = false -> nosup s = false -> no_fallback ve -> a < 2 ^ 64 -> a + len <= 2 ^ 64 -> len < 2 ^ 31 ->
  exists s' r l, umovestr M false s m ve pe a len = Ok (s', (r, l)) /\ N.of_nat (length l) <= len /\ holds m a l /\
  ((r < 0)%Z \/
   (r = 0%Z /\ N.of_nat (length l) = len /\ no_nul m a len) \/
   (exists k, k < N.of_nat (length l) /\ nul_at m a k /\ r = Z.of_N (k + 1))).
Proof.
  intros M m0 os s m ve pe a len SN F E PK NS NF LA LT LL. destruct (after_history _ _ _ _ _ SN F E PK) as [SN' K]. destruct (umovestr_ok M m ve pe (N.to_nat len) SN' s a len [] K LT LA LL ltac:(lia)) as (s' & r & l & E' & _ & n & LN & -> & RD & C).
  exists s', r, (prefix m a (N.to_nat n)). destruct (prefix_holds m (N.to_nat n) a) as [L H]; [rewrite N2Nat.id; exact RD|]. split; [unfold umovestr; cbn [tracee_addr_is_invalid andb]; rewrite NS; exact E'|]. rewrite L, N2Nat.id. split; [exact LN|]. split; [exact H|].
  destruct (C NF) as [[-> _]|[(-> & -> & NN)|(k & NK & LK & ->)]]; [left; reflexivity|right; left; auto|right; right; exists k; split; [exact LK|]; split; [exact NK|cbn; lia]].
Qed.
Print Assumptions C33_sound.
(** and nothing else can happen if the calls do not fail: the three cases of the contract *)
Theorem C33_complete : forall M m0 os s m ve pe a len,
  sane M m0 -> Forall (uop_ok M) os -> urun M (uc0, m0) os = Ok (s, m) -> poked false os = false -> nosup s = false -> no_error ve -> a < 2 ^ 64 -> a + len <= 2 ^ 64 -> len < 2 ^ 31 ->
  exists s' r l, umovestr M false s m ve pe a len = Ok (s', (r, l)) /\
  (forall k, k < len -> nul_at m a k -> r = Z.of_N (k + 1) /\ k < N.of_nat (length l)) /\
  (readable m a len -> no_nul m a len -> r = 0%Z /\ N.of_nat (length l) = len) /\
  (forall i, i < len -> readable m a i -> no_nul m a i -> m (a + i) = None -> (r < 0)%Z).
Proof.
  intros M m0 os s m ve pe a len SN F E PK NS NE LA LT LL. destruct (after_history _ _ _ _ _ SN F E PK) as [SN' K]. destruct (umovestr_ok M m ve pe (N.to_nat len) SN' s a len [] K LT LA LL ltac:(lia)) as (s' & r & l & E' & _ & n & LN & -> & RD & C).
  exists s', r, (prefix m a (N.to_nat n)). destruct (prefix_holds m (N.to_nat n) a) as [L H]; [rewrite N2Nat.id; exact RD|]. split; [unfold umovestr; cbn [tracee_addr_is_invalid andb]; rewrite NS; exact E'|]. rewrite L, N2Nat.id.
  specialize (C (no_error_fallback _ NE)). split; [|split].
  - intros k LK [NK NB]. destruct C as [[-> FA]|[(-> & -> & NN)|(k2 & [N2 B2] & LK2 & ->)]].
    + destruct (FA NE) as (i & LI & MI & NI & RI). exfalso. destruct (N.lt_trichotomy i k) as [X|[X|X]]; [exact (proj1 (NB i X) MI)|subst; congruence|apply (NI k X); exact NK].
    + exfalso. apply (NN k LK). exact NK.
    + assert (k2 = k) as ->. { destruct (N.lt_trichotomy k2 k) as [X|[X|X]]; [|exact X|]; exfalso; [exact (proj2 (NB k2 X) N2)|exact (proj2 (B2 k X) NK)]. } split; [cbn; lia|exact LK2].
  - intros RA NN. destruct C as [[-> FA]|[(-> & -> & _)|(k2 & [N2 B2] & LK2 & ->)]]; [|split; reflexivity|].
    + destruct (FA NE) as (i & LI & MI & _). exfalso. apply (RA i LI). exact MI.
    + exfalso. apply (NN k2); [lia|exact N2].
  - intros i LI RI NI MI. destruct C as [[-> _]|[(-> & -> & _)|(k2 & [N2 B2] & LK2 & ->)]]; [reflexivity| |].
    + exfalso. apply (RD i LI). exact MI.
    + exfalso. destruct (N.lt_trichotomy i k2) as [X|[X|X]]; [exact (proj1 (B2 i X) MI)|subst; congruence|apply (NI k2 X); exact N2].
Qed.
Print Assumptions C33_complete.
(** the three cases, after a history *)
Example C33_example : match urun M16 (uc0, m16 (fun _ => false)) hist with
  | Ok (s, m) => negb (nosup s) && (match umovestr M16 false s m fine fine 29 15, umovestr M16 false s m fine fine 22 9, umovestr M16 false s m fine fine 38 30 with
     | Ok (_, (r1, l1)), Ok (_, (r2, l2)), Ok (_, (r3, l3)) => (r1 =? 9)%Z && (r2 =? 0)%Z && (r3 =? -1)%Z && Nat.eqb (length l1) 15 && Nat.eqb (length l2) 9 && Nat.eqb (length l3) 10 | _, _, _ => false end)
  | _ => false
  end = true.
Proof. vm_compute. reflexivity. Qed.

(** ** C34: reads with PTRACE_PEEKDATA *)
(** of data: exactly the bytes, or failure *)
Theorem C34_umoven : forall M m pe a len, sane M m -> a + len <= 2 ^ 64 ->
  exists r, umoven_peekdata M m pe a len = Ok r /\
  match r with
  | Some l => N.of_nat (length l) = len /\ holds m a l
  | None => no_error pe -> ~ readable m a len
  end.
Proof.
  intros M m pe a len SN LT. destruct (peekdata_ok M m pe (N.to_nat len) SN a len [] LT ltac:(lia)) as (r & E & R). exists r. split; [exact E|]. destruct r as [l|]; [|exact R]. destruct R as [-> R]. cbn [app]. destruct (prefix_holds m (N.to_nat len) a) as [L H]; [rewrite N2Nat.id; exact R|]. rewrite L. split; [lia|exact H].
Qed.
Print Assumptions C34_umoven.
(** of strings: what is copied is right and not more than [len] bytes.  But the value returned for a
    NUL at [k] has the offset of the address into its word added if the NUL is in that word, and a NUL
    beyond [len] bytes counts if it is in the last word that is read.
    Partial: the value returned is not the documented one then. *)
Theorem C34_umovestr_partial : forall M m pe a len, sane M m -> a + len <= 2 ^ 64 ->
  exists r l, umovestr_peekdata M m pe a len = Ok (r, l) /\ N.of_nat (length l) <= len /\ holds m a l /\
  ((r = (-1)%Z /\ (no_error pe -> exists i, i < len /\ m (a + i) = None /\ no_nul m a i /\ readable m a i)) \/
   (r = 0%Z /\ N.of_nat (length l) = len /\ no_nul m a len) \/
   (exists k, nul_at m a k /\ (k + a) / long_size M * long_size M < a + len /\ N.min (k + 1) len <= N.of_nat (length l) /\ r = Z.of_N (k + 1 + skew M a k))).
Proof.
  intros M m pe a len SN LT. destruct (peekstr_ok M m pe (N.to_nat len) SN a len [] LT ltac:(lia)) as (r & l & E & n & LN & -> & RD & C). exists r, (prefix m a (N.to_nat n)). cbn [app] in *. destruct (prefix_holds m (N.to_nat n) a) as [L H]; [rewrite N2Nat.id; exact RD|]. split; [exact E|]. rewrite L, N2Nat.id. split; [exact LN|]. split; [exact H|].
  destruct C as [[-> FA]|[(-> & -> & NN)|(k & NK & AL & LK & ->)]]; [left; auto|right; left; auto|right; right]. exists k. split; [exact NK|]. split; [rewrite N.add_comm, <- align_div; exact AL|]. split; [exact LK|cbn; lia].
Qed.
Print Assumptions C34_umovestr_partial.
(** so for addresses and lengths that are multiples of the word size the contract is met *)
Theorem C34_aligned : forall M m pe a len, sane M m -> a + len <= 2 ^ 64 -> no_error pe -> a mod long_size M = 0 -> len mod long_size M = 0 ->
  exists r l, umovestr_peekdata M m pe a len = Ok (r, l) /\ N.of_nat (length l) <= len /\ holds m a l /\
  (forall k, k < len -> nul_at m a k -> r = Z.of_N (k + 1) /\ k < N.of_nat (length l)) /\
  (readable m a len -> no_nul m a len -> r = 0%Z /\ N.of_nat (length l) = len) /\
  (forall i, i < len -> readable m a i -> no_nul m a i -> m (a + i) = None -> (r < 0)%Z).
Proof.
  intros M m pe a len SN LT NE RA RL. destruct (C34_umovestr_partial M m pe a len SN LT) as (r & l & E & LL & H & C). exists r, l. split; [exact E|]. split; [exact LL|]. split; [exact H|]. pose proof (lsize_pos M) as LP.
  assert (SK : forall k, skew M a k = 0) by (intros k; unfold skew; rewrite residue_mod, RA; destruct (_ <? _); reflexivity).
  assert (IN : forall k, (k + a) / long_size M * long_size M < a + len -> k < len).
  { intros k. apply N.mod_divide in RA as [q Q]; [|lia]. apply N.mod_divide in RL as [w W]; [|lia]. set (z := long_size M) in *. clearbody z. rewrite Q, W. rewrite N.div_add by lia. intros X. assert (k / z < w) by nia. pose proof (N.div_mod k z ltac:(lia)). pose proof (N.mod_lt k z ltac:(lia)). nia. }
  split; [|split].
  - intros k LK [NK NB]. destruct C as [[-> FA]|[(-> & LE & NN)|(k2 & [N2 B2] & _ & LK2 & ->)]].
    + destruct (FA NE) as (i & LI & MI & NI & RI). exfalso. destruct (N.lt_trichotomy i k) as [X|[X|X]]; [exact (proj1 (NB i X) MI)|subst; congruence|apply (NI k X); exact NK].
    + exfalso. apply (NN k LK). exact NK.
    + assert (k2 = k) as ->. { destruct (N.lt_trichotomy k2 k) as [X|[X|X]]; [|exact X|]; exfalso; [exact (proj2 (NB k2 X) N2)|exact (proj2 (B2 k X) NK)]. } rewrite SK. split; [f_equal; lia|lia].
  - intros RR NN. destruct C as [[-> FA]|[(-> & LE & _)|(k2 & [N2 B2] & AL & _)]]; [|auto|].
    + destruct (FA NE) as (i & LI & MI & _). exfalso. apply (RR i LI). exact MI.
    + exfalso. apply (NN k2 (IN _ AL)). exact N2.
  - intros i LI RI NI MI. destruct C as [[-> _]|[(-> & LE & _)|(k2 & [N2 B2] & _ & _)]]; [reflexivity| |].
    + exfalso. assert (X : m (a + i) <> None) by (rewrite H by lia; discriminate). contradiction.
    + exfalso. destruct (N.lt_trichotomy i k2) as [X|[X|X]]; [exact (proj1 (B2 i X) MI)|subst; congruence|apply (NI k2 X); exact N2].
Qed.
Print Assumptions C34_aligned.
Example C34_example : sane M16 (m16 (fun a => a =? 37)) /\ no_error fine /\ 28 mod long_size M16 = 0 /\ 12 mod long_size M16 = 0 /\
  umovestr_peekdata M16 (m16 (fun a => a =? 37)) fine 28 12 = Ok (10%Z, [28; 29; 30; 31; 32; 33; 34; 35; 36; 0; 38; 39]) /\
  umoven_peekdata M16 (m16 (fun a => a =? 37)) fine 29 10 = Ok (Some [29; 30; 31; 32; 33; 34; 35; 36; 0; 38]).
Proof. split; [apply m16_sane|]. repeat split; vm_compute; reflexivity. Qed.
(** an empty string is said to have 3 bytes *)
Theorem C34_misaligned_refuted : exists M m pe a len l, sane M m /\ a + len <= 2 ^ 64 /\ no_error pe /\ 0 < len /\ nul_at m a 0 /\ umovestr_peekdata M m pe a len = Ok (3%Z, l).
Proof.
  exists M16, (m16 (fun a => a =? 18)), fine, 18, 8, [0; 19]. split; [apply m16_sane|]. split; [vm_compute; discriminate|]. split; [intros x; reflexivity|]. split; [reflexivity|]. split; [split; [reflexivity|intros i L; lia]|]. vm_compute. reflexivity.
Qed.
Print Assumptions C34_misaligned_refuted.
(** a string that is longer than [len] is said to end, after more than [len] bytes *)
Theorem C34_tail_refuted : exists M m pe a len l, sane M m /\ a mod long_size M = 0 /\ no_error pe /\ readable m a len /\ no_nul m a len /\ umovestr_peekdata M m pe a len = Ok (Z.of_N len + 2, l)%Z.
Proof.
  exists M16, (m16 (fun a => a =? 22)), fine, 16, 5, [16; 17; 18; 19; 20]. split; [apply m16_sane|]. split; [reflexivity|]. split; [intros x; reflexivity|].
  assert (X : forall i, i < 5 -> m16 (fun a => a =? 22) (16 + i) = Some (16 + i)).
  { intros i L. unfold m16. destruct (N.leb_spec 16 (16 + i)), (N.ltb_spec (16 + i) 48), (N.eqb_spec (16 + i) 22); cbn; try lia. reflexivity. }
  split; [intros i L; rewrite X by exact L; discriminate|]. split; [|vm_compute; reflexivity]. intros i L. rewrite X by exact L. intros Z. inversion Z. lia.
Qed.
Print Assumptions C34_tail_refuted.

(** ** C35: writes *)
(** However the data is written, the value returned is the number of bytes that were, the first ones,
    and every other byte of the memory is what it was. *)
Theorem C35_poke : forall M short nosup m pe wr vwr we a l m' nosup' n, a + N.of_nat (length l) <= 2 ^ 64 ->
  upoken M short nosup m pe wr vwr we a l = (m', nosup', n) ->
  n <= N.of_nat (length l) /\ forall x, m' x = if (a <=? x) && (x <? a + n) then Some (nth (N.to_nat (x - a)) l 0) else m x.
Proof.
  intros M short ns m pe wr vwr we a l m' ns' n LT E. destruct (upoken_ok _ _ _ _ _ _ _ _ _ _ _ _ _ LT E) as [LN Q]. split; [exact LN|]. intros x. rewrite Q. unfold write. rewrite firstn_length, Nat.min_l by lia. rewrite N2Nat.id. destruct (N.leb_spec a x), (N.ltb_spec x (a + n)); cbn [andb]; try reflexivity. rewrite nth_firstn_ by lia. reflexivity.
Qed.
Print Assumptions C35_poke.
(** word by word all of it is written if the words can be read and written *)
Theorem C35_whole : forall M m pe wr a l m' n, a + N.of_nat (length l) <= 2 ^ 64 -> upoken_pokedata M m pe wr a l = (m', n) ->
  (forall x, wr x = true) -> no_error pe -> (forall x, a / long_size M * long_size M <= x -> x / long_size M * long_size M < a + N.of_nat (length l) -> m x <> None) ->
  n = N.of_nat (length l) /\ forall x, m' x = if (a <=? x) && (x <? a + N.of_nat (length l)) then Some (nth (N.to_nat (x - a)) l 0) else m x.
Proof.
  intros M m pe wr a l m' n LT E W NE R. destruct (pokedata_ok _ _ _ _ _ _ _ _ LT E) as (LN & Q & C). assert (n = N.of_nat (length l)) as -> by (apply C; [exact W|exact NE|]; intros x; rewrite !align_div; apply R). split; [reflexivity|]. intros x. rewrite Q. unfold write. rewrite Nat2N.id, firstn_all. reflexivity.
Qed.
Print Assumptions C35_whole.
(** with process_vm_writev too *)
Theorem C35_whole_vm : forall M m pe wr vwr a l, (forall i, i < N.of_nat (length l) -> vwr (a + i) = true) ->
  exists m', upoken M false false m pe wr vwr None a l = (m', false, N.of_nat (length l)) /\ forall x, m' x = if (a <=? x) && (x <? a + N.of_nat (length l)) then Some (nth (N.to_nat (x - a)) l 0) else m x.
Proof.
  intros M m pe wr vwr a l W. unfold upoken. cbn [tracee_addr_is_invalid andb]. destruct l as [|b l]; [|rewrite wprefix_all by exact W; exists (write m a (b :: l)); split; [reflexivity|intros x; reflexivity]].
  exists m. split; [reflexivity|]. intros x. cbn [length]. destruct (N.leb_spec a x), (N.ltb_spec x (a + N.of_nat 0)); cbn; try reflexivity; lia.
Qed.
Print Assumptions C35_whole_vm.
(** three words: the end of one, one, and the start of one; and one that stops at a word that cannot be written *)
Example C35_example : let m := m16 (fun _ => false) in let l := [1; 2; 3; 4; 5; 6; 7; 8; 9] in
  (match upoken_pokedata M16 m fine (fun _ => true) 18 l with (m', n) => (prefix m' 16 16, n) end) = ([16; 17; 1; 2; 3; 4; 5; 6; 7; 8; 9; 27; 28; 29; 30; 31], 9) /\
  (match upoken_pokedata M16 m fine (fun x => x <? 20) 18 l with (m', n) => (prefix m' 16 16, n) end) = ([16; 17; 1; 2; 20; 21; 22; 23; 24; 25; 26; 27; 28; 29; 30; 31], 2) /\
  (match upoken M16 false false m fine (fun _ => true) (fun _ => true) (Some ENOSYS) 18 l with (m', ns, n) => (prefix m' 16 16, ns, n) end) = ([16; 17; 1; 2; 3; 4; 5; 6; 7; 8; 9; 27; 28; 29; 30; 31], true, 9).
Proof. repeat split; vm_compute; reflexivity. Qed.

(** If process_vm_writev cannot be used (ENOSYS 38, EPERM 1, EFAULT 14, EIO 5), all is written word by word; with any other error nothing is. *)
Theorem C35_fallback : forall M short nosup m pe wr vwr e a l, tracee_addr_is_invalid short a = false -> nosup = false ->
  (In e [38; 1; 14; 5] -> let '(m', _, n) := upoken M short nosup m pe wr vwr (Some e) a l in (m', n) = upoken_pokedata M m pe wr a l) /\
  (~ In e [38; 1; 14; 5] -> let '(m', _, n) := upoken M short nosup m pe wr vwr (Some e) a l in m' = m /\ n = 0).
Proof.
  intros M short ns m pe wr vwr e a l I ->. unfold upoken. rewrite I. cbn [In]. destruct (upoken_pokedata M m pe wr a l) as [m1 n1]. change ENOSYS with 38. change EPERM with 1. change EFAULT with 14. change EIO with 5. split.
  - intros H. replace ((e =? 38) || (e =? 1) || (e =? 14) || (e =? 5)) with true by (symmetry; lia). reflexivity.
  - intros H. replace ((e =? 38) || (e =? 1) || (e =? 14) || (e =? 5)) with false by (symmetry; lia). auto.
Qed.
Print Assumptions C35_fallback.
