(** What strtod reads, and which strings are accepted. *)
From Coq Require Import QArith Qabs Qround Qpower.
From Verif Require Import Base StrtouModel TimeModel TimeSpec TimeProofs FtsModel FtsSpec FtsProofs.
Local Open Scope N_scope.

Lemma dval_of base c v : base <= 16 -> digit_of base c = Some v <-> dval base c v.
Proof.
  intros B. unfold digit_of, dval. assert (T : tolower c = if (65 <=? c) && (c <=? 90) then c + 32 else c) by reflexivity. rewrite T. clear T.
  destruct ((65 <=? c) && (c <=? 90)) eqn:E1; destruct ((48 <=? c) && (c <=? 57)) eqn:E2; cbv zeta;
  try (destruct ((97 <=? c + 32) && (c + 32 <=? 102)) eqn:E3); try (destruct ((97 <=? c) && (c <=? 102)) eqn:E4); cbv iota;
  try match goal with |- context [if ?x <? base then _ else _] => destruct (N.ltb_spec x base) end;
  (split; [intros H'; try discriminate H'; injection H' as <-; lia|intros H'; try (f_equal; lia); exfalso; lia]).
Qed.
Lemma digit_none base c : base <= 16 -> digit_of base c = None <-> forall v, ~ dval base c v.
Proof.
  intros B. destruct (digit_of base c) as [v|] eqn:E.
  - split; [discriminate|]. intros H. destruct (H v). apply dval_of; auto.
  - split; [|reflexivity]. intros _ v D. apply dval_of in D; [congruence|auto].
Qed.
Definition stops (base : N) (r : list N) : Prop := match r with c :: _ => digit_of base c = None | [] => True end.
Lemma digs_sound base s a r : base <= 16 -> digs base s = (a, r) -> stops base r /\ exists t, s = t ++ r /\ Forall2 (dval base) t a.
Proof.
  intros B. revert a r. induction s as [|c s IH]; intros a r; cbn [digs].
  - intros E. inversion E; subst. split; [exact Logic.I|]. exists []. auto.
  - destruct (digit_of base c) as [d|] eqn:D.
    + destruct (digs base s) as [a1 r1] eqn:E1. intros E. inversion E; subst. destruct (IH _ _ eq_refl) as (H & t & -> & F). split; [exact H|]. exists (c :: t). split; [reflexivity|]. constructor; [apply dval_of; auto|exact F].
    + intros E. inversion E; subst. split; [exact D|]. exists []. auto.
Qed.
Lemma digs_run base t a r : base <= 16 -> Forall2 (dval base) t a -> stops base r -> digs base (t ++ r) = (a, r).
Proof.
  intros B F H. induction F as [|c v t a D F IH]; cbn [app digs].
  - destruct r as [|c r]; [reflexivity|]. cbn [digs stops] in *. rewrite H. reflexivity.
  - apply dval_of in D; [|exact B]. rewrite D, IH. reflexivity.
Qed.
Lemma dnum_sum base l : forall acc, dnum base acc l = acc * base ^ N.of_nat (length l) + dsum base l.
Proof.
  induction l as [|d r IH]; intros acc; cbn [dnum dsum length].
  - rewrite N.pow_0_r. lia.
  - rewrite IH, Nnat.Nat2N.inj_succ, N.pow_succ_r'. set (p := base ^ N.of_nat (length r)). nia.
Qed.
Lemma dnum0 base l : dnum base 0 l = dsum base l.
Proof. rewrite dnum_sum. lia. Qed.
Lemma Forall2_length {A B} {R : A -> B -> Prop} {a b} : Forall2 R a b -> length a = length b.
Proof. induction 1; cbn; congruence. Qed.

(** ---- the mantissa ---- *)
Definition mant_text (base : N) (t : list N) (m : N) (k : nat) : Prop :=
  exists ip pt fp iv fv, t = ip ++ pt ++ fp /\ Forall2 (dval base) ip iv /\ Forall2 (dval base) fp fv /\ ip ++ fp <> [] /\
    ((pt = [] /\ fp = []) \/ pt = [46]) /\ m = dsum base (iv ++ fv) /\ k = length fp.
Lemma mantissa_sound base s m k r : base <= 16 -> mantissa base s = Some (m, k, r) -> exists t, s = t ++ r /\ mant_text base t m k.
Proof.
  intros B. unfold mantissa. destruct (digs base s) as [a r0] eqn:E. destruct (digs_sound _ _ _ _ B E) as (ST & t & -> & F).
  assert (PL : forall r', match a with [] => None | _ => Some (dnum base 0 a, 0%nat, r') end = Some (m, k, r) -> exists t0, t ++ r' = t0 ++ r /\ mant_text base t0 m k).
  { intros r' H. assert (N : a <> []) by (intros ->; discriminate). assert (H' : Some (dnum base 0 a, 0%nat, r') = Some (m, k, r)) by (destruct a; [contradiction|exact H]). inversion H'; subst. exists t. split; [reflexivity|]. exists t, [], [], a, []. rewrite !app_nil_r, dnum0. repeat split; auto. intros ->. inversion F; subst. contradiction. }
  destruct r0 as [|c r1]; [exact (PL [])|]. destruct (N.eqb_spec c 46) as [->|C]; [|exact (PL (c :: r1))].
  destruct (digs base r1) as [b r2] eqn:E1. destruct (digs_sound _ _ _ _ B E1) as (ST1 & t1 & -> & F1). intros H.
  assert (N : a ++ b <> []) by (intros X; rewrite X in H; discriminate). assert (H' : Some (dnum base 0 (a ++ b), length b, r2) = Some (m, k, r)) by (destruct (a ++ b); [contradiction|exact H]). inversion H'; subst.
  exists (t ++ [46] ++ t1). split; [rewrite <- !app_assoc; reflexivity|]. exists t, [46], t1, a, b. rewrite dnum0. pose proof (Forall2_length F1). repeat split; auto.
  intros X. apply app_eq_nil in X as [-> ->]. inversion F; inversion F1; subst. auto.
Qed.
(** what can follow a number *)
Definition ends (base mark : N) (r : list N) : Prop := match r with c :: _ => digit_of base c = None /\ c <> 46 /\ tolower c <> mark | [] => True end.
Lemma mantissa_run base t m k r : base <= 16 -> mant_text base t m k -> stops base r -> (match r with c :: _ => c <> 46 | [] => True end) -> mantissa base (t ++ r) = Some (m, k, r).
Proof.
  intros B (ip & pt & fp & iv & fv & -> & F1 & F2 & N & PT & -> & ->) ST NP. unfold mantissa. pose proof (Forall2_length F1) as L1. pose proof (Forall2_length F2) as L2. destruct PT as [[-> ->]| ->].
  - cbn [app]. inversion F2; subst. rewrite !app_nil_r in *. rewrite (digs_run _ _ _ _ B F1 ST), dnum0. assert (N1 : iv <> []) by (intros ->; destruct ip; [contradiction|discriminate]).
    destruct r as [|c r1]; [destruct iv; [contradiction|reflexivity]|]. destruct (N.eqb_spec c 46); [contradiction|]. destruct iv; [contradiction|reflexivity].
  - rewrite <- !app_assoc. rewrite (digs_run base ip iv ([46] ++ fp ++ r) B F1) by (cbn [app stops]; apply digit_none; auto; intros v [_ X]; lia). cbn [app]. change (46 =? 46) with true. cbv iota.
    rewrite (digs_run _ _ _ _ B F2 ST), dnum0. assert (N1 : iv ++ fv <> []). { intros X. apply app_eq_nil in X as [-> ->]. inversion F1; inversion F2; subst. auto. }
    rewrite L2. destruct (iv ++ fv); [contradiction|reflexivity].
Qed.

(** ---- the exponent ---- *)
Lemma tolower_mark c mark : 97 <= mark <= 122 -> tolower c = mark <-> c = mark \/ c + 32 = mark.
Proof. intros H. unfold tolower. destruct ((65 <=? c) && (c <=? 90)) eqn:E; lia. Qed.
Lemma exponent_sound mark s e r : 97 <= mark <= 122 -> exponent mark s = (e, r) -> exists t, s = t ++ r /\ exp_text mark t e.
Proof.
  intros MK. unfold exponent. destruct s as [|c s]; [intros E; inversion E; subst; exists []; split; [reflexivity|left; auto]|].
  destruct (N.eqb_spec (tolower c) mark) as [C|C]; [|intros E; inversion E; subst; exists []; split; [reflexivity|left; auto]].
  apply tolower_mark in C; [|exact MK]. set (p := match s with c1 :: r1 => if c1 =? 45 then (true, r1) else if c1 =? 43 then (false, r1) else (false, s) | [] => (false, s) end).
  assert (P : exists sg, s = sg ++ snd p /\ (sg = [] \/ sg = [43] \/ sg = [45]) /\ fst p = beqs sg [45]).
  { unfold p. destruct s as [|c1 r1]; [exists []; auto|]. destruct (N.eqb_spec c1 45) as [->|]; [exists [45]; auto|]. destruct (N.eqb_spec c1 43) as [->|]; [exists [43]; auto|]. exists []. auto. }
  clearbody p. destruct p as [neg r1]. cbn [fst snd] in P. destruct P as (sg & -> & SG & ->). destruct (digs 10 r1) as [a r2] eqn:E1. destruct (digs_sound 10 _ _ _ ltac:(lia) E1) as (ST & t & -> & F).
  destruct a as [|d a]; [intros E; inversion E; subst; exists []; split; [reflexivity|left; auto]|]. intros E. injection E as <- <-. exists (c :: sg ++ t). split; [cbn [app]; rewrite <- app_assoc; reflexivity|]. right. exists c, sg, t, (d :: a). rewrite <- dnum0. repeat split; auto. intros ->. inversion F.
Qed.
Lemma exponent_run mark t e r : 97 <= mark <= 122 -> exp_text mark t e -> ends 10 mark r -> exponent mark (t ++ r) = (e, r).
Proof.
  intros MK [[-> ->]|(m & sg & ds & vs & -> & M0 & SG & F & N & ->)] E.
  - cbn [app]. unfold exponent. destruct r as [|c r]; [reflexivity|]. destruct E as (_ & _ & E). destruct (N.eqb_spec (tolower c) mark); [contradiction|reflexivity].
  - cbn [app]. unfold exponent. apply tolower_mark in M0; [|exact MK]. rewrite M0, N.eqb_refl. rewrite <- app_assoc.
    assert (ST : stops 10 r) by (destruct r; [exact Logic.I|exact (proj1 E)]). pose proof (digs_run 10 _ _ _ ltac:(lia) F ST) as R.
    assert (P : match sg ++ ds ++ r with c1 :: r1 => if c1 =? 45 then (true, r1) else if c1 =? 43 then (false, r1) else (false, sg ++ ds ++ r) | [] => (false, sg ++ ds ++ r) end = (beqs sg [45], ds ++ r)).
    { destruct SG as [->|[->| ->]]; cbn [app]; try reflexivity. destruct F as [|d v ds vs D F]; [contradiction|]. cbn [app]. destruct D as [_ D]. destruct (N.eqb_spec d 45); [lia|]. destruct (N.eqb_spec d 43); [lia|]. reflexivity. }
    rewrite P, R. destruct vs as [|v vs]; [inversion F; subst; contradiction|]. rewrite dnum0. reflexivity.
Qed.

(** ---- the whole number ---- *)
Lemma starts_sound p s : starts p s = true -> exists t, s = t ++ skipn (length p) s /\ map tolower t = p.
Proof. unfold starts. intros H. apply beqs_eq in H. exists (firstn (length p) s). rewrite firstn_skipn. auto. Qed.
Lemma map2 (a b : N) t : map tolower t = [a; b] -> exists x y, t = [x; y] /\ tolower x = a /\ tolower y = b.
Proof. destruct t as [|x [|y [|]]]; try discriminate. intros H. inversion H. eauto. Qed.
Lemma unsigned_sound neg s n q r : unsigned_float neg s = Some (Fin n q, r) -> n = neg /\ exists t base eb mark pre m k et e,
  s = (pre ++ t ++ et) ++ r /\ mant_text base t m k /\ exp_text mark et e /\ q = mkfloat base eb m k e /\
  ((pre = [] /\ base = 10 /\ eb = 10%positive /\ mark = 101) \/ ((pre = bs "0x" \/ pre = bs "0X") /\ base = 16 /\ eb = 2%positive /\ mark = 112)).
Proof.
  unfold unsigned_float. destruct (starts (bs "infinity") s); [discriminate|]. destruct (starts (bs "inf") s); [discriminate|]. destruct (starts (bs "nan") s); [discriminate|].
  assert (DEC : match mantissa 10 s with Some (m, k, r) => let (e, r) := exponent 101 r in Some (Fin neg (mkfloat 10 10 m k e), r) | None => None end = Some (Fin n q, r) -> n = neg /\ exists t base eb mark pre m k et e,
    s = (pre ++ t ++ et) ++ r /\ mant_text base t m k /\ exp_text mark et e /\ q = mkfloat base eb m k e /\
    ((pre = [] /\ base = 10 /\ eb = 10%positive /\ mark = 101) \/ ((pre = bs "0x" \/ pre = bs "0X") /\ base = 16 /\ eb = 2%positive /\ mark = 112))).
  { destruct (mantissa 10 s) as [[[m k] r0]|] eqn:E; [|discriminate]. destruct (mantissa_sound 10 _ _ _ _ ltac:(lia) E) as (t & -> & MT). destruct (exponent 101 r0) as [e r1] eqn:E1. destruct (exponent_sound 101 _ _ _ ltac:(lia) E1) as (et & -> & ET).
    intros H. inversion H; subst. split; [reflexivity|]. exists t, 10, 10%positive, 101, [], m, k, et, e. split; [cbn [app]; rewrite app_assoc; reflexivity|]. auto 10. }
  destruct (starts (bs "0x") s) eqn:X; [|exact DEC]. destruct (mantissa 16 (skipn 2 s)) as [[[m k] r0]|] eqn:E; [|exact DEC]. clear DEC.
  destruct (starts_sound _ _ X) as (pre & S' & PX). change (length (bs "0x")) with 2%nat in S'. destruct (mantissa_sound 16 _ _ _ _ ltac:(lia) E) as (t & S2 & MT). destruct (exponent 112 r0) as [e r1] eqn:E1. destruct (exponent_sound 112 _ _ _ ltac:(lia) E1) as (et & -> & ET).
  intros H. inversion H; subst. split; [reflexivity|]. exists t, 16, 2%positive, 112, pre, m, k, et, e. split; [rewrite S', S2, <- !app_assoc; reflexivity|]. repeat split; auto. right. split; auto.
  change (bs "0x") with [48; 120] in PX. destruct (map2 _ _ _ PX) as (x & y & -> & TX & TY). assert (x = 48) as ->. { unfold tolower in TX. destruct ((65 <=? x) && (x <=? 90)) eqn:W in TX; lia. } apply tolower_mark in TY; [|lia]. destruct TY as [->|TY]; [left; reflexivity|right]. assert (y = 88) as -> by lia. reflexivity.
Qed.

(** ---- numbers are read whole ---- *)
Lemma starts_ne p1 p c s : tolower c <> p1 -> starts (p1 :: p) (c :: s) = false.
Proof. intros H. unfold starts. cbn [length firstn map beqs]. destruct (N.eqb_spec p1 (tolower c)); [congruence|reflexivity]. Qed.
Lemma mant_head base t m k : base <= 16 -> mant_text base t m k -> exists c r, t = c :: r /\ (c = 46 \/ exists v, dval base c v).
Proof.
  intros B (ip & pt & fp & iv & fv & -> & F1 & F2 & N & PT & _). destruct F1 as [|c v ip iv D F1]; [|exists c, (ip ++ pt ++ fp); eauto].
  destruct PT as [[-> ->]| ->]; [contradiction|]. exists 46, fp. auto.
Qed.
Lemma mant_chars t m k : mant_text 10 t m k -> Forall (fun c => tolower c <> 120) t.
Proof.
  intros (ip & pt & fp & iv & fv & -> & F1 & F2 & N & PT & _). assert (D : forall l vs, Forall2 (dval 10) l vs -> Forall (fun c => tolower c <> 120) l).
  { clear. induction 1 as [|c v l vs [L D] F IH]; constructor; [|exact IH]. unfold tolower. destruct ((65 <=? c) && (c <=? 90)); lia. }
  apply Forall_app. split; [eauto|]. apply Forall_app. split; [|eauto]. destruct PT as [[-> _]| ->]; constructor; [discriminate|constructor].
Qed.
Lemma exp_head mark t e : exp_text mark t e -> 97 <= mark <= 122 -> mark <> 120 -> t = [] \/ exists c r, t = c :: r /\ tolower c = mark.
Proof. intros [[-> _]|(m & sg & ds & vs & -> & M & _)] R X; [auto|right]. exists m, (sg ++ ds). split; [reflexivity|]. apply tolower_mark; auto. Qed.
(** what may follow: no digit, point, exponent mark, x *)
Definition follows (r : list N) : Prop := match r with c :: _ => digit_of 16 c = None /\ c <> 46 /\ tolower c <> 112 /\ tolower c <> 120 | [] => True end.
Lemma digit10 c : digit_of 16 c = None -> digit_of 10 c = None /\ tolower c <> 101.
Proof.
  intros H. pose proof (proj1 (digit_none 16 c ltac:(lia)) H) as X. split.
  - apply digit_none; [lia|]. intros v [L D]. apply (X v). split; [lia|exact D].
  - intros E. apply tolower_mark in E; [|lia]. apply (X 14). split; [lia|]. lia.
Qed.
Lemma follows_ends r : follows r -> ends 10 101 r /\ ends 10 112 r.
Proof. destruct r as [|c r]; [auto|]. intros (D & P & Q & _). destruct (digit10 _ D). cbn [ends]. auto. Qed.
Lemma unsigned_run neg pre base eb mark t m k et e r : mant_text base t m k -> exp_text mark et e -> follows r ->
  ((pre = [] /\ base = 10 /\ eb = 10%positive /\ mark = 101) \/ ((pre = bs "0x" \/ pre = bs "0X") /\ base = 16 /\ eb = 2%positive /\ mark = 112)) ->
  unsigned_float neg ((pre ++ t ++ et) ++ r) = Some (Fin neg (mkfloat base eb m k e), r).
Proof.
  intros MT ET FO PR. destruct (follows_ends _ FO) as [E10 E16]. unfold unsigned_float.
  assert (HEAD : exists c s, (pre ++ t ++ et) ++ r = c :: s /\ tolower c <> 105 /\ tolower c <> 110).
  { destruct PR as [(-> & -> & _)|([-> | ->] & _)].
    - destruct (mant_head 10 _ _ _ ltac:(lia) MT) as (c & t1 & -> & HC). exists c. eexists. split; [reflexivity|]. unfold tolower. destruct HC as [->|(v & L & D)]; [split; discriminate|]. destruct ((65 <=? c) && (c <=? 90)) eqn:W; lia.
    - do 2 eexists. split; [reflexivity|]. split; discriminate.
    - do 2 eexists. split; [reflexivity|]. split; discriminate. }
  destruct HEAD as (c & s & HE & H1 & H2).
  assert (NI : starts (bs "infinity") ((pre ++ t ++ et) ++ r) = false) by (rewrite HE; apply starts_ne; exact H1). rewrite NI.
  assert (NF : starts (bs "inf") ((pre ++ t ++ et) ++ r) = false) by (rewrite HE; apply starts_ne; exact H1). rewrite NF.
  assert (NN : starts (bs "nan") ((pre ++ t ++ et) ++ r) = false) by (rewrite HE; apply starts_ne; exact H2). rewrite NN. clear HE H1 H2 NI NF NN c s.
  destruct PR as [(-> & -> & -> & ->)|(PX & -> & -> & ->)].
  - cbn [app]. assert (NX : starts (bs "0x") ((t ++ et) ++ r) = false).
    { destruct (starts (bs "0x") ((t ++ et) ++ r)) eqn:X; [|reflexivity]. exfalso. unfold starts in X. apply beqs_eq in X. change (length (bs "0x")) with 2%nat in X. change (bs "0x") with [48; 120] in X.
      pose proof (mant_chars _ _ _ MT) as MC. destruct (mant_head 10 _ _ _ ltac:(lia) MT) as (c & t1 & -> & _). cbn [app firstn map] in X. inversion MC as [|? ? _ MC1]; subst.
      destruct t1 as [|c1 t1].
      - cbn [app] in X. destruct (exp_head _ _ _ ET ltac:(lia) ltac:(lia)) as [->|(c2 & et1 & -> & TC)].
        + cbn [app] in X. destruct r as [|c2 r]; [discriminate|]. cbn [firstn map] in X. inversion X as [[X1 X2]]. destruct FO as (_ & _ & _ & FO). congruence.
        + cbn [app firstn map] in X. inversion X as [[X1 X2]]. congruence.
      - cbn [app firstn map] in X. inversion X as [[X1 X2]]. inversion MC1; subst. congruence. }
    rewrite NX. rewrite <- app_assoc. rewrite (mantissa_run 10 t m k (et ++ r) ltac:(lia) MT).
    + rewrite (exponent_run 101 et e r ltac:(lia) ET E10). reflexivity.
    + destruct (exp_head _ _ _ ET ltac:(lia) ltac:(lia)) as [->|(c2 & et1 & -> & TC)]; cbn [app stops].
      * destruct r; [exact Logic.I|exact (proj1 E10)].
      * apply digit_none; [lia|]. intros v [L D]. apply tolower_mark in TC; lia.
    + destruct (exp_head _ _ _ ET ltac:(lia) ltac:(lia)) as [->|(c2 & et1 & -> & TC)]; cbn [app].
      * destruct r; [exact Logic.I|apply E10].
      * intros ->. discriminate.
  - assert (X : starts (bs "0x") ((pre ++ t ++ et) ++ r) = true /\ skipn 2 ((pre ++ t ++ et) ++ r) = t ++ et ++ r) by (destruct PX as [-> | ->]; (split; [reflexivity|change (bs "0x") with [48; 120]; change (bs "0X") with [48; 88]; cbn [app skipn]; rewrite app_assoc; reflexivity])).
    destruct X as [-> ->]. rewrite (mantissa_run 16 t m k (et ++ r) ltac:(lia) MT).
    + rewrite (exponent_run 112 et e r ltac:(lia) ET E16). reflexivity.
    + destruct (exp_head _ _ _ ET ltac:(lia) ltac:(lia)) as [->|(c2 & et1 & -> & TC)]; cbn [app stops].
      * destruct r; [exact Logic.I|exact (proj1 FO)].
      * apply digit_none; [lia|]. intros v [L D]. apply tolower_mark in TC; lia.
    + destruct (exp_head _ _ _ ET ltac:(lia) ltac:(lia)) as [->|(c2 & et1 & -> & TC)]; cbn [app].
      * destruct r; [exact Logic.I|apply FO].
      * intros ->. discriminate.
Qed.

(** ---- signs ---- *)
Lemma strtod_sound s neg q r : strtod s = Some (Fin neg q, r) -> exists t, s = t ++ r /\ float_text t neg q.
Proof.
  assert (U : forall sg s0 n0, ((sg = [] /\ n0 = false) \/ (sg = [43] /\ n0 = false) \/ (sg = [45] /\ n0 = true)) -> unsigned_float n0 s0 = Some (Fin neg q, r) -> exists t, sg ++ s0 = t ++ r /\ float_text t neg q).
  { intros sg s0 n0 SG H. destruct (unsigned_sound _ _ _ _ _ H) as (-> & t & base & eb & mark & pre & m & k & et & e & -> & (ip & pt & fp & iv & fv & -> & F1 & F2 & N & PT & -> & ->) & ET & -> & PR).
    exists (sg ++ pre ++ (ip ++ pt ++ fp) ++ et). split; [rewrite <- !app_assoc; reflexivity|]. exists sg, pre, base, (Z.pos eb), mark, ip, pt, fp, iv, fv, et, e. split; [rewrite <- !app_assoc; reflexivity|]. split; [exact SG|].
    split; [destruct PR as [(? & ? & -> & ?)|(? & ? & -> & ?)]; auto|]. repeat (split; [assumption|]). unfold mkfloat. reflexivity. }
  unfold strtod. destruct s as [|c s]; [discriminate|]. destruct (N.eqb_spec c 45) as [->|]; [intros H; apply (U [45] s true) in H; auto|]. destruct (N.eqb_spec c 43) as [->|]; [intros H; apply (U [43] s false) in H; auto|]. intros H. apply (U [] (c :: s) false) in H; auto.
Qed.
Lemma strtod_run t neg q r : float_text t neg q -> follows r -> exists q', strtod (t ++ r) = Some (Fin neg q', r) /\ (q' == q)%Q.
Proof.
  intros (sg & pre & base & eb & mark & ip & pt & fp & iv & fv & et & e & -> & SG & PR & F1 & F2 & N & PT & ET & QE) FO.
  assert (PR' : exists eb', eb = Z.pos eb' /\ ((pre = [] /\ base = 10 /\ eb' = 10%positive /\ mark = 101) \/ ((pre = bs "0x" \/ pre = bs "0X") /\ base = 16 /\ eb' = 2%positive /\ mark = 112))) by (destruct PR as [(? & ? & -> & ?)|(? & ? & -> & ?)]; [exists 10%positive|exists 2%positive]; auto 10).
  destruct PR' as (eb' & -> & PR').
  assert (MT : mant_text base (ip ++ pt ++ fp) (dsum base (iv ++ fv)) (length fp)) by (exists ip, pt, fp, iv, fv; auto 10).
  exists (mkfloat base eb' (dsum base (iv ++ fv)) (length fp) e). split; [|symmetry; exact QE].
  pose proof (unsigned_run neg pre base eb' mark _ _ _ et e r MT ET FO PR') as R.
  replace ((sg ++ pre ++ ip ++ pt ++ fp ++ et) ++ r) with (sg ++ (pre ++ (ip ++ pt ++ fp) ++ et) ++ r) by (rewrite <- !app_assoc; reflexivity).
  unfold strtod. destruct SG as [[-> ->]|[[-> ->]|[-> ->]]]; [|exact R|exact R]. cbn [app] in *.
  assert (HC : exists c s, (pre ++ (ip ++ pt ++ fp) ++ et) ++ r = c :: s /\ c <> 45 /\ c <> 43).
  { destruct PR' as [(-> & -> & _)|([-> | ->] & _)]; [|do 2 eexists; split; [reflexivity|split; discriminate]..]. destruct (mant_head 10 _ _ _ ltac:(lia) MT) as (c & t1 & -> & HC). exists c. eexists. split; [reflexivity|]. destruct HC as [->|(v & L & D)]; [split; discriminate|lia]. }
  destruct HC as (c & s & HE & C1 & C2). rewrite HE in R |- *. destruct (N.eqb_spec c 45); [contradiction|]. destruct (N.eqb_spec c 43); [contradiction|]. exact R.
Qed.

(** ---- units ---- *)
Lemma unit_iff t u : (0 < u)%Z -> str2timescale_ex (Some t) 1000 (-1) = u <-> unit_text t u.
Proof.
  intros U. unfold str2timescale_ex, unit_text. destruct t as [|a t].
  - split; [intros <-; auto|]. intros [[_ ->]|[[[X|X] _]|(a & b & X & _)]]; try discriminate X; reflexivity.
  - unfold find_xlat, strcaseeq. change (map tolower (bs "s")) with [115]. change (map tolower (bs "ms")) with [109; 115]. change (map tolower (bs "us")) with [117; 115]. change (map tolower (bs "ns")) with [110; 115]. change (bs "s") with [115]. change (bs "S") with [83].
    assert (T : forall x d, 97 <= d <= 122 -> (d =? tolower x) = ((x =? d) || (x + 32 =? d))) by (intros x d R; unfold tolower; destruct ((65 <=? x) && (x <=? 90)) eqn:W; lia).
    cbn [map beqs]. destruct t as [|b [|c t]].
    + cbn [map beqs]. rewrite !andb_false_r, andb_true_r, T by lia. destruct (_ || _) eqn:E.
      * split; [intros <-; right; left; split; [apply orb_true_iff in E as [E|E]; apply N.eqb_eq in E; [left|right]; f_equal; lia|reflexivity]|]. intros [[X _]|[[_ ->]|(x & y & X & _)]]; try discriminate X. reflexivity.
      * split; [lia|]. intros [[X _]|[[[X|X] _]|(x & y & X & _)]]; try discriminate X; inversion X; subst; discriminate.
    + cbn [map beqs]. rewrite !andb_true_r, andb_false_r, !T by lia.
      assert (RHS : (([a; b] = [] /\ u = 1000%Z) \/ (([a; b] = [115] \/ [a; b] = [83]) /\ u = 1000000000%Z) \/ (exists a0 b0, [a; b] = [a0; b0] /\ (b0 = 115 \/ b0 = 83) /\ (((a0 = 109 \/ a0 = 77) /\ u = 1000000%Z) \/ ((a0 = 117 \/ a0 = 85) /\ u = 1000%Z) \/ ((a0 = 110 \/ a0 = 78) /\ u = 1%Z)))) <->
        ((b = 115 \/ b = 83) /\ (((a = 109 \/ a = 77) /\ u = 1000000%Z) \/ ((a = 117 \/ a = 85) /\ u = 1000%Z) \/ ((a = 110 \/ a = 78) /\ u = 1%Z)))).
      { split; [intros [[X _]|[[[X|X] _]|(x & y & X & H)]]; try discriminate X; inversion X; subst; exact H|]. intros H. right. right. exists a, b. auto. }
      rewrite RHS. clear RHS T.
assert (W : forall x d, ((x =? d) || (x + 32 =? d)) = true <-> (x = d \/ x + 32 = d)) by (intros x d; rewrite orb_true_iff, !N.eqb_eq; reflexivity).
      assert (W' : forall x d, ((x =? d) || (x + 32 =? d)) = false <-> ~ (x = d \/ x + 32 = d)) by (intros x d; rewrite <- W; destruct (_ || _); split; congruence || tauto).
      destruct ((b =? 115) || (b + 32 =? 115)) eqn:EB; [apply W in EB|rewrite !andb_false_r; apply W' in EB; split; [lia|intros [? _]; lia]]. rewrite !andb_true_r.
      destruct ((a =? 109) || (a + 32 =? 109)) eqn:E1; [apply W in E1; clear W W'; lia|apply W' in E1]. destruct ((a =? 117) || (a + 32 =? 117)) eqn:E2; [apply W in E2; clear W W'; lia|apply W' in E2].
      destruct ((a =? 110) || (a + 32 =? 110)) eqn:E3; [apply W in E3; clear W W'; lia|apply W' in E3; clear W W'; lia].
    + cbn [map beqs]. rewrite !andb_false_r. split; [lia|]. intros [[X _]|[[[X|X] _]|(x & y & X & _)]]; discriminate X.
Qed.
Lemma unit_vals t u : unit_text t u -> (u = 1000000000 \/ u = 1000000 \/ u = 1000 \/ u = 1)%Z.
Proof. intros [[_ ->]|[[_ ->]|(a & b & _ & _ & [[_ ->]|[[_ ->]|[_ ->]]])]]; auto. Qed.
Lemma unit_follows t u : unit_text t u -> follows t.
Proof.
  intros [[-> _]|[[[-> | ->] _]|(a & b & -> & _ & H)]]; cbn [follows]; [exact Logic.I|vm_compute; repeat split; discriminate..|].
  destruct H as [[[-> | ->] _]|[[[-> | ->] _]|[[-> | ->] _]]]; vm_compute; repeat split; discriminate.
Qed.
