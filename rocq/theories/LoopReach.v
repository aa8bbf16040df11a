(** Whole runs, for all options: start, turns and end (used for C21, C22, C25, C27). *)
From Verif Require Import Base TimeModel WaitModel TcbModel TcbProofs LogModel LogSpec LogProofs LoopModel LoopFrame LoopSpec LoopTurn LoopRun LoopEnds LoopCore LoopQueue.
Local Open Scope N_scope.

(** ** Turns *)
Lemma turn_core c s ne b s' : core s -> kept s -> held s -> exec_alone c s ne -> turn c s ne = Ok (b, s') ->
  exists w s1, next_event c s (fst ne) = Ok (w, s1) /\ dispatch_event c s1 w (snd ne) = Ok (b, s') /\ core s1 /\ kept s1 /\ next_ok c s (fst ne) w s1 /\
  core s' /\ kept s' /\ qsame s1 s' /\
  match w with
  | Some wd => forall i, busy wd = true -> current (lg s1) = Some i -> change c s1 i wd s'
  | None => forall p, traced s' p <-> traced s1 p
  end /\
  (forall wd, w = Some wd -> busy wd = true -> exists i, current (lg s1) = Some i /\ P s1 i <> 0 /\ ~ In i (pending (qu s1))).
Proof.
  intros K KE H A E. unfold turn in E. unfold exec_alone in A. apply rbind_ok in E as ([w s1] & E1 & E). rewrite E1 in A. destruct (next_event_core _ _ _ _ _ K KE H E1) as (K1 & KE1 & N1 & R1).
  exists w, s1. split; [exact E1|]. split; [exact E|]. split; [exact K1|]. split; [exact KE1|]. split; [exact N1|]. destruct w as [wd|].
  - destruct (dispatch_core c s1 wd (snd ne) b s' K1 E) as (K2 & Q2 & C2).
    { intros B. destruct (R1 wd eq_refl B) as (i & X1 & X2 & X3). exists i. split; [exact X1|]. split; [exact X2|]. split; [exact X3|]. intros T. exact (A T i X1). }
    split; [exact K2|]. split; [exact (qsame_kept _ _ Q2 KE1)|]. split; [exact Q2|]. split; [exact C2|exact R1].
  - cbn in E. inversion E; subst b s'. split; [exact K1|]. split; [exact KE1|]. split; [apply qsame_refl|]. split; [intros p; tauto|exact R1].
Qed.
Lemma turns_core c l : forall s b s', core s -> kept s -> fair c s l -> turns c s l = Ok (b, s') -> core s' /\ kept s'.
Proof.
  induction l as [|ne l IH]; intros s b s' K KE F E; cbn [turns] in E; [inversion E; subst; auto|]. apply rbind_ok in E as ([go s1] & E1 & E). destruct F as (H & A & F).
  destruct (turn_core _ _ _ _ _ K KE H A E1) as (w & s0 & _ & _ & _ & _ & _ & K1 & KE1 & _). rewrite E1 in F. destruct go; [|inversion E; subst; auto]. eapply IH; eassumption.
Qed.

(** ** Start *)
Lemma new_tcb_kept s pid i s' : core s -> kept s -> queued s = [] -> pid <> 0 -> (forall i, P s i <> pid) -> new_tcb s pid = Ok (i, s') -> core s' /\ kept s' /\ queued s' = [] /\ P s i = 0 /\ (forall k, P s' k = if Nat.eqb k i then pid else P s k) /\ calls s' = calls s /\ coll (qu s') = coll (qu s) /\ (forall k g, fl s' k g = if Nat.eqb k i then false else fl s k g).
Proof.
  intros K KE QE PN NP E. destruct (new_tcb_core _ _ _ _ K PN NP E) as (K1 & D & EP & EG & A1 & A2 & A3 & A4 & A5 & A6 & A7 & A8 & A9). destruct (queued_nil _ QE) as [B1 B2].
  assert (Q1 : queued s' = []) by (unfold queued; rewrite A1, A2, B1, B2; reflexivity). split; [exact K1|]. split; [unfold kept in *; rewrite Q1, A5, A6, KE, QE; reflexivity|]. split; [exact Q1|]. split; [exact D|]. split; [exact EP|]. split; [exact A8|]. split; [exact A5|exact A9].
Qed.
(** nothing happened yet *)
Record blank (s : st) : Prop := { k_core : core s; k_kept : kept s; k_queue : queued s = []; k_calls : calls s = []; k_coll : coll (qu s) = [] }.
Lemma blank0 ch po li : blank (st0 ch po li).
Proof.
  assert (Z : forall k, P (st0 ch po li) k = 0) by (intros k; destruct k; reflexivity). constructor; try reflexivity. constructor.
  - apply tinv0.
  - intros i [].
  - constructor.
  - intros i j A. destruct (A (Z i)).
  - intros i A. destruct (A (Z i)).
  - intros g. exact I.
  - intros i A. destruct (A (Z i)).
  - reflexivity.
Qed.
Lemma blank_mild s s' : blank s -> mild s s' -> blank s' /\ tb s' = tb s.
Proof.
  intros [K KE Q C O] M. destruct (mild_core _ _ K M) as (K1 & Q1 & T1). split; [|exact T1]. constructor; [exact K1|exact (qsame_kept _ _ Q1 KE)|rewrite (qsame_queued _ _ Q1); exact Q| |rewrite (qs_coll _ _ Q1); exact O].
  destruct M as (_ & _ & M & _). congruence.
Qed.
Lemma new_tcb_blank s pid i s' : blank s -> pid <> 0 -> ~ traced s pid -> new_tcb s pid = Ok (i, s') -> blank s' /\ (forall p, traced s' p <-> traced s p \/ p = pid) /\ P s i = 0 /\ (forall k, P s' k = if Nat.eqb k i then pid else P s k) /\ (forall k g, fl s' k g = if Nat.eqb k i then false else fl s k g).
Proof.
  intros [K KE Q C O] PN NT E. assert (NP : forall k, P s k <> pid) by (intros k X; apply NT; split; eauto). destruct (new_tcb_kept _ _ _ _ K KE Q PN NP E) as (K1 & KE1 & Q1 & D & EP & C1 & O1 & F1).
  split; [constructor; congruence|]. split; [apply (traced_add s s' i pid); assumption|auto].
Qed.
(** tcbs are taken in order *)
Lemma find_pid_first l p i : find_pid l p = Some i -> forall k, (k < i)%nat -> nth k l 0 <> p.
Proof.
  revert i. induction l as [|x l IH]; cbn; intros i E k H; [discriminate|]. destruct (N.eqb_spec x p) as [->|N]; [inversion E; lia|]. destruct (find_pid l p) as [j|]; [|discriminate]. inversion E; subst i. destruct k; [exact N|]. apply (IH j eq_refl). lia.
Qed.
Lemma alloctcb_first t pid t' i : tinv t -> alloctcb t pid = Ok (t', i) -> forall k, (k < i)%nat -> pidof t k <> 0.
Proof.
  intros T E k H. unfold alloctcb in E. destruct (if nprocs t =? _ then _ else _) as [t1| |] eqn:E1; cbn [rbind] in E; try discriminate.
  assert (PO : forall k, pidof t1 k = pidof t k) by (destruct (nprocs t =? _); [pose proof (expand_ok t T) as X; rewrite E1 in X; apply X|inversion E1; reflexivity]).
  destruct (find_pid (pids t1) 0) as [j|] eqn:F; [|discriminate]. inversion E; subst j t'. rewrite <- PO. exact (find_pid_first _ _ _ F k H).
Qed.
Lemma alloc_pids_blank ps : forall s s' used, blank s -> (forall k, P s k = nth k used 0) -> ~ In 0 used -> NoDup (used ++ ps) -> ~ In 0 ps -> (forall k g, fl s k g = false) -> alloc_pids s ps = Ok s' ->
  blank s' /\ (forall k, P s' k = nth k (used ++ ps) 0) /\ (forall k g, fl s' k g = false).
Proof.
  induction ps as [|p ps IH]; intros s s' used B PU NU ND NZ FL E; cbn [alloc_pids] in E; [inversion E; subst; rewrite app_nil_r; auto|].
  apply rbind_ok in E as ([i s1] & E1 & E). assert (NT : ~ traced s p).
  { intros (PN & k & X). rewrite PU in X. apply NoDup_remove_2 in ND. apply ND. apply in_app_iff. left. rewrite <- X. apply nth_In. destruct (Nat.lt_ge_cases k (length used)) as [L|L]; [exact L|]. rewrite nth_overflow in X by exact L. congruence. }
  assert (PN : p <> 0) by (intros ->; apply NZ; left; reflexivity). destruct (new_tcb_blank _ _ _ _ B PN NT E1) as (B1 & T1 & D & P1 & F1).
  assert (IU : i = length used).
  { unfold new_tcb in E1. apply rbind_ok in E1 as ([t j] & E1 & E2). inversion E2; subst j. pose proof (alloctcb_first _ _ _ _ (o_tab _ (k_core _ B)) E1) as FI. destruct (Nat.lt_trichotomy i (length used)) as [L|[L|L]]; [|exact L|].
    - exfalso. rewrite PU in D. apply NU. rewrite <- D. apply nth_In. exact L.
    - exfalso. apply (FI _ L). change (P s (length used) = 0). rewrite PU. apply nth_overflow. reflexivity. }
  rewrite (app_assoc used [p] ps : used ++ p :: ps = _) in *. apply (IH s1 s' (used ++ [p])); auto.
  - intros k. rewrite P1. subst i. destruct (Nat.eqb_spec k (length used)) as [->|N]; [rewrite app_nth2, Nat.sub_diag by lia; reflexivity|]. rewrite PU. destruct (Nat.lt_ge_cases k (length used)) as [L|L]; [rewrite app_nth1 by exact L; reflexivity|]. rewrite !nth_overflow; [reflexivity|rewrite app_length; cbn; lia|exact L].
  - rewrite in_app_iff. intros [X|[X|[]]]; [contradiction|]. apply NZ. left. exact X.
  - intros X. apply NZ. right. exact X.
  - intros k g. rewrite F1. destruct (Nat.eqb k i); auto.
Qed.
(** what is attached to besides *)
Definition grown (s s' : st) (tids : list N) : Prop :=
  (forall k, P s k <> 0 -> P s' k = P s k /\ fl s' k ATTACHED = fl s k ATTACHED) /\
  (forall k, P s k = 0 -> P s' k <> 0 -> fl s' k ATTACHED = true /\ In (P s' k) tids) /\
  (forall p, In p tids -> exists k, P s k = 0 /\ P s' k = p).
Lemma attached_flag c s i fs k : fl (attached c s i fs) k ATTACHED = (Nat.eqb k i || fl s k ATTACHED).
Proof. unfold attached. cbn. rewrite fold_setf_fl. cbn. destruct (Nat.eqb k i); cbn; [apply orb_true_r|reflexivity]. Qed.
Lemma attach_tids_blank c fs tids : ~ In INSYSCALL fs -> forall s s', blank s -> NoDup tids -> ~ In 0 tids -> (forall p, In p tids -> ~ traced s p) ->
  fold_left (fun rs tid => rlet s := rs in rlet (j, s) := new_tcb s tid in Ok (attached c s j fs)) tids (Ok s) = Ok s' -> blank s' /\ grown s s' tids.
Proof.
  intros NI. induction tids as [|p ps IH]; intros s s' B ND NZ NT E; cbn [fold_left] in E; [inversion E; subst; split; [exact B|]; split; [auto|]; split; [intros k A B0; contradiction|intros p []]|].
  cbn [rbind] in E. destruct (new_tcb s p) as [[i s1]| |] eqn:E1; cbn [rbind] in E.
  - inversion ND as [|x y N1 N2]; subst x y. assert (PN : p <> 0) by (intros ->; apply NZ; left; reflexivity). destruct (new_tcb_blank _ _ _ _ B PN (NT p (or_introl eq_refl)) E1) as (B1 & T1 & D & P1 & F1).
    destruct (blank_mild _ _ B1 (attached_mild c s1 i fs NI)) as [B2 T2]. pose proof (attached_flag c s1 i fs) as AF. set (s2 := attached c s1 i fs) in *. clearbody s2.
    assert (P2 : forall k, P s2 k = if Nat.eqb k i then p else P s k) by (intros k; unfold P at 1; rewrite T2; apply P1).
    destruct (IH _ s' B2 N2) as (B3 & G1 & G2 & G3); [intros X; apply NZ; right; exact X| |exact E|].
    + intros q Hq X. apply (traced_tb _ _ T2) in X. apply T1 in X as [X| ->]; [exact (NT q (or_intror Hq) X)|contradiction].
    + split; [exact B3|]. split; [|split].
      * intros k Hk. assert (NE : Nat.eqb k i = false) by (apply Nat.eqb_neq; congruence). destruct (G1 k) as [X1 X2]; [rewrite P2, NE; exact Hk|]. rewrite X1, X2, P2, AF, F1, NE. auto.
      * intros k Hk Hk'. destruct (Nat.eqb_spec k i) as [->|NE].
        -- destruct (G1 i) as [X1 X2]; [rewrite P2, Nat.eqb_refl; exact PN|]. rewrite X1, X2, P2, AF, Nat.eqb_refl. split; [reflexivity|left; reflexivity].
        -- apply Nat.eqb_neq in NE. destruct (G2 k) as [X1 X2]; [rewrite P2, NE; exact Hk|exact Hk'|]. split; [exact X1|right; exact X2].
      * intros q [<-|Hq].
        -- exists i. split; [exact D|]. destruct (G1 i) as [X1 _]; [rewrite P2, Nat.eqb_refl; exact PN|]. rewrite X1, P2, Nat.eqb_refl. reflexivity.
        -- destruct (G3 q Hq) as (k & X1 & X2). exists k. split; [|exact X2]. rewrite P2 in X1. destruct (Nat.eqb k i); [congruence|exact X1].
  - exfalso. clear -E. revert E. induction ps; cbn; [discriminate|exact IHps].
  - exfalso. clear -E. revert E. induction ps; cbn; [discriminate|exact IHps].
Qed.
Lemma droptcb_any c s i s' : core s -> droptcb c s i = Ok s' -> core s' /\ (forall k, P s' k = if Nat.eqb k i then 0 else P s k) /\ calls s' = calls s /\ coll (qu s') = coll (qu s) /\ disp (qu s') = disp (qu s).
Proof.
  intros K. unfold droptcb. destruct (N.eqb_spec (P s i) 0) as [Z|Z].
  - intros E. inv_ok E. split; [exact K|]. split; [|auto]. intros k. destruct (Nat.eqb_spec k i); congruence.
  - intros E. apply rbind_ok in E as (s1 & E1 & E). inv_ok E. assert (L : logonly s s1) by (eapply pr_only; [|exact E1]; intros l l'; apply drop_gk).
    destruct L as [[G1 G2] L]. set (l1 := lg s1) in *. clearbody l1. subst s1. cbn [with_lg tb lg fl sname dec qu dl child popen intr rfail exitc limit reqs calls] in *.
    destruct (drop_slot_ok (tb s) i (o_tab _ K)) as [T' P']. match goal with |- core ?x /\ _ => set (s' := x) end.
    assert (EP : forall k, P s' k = if Nat.eqb k i then 0 else P s k) by exact P'.
    destruct K as [o_tab0 o_pend0 o_nodup0 o_gens0 o_gen0 o_alt0 o_in0 o_fresh0]. split; [|split; [exact EP|auto]].
    constructor; cbn -[Nat.even of]; auto.
    + intros k Hk. rewrite EP. apply filter_In in Hk as [H1 H2]. destruct (Nat.eqb k i); [discriminate|]. auto.
    + apply NoDup_filter. exact o_nodup0.
    + intros k j. rewrite !EP, G1. destruct (Nat.eqb k i), (Nat.eqb j i); try contradiction. auto.
    + intros k. rewrite EP, G1, G2. destruct (Nat.eqb k i); [contradiction|]. auto.
    + intros k. rewrite EP, G1. destruct (Nat.eqb k i); [intros []; reflexivity|]. apply o_in0.
    + rewrite G2. auto.
Qed.
Lemma drop_blank c s i s' : blank s -> P s i <> 0 -> droptcb c s i = Ok s' -> blank s' /\ (forall p, traced s' p <-> traced s p /\ p <> P s i) /\ (forall k, P s' k = if Nat.eqb k i then 0 else P s k).
Proof.
  intros [K KE Q C O] Pi E. destruct (queued_nil _ Q) as [B1 B2]. destruct (droptcb_core _ _ _ _ K E) as (K1 & Q1 & P1 & _); [rewrite B1; auto|]. destruct (droptcb_any _ _ _ _ K E) as (_ & _ & C1 & _).
  split; [constructor; [exact K1|exact (qsame_kept _ _ Q1 KE)|rewrite (qsame_queued _ _ Q1); exact Q|congruence|rewrite (qs_coll _ _ Q1); exact O]|]. split; [|exact P1]. apply traced_drop; [exact (o_tab _ K)|exact Pi|exact P1].
Qed.
(** the processes that are to be traced, once those of [is] that are not attached to were tried *)
Definition chosen (s : st) (is : list nat) (ans : nat -> bool * list N) (p : N) : Prop :=
  p <> 0 /\ exists k, P s k <> 0 /\
  ((P s k = p /\ (fl s k ATTACHED = true \/ ~ In k is \/ fst (ans k) = true)) \/ (fl s k ATTACHED = false /\ In k is /\ fst (ans k) = true /\ In p (snd (ans k)))).
Lemma attach_from_blank c ans is : forall s s', blank s -> NoDup is -> (forall i, In i is -> NoDup (snd (ans i)) /\ ~ In 0 (snd (ans i))) ->
  (forall i t, In i is -> In t (snd (ans i)) -> ~ traced s t) -> (forall i j t, In t (snd (ans i)) -> In t (snd (ans j)) -> i = j) ->
  attach_from c s is ans = Ok s' -> blank s' /\ (forall p, traced s' p <-> chosen s is ans p).
Proof.
  induction is as [|i is IH]; intros s s' B ND OK NT ON E; cbn [attach_from] in E.
  { inversion E; subst; split; [exact B|]. intros p. split.
    - intros (A & k & X). split; [exact A|]. exists k. split; [congruence|]. left. auto.
    - intros (A & k & X & [[Y _]|(_ & [] & _)]). split; eauto. }
  apply rbind_ok in E as (s1 & E1 & E). inversion ND as [|x y N1 N2]; subst x y.
  destruct ((P s i =? 0) || fl s i ATTACHED) eqn:SK.
  { inversion E1; subst s1. destruct (IH s s' B N2) as (B1 & T1); [intros j Hj; apply OK; right; exact Hj|intros j t Hj; apply NT; right; exact Hj|exact ON|exact E|].
    split; [exact B1|]. intros p. rewrite T1. apply orb_true_iff in SK. rewrite N.eqb_eq in SK. unfold chosen. cbn [In]. split; intros (A & k & X & Y); (split; [exact A|]); exists k; (split; [exact X|]).
    - destruct (Nat.eq_dec k i) as [->|NE]; [destruct SK as [SK|SK]; [contradiction|]; destruct Y as [[Y _]|(Y & _)]; [left; auto|congruence]|].
      destruct Y as [[Y Z]|(Y1 & Y2 & Y3)]; [left; split; [exact Y|]; destruct Z as [Z|[Z|Z]]; auto; right; left; intros [W|W]; congruence|right; auto].
    - destruct (Nat.eq_dec k i) as [->|NE]; [destruct SK as [SK|SK]; [contradiction|]; destruct Y as [[Y _]|(Y & _)]; [left; auto|congruence]|].
      destruct Y as [[Y Z]|(Y1 & [Y2|Y2] & Y3)]; [left; split; [exact Y|]; destruct Z as [Z|[Z|Z]]; [auto|right; left; intros V; apply Z; right; exact V|auto]|congruence|right; auto]. }
  apply orb_false_iff in SK as [SK1 SK2]. apply N.eqb_neq in SK1. unfold attach_tcb in E1. set (fs := GRABBED :: (if c_seize c then [] else [IGNORE_ONE_SIGSTOP])) in *.
  assert (NI : ~ In INSYSCALL fs) by (unfold fs; destruct (c_seize c); intros [|X]; try discriminate; [destruct X|destruct X as [|[]]; discriminate]).
  destruct (fst (ans i)) eqn:AOK; cbn [negb] in E1.
  - cbv zeta in E1. destruct (blank_mild _ _ B (attached_mild c s i fs NI)) as [B1 T1]. pose proof (attached_flag c s i fs) as AF. destruct (OK i (or_introl eq_refl)) as [O1 O2]. set (s0 := attached c s i fs) in *. clearbody s0.
    assert (P0 : forall k, P s0 k = P s k) by (intros k; unfold P; rewrite T1; reflexivity).
    destruct (attach_tids_blank c fs (snd (ans i)) NI _ s1 B1 O1 O2) as (B2 & G1 & G2 & G3); [intros p Hp X; apply (traced_tb _ _ T1) in X; exact (NT i p (or_introl eq_refl) Hp X)|exact E1|].
    assert (T2 : forall p, traced s1 p -> traced s p \/ In p (snd (ans i))).
    { intros p (A & k & X). destruct (N.eq_dec (P s k) 0) as [Z|Z]; [right; destruct (G2 k) as [_ Y]; [rewrite P0; exact Z|congruence|]; rewrite <- X; exact Y|]. left. split; [exact A|]. exists k. destruct (G1 k) as [Y _]; [rewrite P0; exact Z|]. rewrite <- P0, <- Y. exact X. }
    destruct (IH s1 s' B2 N2) as (B3 & T3); [intros j Hj; apply OK; right; exact Hj| |exact ON|exact E|].
    { intros j t Hj Ht X. apply T2 in X as [X|X]; [exact (NT j t (or_intror Hj) Ht X)|]. assert (i = j) as <- by (eapply ON; eassumption). contradiction. }
    split; [exact B3|]. intros p. rewrite T3. unfold chosen. cbn [In]. split; intros (A & k & X & Y); (split; [exact A|]).
    + destruct (N.eq_dec (P s k) 0) as [Z|Z].
      * destruct (G2 k) as [Y1 Y2]; [rewrite P0; exact Z|exact X|]. exists i. split; [exact SK1|]. right. split; [exact SK2|]. split; [auto|]. split; [exact AOK|]. destruct Y as [[Y _]|(Y & _)]; [congruence|]. congruence.
      * destruct (G1 k) as [Y1 Y2]; [rewrite P0; exact Z|]. rewrite P0 in Y1. rewrite AF in Y2. exists k. split; [exact Z|]. destruct (Nat.eqb_spec k i) as [->|NE]; cbn in Y2.
        -- left. split; [destruct Y as [[Y _]|(Y & _)]; congruence|auto].
        -- destruct Y as [[Y W]|(Y & W1 & W2)]; [left; split; [congruence|]; rewrite <- Y2; destruct W as [W|[W|W]]; auto; right; left; intros [V|V]; congruence|right; rewrite <- Y2; auto].
    + destruct (G1 k) as [Y1 Y2]; [rewrite P0; exact X|]. rewrite P0 in Y1. rewrite AF in Y2. destruct (Nat.eqb_spec k i) as [->|NE]; cbn in Y2.
      * destruct Y as [[Y W]|(Y & W1 & W2 & W3)].
        -- exists i. split; [congruence|]. left. split; [congruence|auto].
        -- destruct (G3 p W3) as (j & V1 & V2). exists j. split; [congruence|]. left. split; [exact V2|]. left. destruct (G2 j V1) as [V3 _]; [congruence|exact V3].
      * exists k. split; [congruence|]. destruct Y as [[Y W]|(Y & [W1|W1] & W2)]; [left; split; [congruence|]; rewrite Y2; destruct W as [W|[W|W]]; [auto|right; left; intros V; apply W; right; exact V|auto]|congruence|right; rewrite Y2; auto].
  - destruct (drop_blank _ _ _ _ B SK1 E1) as (B1 & T1 & P1). assert (FL : forall k, k <> i -> fl s1 k ATTACHED = fl s k ATTACHED).
    { intros k Hk. destruct B as [K KE Q C O]. destruct (queued_nil _ Q) as [X _]. destruct (droptcb_core _ _ _ _ K E1) as (_ & _ & _ & F); [rewrite X; auto|]. apply F. exact Hk. }
    destruct (IH s1 s' B1 N2) as (B3 & T3); [intros j Hj; apply OK; right; exact Hj| |exact ON|exact E|].
    { intros j t Hj Ht X. apply T1 in X as [X _]. exact (NT j t (or_intror Hj) Ht X). }
    split; [exact B3|]. intros p. rewrite T3. unfold chosen. cbn [In]. split; intros (A & k & X & Y); (split; [exact A|]); exists k.
    + rewrite P1 in X, Y. destruct (Nat.eq_dec k i) as [EQ|NE]; [rewrite EQ, Nat.eqb_refl in X; congruence|]. apply Nat.eqb_neq in NE as NE'. rewrite NE' in X, Y. split; [exact X|]. rewrite FL in Y by exact NE. destruct Y as [[Y W]|(Y & W1 & W2)]; [left; split; [congruence|]; destruct W as [W|[W|W]]; auto; right; left; intros [V|V]; congruence|right; auto].
    + rewrite P1. destruct (Nat.eq_dec k i) as [EQ|NE]; [exfalso; subst k; destruct Y as [[Y [W|[W|W]]]|(Y & W1 & W2 & W3)]; [congruence|apply W; left; reflexivity|congruence|congruence]|]. apply Nat.eqb_neq in NE as NE'. rewrite NE'. split; [exact X|]. rewrite FL by exact NE.
      destruct Y as [[Y W]|(Y & [W1|W1] & W2)]; [left; split; [congruence|]; destruct W as [W|[W|W]]; [auto|right; left; intros V; apply W; right; exact V|auto]|congruence|right; auto].
Qed.
Lemma startup_core c ch po li ps cmd ans s : distinct_targets ps cmd ans -> startup c (st0 ch po li) ps cmd ans = Ok s -> blank s /\ (forall p, traced s p <-> targets ps cmd ans p).
Proof.
  intros [D1 D2 D3 D4 D5 D6] E. unfold startup in E. apply rbind_ok in E as (s1 & E1 & E). apply rbind_ok in E as (s2 & E2 & E).
  destruct (alloc_pids_blank ps (st0 ch po li) s1 [] (blank0 ch po li)) as (B1 & P1 & F1); [intros k; destruct k; reflexivity|intros []|exact D1|exact D2|reflexivity|exact E1|]. cbn [app] in P1.
  set (n := length ps).
  assert (X : blank s2 /\ (forall k, P s2 k = match cmd with Some (p, _) => if Nat.eqb k n then p else nth k ps 0 | None => nth k ps 0 end) /\ (forall k, fl s2 k ATTACHED = match cmd with Some _ => Nat.eqb k n | None => false end)).
  { destruct cmd as [[pid sec]|]; [|inversion E2; subst s2; auto]. unfold startup_child in E2. cbv zeta in E2. apply rbind_ok in E2 as ([i s3] & E2 & E3). destruct (D3 pid sec eq_refl) as [Z1 Z2].
    destruct (blank_mild s1 (set_child s1 pid) B1) as [B2 T2]; [apply mild_glob|].
    assert (NT2 : ~ traced (set_child s1 pid) pid).
    { intros (_ & k & X). change (P s1 k = pid) in X. rewrite P1 in X. apply Z2. rewrite <- X. apply nth_In. destruct (Nat.lt_ge_cases k (length ps)) as [L|L]; [exact L|]. rewrite nth_overflow in X by exact L. congruence. }
    destruct (new_tcb_blank _ _ _ _ B2 Z1 NT2 E2) as (B3 & T3 & DD & P3 & F3).
    assert (IN : i = n).
    { pose proof E2 as E4. unfold new_tcb in E4. apply rbind_ok in E4 as ([t j] & E4 & E5). inversion E5; subst j. pose proof (alloctcb_first _ _ _ _ (o_tab _ (k_core _ B2)) E4) as FI. change (P s1 i = 0) in DD. rewrite P1 in DD. destruct (Nat.lt_trichotomy i n) as [L|[L|L]]; [|exact L|].
      - exfalso. apply D2. rewrite <- DD. apply nth_In. exact L.
      - exfalso. apply (FI _ L). change (P s1 n = 0). rewrite P1. apply nth_overflow. reflexivity. }
    set (fs := SKIP_DETACH_ON_FIRST_EXEC :: HIDE_LOG :: (if c_seize c then [] else [IGNORE_ONE_SIGSTOP])) in *.
    assert (NI : ~ In INSYSCALL fs) by (unfold fs; destruct (c_seize c); intros [|[|X]]; try discriminate; [destruct X|destruct X as [|[]]; discriminate]).
    pose proof (attached_mild c s3 i fs NI) as M. pose proof (attached_flag c s3 i fs) as AF. set (s4 := attached c s3 i fs) in *. clearbody s4.
    assert (M5 : mild s3 s2 /\ forall k, fl s2 k ATTACHED = fl s4 k ATTACHED).
    { inversion E3; subst s2. destruct sec; [|auto]. split; [eapply mild_trans; [exact M|apply mild_setf; discriminate]|]. intros k. cbn. rewrite andb_false_r. reflexivity. }
    destruct M5 as [M5 F5]. destruct (blank_mild _ _ B3 M5) as [B5 T5]. split; [exact B5|]. split.
    - intros k. unfold P. rewrite T5. change (pidof (tb s3) k) with (P s3 k). rewrite P3, IN. destruct (Nat.eqb k n); [reflexivity|]. apply P1.
    - intros k. rewrite F5, AF, F3, IN. destruct (Nat.eqb k n); cbn; [reflexivity|]. apply F1. }
  destruct X as (B2 & P2 & F2). unfold startup_attach in E.
  assert (LT : forall k, P s2 k <> 0 -> (k < length (pids (tb s2)))%nat) by (intros k Hk; destruct (Nat.lt_ge_cases k (length (pids (tb s2)))) as [L|L]; [exact L|]; exfalso; apply Hk; unfold P, pidof; apply nth_overflow; exact L).
  assert (IN2 : forall k, P s2 k <> 0 -> (exists b, cmd = Some (P s2 k, b) /\ k = n) \/ (nth_error ps k = Some (P s2 k) /\ (k < n)%nat)).
  { intros k Hk. rewrite P2 in *. destruct cmd as [[pid sec]|].
    - destruct (Nat.eqb_spec k n) as [EQ|NE]; [left; exists sec; split; [reflexivity|exact EQ]|]. right. assert (L : (k < n)%nat) by (destruct (Nat.lt_ge_cases k n) as [L|L]; [exact L|]; rewrite nth_overflow in Hk by exact L; congruence). split; [apply nth_error_nth'; exact L|exact L].
    - right. assert (L : (k < n)%nat) by (destruct (Nat.lt_ge_cases k n) as [L|L]; [exact L|]; rewrite nth_overflow in Hk by exact L; congruence). split; [apply nth_error_nth'; exact L|exact L]. }
  destruct (fun A B C => attach_from_blank c ans _ s2 s B2 (seq_NoDup _ _) A B C E) as [B3 T3].
  - intros i _. split; [apply D4|]. intros X. destruct (D5 i 0 X) as [Y _]. congruence.
  - intros i t _ Ht (A & k & X). destruct (D5 i t Ht) as (N1 & N2 & N3). destruct (IN2 k) as [(b & Y & _)|[Y _]]; [congruence|rewrite X in Y; destruct (N3 b Y)|]. rewrite X in Y. apply N2. eapply nth_error_In; exact Y.
  - exact D6.
  - split; [exact B3|]. intros p. rewrite T3. unfold chosen, targets. split.
    + intros (A & k & X & Y). destruct (IN2 k X) as [(b & Z & ->)|[Z L]].
      * left. rewrite F2, Z in Y. rewrite Nat.eqb_refl in Y. destruct Y as [[Y _]|(Y & _)]; [|discriminate]. exists b. congruence.
      * right. exists k, (P s2 k). split; [exact Z|]. destruct Y as [[Y W]|(_ & _ & Y & W)]; [|auto]. split; [|left; congruence]. assert (F0 : fl s2 k ATTACHED = false) by (rewrite F2; destruct cmd; [apply Nat.eqb_neq; lia|reflexivity]). destruct W as [W|[W|W]]; [congruence| |exact W]. exfalso. apply W. apply in_seq. specialize (LT k X). lia.
    + intros [(b & X)|(k & t & X & Y & Z)].
      * destruct (D3 p b X) as [N1 _]. split; [exact N1|]. exists n. rewrite P2, F2, X, Nat.eqb_refl. split; [exact N1|]. left. auto.
      * assert (L : (k < n)%nat) by (apply nth_error_Some; congruence). assert (PK : P s2 k = t) by (rewrite P2; apply nth_error_nth with (d := 0) in X; destruct cmd as [[? ?]|]; [|exact X]; destruct (Nat.eqb_spec k n); [lia|exact X]).
        assert (TZ : t <> 0) by (intros ->; apply D2; eapply nth_error_In; exact X). split; [destruct Z as [->|Z]; [exact TZ|]; intros ->; destruct (D5 k 0 Z) as [Q _]; congruence|]. exists k. rewrite PK. split; [exact TZ|]. destruct Z as [->|Z]; [left; auto|]. right.
        split; [rewrite F2; destruct cmd; [apply Nat.eqb_neq; lia|reflexivity]|]. split; [apply in_seq; specialize (LT k); rewrite PK in LT; specialize (LT TZ); lia|auto].
Qed.
(** ** End *)
Lemma cleanup_all_core c as_ is : forall s n m s', core s -> cleanup_all c s is as_ n = Ok (m, s') -> core s' /\ (forall p, traced s' p -> traced s p) /\ calls s' = calls s.
Proof.
  induction is as [|i is IH]; intros s n m s' K E; cbn [cleanup_all] in E; [inversion E; subst; auto|]. destruct (P s i =? 0) eqn:Z; [eapply IH; eassumption|].
  pose proof (interrupt_mild c s i (as_ i)) as M. destruct (detach_or_interrupt_or_stop c s i (as_ i)) as [w s1]. cbn [snd] in M. destruct (mild_core _ _ K M) as (K1 & _ & T1). assert (C1 : calls s1 = calls s) by apply M. destruct w.
  - destruct (IH _ _ _ _ K1 E) as (A & B & C). split; [exact A|]. split; [intros p Hp; apply (traced_tb _ _ T1); auto|congruence].
  - apply rbind_ok in E as (s2 & E1 & E). destruct (droptcb_any _ _ _ _ K1 E1) as (K2 & P2 & C2 & _). destruct (IH _ _ _ _ K2 E) as (A & B & C). split; [exact A|]. split; [|congruence]. intros p Hp. apply (traced_tb _ _ T1). destruct (B p Hp) as (X & k & Y). split; [exact X|]. exists k. rewrite P2 in Y. destruct (Nat.eqb k i); congruence.
Qed.
Lemma cleanup_wait_core c ws : forall s n s', core s -> cleanup_wait c s n ws = Ok s' -> core s' /\ (forall p, traced s' p -> traced s p) /\ calls s' = calls s.
Proof.
  induction ws as [|w ws IH]; intros s n s' K E; cbn [cleanup_wait] in E; [destruct n; inversion E; subst; auto|]. destruct n as [|n]; [inversion E; subst; auto|]. destruct w as [[]|pid status err].
  - eapply IH; eassumption.
  - inversion E; subst; auto.
  - destruct (pid =? popen s).
    + assert (M : mild s (if WIFSTOPPED status then s else set_popen s 0)) by (destruct (WIFSTOPPED status); [apply mild_refl|apply mild_glob]). destruct (mild_core _ _ K M) as (K1 & _ & T1). destruct (IH _ _ _ K1 E) as (A & B & C). split; [exact A|]. split; [intros p Hp; apply (traced_tb _ _ T1); auto|]. rewrite C. apply M.
    + pose proof (pid2tcb_inv (tb s) (Z.of_N pid) (o_tab _ K)) as TI. pose proof (pid2tcb_same (tb s) (Z.of_N pid)) as [TS TN]. destruct (pid2tcb (tb s) (Z.of_N pid)) as [t found]. cbn [fst snd] in *.
      pose proof (core_cache s t K TS TI) as K1. assert (PS : forall k, P (with_tb s t) k = P s k) by (intros k; unfold P, pidof; cbn; rewrite TS; reflexivity). destruct found as [i|].
      * apply rbind_ok in E as ([d s1] & E1 & E). pose proof (detach_stopped_mild _ _ _ _ _ _ _ E1) as M. destruct (mild_core _ _ K1 M) as (K2 & _ & T2). assert (C2 : calls s1 = calls s) by apply M. destruct d.
        -- apply rbind_ok in E as (s2 & E2 & E). destruct (droptcb_any _ _ _ _ K2 E2) as (K3 & P3 & C3 & _). destruct (IH _ _ _ K3 E) as (A & B & C). split; [exact A|]. split; [|congruence]. intros p Hp. apply (traced_same _ _ PS). apply (traced_tb _ _ T2). destruct (B p Hp) as (X & k & Y). split; [exact X|]. exists k. rewrite P3 in Y. destruct (Nat.eqb k i); congruence.
        -- destruct (IH _ _ _ K2 E) as (A & B & C). split; [exact A|]. split; [|congruence]. intros p Hp. apply (traced_same _ _ PS). apply (traced_tb _ _ T2). auto.
      * destruct (IH _ _ _ K1 E) as (A & B & C). split; [exact A|]. split; [|exact C]. intros p Hp. apply (traced_same _ _ PS). auto.
Qed.
Lemma cleanup_core c s ek as_ ws s' : core s -> cleanup c s ek as_ ws = Ok s' -> core s' /\ (forall p, traced s' p -> traced s p) /\ calls s' = calls s.
Proof.
  intros K E. unfold cleanup in E. destruct ek; [inversion E; subst; auto|]. apply rbind_ok in E as ([n s1] & E1 & E). destruct (cleanup_all_core _ _ _ _ _ _ _ K E1) as (A & B & C). destruct (cleanup_wait_core _ _ _ _ _ A E) as (A2 & B2 & C2). split; [exact A2|]. split; [auto|congruence].
Qed.
