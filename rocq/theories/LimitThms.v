(** C92: --syscall-limit. *)
From Verif Require Import Base TimeModel WaitModel TcbModel LogModel TcbProofs LogProofs LoopModel LoopSpec LoopFrame LoopCore LoopQueue LoopReach LoopEx LimitSpec LimitProofs.
Local Open Scope N_scope.

Lemma alloc_pids_lim ps : forall s s', alloc_pids s ps = Ok s' -> limit s' = limit s.
Proof. induction ps as [|p r IH]; intros s s' E; cbn [alloc_pids] in E; [lk; reflexivity|]. apply rbind_ok in E as ([i s1] & E1 & E). apply new_tcb_lim in E1. apply IH in E. congruence. Qed.
Lemma startup_child_lim c s pid sec s' : startup_child c s pid sec = Ok s' -> limit s' = limit s.
Proof. unfold startup_child. intros E. apply rbind_ok in E as ([i s1] & E1 & E). apply new_tcb_lim in E1. destruct sec; inversion E; subst; cbn [setf with_fl limit]; rewrite attached_lim; exact E1. Qed.
Lemma attach_tids_lim c fs tids : forall rs s', fold_left (fun rs tid => rlet s := rs in rlet (j, s) := new_tcb s tid in Ok (attached c s j fs)) tids rs = Ok s' -> exists s, rs = Ok s /\ limit s' = limit s.
Proof.
  induction tids as [|t r IH]; intros rs s' E; cbn [fold_left] in E; [exists s'; auto|]. apply IH in E as (s1 & E1 & E). apply rbind_ok in E1 as (s2 & -> & E1). apply rbind_ok in E1 as ([j s3] & E2 & E1).
  apply new_tcb_lim in E2. inversion E1; subst. rewrite attached_lim in E. exists s2. split; [reflexivity|congruence].
Qed.
Lemma attach_from_lim c ans is : forall s s', attach_from c s is ans = Ok s' -> limit s' = limit s.
Proof.
  induction is as [|i r IH]; intros s s' E; cbn [attach_from] in E; [lk; reflexivity|]. apply rbind_ok in E as (s1 & E1 & E). apply IH in E. rewrite E. clear E. destruct (_ || _); [lk; reflexivity|].
  unfold attach_tcb in E1. destruct (negb _); [apply droptcb_lim in E1; exact E1|]. apply attach_tids_lim in E1 as (s2 & E2 & E1). inversion E2; subst. rewrite attached_lim in E1. exact E1.
Qed.
Lemma startup_lim c ch po li ps cmd ans s : startup c (st0 ch po li) ps cmd ans = Ok s -> limit s = li.
Proof.
  unfold startup, startup_attach. intros E. apply rbind_ok in E as (s1 & E1 & E). apply alloc_pids_lim in E1. apply rbind_ok in E as (s2 & E2 & E). apply attach_from_lim in E.
  destruct cmd as [[p b]|]; [apply startup_child_lim in E2|inversion E2; subst]; cbn [st0 limit] in E1; congruence.
Qed.
Lemma captured_nonneg c l : forall s, (0 <= captured c s l)%Z.
Proof. induction l as [|ne r IH]; intros s; cbn [captured]; [lia|]. destruct (captures c s ne), (turn c s ne) as [[[] s1]| |]; try specialize (IH s1); lia. Qed.
Lemma turns_lim c l : forall s b s', (0 <= limit s)%Z -> turns c s l = Ok (b, s') -> limit s' = (limit s - captured c s l)%Z /\ (0 <= limit s')%Z.
Proof.
  induction l as [|ne r IH]; intros s b s' P0 E; cbn [turns captured] in *; [inversion E; subst; lia|]. apply rbind_ok in E as ([go s1] & E1 & E). pose proof (turn_lim _ _ _ _ _ E1) as L. rewrite E1.
  assert (P1 : limit s1 = (limit s - (if captures c s ne then 1 else 0))%Z /\ (0 <= limit s1)%Z).
  { unfold minus in L. destruct (limit s =? -1)%Z eqn:Q; [apply Z.eqb_eq in Q; lia|]. split; [exact L|]. destruct (Z.eq_dec (limit s) 0) as [Z0|NZ]; [|destruct (captures c s ne); lia].
    rewrite (proj1 (stop_at_zero c s ne Z0)) in L. lia. }
  destruct P1 as [P1 P2]. destruct go; [|inversion E; subst; lia]. destruct (IH _ _ _ P2 E) as [I1 I2]. lia.
Qed.
Lemma turns_unlimited c l : forall s b s', limit s = (-1)%Z -> turns c s l = Ok (b, s') -> limit s' = (-1)%Z.
Proof.
  induction l as [|ne r IH]; intros s b s' P0 E; cbn [turns] in *; [inversion E; subst; exact P0|]. apply rbind_ok in E as ([go s1] & E1 & E). apply turn_lim in E1. unfold minus in E1. rewrite P0 in E1. cbn in E1.
  destruct go; [|inversion E; subst; exact E1]. apply (IH _ _ _ E1 E).
Qed.

(** ** The events handled are those collected, which end nothing by themselves *)
Definition nb (s : st) : Prop := forall x, In x (coll (qu s)) -> te (snd x) <> TE_BREAK.
Lemma classify_nb c ign status siok msg wd clr : classify c ign status siok msg = (wd, clr) -> te wd <> TE_BREAK.
Proof. unfold classify. cbv zeta. repeat match goal with |- context [if ?b then _ else _] => destruct b end; intros E; inversion E; subst; discriminate. Qed.
Lemma allocate_coll c s pid st0 r s' : maybe_allocate_tcb c s pid st0 = Ok (r, s') -> coll (qu s') = coll (qu s).
Proof.
  unfold maybe_allocate_tcb. intros E. destruct (negb _); [destruct (_ && _); inversion E; reflexivity|]. destruct (c_follow c); [|inversion E; reflexivity]. apply rbind_ok in E as ([i s1] & E1 & E). inversion E; subst.
  assert (A : coll (qu s1) = coll (qu s)) by (unfold new_tcb in E1; apply rbind_ok in E1 as ([t j] & _ & E1); inversion E1; reflexivity). destruct (c_seize c); exact A.
Qed.
Lemma collect_nb c ws : forall s nh pos r s', nb s -> collect c s nh pos ws = Ok (r, s') -> nb s'.
Proof.
  induction ws as [|w rest IH]; intros s nh pos r s' H E; cbn [collect] in E; [inversion E; subst; exact H|]. destruct w as [errno|pid status siok msg].
  - destruct (errno =? EINTR); [inversion E; subst; exact H|]. destruct nh; [inversion E; subst; exact H|]. destruct (_ && _); inversion E; subst; exact H.
  - destruct (pid =? 0); [inversion E; subst; exact H|]. destruct (pid =? popen s); [destruct (WIFSTOPPED status); inversion E; subst; exact H|]. destruct (pid2tcb _ _) as [t found]. cbv zeta in E. apply rbind_ok in E as ([f s1] & E1 & E).
    assert (K : nb s1) by (destruct found; [inversion E1; subst; exact H|]; apply allocate_coll in E1; unfold nb; rewrite E1; exact H). clear E1. destruct f as [i|]; [|exact (IH _ _ _ _ _ K E)].
    destruct (classify _ _ _ _ _) as [wd clr] eqn:CL. apply classify_nb in CL. set (s2 := enqueue _ _ _ _) in E.
    assert (K2 : nb s2). { unfold nb, s2, enqueue. cbv zeta. cbn [with_qu qu]. intros x. destruct clr; destruct (existsb _ _); cbn [coll setf with_fl qu]; rewrite in_app_iff; (intros [X|[X|[]]]; [exact (K x X)|subst x; exact CL]). }
    clearbody s2. destruct (extra (qu s2)); [inversion E; subst; exact K2|]. exact (IH _ _ _ _ _ K2 E).
Qed.
Lemma event_exit_nb c s i oe gn w s' : event_exit c s i oe gn = Ok (w, s') -> coll (qu s') = coll (qu s) /\ exists wd g, w = Some wd /\ In (g, wd) (disp (qu s')).
Proof.
  unfold event_exit. intros E. apply rbind_ok in E as (s1 & E1 & E). assert (K : qu s1 = qu s).
  { destruct (fl s i STARTUP); [|inversion E1; reflexivity]. unfold startup_tcb in E1. cbv zeta in E1. destruct (_ && _); [discriminate E1|]. destruct (fl (setf s i STARTUP false) i GRABBED); inversion E1; reflexivity. }
  cbv zeta in E. inversion E; subst. cbn [with_qu qu coll disp]. rewrite K. split; [reflexivity|]. eexists _, _. split; [reflexivity|]. apply in_or_app. right. left. reflexivity.
Qed.
Lemma get_tcp_nb c s oe gn w s' : get_tcp c s oe gn = Ok (w, s') -> coll (qu s') = coll (qu s) /\ exists wd, w = Some wd /\ (te wd = TE_NEXT \/ exists g, In (g, wd) (disp (qu s'))).
Proof.
  unfold get_tcp. cbv zeta. destruct (pending (qu s)); intros E; [inversion E; subst; split; [reflexivity|]; eexists; split; [reflexivity|left; reflexivity]|].
  apply event_exit_nb in E as (A & wd & g & B & D). split; [exact A|]. exists wd. split; [exact B|right; exists g; exact D].
Qed.
Lemma next_event_nb c s n w s' : nb s -> next_event c s n = Ok (w, s') -> nb s' /\ forall wd, w = Some wd -> te wd = TE_NEXT \/ exists g, In (g, wd) (disp (qu s')).
Proof.
  intros H. unfold next_event. cbv zeta. set (s1 := if n_intr n =? 0 then s else _). assert (K : nb s1) by (unfold s1; destruct (_ =? _); exact H). clearbody s1. clear H. intros E.
  assert (G : forall s1 s', nb s1 -> get_tcp c s1 (n_opterr n) (n_gname n) = Ok (w, s') -> nb s' /\ forall wd, w = Some wd -> te wd = TE_NEXT \/ exists g, In (g, wd) (disp (qu s'))).
  { clear. intros s1 s' K E. apply get_tcp_nb in E as (A & wd & B & D). split; [unfold nb; rewrite A; exact K|]. intros wd' X. assert (wd' = wd) as -> by congruence. exact D. }
  destruct (negb _); [inversion E; subst; split; [exact K|discriminate]|]. destruct (limit s1 =? 0)%Z; [inversion E; subst; split; [exact K|discriminate]|].
  destruct (pending (qu s1)); [|exact (G _ _ K E)].
  destruct (extra (qu s1)) as [[i idx]|].
  { apply event_exit_nb in E as (A & wd & g & B & D). split; [unfold nb; rewrite A; exact K|]. intros wd' X. assert (wd' = wd) as -> by congruence. right. exists g. exact D. }
  destruct (_ && _); [inversion E; subst; split; [exact K|discriminate]|]. apply rbind_ok in E as ([stop s2] & E1 & E).
  assert (K2 : nb s2). { destruct (armed (dl s1)); [|inversion E1; subst; exact K]. apply rbind_ok in E1 as (s3 & E1 & E2). inversion E2; subst. destruct (n_timer n) as [[now es]|]; [|inversion E1; subst; exact K]. apply timer_mild in E1. unfold nb. destruct E1 as (_ & _ & _ & _ & ->). exact K. }
  destruct stop; [inversion E; subst; split; [exact K2|discriminate]|]. apply rbind_ok in E as ([r s3] & E3 & E). apply collect_nb in E3; [|exact K2]. destruct r; [exact (G _ _ E3 E)|inversion E; subst; split; [exact E3|discriminate]].
Qed.
Lemma turns_nb c l : forall s b s', core s -> kept s -> nb s -> fair c s l -> turns c s l = Ok (b, s') -> core s' /\ kept s' /\ nb s'.
Proof.
  induction l as [|ne l IH]; intros s b s' K KE NB F E; cbn [turns] in E; [inversion E; subst; auto|]. apply rbind_ok in E as ([go s1] & E1 & E). destruct F as (H & A & F).
  destruct (turn_core _ _ _ _ _ K KE H A E1) as (w & s0 & E0 & _ & _ & _ & _ & K1 & KE1 & Q & _). rewrite E1 in F.
  assert (N1 : nb s1) by (unfold nb; rewrite (qs_coll _ _ Q); apply (next_event_nb _ _ _ _ _ NB E0)). destruct go; [|inversion E; subst; auto]. eapply IH; eassumption.
Qed.
Lemma reached_nb c ps cmd s : reached c ps cmd s -> core s /\ kept s /\ nb s.
Proof.
  intros (ch & po & li & ans & s0 & l & b & D & E0 & F & E). destruct (startup_core _ _ _ _ _ _ _ _ D E0) as [B _]. eapply turns_nb; [exact (k_core _ B)|exact (k_kept _ B)| |exact F|exact E].
  intros x. rewrite (k_coll _ B). intros [].
Qed.

(** In every run of strace --syscall-limit=n, whatever the processes do and however their stops
    interleave, no more than n system calls are captured; what is left of the limit is n
    less their number. *)
Theorem C92_run c ch po (n : Z) ps cmd ans s l b s' : (0 < n)%Z -> startup c (st0 ch po n) ps cmd ans = Ok s -> turns c s l = Ok (b, s') ->
  (captured c s l <= n)%Z /\ limit s' = (n - captured c s l)%Z.
Proof. intros P E1 E. apply startup_lim in E1. destruct (turns_lim c l s b s') as [A B]; [lia|exact E|]. lia. Qed.
Print Assumptions C92_run.

(** Once n calls are captured, the next turn ends the loop.  It waits for nothing, handles no event
    that was collected before, writes nothing to the log and asks nothing of ptrace: what remains
    is to detach (C21, C28).  The fate of the command no longer determines the exit status of strace. *)
Theorem C92_stop c ch po (n : Z) ps cmd ans s l s' ne : (0 < n)%Z -> startup c (st0 ch po n) ps cmd ans = Ok s -> turns c s l = Ok (true, s') -> captured c s l = n ->
  exists s'', turn c s' ne = Ok (false, s'') /\ captures c s' ne = false /\
    tb s'' = tb s' /\ lg s'' = lg s' /\ reqs s'' = reqs s' /\ qu s'' = qu s' /\ (n_intr (fst ne) = 0 -> intr s' = 0 -> child s'' = 0).
Proof.
  intros P E1 E C. destruct (C92_run _ _ _ _ _ _ _ _ _ _ _ P E1 E) as [_ L]. assert (Z0 : limit s' = 0%Z) by lia. destruct (stop_at_zero c s' ne Z0) as (A & s'' & T & B1 & B2 & B3 & B4 & _ & B5).
  exists s''. auto 10.
Qed.
Print Assumptions C92_stop.


(** The limit ends nothing before: the loop ends when strace caught a signal, when no tracee is left,
    when a tracee could not be restarted although it exists (at once or after a delay), and otherwise
    only when nothing is left of the limit. *)
Theorem C92_ends c ps cmd s ne s' : reached c ps cmd s -> held s -> exec_alone c s ne -> turn c s ne = Ok (false, s') ->
  limit s = 0%Z \/ intr s' <> 0 \/ NP s' = 0 \/ rfail s' = true \/ (e_err (snd ne) <> 0 /\ e_err (snd ne) <> ESRCH).
Proof.
  intros R H A E. destruct (reached_nb _ _ _ _ R) as (K & KE & NB). destruct (turn_core _ _ _ _ _ K KE H A E) as (w & s1 & E1 & E2 & _ & KE1 & _). destruct (next_event_nb _ _ _ _ _ NB E1) as [NB1 W].
  destruct w as [wd|]; [|inversion E2; subst; apply next_event_none in E1; tauto]. apply dispatch_ends in E2. destruct E2 as [T|[T|T]]; [|tauto..].
  exfalso. destruct (W wd eq_refl) as [X|[g X]]; [congruence|]. apply (NB1 (g, wd)); [|exact T]. unfold kept in KE1. rewrite KE1. apply in_or_app. left. exact X.
Qed.
Print Assumptions C92_ends.

(** Without the option there is no limit. *)
Theorem C92_unlimited c ch po ps cmd ans s l b s' : startup c (st0 ch po (-1)) ps cmd ans = Ok s -> turns c s l = Ok (b, s') -> limit s' = (-1)%Z.
Proof. intros E1 E. apply startup_lim in E1. apply (turns_unlimited c l s b s' E1 E). Qed.
Print Assumptions C92_unlimited.

(** A run with a limit of 2: read is not captured while it lasts; write of process 6 is captured,
    then read is, and both stops of the next batch are left unhandled. *)
Definition lim_start (n : Z) : st := start_of (startup (cx true) (st0 0 0 n) [5] None (one 5)).
Definition lim_run : list (nenv * denv) := [tx [sys 5] (bs "read"); tx [new 6] []; tx [sys 6] (bs "write"); tx [sys 6] []; tx [sys 5] []].
Example C92_reached : let s := lim_start 2 in let s' := end_of (turns (cx true) s lim_run) in
  good (startup (cx true) (st0 0 0 2) [5] None (one 5)) = true /\ turns (cx true) s lim_run = Ok (true, s') /\ captured (cx true) s lim_run = 2%Z /\
  match turn (cx true) s' (tx [sys 5; sys 6] (bs "close")) with Ok (b, s'') => negb b && (length (coll (qu s'')) =? length (coll (qu s')))%nat | _ => false end = true.
Proof.
  cbv zeta. set (s := lim_start 2). set (r := turns (cx true) s lim_run). split; [vm_compute; reflexivity|]. split; [|split; vm_compute; reflexivity].
  assert (B : match r with Ok (b, _) => b | _ => false end = true) by (vm_compute; reflexivity). unfold end_of. destruct r as [[[] s1]| |]; try discriminate B; reflexivity.
Qed.

Example C92_ends_met : let s := ended (cx true) 5 lim_run in let ne := ({| n_intr := 2; n_timer := None; n_waits := []; n_opterr := 0; n_gname := None |}, dx []) in
  reached (cx true) [5] None s /\ held s /\ exec_alone (cx true) s ne /\ match turn (cx true) s ne with Ok (b, _) => b | _ => true end = false.
Proof. cbv zeta. split; [apply reached_run; [lia|vm_compute; reflexivity]|]. split; [exact I|]. split; [exact I|]. vm_compute. reflexivity. Qed.

(** A call that ends but whose result could not be got is shown and not counted: with a limit of 1
    the log has two calls that ended. *)
Definition unavailable (e : denv) : denv := {| e_scno := e_scno e; e_args := e_args e; e_name := e_name e; e_exec := e_exec e; e_traced := e_traced e; e_sig := e_sig e; e_delay := e_delay e; e_xdelay := e_xdelay e; e_text := e_text e; e_dec := e_dec e;
  x_res := -1; x_delay := x_delay e; x_err := x_err e; x_text := x_text e; x_ret := x_ret e; x_extra := x_extra e; e_sec := e_sec e; e_stopmsg := e_stopmsg e; e_err := e_err e; e_det := e_det e; e_waits := e_waits e; e_intr := e_intr e |}.
Definition lim_run2 : list (nenv * denv) := [tx [sys 5] (bs "read"); tx [new 6] []; tx [sys 6] (bs "write"); (nx [sys 6], unavailable (dx [])); tx [sys 5] []].
Definition returns (s : st) : nat := length (filter (fun x : item => match snd x with Ret _ => true | _ => false end) (files (lg s) Shared)).
Theorem C92_unavailable_refuted : let s := lim_start 1 in exists s', turns (cx true) s lim_run2 = Ok (true, s') /\ captured (cx true) s lim_run2 = 1%Z /\ returns s' = 2%nat.
Proof.
  cbv zeta. set (s := lim_start 1). set (r := turns (cx true) s lim_run2). exists (end_of r). split; [|split; vm_compute; reflexivity].
  assert (B : match r with Ok (b, _) => b | _ => false end = true) by (vm_compute; reflexivity). unfold end_of. destruct r as [[[] s1]| |]; try discriminate B; reflexivity.
Qed.
Print Assumptions C92_unavailable_refuted.
