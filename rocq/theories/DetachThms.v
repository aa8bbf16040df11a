(** Letting go of tracees: C28. *)
From Verif Require Import Base TimeModel WaitModel TcbModel TcbProofs LogModel LoopModel LoopSpec LoopFrame LoopCore LoopReach LoopReq LoopEx LoopThms DetachSpec DetachProofs.
Local Open Scope N_scope.

(** What is asked of a tracee when strace ends, in every state it can reach, for every tracee, in
    whatever order the tracees stop: first to be let go, or to stop; then, at each stop that is
    seen, to go on, with the signal the stop is about; at the last one, to be let go.
    Partial: no stop seen meanwhile is a PTRACE_EVENT stop (see C28_event_refuted). *)
Theorem C28_cleanup_partial c ps cmd s as_ ws s' i : reached c ps cmd s -> P s i <> 0 -> P s i <> popen s ->
  (forall st, In st (stops c (about (P s i) ws)) -> event_stop c st = false) -> cleanup c s false as_ ws = Ok s' ->
  to_gen (gen (lg s) i) (reqs s') = to_gen (gen (lg s) i) (reqs s) ++ before c s i (as_ i) ++
    if waits s i (as_ i) then map (at_stop c) (stops c (about (P s i) ws)) else [].
Proof. intros R. apply cleanup_tracee. apply (reached_core _ _ _ _ R). Qed.
Print Assumptions C28_cleanup_partial.
(** The same when strace lets go of one tracee, with -b execve; it is no longer in the table then
    Partial: as above. *)
Theorem C28_detach_partial c s i a ws s' : (forall st, In st (stops c ws) -> event_stop c st = false) -> detach c s i a ws = Ok s' ->
  (exists l, reqs s' = reqs s ++ l /\ Forall (fun r => r_gen r = gen (lg s) i /\ r_pid r = P s i) l /\
    to_gen (gen (lg s) i) l = before c s i a ++ if waits s i a then map (at_stop c) (stops c ws) else []) /\
  forall k, P s' k = if Nat.eqb k i then 0 else P s k.
Proof.
  intros EV E. destruct (detach_all _ _ _ _ _ _ EV E) as [R D]. split; [|exact D]. eexists. split; [exact R|]. split; [|apply to_gen_like; reflexivity].
  apply Forall_forall. intros r IN. apply in_map_iff in IN as (x & <- & _). split; reflexivity.
Qed.
Print Assumptions C28_detach_partial.

(** The signals that are passed on meanwhile are those that the tracee was stopped by: none is lost
    or invented, but for the SIGSTOP that strace sends. *)
Definition signals (l : list (op * N)) : list N := filter (fun x => negb (x =? 0)) (map snd (filter (fun x => match fst x with OP_TKILL => false | _ => true end) l)).
Lemma signals_app l l' : signals (l ++ l') = signals l ++ signals l'.
Proof. unfold signals. rewrite filter_app, map_app, filter_app. reflexivity. Qed.
Lemma signals_before c s i a : signals (before c s i a) = [].
Proof. unfold before. destruct (_ || _); [reflexivity|]. destruct (_ && _); [|reflexivity]. destruct (c_seize c); reflexivity. Qed.
Lemma signals_stops c l : signals (map (at_stop c) l) = filter (fun x => negb (x =? 0)) (map (real c) l).
Proof. unfold signals. induction l as [|st l IH]; [reflexivity|]. cbn. destruct (last_stop c st); cbn; destruct (negb _); rewrite IH; reflexivity. Qed.
(** The signals a tracee is let go with are those of its stops. Partial: as above. *)
Theorem C28_signals_partial c ps cmd s as_ ws s' i l : reached c ps cmd s -> P s i <> 0 -> P s i <> popen s ->
  (forall st, In st (stops c (about (P s i) ws)) -> event_stop c st = false) -> cleanup c s false as_ ws = Ok s' ->
  to_gen (gen (lg s) i) (reqs s') = to_gen (gen (lg s) i) (reqs s) ++ l ->
  signals l = filter (fun x => negb (x =? 0)) (map (real c) (if waits s i (as_ i) then stops c (about (P s i) ws) else [])).
Proof.
  intros R Pi PO EV E EL. rewrite (C28_cleanup_partial _ _ _ _ _ _ _ _ R Pi PO EV E) in EL. apply app_inv_head in EL. subst l. rewrite signals_app, signals_before. destruct (waits s i (as_ i)); [apply signals_stops|reflexivity].
Qed.
Print Assumptions C28_signals_partial.

(** The tracee is not left stopped by strace: the last thing that is asked of it is to be let go, if
    it was stopped already, or else as soon as it is seen to have stopped as it was told to, however
    many other stops come before. *)
Lemma stops_pre c pre st err post : Forall (before_last c) pre -> WIFSTOPPED st = true -> last_stop c st = true -> exists l, stops c (pre ++ DStatus st err :: post) = l ++ [st].
Proof.
  intros F W L. induction F as [|w pre H F [l IH]]; cbn [app stops].
  - exists []. rewrite W, L. reflexivity.
  - destruct w as [[]|st' e']; cbn in H; [exists l; exact IH|discriminate|]. destruct H as (A & B & C). rewrite A, B. cbn [orb]. exists (st' :: l). destruct C as [-> | ->]; cbn; rewrite IH; reflexivity.
Qed.
(** A tracee that stopped for good is let go. Partial: as above. *)
Theorem C28_released_partial c ps cmd s as_ ws s' i pre st err post : reached c ps cmd s -> P s i <> 0 -> P s i <> popen s -> fl s i ATTACHED = true ->
  (forall st, In st (stops c (about (P s i) ws)) -> event_stop c st = false) -> cleanup c s false as_ ws = Ok s' ->
  (fl s i IGNORE_ONE_SIGSTOP = false /\ a_detach (as_ i) = 0) \/
  (waits s i (as_ i) = true /\ about (P s i) ws = pre ++ DStatus st err :: post /\ Forall (before_last c) pre /\ WIFSTOPPED st = true /\ last_stop c st = true) ->
  exists l sig, to_gen (gen (lg s) i) (reqs s') = to_gen (gen (lg s) i) (reqs s) ++ l ++ [(OP_DETACH, sig)].
Proof.
  intros R Pi PO AT EV E H. rewrite (C28_cleanup_partial _ _ _ _ _ _ _ _ R Pi PO EV E). destruct H as [[I0 A0]|(W & AB & F & ST & LS)].
  - exists [], 0. unfold waits, before. rewrite AT, I0, A0. reflexivity.
  - rewrite W. destruct (stops_pre c pre st err post F ST LS) as [l EL]. rewrite AB, EL, map_app. exists (before c s i (as_ i) ++ map (at_stop c) l), (real c st). rewrite <- !app_assoc. cbn [map app]. unfold at_stop at 2. rewrite LS. reflexivity.
Qed.
Print Assumptions C28_released_partial.
(** beside: process 5 runs; seized, it stops with signal 10 before it is interrupted.  Attached to
    without PTRACE_SEIZE, it is stopped by signals 10 and 12 first. *)
Definition cn : cfg := {| lc := lx true; c_stats := false; c_seize := false; c_follow := true; c_detexec := false; c_qexit := false; c_qthread := false; c_sigs := fun _ => true; c_secbefore := true; c_os3 := true; c_trapsig := 133; c_signame := fun _ => bs "SIG" |}.
Definition runs (_ : nat) : detans := {| a_detach := ESRCH; a_alive := 0; a_stop := 0 |}.
Definition left_by (c : cfg) (l : list (nenv * denv)) (ws : list cwait) : option (list (op * N)) :=
  match cleanup c (ended c 5 l) false runs ws with Ok s' => Some (to_gen 1 (reqs s')) | _ => None end.
Definition first_stops : list (nenv * denv) := [tx [NPid 5 (stopped 19 0) true 0] []].
Example C28_seized : reached (cx true) [5] None (ended (cx true) 5 []) /\ P (ended (cx true) 5 []) 0 = 5 /\ popen (ended (cx true) 5 []) = 0 /\ waits (ended (cx true) 5 []) 0 (runs 0) = true /\
  left_by (cx true) [] [CErr true; CPid 5 (stopped 10 0) 0; CPid 5 (stopped 5 EV_STOP) 0] = Some [(OP_DETACH, 0); (OP_INTERRUPT, 0); (OP_DETACH, 10)].
Proof. split; [apply reached_run; [discriminate|vm_compute; reflexivity]|]. split; [vm_compute; reflexivity|]. split; [vm_compute; reflexivity|]. split; [vm_compute; reflexivity|]. vm_compute; reflexivity. Qed.
Example C28_attached : reached cn [5] None (ended cn 5 first_stops) /\ P (ended cn 5 first_stops) 0 = 5 /\ popen (ended cn 5 first_stops) = 0 /\ waits (ended cn 5 first_stops) 0 (runs 0) = true /\
  left_by cn first_stops [CPid 5 (stopped 10 0) 0; CErr true; CPid 5 (stopped 133 0) 0; CPid 5 (stopped 12 0) 0; CPid 5 (stopped 19 0) 0; CPid 5 (stopped 10 0) 0] =
  Some [(OP_SYSCALL, 0); (OP_DETACH, 0); (OP_TKILL, 19); (OP_CONT, 10); (OP_CONT, 0); (OP_CONT, 12); (OP_DETACH, 0)].
Proof. split; [apply reached_run; [discriminate|vm_compute; reflexivity]|]. split; [vm_compute; reflexivity|]. split; [vm_compute; reflexivity|]. split; [vm_compute; reflexivity|]. vm_compute; reflexivity. Qed.
Lemma left_by_ok c l ws x : left_by c l ws = Some x -> match cleanup c (ended c 5 l) false runs ws with Ok s' => to_gen 1 (reqs s') = x | _ => False end.
Proof. unfold left_by. destruct (cleanup c (ended c 5 l) false runs ws); [congruence|discriminate..]. Qed.
(** Without the hypothesis on events the claim fails: strace lets go of a tracee that it finds stopped
    for an execve with SIGTRAP, a signal that no one sent. *)
Theorem C28_event_refuted : exists c ps s ws, reached c ps None s /\ P s 0 = 5 /\ gen (lg s) 0 = 1%nat /\ popen s = 0 /\ stops c (about 5 ws) = [stopped 5 EV_EXEC] /\ real c (stopped 5 EV_EXEC) = 0 /\
  match cleanup c s false runs ws with Ok s' => to_gen 1 (reqs s') = [(OP_DETACH, 0); (OP_INTERRUPT, 0); (OP_DETACH, SIGTRAP)] | _ => False end.
Proof.
  exists (cx true), [5], (ended (cx true) 5 []), [CPid 5 (stopped 5 EV_EXEC) 0]. split; [apply reached_run; [discriminate|vm_compute; reflexivity]|]. split; [vm_compute; reflexivity|]. split; [vm_compute; reflexivity|]. split; [vm_compute; reflexivity|]. split; [vm_compute; reflexivity|]. split; [vm_compute; reflexivity|].
  apply left_by_ok. vm_compute. reflexivity.
Qed.
Print Assumptions C28_event_refuted.
