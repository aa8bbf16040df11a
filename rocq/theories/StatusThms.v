(** -e status=SET: C30. *)
From Verif Require Import Base TimeModel WaitModel TcbModel TcbProofs LogModel LoopModel LoopSpec LoopFrame LoopSig LoopEx StatusSpec StatusLog StatusLoop StatusProofs.
Local Open Scope N_scope.

(** With a SET that is not everything, the line of a call, from its entry to its end, whatever the
    other tracees do meanwhile: it is in the log of the tracee, whole and in one piece, when the call
    ended in one of the ways that were chosen, and else nothing of the tracee is.
    Partial: see C30_execve_refuted and C30_detached_refuted for what is excluded. *)
Theorem C30_call_partial c D i g s0 n1 wd1 s1 e1 s2 l s3 n2 wd2 s4 e2 o b s5 : c_all (lc c) = false -> c_stats c = false -> idle D i g s0 ->
  handles c s0 n1 i wd1 s1 -> enters_call c s1 i wd1 e1 -> dispatch_event c s1 (Some wd1) e1 = Ok (true, s2) ->
  turns c s2 l = Ok (true, s3) -> undisturbed g (P s0 i) s2 s3 ->
  handles c s3 n2 i wd2 s4 -> ends_call c s4 i wd2 e2 o -> dispatch_event c s4 (Some wd2) e2 = Ok (b, s5) ->
  idle D i g s5 /\ P s5 i = P s0 i /\
  exists shown A, mine g A = [] /\
    files (lg s5) D = files (lg s0) D ++ A ++
      if selected (lc c) o then map (pair {| w_gen := g; w_pid := P s0 i |}) (call_line shown (e_name e1) (e_text e1) (e_dec e1) o) else [].
Proof.
  intros NA NS I [E1 C1] EC ED ET U [E2 C2] EE EF.
  apply (next_step (Kn i)) in E1 as [S1 _]; [|eapply idle_calm; exact I]. destruct (idle_step _ _ _ _ _ I S1) as (I1 & X1 & F1 & M1). assert (P1 : P s1 i = P s0 i) by apply (sm_pid _ _ _ (s0_same _ _ _ S1 i (Kn_self i))).
  destruct (enter_held _ _ _ _ _ _ _ _ NA NS I1 C1 EC ED) as (P2 & m & sh & H2 & X2 & F2 & M2).
  apply (turns_step _ i g) in ET; [|eapply holds_calm; exact H2|apply (pv_gen _ _ _ _ (h_priv _ _ _ _ _ _ _ H2))|rewrite P2, P1; exact U]. destruct (holds_step _ _ _ _ _ _ _ _ H2 ET) as (H3 & X3 & F3 & M3). assert (P3 : P s3 i = P s2 i) by apply (sm_pid _ _ _ (s0_same _ _ _ ET i (Kn_self i))).
  apply (next_step (Kn i)) in E2 as [S4 _]; [|eapply holds_calm; exact H3]. destruct (holds_step _ _ _ _ _ _ _ _ H3 S4) as (H4 & X4 & F4 & M4). assert (P4 : P s4 i = P s3 i) by apply (sm_pid _ _ _ (s0_same _ _ _ S4 i (Kn_self i))).
  destruct (end_held D c s4 i g (e_dec e1) m {| w_gen := g; w_pid := P s1 i |} [Lead sh; Entry (e_name e1); Txt (e_text e1)] wd2 e2 o b s5 NA NS C2) as (I5 & P5 & X5 & M5 & F5); [congruence|exact H4|exact EE|exact EF|].
  split; [exact I5|]. split; [congruence|]. exists sh, (X1 ++ X2 ++ X3 ++ X4 ++ X5). split; [unfold mine in *; rewrite !filter_app, M1, M2, M3, M4, M5; reflexivity|].
  rewrite F5, F4, F3, F2, F1, P1, <- !app_assoc. reflexivity.
Qed.
Print Assumptions C30_call_partial.

(** So it is from call to call.  A tracee that keeps nothing back stays so while others run, at the
    stops that are not about calls, which write at most a line of their own, and over the calls that
    are not traced, which write nothing. *)
Theorem C30_others c D i g s l s' : idle D i g s -> turns c s l = Ok (true, s') -> undisturbed g (P s i) s s' ->
  idle D i g s' /\ exists A, mine g A = [] /\ files (lg s') D = files (lg s) D ++ A.
Proof.
  intros I E U. apply (turns_step _ i g) in E; [|eapply idle_calm; exact I|apply I|exact U]. destruct (idle_step _ _ _ _ _ I E) as (I1 & X & F & M). eauto.
Qed.
Print Assumptions C30_others.
Theorem C30_stops c D i g s n wd s1 e b s2 : idle D i g s -> handles c s n i wd s1 -> other_stop c s1 i wd -> dispatch_event c s1 (Some wd) e = Ok (b, s2) ->
  idle D i g s2 /\ P s2 i = P s i /\ exists A L, mine g A = [] /\ files (lg s2) D = files (lg s) D ++ A ++ map (pair {| w_gen := g; w_pid := P s i |}) L /\
    (L = [] \/ exists shown, L = [Lead shown; Msg (e_stopmsg e); Nl (x_extra e)]).
Proof.
  intros I [E1 C1] O E. apply (next_step (Kn i)) in E1 as [S1 _]; [|eapply idle_calm; exact I]. destruct (idle_step _ _ _ _ _ I S1) as (I1 & X1 & F1 & M1). assert (P1 : P s1 i = P s i) by apply (sm_pid _ _ _ (s0_same _ _ _ S1 i (Kn_self i))).
  destruct (stop_idle _ _ _ _ _ _ _ _ _ I1 C1 O E) as (I2 & P2 & X & Y & M & F & HY). split; [exact I2|]. split; [congruence|]. exists (X1 ++ X), Y. split; [unfold mine in *; rewrite filter_app, M1, M; reflexivity|]. split; [|exact HY]. rewrite F, F1, P1, <- !app_assoc. reflexivity.
Qed.
Print Assumptions C30_stops.
Theorem C30_untraced c D i g s n wd s1 e b s2 : idle D i g s -> handles c s n i wd s1 -> skips_call c s1 i wd e -> dispatch_event c s1 (Some wd) e = Ok (b, s2) ->
  idle D i g s2 /\ P s2 i = P s i /\ exists A, mine g A = [] /\ files (lg s2) D = files (lg s) D ++ A.
Proof.
  intros I [E1 C1] O E. apply (next_step (Kn i)) in E1 as [S1 _]; [|eapply idle_calm; exact I]. destruct (idle_step _ _ _ _ _ I S1) as (I1 & X1 & F1 & M1). assert (P1 : P s1 i = P s i) by apply (sm_pid _ _ _ (s0_same _ _ _ S1 i (Kn_self i))).
  destruct (untraced_idle _ _ _ _ _ _ _ _ _ I1 C1 O E) as (I2 & P2 & F). split; [exact I2|]. split; [congruence|]. exists X1. split; [exact M1|congruence].
Qed.
Print Assumptions C30_untraced.
(** And it is so when strace starts to trace it. *)
Theorem C30_known c ch po li ps cmd ans s0 l s : startup c (st0 ch po li) ps cmd ans = Ok s0 -> turns c s0 l = Ok (true, s) -> known (lg s).
Proof. intros E1 E2. eapply turns_known; [eapply startup_known; exact E1|exact E2]. Qed.
Print Assumptions C30_known.
Theorem C30_start c s p i s1 fs : known (lg s) -> p <> 0 -> new_tcb s p = Ok (i, s1) -> ~ In REPRINT fs ->
  idle (if c_ff (lc c) then Own p else Shared) i (ngen (lg s)) (attached c s1 i fs).
Proof. apply start_idle. Qed.
Print Assumptions C30_start.

(** beside: strace -f -z follows process 5, which reads; meanwhile process 6 appears, writes, and ends
    its call.  The read succeeds, or fails. *)
Definition next_wd (r : res (option wdata * st)) : wdata := match r with Ok (Some wd, _) => wd | _ => wdata0 end.
Definition next_st (r : res (option wdata * st)) : st := match r with Ok (_, s) => s | _ => st0 0 0 0 end.
Definition has_event (r : res (option wdata * st)) : bool := match r with Ok (Some _, _) => true | _ => false end.
Lemma next_is r : has_event r = true -> r = Ok (Some (next_wd r), next_st r).
Proof. destruct r as [[[wd|] s]| |]; [reflexivity|discriminate..]. Qed.
Definition goes_on (r : res (bool * st)) : bool := match r with Ok (true, _) => true | _ => false end.
Lemma goes_is r : goes_on r = true -> r = Ok (true, end_of r).
Proof. destruct r as [[[] s]| |]; [reflexivity|discriminate..]. Qed.
Definition quiet_for (g : nat) (D : list (nat * wdata)) : bool := forallb (fun x => negb (Nat.eqb (fst x) g) && match te (snd x) with TE_STOP_BEFORE_EXECVE => false | _ => true end) D.
Lemma quiet_is g p D : quiet_for g D = true -> forall h wd, In (h, wd) D -> h <> g /\ (te wd = TE_STOP_BEFORE_EXECVE -> wmsg wd <> Z.of_N p).
Proof. intros Q h wd H. unfold quiet_for in Q. rewrite forallb_forall in Q. specialize (Q _ H). cbn in Q. apply andb_true_iff in Q as [Q1 Q2]. split; [apply Nat.eqb_neq, negb_true_iff, Q1|]. intros T. rewrite T in Q2. discriminate. Qed.
Definition failing (fails : bool) : denv := let d := dx [] in
  {| e_scno := e_scno d; e_args := e_args d; e_name := []; e_exec := false; e_traced := true; e_sig := 0; e_delay := None; e_xdelay := false; e_text := []; e_dec := false;
     x_res := 1; x_delay := x_delay d; x_err := fails; x_text := bs ", 2"; x_ret := (if fails then bs "-1 EIO" else bs "0"); x_extra := []; e_sec := false; e_stopmsg := []; e_err := 0; e_det := e_det d; e_waits := []; e_intr := 0 |}.
Definition zc : cfg := cx false.
Definition z0 : st := match new_tcb (st0 0 0 (-1)) 5 with Ok (_, s) => attached zc s 0 [GRABBED] | _ => st0 0 0 0 end.
Definition z1 : st := next_st (next_event zc z0 (nx [sys 5])).
Definition zw1 : wdata := next_wd (next_event zc z0 (nx [sys 5])).
Definition z2 : st := end_of (dispatch_event zc z1 (Some zw1) (dx (bs "read"))).
Definition zl : list (nenv * denv) := [tx [new 6] []; tx [sys 6] (bs "write"); tx [sys 6] []].
Definition z3 : st := end_of (turns zc z2 zl).
Definition z4 : st := next_st (next_event zc z3 (nx [sys 5])).
Definition zw4 : wdata := next_wd (next_event zc z3 (nx [sys 5])).
Definition z5 (fails : bool) : st := end_of (dispatch_event zc z4 (Some zw4) (failing fails)).
Definition zo (fails : bool) : outcome := Done fails (bs ", 2") (if fails then bs "-1 EIO" else bs "0") [].
Lemma z0_idle : idle Shared 0 1 z0.
Proof.
  assert (G : (match new_tcb (st0 0 0 (-1)) 5 with Ok (i, _) => Nat.eqb i 0 | _ => false end) = true) by (vm_compute; reflexivity). destruct (new_tcb (st0 0 0 (-1)) 5) as [[i s1]| |] eqn:E; [|discriminate..]. apply Nat.eqb_eq in G. subst i.
  replace z0 with (attached zc s1 0 [GRABBED]) by (unfold z0; rewrite E; reflexivity). eapply (C30_start zc (st0 0 0 (-1)) 5); [exact known0|discriminate|exact E|intros [X|[]]; discriminate].
Qed.
Example C30_call_met fails : c_all (lc zc) = false /\ c_stats zc = false /\ idle Shared 0 1 z0 /\
  handles zc z0 (nx [sys 5]) 0 zw1 z1 /\ enters_call zc z1 0 zw1 (dx (bs "read")) /\ dispatch_event zc z1 (Some zw1) (dx (bs "read")) = Ok (true, z2) /\
  turns zc z2 zl = Ok (true, z3) /\ undisturbed 1 (P z0 0) z2 z3 /\
  handles zc z3 (nx [sys 5]) 0 zw4 z4 /\ ends_call zc z4 0 zw4 (failing fails) (zo fails) /\ dispatch_event zc z4 (Some zw4) (failing fails) = Ok (true, z5 fails) /\
  mine 1 (files (lg (z5 fails)) Shared) = (if fails then [] else map (pair {| w_gen := 1; w_pid := 5 |}) (call_line true (bs "read") (bs "1") false (zo fails))) /\
  mine 2 (files (lg (z5 fails)) Shared) = map (pair {| w_gen := 2; w_pid := 6 |}) (call_line true (bs "write") (bs "1") false (zo false)).
Proof.
  split; [reflexivity|]. split; [reflexivity|]. split; [exact z0_idle|].
  split; [split; [apply next_is; vm_compute; reflexivity|vm_compute; reflexivity]|].
  split; [split; [left; vm_compute; reflexivity|]; split; [vm_compute; reflexivity|]; repeat (split; [reflexivity|]); left; vm_compute; reflexivity|].
  split; [apply goes_is; vm_compute; reflexivity|]. split; [apply goes_is; vm_compute; reflexivity|].
  split; [exists (skipn (length (disp (qu z2))) (disp (qu z3))); split; [vm_compute; reflexivity|]; apply quiet_is; vm_compute; reflexivity|].
  split; [split; [apply next_is; vm_compute; reflexivity|vm_compute; reflexivity]|].
  split; [split; [left; vm_compute; reflexivity|destruct fails; repeat split]|].
  split; [apply goes_is; destruct fails; vm_compute; reflexivity|]. split; destruct fails; vm_compute; reflexivity.
Qed.

(** What the theorems leave out fails.  strace -f -z -e trace=write: a thread calls execve, which is
    not traced, and takes over the pid of its leader.  From then on, what it writes goes to a stream
    in memory that is never published: its calls are traced and succeed, but none is in the log. *)
Definition skipped (n : list N) : denv := let d := dx n in
  {| e_scno := 1; e_args := 1; e_name := n; e_exec := false; e_traced := false; e_sig := 0; e_delay := None; e_xdelay := false; e_text := []; e_dec := false;
     x_res := 1; x_delay := x_delay d; x_err := false; x_text := bs ", 2"; x_ret := bs "0"; x_extra := []; e_sec := false; e_stopmsg := []; e_err := 0; e_det := e_det d; e_waits := []; e_intr := 0 |}.
Definition execve_run : list (nenv * denv) := [tx [new 6] []; (nx [sys 6], skipped (bs "execve")); tx [execed 5 6] []; tx [sys 5] []; tx [sys 5] (bs "write"); tx [sys 5] []].
Fixpoint entered (l : list item) : list (list N) := match l with [] => [] | (_, Entry n) :: r => n :: entered r | _ :: r => entered r end.
Theorem C30_execve_refuted : exists c s, reached c [5] None s /\ c_all (lc c) = false /\ c_succ (lc c) = true /\
  map snd (filter (fun x => Nat.eqb (fst x) 2) (calls s)) = [true; false; true; false] /\ P s 1 = 5 /\ entered (files (lg s) Shared) = [].
Proof.
  exists zc, (ended zc 5 execve_run). split; [apply reached_run; [discriminate|vm_compute; reflexivity]|]. repeat (split; [vm_compute; reflexivity|]). vm_compute. reflexivity.
Qed.
Print Assumptions C30_execve_refuted.

(** strace -f -e status=detached: 5 and 6 are in a call as strace ends.  Both lines are published,
    but that of 5 is not ended, as it is not the one that strace was writing last. *)
Definition ldet : lcfg := {| c_ff := false; c_named := true; c_pfx := true; c_all := false; c_succ := false; c_failed := false; c_unfin := false; c_unavail := false; c_det := true |}.
Definition cdet : cfg := {| lc := ldet; c_stats := false; c_seize := true; c_follow := true; c_detexec := false; c_qexit := false; c_qthread := false; c_sigs := fun _ => true; c_secbefore := true; c_os3 := true; c_trapsig := 133; c_signame := fun _ => bs "SIG" |}.
Definition detach_run : list (nenv * denv) := [tx [new 6] []; tx [sys 5] (bs "read"); tx [sys 6] (bs "write")].
Definition stopped_all (_ : nat) : detans := {| a_detach := 0; a_alive := 0; a_stop := 0 |}.
Definition left_log (r : res st) : option (list tok * list tok) := match r with Ok s => Some (map snd (mine 1 (files (lg s) Shared)), map snd (mine 2 (files (lg s) Shared))) | _ => None end.
Lemma left_is r a b : left_log r = Some (a, b) -> match r with Ok s' => map snd (mine 1 (files (lg s') Shared)) = a /\ map snd (mine 2 (files (lg s') Shared)) = b | _ => False end.
Proof. unfold left_log. destruct r; [intros E; injection E as <- <-; auto|discriminate..]. Qed.
Theorem C30_detached_refuted : exists c s, reached c [5] None s /\ c_all (lc c) = false /\ c_det (lc c) = true /\
  match cleanup c s false stopped_all [] with
  | Ok s' => map snd (mine 1 (files (lg s') Shared)) = [Lead true; Entry (bs "read"); Txt (bs "1")] /\
             map snd (mine 2 (files (lg s') Shared)) = [Lead true; Entry (bs "write"); Txt (bs "1"); Detached; Nl []]
  | _ => False
  end.
Proof.
  exists cdet, (ended cdet 5 detach_run). split; [apply reached_run; [discriminate|vm_compute; reflexivity]|]. split; [reflexivity|]. split; [reflexivity|].
  apply left_is. vm_compute. reflexivity.
Qed.
Print Assumptions C30_detached_refuted.
