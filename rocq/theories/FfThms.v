(** C97: each process has its own file with -ff, and there is one log without. *)
From Verif Require Import Base TimeModel WaitModel TcbModel LogModel LoopModel LoopSpec LoopFrame LoopCore LoopQueue LoopReach LoopEx FfSpec FfProofs.
Local Open Scope N_scope.

Lemma turns_o c l : forall s b s', core s -> kept s -> fair c s l -> turns c s l = Ok (b, s') -> oinv c s -> oinv c s'.
Proof.
  induction l as [|ne l IH]; intros s b s' K KE F E I; cbn [turns] in E; [inversion E; subst; auto|]. apply rbind_ok in E as ([go s1] & E1 & E). destruct F as (H & A & F).
  destruct (turn_core _ _ _ _ _ K KE H A E1) as (w & s0 & N & DI & _ & _ & _ & K1 & KE1 & _ & _ & R). apply (next_event_o c) in N; [|exact I].
  assert (I1 : oinv c s1). { destruct w as [wd|]; [|cbn in DI; inversion DI; subst; exact N]. apply (dispatch_o c) in DI; [exact DI| |exact N]. intros T i CU. destruct (R wd eq_refl) as (j & X & Y & _); [unfold busy; rewrite T; reflexivity|]. congruence. }
  rewrite E1 in F. destruct go; [|inversion E; subst; auto]. eapply IH; eassumption.
Qed.
Lemma reached_o c ps cmd s : reached c ps cmd s -> oinv c s.
Proof.
  intros (ch & po & li & ans & s0 & l & b & DT & E0 & F & E). pose proof (startup_core _ _ _ _ _ _ _ _ DT E0) as [B _]. apply startup_o in E0. apply (turns_o c l s0 b s); auto; apply B.
Qed.

(** Whatever is written is in the place of the process about which it is: with -ff in the file of that
    process, otherwise in the log. *)
Theorem C97_place c ps cmd s d w x : reached c ps cmd s -> In (w, x) (files (lg s) d) -> d = place c (w_pid w).
Proof. intros R. apply reached_o in R. exact (oinv_file c s d (w, x) R). Qed.
Print Assumptions C97_place.
(** also after the processes that are left were detached at the end *)
Theorem C97_place_cleanup c ps cmd s ek as_ ws s' d w x : reached c ps cmd s -> cleanup c s ek as_ ws = Ok s' -> In (w, x) (files (lg s') d) -> d = place c (w_pid w).
Proof. intros R E. apply reached_o in R. apply (cleanup_o c) in E; [|exact R]. exact (oinv_file c s' d (w, x) E). Qed.
Print Assumptions C97_place_cleanup.
(** So with -ff the file of a process has only what is about that process, and nothing goes elsewhere ... *)
Theorem C97_separate c ps cmd s : c_ff (lc c) = true -> reached c ps cmd s ->
  content s Shared = [] /\ forall p w x, In (w, x) (files (lg s) (Own p)) -> w_pid w = p.
Proof.
  intros F R. split.
  - unfold content. destruct (files (lg s) Shared) as [|[w x] r] eqn:E; [reflexivity|]. assert (I : In (w, x) (files (lg s) Shared)) by (rewrite E; left; reflexivity). apply (C97_place _ _ _ _ _ _ _ R) in I. unfold place in I. rewrite F in I. discriminate I.
  - intros p w x I. apply (C97_place _ _ _ _ _ _ _ R) in I. unfold place in I. rewrite F in I. congruence.
Qed.
Print Assumptions C97_separate.
(** ... and without -ff no such file gets any text *)
Theorem C97_shared c ps cmd s p : c_ff (lc c) = false -> reached c ps cmd s -> content s (Own p) = [].
Proof.
  intros F R. unfold content. destruct (files (lg s) (Own p)) as [|[w x] r] eqn:E; [reflexivity|]. assert (I : In (w, x) (files (lg s) (Own p))) by (rewrite E; left; reflexivity).
  apply (C97_place _ _ _ _ _ _ _ R) in I. unfold place in I. rewrite F in I. discriminate I.
Qed.
Print Assumptions C97_shared.

(** ** Runs *)
Definition lff (all : bool) : lcfg := {| c_ff := true; c_named := true; c_pfx := false; c_all := all; c_succ := true; c_failed := false; c_unfin := false; c_unavail := false; c_det := false |}.
Definition cff (all : bool) : cfg := {| lc := lff all; c_stats := false; c_seize := true; c_follow := true; c_detexec := false; c_qexit := false; c_qthread := false; c_sigs := fun _ => true; c_secbefore := true; c_os3 := true; c_trapsig := 133; c_signame := fun _ => bs "SIG" |}.
(** -p 5 -ff: 5 enters read; its thread 6 appears, writes, and calls execve, which takes the place of 5 *)
Definition runff : list (nenv * denv) := [tx [new 6] []; tx [sys 6] (bs "write"); tx [sys 6] []; tx [sys 6] (bs "execve"); tx [execed 5 6] []; tx [sys 5] []].
Example C97_run : let s := ended (cff true) 5 runff in reached (cff true) [5] None s /\
  content s (Own 6) = bs "write(1, 2) = 0" ++ [10] ++ bs "execve(1 <pid changed to 5 ...>" ++ [10] /\
  content s (Own 5) = bs "+++ superseded by execve in pid 6 +++" ++ [10] ++ bs "<... execve resumed>, 2) = 0" ++ [10].
Proof. cbv zeta. split; [apply reached_run; [lia|vm_compute; reflexivity]|]. split; vm_compute; reflexivity. Qed.
(** with the text of calls that is kept back until their results are known *)
Example C97_run_staged : let s := ended (cff false) 5 runff in reached (cff false) [5] None s /\
  content s (Own 6) = bs "write(1, 2) = 0" ++ [10] /\ content s Shared = [].
Proof. cbv zeta. split; [apply reached_run; [lia|vm_compute; reflexivity]|]. split; vm_compute; reflexivity. Qed.
Example C97_run_shared : let s := ended (cx true) 5 runff in reached (cx true) [5] None s /\ content s (Own 5) = [] /\ content s Shared <> [].
Proof. cbv zeta. split; [apply reached_run; [lia|vm_compute; reflexivity]|]. split; [vm_compute; reflexivity|]. intros X. assert (L : length (content (ended (cx true) 5 runff) Shared) <> O) by (vm_compute; discriminate). rewrite X in L. apply L. reflexivity. Qed.
