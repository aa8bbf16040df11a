(** C09-C11, C58: when= expressions, schedules, injected results, rule merging. *)
From Verif Require Import Base NumSetModel NumSetProofs StrtouModel StrtouSpec InjectModel InjectSpec InjectProofs.
Local Open Scope N_scope.

(** C09: a when= value is accepted exactly when it has one of the documented
    forms, and then means what they mean. *)
Theorem C09_when_expression : forall s F L S,
  parse_when s = Some (F, L, S) <-> when_denotes s F L S.
Proof. exact parse_when_iff. Qed.
Print Assumptions C09_when_expression.

Example ex_when1 : parse_when (bs "3..9+2") = Some (3, 9, 2).
Proof. reflexivity. Qed.
Example ex_when2 : parse_when (bs "2+") = Some (2, 65535, 1).
Proof. reflexivity. Qed.
Example ex_when3 : parse_when (bs "5") = Some (5, 65535, 0).
Proof. reflexivity. Qed.
Example ex_when4 : parse_when (bs "2..65535") = None /\ parse_when (bs "0+1") = None
  /\ parse_when (bs "3..2") = None /\ parse_when (bs "1+0") = None.
Proof. repeat split; reflexivity. Qed.

(** C10: after any history of entries and tracee exits, in any interleaving, the
    n-th entry of a tracee into a tampered system call fires exactly when n is
    scheduled (and strace is not recovering from a restart). *)
Theorem C10_schedule_exact : forall (D : Type) gvec h pid p scno rec (o : opts D) v0,
  gvec p = Some v0 -> nth_error v0 scno = Some o ->
  1 <= first o <= last o -> last o <= INJECT_LAST_INF ->
  let n := entries pid p scno 0 h + 1 in
  let out := snd (istep gvec (irun gvec iinit h) (Enter pid p scno rec)) in
  (out = Some (odata o) /\ scheduled (first o) (last o) (step o) n /\ rec = false) \/
  (out = None /\ (~ scheduled (first o) (last o) (step o) n \/ rec = true)).
Proof. intros D gvec h pid p scno rec o v0 H1 H2 H3 H4. apply (schedule_exact gvec h pid p scno rec o v0); auto. unfold sched_ok. lia. Qed.
Print Assumptions C10_schedule_exact.

Definition ex_gvec (p : nat) : option (list (opts nat)) :=
  if Nat.eqb p 0 then Some [ {| first := 0; last := 0; step := 0; odata := 0%nat |};
                             {| first := 2; last := 5; step := 2; odata := 7%nat |} ] else None.
Definition ex_h : list iev :=
  [Enter 10 0 1 false; Enter 11 0 1 false; Enter 10 0 0 false; Enter 10 0 1 false; Enter 10 0 1 false].
Example ex_fires : snd (istep ex_gvec (irun ex_gvec iinit ex_h) (Enter 10 0 1 false)) = Some 7%nat
  /\ snd (istep ex_gvec (irun ex_gvec iinit ex_h) (Enter 11 0 1 false)) = Some 7%nat
  /\ snd (istep ex_gvec (irun ex_gvec iinit (ex_h ++ [Drop 10])) (Enter 10 0 1 false)) = None.
Proof. repeat split; reflexivity. Qed.

(** C11, the part that holds: whatever the tracee did before, an injected error or
    return value ends up in the tracee's register and is what strace reports --
    provided the injection uses syscall= itself or no earlier one in this tracee did.
    Partial: otherwise see the refuted theorem. *)
Theorem C11_injected_result_partial : forall sci h c i,
  inj c = Some i -> tinj_ok i -> kernel_ok c -> set_ok c = true ->
  (with_syscall i = true \/ Forall (fun c => substituted c = false) h) ->
  let '(reg, r, ok) := snd (tstep sci (trun sci tinit h) c) in
  ok = true /\ reg = injected_register i /\ (unambiguous sci c i -> r = injected_report i).
Proof. exact injected_result. Qed.
Print Assumptions C11_injected_result_partial.

(** and a call that is not tampered with keeps the kernel's result *)
Theorem C11_untouched : forall sci h c,
  inj c = None \/ set_ok c = false ->
  let '(reg, r, ok) := snd (tstep sci (trun sci tinit h) c) in
  reg = kernel c (Some false) /\ ok = true /\
  (sci = true -> r = get_syscall_result true (never_fails c) tinit reg).
Proof. intros. apply untouched; auto. apply trun_tampered. reflexivity. Qed.
Print Assumptions C11_untouched.

Definition ex_kernel (w : option bool) : N :=
  match w with None => 2^64 - 38 | Some true => 4242 | Some false => 3 end.
Definition ex_subst : tcall :=
  {| inj := Some {| is_retval := true; value := 0; with_syscall := true |};
     set_ok := true; never_fails := false; kernel := ex_kernel |}.
Definition ex_err : tcall :=
  {| inj := Some {| is_retval := false; value := 2; with_syscall := false |};
     set_ok := true; never_fails := false; kernel := ex_kernel |}.
Example ex_injected : snd (tstep true (trun true tinit [ex_err]) ex_err)
  = (2^64 - 2, {| u_error := 2; u_rval := 2^64 - 1 |}, true).
Proof. reflexivity. Qed.
Example ex_kernel_ok : kernel_ok ex_err /\ kernel_ok ex_subst.
Proof. unfold kernel_ok; cbn; lia. Qed.

(** In full the property is false: after one syscall= injection, an error=
    injection in the same tracee is abandoned, and the tracee sees ENOSYS. *)
Theorem C11_after_substitution_refuted : exists h c i,
  inj c = Some i /\ tinj_ok i /\ kernel_ok c /\ set_ok c = true /\ Forall kernel_ok h /\
  let '(reg, r, ok) := snd (tstep true (trun true tinit h) c) in
  ok = false /\ reg <> injected_register i /\ r <> injected_report i.
Proof.
  exists [ex_subst], ex_err, {| is_retval := false; value := 2; with_syscall := false |}.
  split; [reflexivity|]. split; [split; [reflexivity|cbn; lia]|]. split; [apply ex_kernel_ok|].
  split; [reflexivity|]. split; [constructor; [apply ex_kernel_ok|constructor]|].
  vm_compute. repeat split; discriminate.
Qed.
Print Assumptions C11_after_substitution_refuted.

(** C58: the last expression that names a system call decides its options; a call
    no expression names is not tampered with. *)
Theorem C58_last_rule_wins : forall (D : Type) (zd : D) nsys (rules : list (rule D)),
  Forall (rules_ok nsys) rules ->
  exists gv iset, qualify_injections zd nsys rules = Some (gv, iset) /\
    forall p n i, nth_error nsys p = Some n -> (N.to_nat i < n)%nat ->
      match deciding rules p i with
      | Some r => is_number_in_set_array i (Some iset) p = Some true /\
          exists v o, nth_error gv p = Some (Some v) /\ nth_error (r_opts r) p = Some o /\
                      nth_error v (N.to_nat i) = Some o
      | None => is_number_in_set_array i (Some iset) p = Some false
      end.
Proof. intros D zd nsys rules H. exact (rules_merge_member zd nsys rules H). Qed.
Print Assumptions C58_last_rule_wins.

Definition ex_rule (w n : N) (d : nat) : rule nat :=
  {| r_set := [ {| vec := [w]; nt := false |}; {| vec := []; nt := false |} ];
     r_opts := repeat {| first := n; last := 65535; step := 0; odata := d |} 2 |}.
Example ex_merge : exists gv s,
  qualify_injections 0%nat [3%nat; 2%nat] [ex_rule 3 1 1%nat; ex_rule 6 2 2%nat] = Some (gv, s)
  /\ option_map (option_map (map (odata (data:=nat)))) (nth_error gv 0) = Some (Some [1; 2; 2]%nat)
  /\ nth_error gv 1 = Some None.
Proof. eexists _, _. split; [vm_compute; reflexivity|]. split; reflexivity. Qed.
