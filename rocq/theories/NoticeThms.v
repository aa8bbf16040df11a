(** C93: what follows when a signal was noted, in the event loop (LoopModel). *)
From Verif Require Import Base TimeModel WaitModel TcbModel LogModel LoopModel LoopSpec LoopFrame LoopEx.
Local Open Scope N_scope.

(** ** What follows when a signal was noted *)
(** The event loop ends before it waits for or handles another event, and does not touch any tracee ... *)
Theorem C93_noticed c s ne : intr s <> 0 \/ n_intr (fst ne) <> 0 -> exists s', turn c s ne = Ok (false, s') /\
  intr s' <> 0 /\ tb s' = tb s /\ lg s' = lg s /\ qu s' = qu s /\ reqs s' = reqs s /\ child s' = child s.
Proof.
  intros H. unfold turn, next_event. set (s1 := if n_intr (fst ne) =? 0 then s else _). assert (A : intr s1 <> 0 /\ tb s1 = tb s /\ lg s1 = lg s /\ qu s1 = qu s /\ reqs s1 = reqs s /\ child s1 = child s).
  { unfold s1. destruct (n_intr (fst ne) =? 0) eqn:Q; [apply N.eqb_eq in Q|apply N.eqb_neq in Q]; repeat split; [tauto|exact Q]. }
  clearbody s1. destruct A as (A & B). exists s1. split; [|split; [exact A|exact B]]. cbv zeta. apply N.eqb_neq in A. rewrite A. reflexivity.
Qed.
Print Assumptions C93_noticed.
(** ... and a tracee whose stop was being handled meanwhile is not restarted; it stays stopped until it is let go. *)
Theorem C93_not_restarted s i wd o g e : e_intr e <> 0 -> exists s', resume s i wd o g e = Ok (false, s') /\ intr s' = e_intr e /\ reqs s' = reqs s /\ tb s' = tb s.
Proof. intros H. unfold resume. apply N.eqb_neq in H. rewrite H. cbv zeta. cbn [set_intr with_glob intr]. rewrite H. eexists. split; [reflexivity|]. auto. Qed.
Print Assumptions C93_not_restarted.
(** strace then dies of the same signal *)
Theorem C93_dies s g fatal : g <> 0 -> g <= 64 -> fatal g = true -> terminate s g fatal = KilledBy g.
Proof.
  intros N L F. unfold terminate. replace (g =? 0) with false by lia.
  assert (A : N.land (N.lor 256 g) 255 = g) by (rewrite N.land_lor_distr_l; change (N.land 256 255) with 0; rewrite N.lor_0_l; change 255 with (N.ones 8); rewrite N.land_ones; apply N.mod_small; change (2 ^ 8) with 256; lia).
  assert (B : (255 <? N.lor 256 g) = true).
  { apply N.ltb_lt. assert (X : N.land 256 g = 0) by (apply N.bits_inj; intros k; rewrite N.land_spec, N.bits_0; destruct (N.eq_dec k 8) as [->|K]; [|change 256 with (2 ^ 8); rewrite N.pow2_bits_false by congruence; reflexivity]; rewrite (N.bits_above_log2 g 8); [apply andb_false_r|]; apply N.log2_lt_pow2; [lia|change (2 ^ 8) with 256; lia]).
    rewrite <- N.lxor_lor by exact X. rewrite <- N.add_nocarry_lxor by exact X. lia. }
  rewrite B, A, F. reflexivity.
Qed.
Print Assumptions C93_dies.

Example C93_noticed_met : let s := ended (cx true) 5 [tx [sys 5] (bs "read")] in let n := {| n_intr := 2; n_timer := None; n_waits := [sys 5]; n_opterr := 0; n_gname := None |} in
  reached (cx true) [5] None s /\ match turn (cx true) s (n, dx []) with Ok (b, s') => (b, intr s', length (disp (qu s'))) | _ => (true, 0, O) end = (false, 2, 1%nat).
Proof. cbv zeta. split; [apply reached_run; [lia|vm_compute; reflexivity]|]. vm_compute. reflexivity. Qed.
