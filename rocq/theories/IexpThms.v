(** C67: the expressions of -e inject= and -e fault=. *)
From Verif Require Import Base TimeModel NumSetModel NumSetProofs StrtouModel StrtouSpec StrtouProofs QualModel QualSpec QualProofs InjectModel InjectSpec InjectProofs FtsModel FtsSpec FtsText FtsRound IexpModel IexpSpec IexpProofs IexpParse IexpFold IexpRule.
Local Open Scope N_scope.

(** An expression is accepted exactly when it is written as the manual says: a set of system calls, then items
    separated by colons, none of a kind twice, and for inject= at least one that does something. *)
Theorem C67_accepted : forall E fault str,
  env_ok (qe E) -> Forall (fun t => N.of_nat (length t) <= 65536) (tables (qe E)) -> hex_pokes str ->
  ((exists r, inject_rule E fault str = Ok r) <-> exists k body base l, inject_denotes E fault str k body base l).
Proof.
  intros E f str EO TB HX. split.
  - intros (r & H). eapply rule_sound; eauto.
  - intros (k & body & base & l & D). destruct (rule_complete E f str k body base l EO TB HX D) as (set & H & _). eauto.
Qed.
Print Assumptions C67_accepted.

(** An accepted expression means what it says: the calls of the set, complemented once for each exclamation mark;
    for every personality the last when=, and each item of the expression; fault= without an error is ENOSYS. *)
Theorem C67_meaning : forall E fault str k body base l r,
  env_ok (qe E) -> Forall (fun t => N.of_nat (length t) <= 65536) (tables (qe E)) -> hex_pokes str ->
  inject_denotes E fault str k body base l -> inject_rule E fault str = Ok r ->
  length (r_opts r) = length (tables (qe E)) /\
  forall p n, (p < length (tables (qe E)))%nat ->
    covers (r_set r) p n = xorb (Nat.odd k) (base p n) /\
    exists o d c, nth_error (r_opts r) p = Some o /\ (first o, last o, step o) = when_said l /\ odata o = (d, c) /\
      signal d = signal (says l) /\ delay_enter d = delay_enter (says l) /\ delay_exit d = delay_exit (says l) /\
      poke_enter d = poke_enter (says l) /\ poke_exit d = poke_exit (says l) /\
      rval d = (if acts l then rval (says l) else Some (true, enosys E)) /\
      (forall ks, scnos (says l) = Some ks -> present (scnos d) = true /\ nth_error ks p = Some c) /\
      (scnos (says l) = None -> scnos d = None).
Proof.
  intros E f str k body base l r EO TB HX D H. destruct (rule_complete E f str k body base l EO TB HX D) as (set & H2 & M). rewrite H in H2. injection H2 as ->.
  cbn [r_opts r_set]. unfold per_personality. split; [rewrite map_length, seq_length; reflexivity|]. intros p n L.
  split; [unfold covers; rewrite M by exact L; reflexivity|].
  rewrite nth_error_map, (nth_error_nth' (seq 0 (length (tables (qe E)))) 0%nat) by (rewrite seq_length; exact L). rewrite seq_nth by exact L. cbn [option_map Nat.add].
  assert (SC : forall ks, scnos (says l) = Some ks -> nth_error ks p = Some (nth p ks 0)).
  { intros ks S. apply nth_error_nth'. destruct D as (_ & toks & _ & _ & _ & F & _). cbn [says scnos] in S. clear -S F L.
    induction F as [|t i toks l X F IH]; [discriminate|]. cbn [pick] in S. destruct i; try (exact (IH S)). injection S as ->. destruct X as (v & _ & X). apply Forall2_length in X. rewrite <- X. exact L. }
  unfold opts_said. destruct (when_said l) as [[a b] c] eqn:W. clear W.
  destruct (acts l) eqn:A; do 3 eexists; (split; [reflexivity|]); cbn [first last step odata with_data]; (split; [reflexivity|]); (split; [reflexivity|]);
  cbn [signal rval delay_enter delay_exit poke_enter poke_exit scnos set_rval]; repeat (split; [reflexivity|]);
  (split; [|intros S; exact S]); intros ks S; rewrite S; (split; [reflexivity|]); apply SC, S.
Qed.
Print Assumptions C67_meaning.

(** What is accepted is within bounds (the schedule, the error, the signal, the pokes) and does something. *)
Theorem C67_ranges : forall E fault str r o d c,
  env_ok (qe E) -> Forall (fun t => N.of_nat (length t) <= 65536) (tables (qe E)) -> hex_pokes str -> 1 <= enosys E <= 4095 -> N.of_nat (length (errnames E)) <= 4096 ->
  inject_rule E fault str = Ok r -> In o (r_opts r) -> odata o = (d, c) ->
  1 <= first o <= last o /\ last o <= 65535 /\ step o <= 65535 /\
  (forall e, rval d = Some (true, e) -> 1 <= e <= 4095) /\ (forall v, rval d = Some (false, v) -> v < 2^64) /\
  (forall s, signal d = Some s -> 1 <= s <= 64) /\
  (forall ps, poke_enter d = Some ps \/ poke_exit d = Some ps ->
     NoDup (map fst ps) /\ Forall (fun p => 1 <= fst p <= 7 /\ (1 <= length (snd p) <= 1024)%nat /\ Forall (fun b => b < 256) (snd p)) ps) /\
  (rval d <> None \/ signal d <> None \/ poke_enter d <> None \/ poke_exit d <> None \/ delay_enter d <> None \/ delay_exit d <> None).
Proof.
  intros E f str r o d c EO TB HX EN EL H IO OD. pose proof H as H0. apply rule_sound in H0 as (k & body & base & l & D); try assumption.
  destruct (C67_meaning E f str k body base l r EO TB HX D H) as [LE MM]. apply In_nth_error in IO as (p & NP).
  assert (L : (p < length (tables (qe E)))%nat) by (rewrite <- LE; apply nth_error_Some; congruence).
  destruct (MM p 0 L) as (_ & o' & d' & c' & N2 & W & OD' & S1 & S2 & S3 & S4 & S5 & S6 & _ & _). rewrite NP in N2. injection N2 as <-. rewrite OD in OD'. injection OD' as <- <-.
  destruct D as (_ & toks & _ & _ & _ & F & _).
  split; [|split; [|split]]; [apply (said_when E f toks l _ _ _ F) in W; lia..|].
  rewrite S1, S4, S5, S6. split; [|split; [|split; [|split]]].
  - intros e R. destruct (acts l); [|injection R as <-; exact EN]. cbn [says rval] in R. apply (said_pick E f toks l _ _ F) in R as (i & tok & X & Y). destruct i; try discriminate. injection X as <-. destruct Y as (v & _ & Y). apply error_range in Y; [exact Y|exact EL].
  - intros v R. destruct (acts l); [|discriminate]. cbn [says rval] in R. apply (said_pick E f toks l _ _ F) in R as (i & tok & X & Y). destruct i; try discriminate. injection X as <-. destruct Y as (_ & w & _ & Y). apply int_text_range in Y. exact Y.
  - intros s R. cbn [says signal] in R. apply (said_pick E f toks l _ _ F) in R as (i & tok & X & Y). destruct i; try discriminate. injection X as <-. destruct Y as (_ & w & _ & Y & _). exact Y.
  - intros ps [R|R]; cbn [says poke_enter poke_exit] in R; apply (said_pick E f toks l _ _ F) in R as (i & tok & X & Y); destruct i as [| | | | |[|] q|]; try discriminate; injection X as <-; destruct Y as (_ & w & _ & Y); exact (pokes_range w q Y).
  - destruct (acts l) eqn:A; [|left; discriminate]. rewrite <- acts_said in A. unfold has_action in A. destruct (signal (says l)); [right; left; discriminate|]. destruct (rval (says l)); [left; discriminate|]. rewrite S2, S3.
    destruct (delay_enter (says l)); [do 4 right; left; discriminate|]. destruct (delay_exit (says l)); [do 5 right; discriminate|]. destruct (poke_enter (says l)); [do 2 right; left; discriminate|]. destruct (poke_exit (says l)); [do 3 right; left; discriminate|]. discriminate.
Qed.
Print Assumptions C67_ranges.

(** ---- a concrete case ---- *)
Definition ex_t0 : list sysent :=
  [ {| sys_flags := 32; sys_func := true; sys_name := Some (bs "read") |};
    {| sys_flags := 524288; sys_func := true; sys_name := Some (bs "getpid") |};
    {| sys_flags := 32; sys_func := true; sys_name := Some (bs "write") |} ].
Definition ex_t1 : list sysent :=
  [ {| sys_flags := 524288; sys_func := true; sys_name := Some (bs "getpid") |};
    {| sys_flags := 32; sys_func := true; sys_name := Some (bs "read") |} ].
Definition ex_E : ienv := {|
  qe := {| tables := [ex_t0; ex_t1]; designators := [bs "64"; bs "32"]; shuffle := fun n _ => n; non_shuffled_check := false; regcomp := fun _ => None |};
  signames := fun n => if n =? 9 then Some (bs "SIGKILL") else if n =? 15 then Some (bs "SIGTERM") else None;
  errnames := [None; Some (bs "EPERM"); Some (bs "ENOENT"); None; Some (bs "EINTR")];
  fpunit := cpu; enosys := 38 |}.
Example ex_E_ok : env_ok (qe ex_E) /\ Forall (fun t => N.of_nat (length t) <= 65536) (tables (qe ex_E)).
Proof.
  split; [split; [reflexivity|]|repeat constructor; discriminate].
  intros [|[|p]] t H; cbn in H; try (destruct p; discriminate); injection H as <-; (split; [reflexivity|]); (split; [intros v V; exact V|discriminate]).
Qed.
Definition ask (fault : bool) (s : list N) : res (list (list (option bool)) * list (opts (idata * N))) :=
  rlet r := inject_rule ex_E fault s in
  Ok (map (fun p => map (fun n => is_number_in_set_array n (Some (r_set r)) p) [0;1;2]) [0;1]%nat, r_opts r).
Example ex_inject : ask false (bs "!read:error=enoent:signal=term:when=2..7+3:poke_exit=@arg2=00fF,@arg1=41:syscall=getpid:delay_enter=2ms") =
  Ok ([[Some false; Some true; Some true]; [Some true; Some false; Some true]],
      map (fun c => {| first := 2; last := 7; step := 3;
         odata := ({| signal := Some 15; rval := Some (true, 2); delay_enter := Some {| sec := 0; nsec := 2000000 |}; delay_exit := None;
                      poke_enter := None; poke_exit := Some [(1, [65]); (2, [0; 255])]; scnos := Some [1; 0] |}, c) |}) [1; 0]).
Proof. reflexivity. Qed.
Example ex_fault : ask true (bs "read") =
  Ok ([[Some true; Some false; Some false]; [Some false; Some true; Some false]],
      map (fun c => {| first := 1; last := 65535; step := 1;
         odata := ({| signal := None; rval := Some (true, 38); delay_enter := None; delay_exit := None; poke_enter := None; poke_exit := None; scnos := None |}, c) |}) [0; 0]).
Proof. reflexivity. Qed.
Example ex_rejected : map (ask false) [bs "read"; bs ""; bs ":error=1"; bs "read:error=1:retval=2"; bs "read:error=0"; bs "read:error=EFOO"; bs "read:signal=65"; bs "read:syscall=write:error=1"; bs "read:syscall=getpid"; bs "read:poke_enter=@arg8=00"; bs "read:poke_enter=@arg1=0"; bs "read:retval=12x"; bs "read:when=0:error=1"; bs "read:nonsense"] = repeat Die 14
  /\ map (ask true) [bs "read:retval=1"; bs "read:signal=9"] = repeat Die 2.
Proof. split; reflexivity. Qed.
Example ex_retval : (rlet r := ask false (bs "read:retval=-0x1") in Ok (map (fun o => rval (fst (odata o))) (snd r))) = Ok (repeat (Some (false, 2^64 - 1)) 2).
Proof. reflexivity. Qed.

(** the specification holds of the case, not only the model *)
Example ex_denotes : exists base l, inject_denotes ex_E false (bs "!read:error=enoent:when=2") 1 (bs "read") base l /\ l = [IError 2; IWhen 2 65535 0].
Proof.
  destruct (syscalls_denote (qe ex_E) (bs "read")) as [base|] eqn:SD; [|discriminate]. exists base, [IError 2; IWhen 2 65535 0]. split; [|reflexivity].
  split; [intros d r H; injection H as <- _; discriminate|]. exists [bs "error=enoent"; bs "when=2"]. split; [reflexivity|]. split; [intros d r H; injection H as <- _; discriminate|]. split; [exact SD|].
  split; [|split; [repeat constructor; cbn; intuition discriminate|right; reflexivity]].
  constructor; [|constructor; [|constructor]].
  - exists (bs "enoent"). split; [reflexivity|]. apply error_iff. split; [reflexivity|lia].
  - exists (bs "2"). split; [reflexivity|]. apply parse_when_iff. reflexivity.
Qed.

(** Not so for what follows @argN=: digits that are no hexadecimal digits are accepted. *)
Theorem C67_poke_data_refuted : ~ (forall E fault str r,
  env_ok (qe E) -> Forall (fun t => N.of_nat (length t) <= 65536) (tables (qe E)) ->
  inject_rule E fault str = Ok r -> exists k body base l, inject_denotes E fault str k body base l).
Proof.
  intros H. destruct (inject_rule ex_E false (bs "read:poke_enter=@arg1=1g")) as [r| |] eqn:R; try discriminate.
  destruct (H ex_E false (bs "read:poke_enter=@arg1=1g") r (proj1 ex_E_ok) (proj2 ex_E_ok) R) as (k & body & base & l & _ & toks & CT & _ & _ & F & _).
  change (colon_tokens (bs "read:poke_enter=@arg1=1g")) with [bs "read"; bs "poke_enter=@arg1=1g"] in CT. injection CT as _ <-.
  inversion F as [|t i ts l' D F']; subst. destruct i as [| | | | |[|] p|[|] t]; cbn [item_denotes] in D; try (destruct D as (v & X & _); discriminate X); try (destruct D as (_ & v & X & _); discriminate X).
  destruct D as (_ & v & X & (_ & P & _)). cbn in X. injection X as <-. change (comma_tokens _) with [bs "@arg1=1g"] in P.
  inversion P as [|? q ? ? (h & Y & _ & HP & _) _]; subst. cbn in Y. injection Y as _ <-.
  destruct (snd q) as [|b d]; [contradiction|]. destruct HP as [(x & y & _ & G & _) _]. unfold dval in G. lia.
Qed.
Print Assumptions C67_poke_data_refuted.
Example ex_poke_quirks :
  (rlet r := ask false (bs "read:poke_enter=@arg1=1g") in Ok (map (fun o => poke_enter (fst (odata o))) (snd r))) = Ok (repeat (Some [(1, [1])]) 2) /\
  (rlet r := ask false (bs "read:poke_enter=@arg1=-1") in Ok (map (fun o => poke_enter (fst (odata o))) (snd r))) = Ok (repeat (Some [(1, [255])]) 2) /\
  (rlet r := ask false (bs "read:poke_enter=,") in Ok (map (fun o => poke_enter (fst (odata o))) (snd r))) = Ok (repeat (Some []) 2).
Proof. repeat split; reflexivity. Qed.
