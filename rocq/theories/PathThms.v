(** C41: which system calls -P lets through. *)
From Verif Require Import Base AllocModel BitsModel BitsSpec PathModel PathSpec PathProofs.
From Coq Require Import String.
Import ListNotations.
Local Open Scope N_scope.

(** C41: after any sequence of -P options a path matches iff it is one of the
    paths given or the canonical form of one; nothing is ever written outside
    of the array; no path is kept twice. *)
Theorem C41_members : forall mal h,
  select_all mal h empty_pset <> Undef /\
  forall s, select_all mal h empty_pset = Ok s ->
    (forall q, pathmatch q (Some s) = true <-> selected h q) /\
    NoDup (sel s) /\ N.of_nat (List.length (sel s)) <= cap s.
Proof.
  intros mal h. pose proof (select_all_spec mal h empty_pset wf_empty) as H.
  destruct (select_all mal h empty_pset) as [s| |].
  - split; [discriminate|]. intros s' E. injection E as <-.
    destruct H as ((HN & HL & _) & HI). split; [|auto].
    intros q. rewrite pathmatch_in, HI. cbn. tauto.
  - split; [discriminate|]. intros s' E. discriminate.
  - destruct H.
Qed.
Print Assumptions C41_members.

(** C41: giving a path again changes nothing. *)
Theorem C41_duplicates : forall mal h p r s,
  select_all mal h empty_pset = Ok s -> In (p, r) h ->
  select_set mal p r s = Ok s.
Proof.
  intros mal h p r s E HI.
  pose proof (select_all_spec mal h empty_pset wf_empty) as H. rewrite E in H.
  destruct H as (HW & HM).
  assert (Hp : In p (sel s)).
  { apply HM. right. exists p, r. auto. }
  assert (Hr : forall q, r = Some q -> In q (sel s)).
  { intros q Hq. apply HM. right. exists p, r. auto. }
  unfold select_set, storepath.
  apply pathmatch_in in Hp. rewrite Hp. cbn [rbind].
  destruct r as [q|]; [|reflexivity]. destruct (beqs p q); [reflexivity|].
  specialize (Hr q eq_refl). apply pathmatch_in in Hr. rewrite Hr. reflexivity.
Qed.
Print Assumptions C41_duplicates.

(** A set built by -P options, or none at all. *)
Definition built (mal : N -> bool) h (set : option pset) : Prop :=
  match set with
  | Some s => select_all mal h empty_pset = Ok s
  | None => h = []
  end.

Lemma built_holds mal h set : built mal h set -> holds set h.
Proof.
  destruct set as [s|]; cbn; [|auto]. intros E q.
  destruct (C41_members mal h) as (_ & H). rewrite <- pathmatch_in. apply H, E.
Qed.

(** C41: a system call matches iff one of its arguments that the manual
    describes as a descriptor or a path hits.
    Partial: the arguments listed in C41_rest_refuted are excluded. *)
Theorem C41_syscalls_partial : forall mal h set e ws ll fdset s tf td tn sig args,
  built mal h set -> In (s, tf, td, tn, sig) manual ->
  exists b, match_set e ws ll set fdset (bs s) tf td tn args = Ok b /\
  (b = true <-> exists i k, nth_error sig i = Some k /\
                            arg_hits e h fdset k (args i)).
Proof.
  intros mal h set e ws ll fdset s tf td tn sig args HB HI.
  apply built_holds in HB. apply row_match; [exact HB|].
  pose proof manual_ok as H. rewrite forallb_forall in H. exact (H _ HI).
Qed.
Print Assumptions C41_syscalls_partial.

(** C41 fails for three calls: the new name of rename is not looked at, nor
    is the epoll descriptor of epoll_ctl, nor the group descriptor of
    perf_event_open. *)
Theorem C41_rest_refuted : forall s tf td tn sig,
  In (s, tf, td, tn, sig) manual_rest ->
  exists mal h set e ws ll fdset args,
  built mal h set /\
  match_set e ws ll set fdset (bs s) tf td tn args = Ok false /\
  exists i k, nth_error sig i = Some k /\ arg_hits e h fdset k (args i).
Proof.
  intros s tf td tn sig HI.
  pose (h := [(bs "/b", Some (bs "/b"))]).
  pose (e := mk_env (fun a => if a =? 1 then Some (bs "/b") else None)
                    (fun fd => if (fd =? 1)%Z then Some (bs "/b") else None)
                    (fun _ => None) (fun _ _ => None) (fun _ _ => None)).
  assert (X : forall i k, k <> Oth -> arg_hits e h None k
     ((fun j => if Nat.eqb j i then 1 else 0) i)).
  { intros i k Hk. cbn beta. rewrite Nat.eqb_refl.
    assert (S : selected h (bs "/b")) by (exists (bs "/b"), (Some (bs "/b")); cbn; auto).
    destruct k; [right|..|congruence]; exists (bs "/b"); auto. }
  destruct HI as [E|[E|[E|[]]]]; injection E as <- <- <- <- <-.
  - exists (fun _ => true), h, (Some (mk_pset [bs "/b"] 16)), e, 8, 3%nat, None,
      (fun j => if Nat.eqb j 1 then 1 else 0).
    split; [vm_compute; reflexivity|]. split; [vm_compute; reflexivity|].
    exists 1%nat, Path. split; [reflexivity|]. apply X. discriminate.
  - exists (fun _ => true), h, (Some (mk_pset [bs "/b"] 16)), e, 8, 3%nat, None,
      (fun j => if Nat.eqb j 0 then 1 else 0).
    split; [vm_compute; reflexivity|]. split; [vm_compute; reflexivity|].
    exists 0%nat, Fd. split; [reflexivity|]. apply X. discriminate.
  - exists (fun _ => true), h, (Some (mk_pset [bs "/b"] 16)), e, 8, 3%nat, None,
      (fun j => if Nat.eqb j 3 then 1 else 0).
    split; [vm_compute; reflexivity|]. split; [vm_compute; reflexivity|].
    exists 3%nat, Fd. split; [reflexivity|]. apply X. discriminate.
Qed.
Print Assumptions C41_rest_refuted.

(** C41: poll and ppoll match iff one of the first 2^20 descriptors polled
    hits and all the structures up to it can be read. *)
Theorem C41_poll : forall mal h set e ws ll fdset s args,
  built mal h set ->
  In s ["poll_time32"; "poll_time64"; "ppoll_time32"; "ppoll_time64"]%string ->
  args 0%nat + 8 * N.min (args 1%nat mod 2 ^ 32) (2 ^ 20) < 2 ^ 64 ->
  exists b, match_set e ws ll set fdset (bs s) false true false args = Ok b /\
  (b = true <-> exists k,
     N.of_nat k < N.min (args 1%nat mod 2 ^ 32) (2 ^ 20) /\
     (forall j, (j <= k)%nat -> pollfd e (args 0%nat + 8 * N.of_nat j) <> None) /\
     exists fd, pollfd e (args 0%nat + 8 * N.of_nat k) = Some fd /\ fd_hits e h fdset fd).
Proof.
  intros mal h set e ws ll fdset s args HB HS Hw. apply built_holds in HB.
  assert (Hg : group_of (bs s) = G_poll).
  { destruct HS as [<-|[<-|[<-|[<-|[]]]]]; vm_compute; reflexivity. }
  unfold match_set. cbn [orb negb]. rewrite Hg. unfold match_poll.
  set (n := if 1048576 <? u32 (args 1%nat) then 1048576 else u32 (args 1%nat)).
  assert (Hn : n = N.min (args 1%nat mod 2 ^ 32) (2 ^ 20)).
  { unfold n, u32. change (2 ^ 20) with 1048576.
    destruct (N.ltb_spec 1048576 (args 1%nat mod 2 ^ 32)); lia. }
  rewrite <- Hn in *. clearbody n. clear Hn.
  unfold u64. rewrite N.mod_small by exact Hw.
  destruct (N.eqb_spec n 0) as [->|Hn0]; cbn [orb].
  { exists false. split; [reflexivity|]. split; [discriminate|]. intros (k & Hk & _). lia. }
  destruct (N.ltb_spec (args 0%nat + 8 * n) (args 0%nat)); [lia|].
  destruct (poll_loop_spec e set h fdset HB (S (N.to_nat n)) (args 0%nat) (N.to_nat n))
    as (b & Hb & Hs); [lia|lia|].
  rewrite N2Nat.id in Hb. exists b. split; [exact Hb|]. rewrite Hs.
  split; intros (k & Hk & HR); exists k; (split; [lia|exact HR]).
Qed.
Print Assumptions C41_poll.

(** C41: select and pselect6 match iff one of the descriptors below
    min(nfds, 2^20) in one of the readable sets hits; on little-endian hosts.
    [ubytes] returns as many bytes as asked for. *)
Theorem C41_select : forall mal h set e ws ll fdset s args,
  built mal h set ->
  (ws = 4 \/ ws = 8) ->
  (forall a n l, ubytes e a n = Some l -> N.of_nat (List.length l) = n) ->
  In s ["select"; "pselect6_time32"; "pselect6_time64"]%string ->
  let nfds := Z.min (to_int (args 0%nat)) 1048576 in
  let size := ((Z.to_N nfds + 7) / 8 + ws - 1) / ws * ws in
  exists b, match_set e ws ll set fdset (bs s) false true false args = Ok b /\
  (b = true <-> exists i fds k, (1 <= i <= 3)%nat /\ args i <> 0 /\
     ubytes e (args i) size = Some fds /\ (Z.of_N k < nfds)%Z /\
     bit_set fds 0 k /\ fd_hits e h fdset (Z.of_N k)).
Proof.
  intros mal h set e ws ll fdset s args HB Hws HU HS nfds size. apply built_holds in HB.
  assert (Hg : group_of (bs s) = G_select).
  { destruct HS as [<-|[<-|[<-|[]]]]; vm_compute; reflexivity. }
  unfold match_set. cbn [orb negb]. rewrite Hg. unfold match_xselect_args.
  destruct (Z.leb_spec (to_int (args 0%nat)) 0) as [Hle|Hgt].
  { exists false. split; [reflexivity|]. split; [discriminate|].
    intros (i & fds & k & _ & _ & _ & Hk & _). unfold nfds in Hk. lia. }
  set (n := if (1048576 <? to_int (args 0%nat))%Z then 1048576 else Z.to_N (to_int (args 0%nat))).
  assert (Hn : n = Z.to_N nfds).
  { unfold n, nfds. destruct (Z.ltb_spec 1048576 (to_int (args 0%nat))); lia. }
  rewrite Hn. fold size.
  assert (Hb : Z.to_N nfds <= 2 ^ 32 - 8) by (unfold nfds; change (2 ^ 32 - 8) with 4294967288; lia).
  destruct (xsel_sets_spec e set h fdset size (Z.to_N nfds) HB Hb) with
    (addrs := [args 1%nat; args 2%nat; args 3%nat]) as (b & Hb' & Hs).
  { intros a l E. apply covers_len. rewrite (HU _ _ _ E). unfold size. apply fdsize_ge, Hws. }
  exists b. split; [exact Hb'|]. rewrite Hs. split.
  - intros (a & fds & k & HI & H0 & HUb & Hk & HR).
    destruct HI as [<-|[<-|[<-|[]]]]; [exists 1%nat|exists 2%nat|exists 3%nat];
      exists fds, k; (split; [lia|]); (split; [exact H0|]); (split; [exact HUb|]);
      (split; [lia|exact HR]).
  - intros (i & fds & k & Hi & H0 & HUb & Hk & HR). exists (args i), fds, k.
    split; [|split; [exact H0|split; [exact HUb|split; [lia|exact HR]]]].
    assert (C : i = 1%nat \/ i = 2%nat \/ i = 3%nat) by lia.
    destruct C as [->|[->| ->]]; cbn; auto.
Qed.
Print Assumptions C41_select.

(** Concrete cases. *)
Definition ex_h : list (list N * option (list N)) :=
  [(bs "a", Some (bs "/tmp/a")); (bs "/etc/x", None); (bs "/tmp/a", Some (bs "/tmp/a"));
   (bs "b", Some (bs "/b")); (bs "c", Some (bs "/c")); (bs "a", Some (bs "/tmp/a"))].

Example ex_select : exists s, select_all (fun _ => true) ex_h empty_pset = Ok s /\
  List.length (sel s) = 7%nat /\ cap s = 16 /\ pathmatch (bs "/tmp/a") (Some s) = true /\
  pathmatch (bs "/tmp/b") (Some s) = false.
Proof. eexists. split; [vm_compute; reflexivity|]. vm_compute. auto. Qed.

Definition ex_env : env :=
  mk_env (fun a => if a =? 4096 then Some (bs "/b") else None)
         (fun fd => if (fd =? 7)%Z then Some (bs "/c") else None)
         (fun a => if a =? 8192 then Some 3%Z else if a =? 8200 then Some 7%Z else None)
         (fun _ n => Some (128 :: repeat 0 (N.to_nat (n - 1)))) (fun _ _ => None).

Example ex_calls :
  let s := select_all (fun _ => true) ex_h empty_pset in
  let m sen args := match s with Ok s => match_set ex_env 8 3 (Some s) None (bs sen) true true false args
                               | _ => Undef end in
  m "linkat"%string (fun i => match i with 3%nat => 4096 | _ => 0 end) = Ok true /\
  m "linkat"%string (fun i => match i with 4%nat => 4096 | _ => 0 end) = Ok false /\
  m "dup2"%string (fun i => match i with 1%nat => 7 | _ => 0 end) = Ok true /\
  m "poll_time64"%string (fun i => match i with 0%nat => 8192 | _ => 2 end) = Ok true /\
  m "poll_time64"%string (fun i => match i with 0%nat => 8192 | _ => 1 end) = Ok false /\
  m "select"%string (fun i => match i with 0%nat => 8 | 1%nat => 16 | _ => 0 end) = Ok true /\
  m "select"%string (fun i => match i with 0%nat => 7 | 1%nat => 16 | _ => 0 end) = Ok false.
Proof. vm_compute. repeat split. Qed.
