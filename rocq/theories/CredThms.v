(** C85: -u. *)
From Verif Require Import Base StrtouModel StrtouSpec StrtouThms CredModel CredSpec.
Local Open Scope N_scope.

Lemma after_colon_spec s t : after_colon s = Some t <-> exists a, s = a ++ 58 :: t /\ ~ In 58 a.
Proof.
  revert t. induction s as [|c s IH]; intros t; cbn [after_colon].
  - split; [discriminate|]. intros (a & E & _). destruct a; discriminate.
  - destruct (N.eqb_spec c 58) as [->|Ne].
    + split; [intros E; injection E as E; subst t; exists []; split; [reflexivity|intros []]|]. intros ([|b a] & E & N); [injection E as ->; reflexivity|]. injection E as <- _. contradiction N. left. reflexivity.
    + rewrite IH. split; intros (a & E & N).
      * exists (c :: a). split; [rewrite E; reflexivity|]. intros [H|H]; [congruence|exact (N H)].
      * destruct a as [|b a]; [injection E as -> _; contradiction|]. injection E as <- E. exists a. split; [exact E|]. intros H. apply N. right. exact H.
Qed.
Lemma after_colon_none s : after_colon s = None <-> ~ In 58 s.
Proof.
  induction s as [|c s IH]; cbn [after_colon In]; [split; [intros _ []|reflexivity]|]. destruct (N.eqb_spec c 58) as [->|Ne].
  - split; [discriminate|]. intros H. contradiction H. left. reflexivity.
  - rewrite IH. split; intros H; [intros [E|J]; [exact (Ne E)|exact (H J)]|intros J; apply H; right; exact J].
Qed.
Lemma id_spec s v : v < 2^32 - 1 -> id s = v <-> exists rest, numeral s v rest /\ (rest = [] \/ exists r, rest = 58 :: r).
Proof.
  intros L. unfold id. destruct (string_to_uint_ex s (2^32 - 2) (Some [58])) as [[z rest]|] eqn:E.
  - apply C03_string_to_uint_ex in E. destruct E as (Z0 & Nu & Le & _ & R).
    assert (U : u32 (Z.to_N z) = Z.to_N z) by (unfold u32; apply N.mod_small; lia). rewrite U. split.
    + intros <-. exists rest. split; [exact Nu|]. destruct R as [->|(c & r & a & -> & [= <-] & [<-|[]])]; [left; reflexivity|right; exists r; reflexivity].
    + intros (rest' & Nu' & _). exact (proj1 (C03_numeral_unique _ _ _ _ _ Nu Nu')).
  - split; [intros E'; unfold nobody in E'; lia|]. intros (rest & Nu & R). exfalso.
    assert (H : string_to_uint_ex s (2^32 - 2) (Some [58]) = Some (Z.of_N v, rest)); [|congruence].
    apply C03_string_to_uint_ex. rewrite N2Z.id. repeat split; try lia; [exact Nu|]. destruct R as [->|(r & ->)]; [left; reflexivity|]. right. exists 58, r, [58]. repeat split. left. reflexivity.
Qed.
Lemma id_max s : id s = nobody \/ id s < 2^32 - 1.
Proof.
  unfold id. destruct (string_to_uint_ex s (2^32 - 2) (Some [58])) as [[z rest]|] eqn:E; [|left; reflexivity].
  apply C03_string_to_uint_ex in E. destruct E as (_ & _ & Le & _). right. unfold u32. rewrite N.mod_small; lia.
Qed.

(** a text with a single colon is taken as UID:GID exactly when it is one; missing: more colons *)
Lemma numeral_cut a v t : ~ In 58 a -> (exists rest, numeral (a ++ 58 :: t) v rest /\ (rest = [] \/ exists r, rest = 58 :: r)) <-> numeral a v [].
Proof.
  intros N. split.
  - intros (rest & (bl & sg & ds & E & Fb & Hs & Hd & Fd & Hr & Ev) & R).
    assert (NC : ~ In 58 (bl ++ sg ++ ds)).
    { intros J. apply in_app_or in J. destruct J as [J|J]; [rewrite Forall_forall in Fb; specialize (Fb _ J); unfold blank in Fb; lia|]. apply in_app_or in J. destruct J as [J|J].
      - destruct Hs as [->|[->|[-> _]]]; cbn in J; [destruct J|destruct J as [J|[]]; discriminate|destruct J as [J|[]]; discriminate].
      - rewrite Forall_forall in Fd. specialize (Fd _ J). unfold digit in Fd. lia. }
    assert (Q : a ++ 58 :: t = (bl ++ sg ++ ds) ++ rest) by (rewrite E, <- !app_assoc; reflexivity). clear E.
    assert (G : a = bl ++ sg ++ ds).
    { revert NC Q. generalize (bl ++ sg ++ ds). intros p NC Q. revert p NC Q N. induction a as [|c a IH]; intros [|d p] NC Q N.
      - reflexivity.
      - injection Q as Q _. contradiction NC. left. symmetry. exact Q.
      - cbn [app] in Q. destruct R as [->|(r & ->)]; [discriminate|]. injection Q as -> _. contradiction N. left. reflexivity.
      - injection Q as -> Q. f_equal. apply IH; [intros J; apply NC; right; exact J|exact Q|intros J; apply N; right; exact J]. }
    exists bl, sg, ds. rewrite app_nil_r. repeat split; try assumption. intros c r H; discriminate.
  - intros (bl & sg & ds & E & Fb & Hs & Hd & Fd & _ & Ev). exists (58 :: t). split; [|right; exists t; reflexivity].
    exists bl, sg, ds. rewrite app_nil_r in E. repeat split; try assumption.
    + rewrite E, <- !app_assoc. reflexivity.
    + intros c r [= <- _]. unfold digit. lia.
Qed.
Lemma numeral_whole b v : ~ In 58 b -> (exists rest, numeral b v rest /\ (rest = [] \/ exists r, rest = 58 :: r)) <-> numeral b v [].
Proof.
  intros N. split; [|intros H; exists []; split; [exact H|left; reflexivity]]. intros (rest & H & [->|(r & ->)]); [exact H|]. exfalso.
  destruct H as (bl & sg & ds & E & _). apply N. rewrite E. rewrite !app_assoc. apply in_or_app. right. left. reflexivity.
Qed.
Theorem C85_pair_partial : forall s u g a b, s = a ++ [58] ++ b -> ~ In 58 a -> ~ In 58 b ->
  (is_uid_gid_pair s = Some (u, g) /\ u <> nobody /\ g <> nobody) <-> pair s u g.
Proof.
  intros s u g a b -> Na Nb. unfold is_uid_gid_pair. assert (E : after_colon (a ++ [58] ++ b) = Some b) by (apply after_colon_spec; exists a; split; [reflexivity|exact Na]). rewrite E.
  split.
  - intros (H & Nu & Ng). assert (Hu : id (a ++ [58] ++ b) = u) by congruence. assert (Hg : id b = g) by congruence. clear H. destruct (id_max (a ++ [58] ++ b)) as [M|Mu]; [congruence|]. destruct (id_max b) as [M|Mg]; [congruence|].
    rewrite Hu in Mu. rewrite Hg in Mg. apply id_spec in Hu; [|exact Mu]. apply id_spec in Hg; [|exact Mg].
    apply numeral_cut in Hu; [|exact Na]. apply numeral_whole in Hg; [|exact Nb]. exists a, b. repeat split; assumption.
  - intros (a' & b' & Eq & Hu & Hg & Lu & Lg).
    assert (NC : forall x v, numeral x v [] -> ~ In 58 x).
    { intros x v (bl & sg & ds & -> & Fb & Hs & _ & Fd & _ & _) J. rewrite app_nil_r in J. apply in_app_or in J. destruct J as [J|J]; [rewrite Forall_forall in Fb; specialize (Fb _ J); unfold blank in Fb; lia|]. apply in_app_or in J. destruct J as [J|J].
      - destruct Hs as [->|[->|[-> _]]]; cbn in J; [destruct J|destruct J as [J|[]]; discriminate|destruct J as [J|[]]; discriminate].
      - rewrite Forall_forall in Fd. specialize (Fd _ J). unfold digit in Fd. lia. }
    assert (E' : after_colon (a ++ [58] ++ b) = Some b') by (apply after_colon_spec; exists a'; split; [exact Eq|exact (NC _ _ Hu)]). rewrite E in E'. injection E' as ->.
    rewrite Eq. assert (I1 : id (a' ++ [58] ++ b') = u) by (apply id_spec; [exact Lu|]; apply numeral_cut; [exact (NC _ _ Hu)|exact Hu]).
    assert (I2 : id b' = g) by (apply id_spec; [exact Lg|]; apply numeral_whole; [exact Nb|exact Hg]). rewrite I1, I2. unfold nobody. repeat split; lia.
Qed.
Print Assumptions C85_pair_partial.
(** whatever follows a second colon is ignored *)
Theorem C85_pair_refuted : ~ forall s u g, (is_uid_gid_pair s = Some (u, g) /\ u <> nobody /\ g <> nobody) -> pair s u g.
Proof.
  intros H. destruct (H (bs "1:2:root") 1 2) as (a & b & E & Hu & Hg & _); [split; [vm_compute; reflexivity|split; discriminate]|].
  assert (NC : forall x v, numeral x v [] -> ~ In 58 x).
  { intros x v (bl & sg & ds & -> & Fb & Hs & _ & Fd & _ & _) J. rewrite app_nil_r in J. apply in_app_or in J. destruct J as [J|J]; [rewrite Forall_forall in Fb; specialize (Fb _ J); unfold blank in Fb; lia|]. apply in_app_or in J. destruct J as [J|J].
    - destruct Hs as [->|[->|[-> _]]]; cbn in J; [destruct J|destruct J as [J|[]]; discriminate|destruct J as [J|[]]; discriminate].
    - rewrite Forall_forall in Fd. specialize (Fd _ J). unfold digit in Fd. lia. }
  assert (E1 : after_colon (bs "1:2:root") = Some b) by (apply after_colon_spec; exists a; split; [exact E|exact (NC _ _ Hu)]).
  assert (E2 : after_colon (bs "1:2:root") = Some (bs "2:root")) by (vm_compute; reflexivity). rewrite E1 in E2. injection E2 as ->.
  apply (NC _ _ Hg). apply in_or_app with (l := [50]). right. left. reflexivity.
Qed.
Print Assumptions C85_pair_refuted.

(** ** The credentials *)
Definition root (c : cred) : Prop := ruid c = 0 /\ euid c = 0.
Lemma capable_root c : root c -> capable c = true.
Proof. intros [_ E]. unfold capable. rewrite E. reflexivity. Qed.
Lemma setregid_cap r e c : capable c = true -> r <> nobody -> e <> nobody ->
  k_setregid r e c = Some {| ruid := ruid c; euid := euid c; suid := suid c; rgid := r; egid := e; sgid := e; groups := groups c |}.
Proof. intros C Nr Ne. unfold k_setregid. rewrite C, !orb_true_r. cbn [negb]. rewrite !andb_false_r. destruct (N.eqb_spec r nobody); [contradiction|]. destruct (N.eqb_spec e nobody); [contradiction|]. reflexivity. Qed.
Lemma setreuid_cap r e c : capable c = true -> r <> nobody -> e <> nobody ->
  k_setreuid r e c = Some {| ruid := r; euid := e; suid := e; rgid := rgid c; egid := egid c; sgid := sgid c; groups := groups c |}.
Proof. intros C Nr Ne. unfold k_setreuid. rewrite C, !orb_true_r. cbn [negb]. rewrite !andb_false_r. destruct (N.eqb_spec r nobody); [contradiction|]. destruct (N.eqb_spec e nobody); [contradiction|]. reflexivity. Qed.

(** who the run_ids are *)
Definition chosen (db : users) (s : list N) (u g : N) (l : list N) : Prop :=
  (is_uid_gid_pair s = Some (u, g) /\ u <> nobody /\ g <> nobody /\ l = []) \/ (is_uid_gid_pair s = None /\ getpwnam db s = Some (u, g) /\ l = groups_of db s g).
Lemma run_ids_some db c s u g : run_ids db c (Some s) = Ok (u, g) <-> root c /\ exists l, chosen db s u g l.
Proof.
  unfold run_ids, root, chosen. destruct (N.eqb_spec (ruid c) 0) as [E1|E1]; cbn [negb orb]; [|split; [discriminate|intros [[H _] _]; contradiction]].
  destruct (N.eqb_spec (euid c) 0) as [E2|E2]; cbn [negb]; [|split; [discriminate|intros [[_ H] _]; contradiction]].
  destruct (is_uid_gid_pair s) as [[a b]|].
  - destruct (N.eqb_spec a nobody) as [Ea|Ea]; cbn [orb]; [|destruct (N.eqb_spec b nobody) as [Eb|Eb]].
    + split; [discriminate|]. intros (_ & l & [(H & Nu & _)|(H & _)]); [|discriminate]. injection H as <- <-. contradiction.
    + split; [discriminate|]. intros (_ & l & [(H & _ & Ng & _)|(H & _)]); [|discriminate]. injection H as <- <-. contradiction.
    + split; [intros [= <- <-]; split; [split; assumption|exists []; left; repeat split; assumption]|]. intros (_ & l & [(H & _)|(H & _)]); [injection H as <- <-; reflexivity|discriminate].
  - destruct (getpwnam db s) as [[a b]|].
    + split; [intros [= <- <-]; split; [split; assumption|eexists; right; repeat split]|]. intros (_ & l & [(H & _)|(_ & H & _)]); [discriminate|injection H as <- <-; reflexivity].
    + split; [discriminate|]. intros (_ & l & [(H & _)|(_ & H & _)]); discriminate.
Qed.
Lemma chosen_denotes db s u g l : ~ (exists a b c, s = a ++ 58 :: b ++ 58 :: c) -> chosen db s u g l <-> denotes db s u g l.
Proof.
  intros One. unfold chosen, denotes. destruct (after_colon s) as [t|] eqn:A.
  - pose proof (proj1 (after_colon_spec s t) A) as (a & E & Na).
    assert (Nt : ~ In 58 t). { intros J. apply in_split in J. destruct J as (b & c & ->). apply One. exists a, b, c. exact E. }
    assert (Is : In 58 s) by (rewrite E; apply in_or_app; right; left; reflexivity).
    pose proof (C85_pair_partial s u g a t E Na Nt) as P. unfold is_uid_gid_pair in *. rewrite A in *. split.
    + intros [(H & Nu & Ng & ->)|(H & _)]; [|discriminate]. left. split; [exact Is|]. split; [apply P; repeat split; assumption|reflexivity].
    + intros [(_ & H & ->)|(H & _)]; [|contradiction]. apply P in H. destruct H as (H & Nu & Ng). left. repeat split; assumption.
  - pose proof (proj1 (after_colon_none s) A) as Ns. unfold is_uid_gid_pair. rewrite A. split.
    + intros [(H & _)|(_ & H & ->)]; [discriminate|]. right. repeat split; assumption.
    + intros [(H & _)|(_ & H & ->)]; [contradiction|]. right. repeat split; assumption.
Qed.

Definition valid_ids (db : users) (f : file) : Prop := owner f <> nobody /\ group f <> nobody /\ forall s u g, getpwnam db s = Some (u, g) -> u <> nobody /\ g <> nobody.
Lemma exec_some db fails f seccomp s u g l c : valid_ids db f -> root c -> chosen db s u g l ->
  (exists c' fc, exec_or_die db fails f seccomp (Some s) u g c = Exec c' fc /\ as_user f u g l c' /\ (seccomp = true -> exists c0, fc = Some c0 /\ capable c0 = true))
  \/ (exec_or_die db fails f seccomp (Some s) u g c = Exit /\ exists k, fails k = true).
Proof.
  intros (Vo & Vg & Vp) R Ch.
  assert (Nn : u <> nobody /\ g <> nobody). { destruct Ch as [(_ & A & B & _)|(_ & A & _)]; [split; assumption|exact (Vp _ _ _ A)]. } destruct Nn as [Nu Ng].
  assert (Ne : run_euid f u <> nobody) by (unfold run_euid; destruct (set_uid f); assumption). assert (Nge : run_egid f g <> nobody) by (unfold run_egid; destruct (set_gid f); assumption).
  pose proof (capable_root c R) as Cp. unfold exec_or_die.
  assert (G : exists k, (match is_uid_gid_pair s with Some _ => try fails Setgroups (k_setgroups [] c) | None => try fails Initgroups (k_setgroups (groups_of db s g) c) end) = try fails k (k_setgroups l c)).
  { destruct Ch as [(-> & _ & _ & ->)|(-> & _ & ->)]; eexists; reflexivity. }
  destruct G as (k & ->). unfold try. destruct (fails k) eqn:F1; [right; split; [reflexivity|exists k; exact F1]|]. unfold k_setgroups. rewrite Cp.
  destruct (fails Setregid) eqn:F2; [right; split; [reflexivity|exists Setregid; exact F2]|]. rewrite setregid_cap by (exact Cp || assumption). cbn [ruid euid suid rgid egid sgid groups].
  destruct (fails Setreuid) eqn:F3; [right; split; [reflexivity|exists Setreuid; exact F3]|]. rewrite setreuid_cap by (exact Cp || assumption). cbn [ruid euid suid rgid egid sgid groups].
  left. eexists _, _. split; [reflexivity|]. split; [unfold as_user; cbn; repeat split|]. intros ->. eexists. split; [reflexivity|exact Cp].
Qed.

(** With -u the program is run as that user, or not at all; it is run unless some call fails, the user is unknown or strace is not run by root. *)
Theorem C85_user_partial : forall db fails f seccomp s c, valid_ids db f -> ~ (exists a b t, s = a ++ 58 :: b ++ 58 :: t) ->
  match run db fails f seccomp (Some s) c with
  | Exec c' fc => root c /\ exists u g l, denotes db s u g l /\ as_user f u g l c' /\ (seccomp = true -> exists c0, fc = Some c0 /\ capable c0 = true)
  | Exit => ~ root c \/ (forall u g l, ~ denotes db s u g l) \/ exists k, fails k = true
  end.
Proof.
  intros db fails f seccomp s c V One. unfold run. destruct (run_ids db c (Some s)) as [[u g]| |] eqn:E.
  - apply run_ids_some in E. destruct E as (R & l & Ch). destruct (exec_some db fails f seccomp s u g l c V R Ch) as [(c' & fc & -> & A & B)|[-> F]].
    + split; [exact R|]. exists u, g, l. split; [apply chosen_denotes; assumption|]. split; assumption.
    + right. right. exact F.
  - destruct (N.eq_dec (ruid c) 0) as [E1|E1]; [|left; intros [H _]; contradiction]. destruct (N.eq_dec (euid c) 0) as [E2|E2]; [|left; intros [_ H]; contradiction].
    right. left. intros u g l D. apply chosen_denotes in D; [|exact One]. assert (H : run_ids db c (Some s) = Ok (u, g)) by (apply run_ids_some; split; [split; assumption|exists l; exact D]). congruence.
  - revert E. unfold run_ids. destruct (_ || _); [discriminate|]. destruct (is_uid_gid_pair s) as [[a b]|]; [destruct (_ || _); discriminate|destruct (getpwnam db s); discriminate].
Qed.
Print Assumptions C85_user_partial.
(** in every case some user was chosen, and only root's strace changes users *)
Theorem C85_user_chosen : forall db fails f seccomp s c c' fc, valid_ids db f -> run db fails f seccomp (Some s) c = Exec c' fc -> root c /\ exists u g l, as_user f u g l c' /\ u <> nobody /\ g <> nobody.
Proof.
  intros db fails f seccomp s c c' fc V. unfold run. destruct (run_ids db c (Some s)) as [[u g]| |] eqn:E; try discriminate. intros H.
  apply run_ids_some in E. destruct E as (R & l & Ch). destruct (exec_some db fails f seccomp s u g l c V R Ch) as [(c2 & fc2 & E & A & _)|[E _]]; rewrite H in E; [|discriminate].
  injection E as <- <-. split; [exact R|]. exists u, g, l. split; [exact A|]. destruct V as (_ & _ & Vp). destruct Ch as [(_ & P & Q & _)|(_ & P & _)]; [split; assumption|exact (Vp _ _ _ P)].
Qed.
Print Assumptions C85_user_chosen.

(** without -u nothing changes *)
Theorem C85_same : forall db fails f seccomp c, exists fc, run db fails f seccomp None c = Exec c fc.
Proof. intros. eexists. reflexivity. Qed.
Print Assumptions C85_same.

(** A program without set-ID bits, run as a user other than root, cannot get back any other identity. *)
Definition only (u g : N) (l : list N) (c : cred) : Prop := ruid c = u /\ euid c = u /\ suid c = u /\ rgid c = g /\ egid c = g /\ sgid c = g /\ groups c = l.
Lemma only_step u g l c c' : u <> 0 -> only u g l c -> (exists x, k_setgroups x c = Some c') \/ (exists r e, k_setregid r e c = Some c') \/ (exists r e, k_setreuid r e c = Some c') -> only u g l c'.
Proof.
  intros Nz (H1 & H2 & H3 & H4 & H5 & H6 & H7). assert (Cp : capable c = false) by (unfold capable; rewrite H2; apply N.eqb_neq; exact Nz).
  intros [(x & E)|[(r & e & E)|(r & e & E)]].
  - unfold k_setgroups in E. rewrite Cp in E. discriminate.
  - unfold k_setregid in E. rewrite Cp, H4, H5, H6, !orb_false_r in E. destruct (N.eqb_spec r nobody) as [Er|Er]; cbn [negb andb] in E; [|destruct (N.eqb_spec r g) as [Eg|Eg]; cbn [negb orb andb] in E; [|discriminate]];
      (destruct (N.eqb_spec e nobody) as [Ee|Ee]; cbn [negb andb orb] in E; [|destruct (N.eqb_spec e g) as [Eh|Eh]; cbn [negb orb andb] in E; [|discriminate]]);
      injection E as <-; unfold only; cbn [ruid euid suid rgid egid sgid groups]; repeat split; try assumption; reflexivity.
  - unfold k_setreuid in E. rewrite Cp, H1, H2, H3, !orb_false_r in E. destruct (N.eqb_spec r nobody) as [Er|Er]; cbn [negb andb] in E; [|destruct (N.eqb_spec r u) as [Eg|Eg]; cbn [negb orb andb] in E; [|discriminate]];
      (destruct (N.eqb_spec e nobody) as [Ee|Ee]; cbn [negb andb orb] in E; [|destruct (N.eqb_spec e u) as [Eh|Eh]; cbn [negb orb andb] in E; [|discriminate]]);
      injection E as <-; unfold only; cbn [ruid euid suid rgid egid sgid groups]; repeat split; try assumption; reflexivity.
Qed.
Theorem C85_dropped : forall db fails f seccomp s c c' fc c'', valid_ids db f -> set_uid f = false -> set_gid f = false ->
  run db fails f seccomp (Some s) c = Exec c' fc -> euid c' <> 0 -> becomes c' c'' -> c'' = c'.
Proof.
  intros db fails f seccomp s c c' fc c'' V Fu Fg H Nz B. destruct (C85_user_chosen _ _ _ _ _ _ _ _ V H) as (_ & u & g & l & (A1 & A2 & A3 & A4 & A5 & A6 & A7) & _ & _). rewrite Fu in A2. rewrite Fg in A5.
  assert (O : only u g l c') by (unfold only; repeat split; congruence). assert (Nu : u <> 0) by congruence.
  assert (O' : only u g l c''). { clear - B O Nu. induction B as [c|c x c' c'' E _ IH|c r e c' c'' E _ IH|c r e c' c'' E _ IH]; [exact O| | |]; apply IH; apply (only_step u g l c c' Nu O); [left; exists x; exact E|right; left; exists r, e; exact E|right; right; exists r, e; exact E]. }
  destruct c', c''. destruct O as (B1 & B2 & B3 & B4 & B5 & B6 & B7), O' as (C1 & C2 & C3 & C4 & C5 & C6 & C7). cbn in *. congruence.
Qed.
Print Assumptions C85_dropped.

(** ** Examples *)
Definition db1 : users := {| getpwnam := fun s => if beqs s (bs "user") then Some (1000, 100) else None; groups_of := fun _ g => [g; 7] |}.
Definition rootc : cred := {| ruid := 0; euid := 0; suid := 0; rgid := 0; egid := 0; sgid := 0; groups := [0; 1; 2] |}.
Definition plain : file := {| set_uid := false; set_gid := false; owner := 0; group := 0 |}.
Example C85_nonvacuous : valid_ids db1 plain /\ root rootc /\
  run db1 (fun _ => false) plain true (Some (bs "user")) rootc =
    Exec {| ruid := 1000; euid := 1000; suid := 1000; rgid := 100; egid := 100; sgid := 100; groups := [100; 7] |} (Some {| ruid := 0; euid := 0; suid := 0; rgid := 100; egid := 100; sgid := 100; groups := [100; 7] |}) /\
  (exists c fc, run db1 (fun _ => false) plain false (Some (bs "5:6")) rootc = Exec c fc /\ as_user plain 5 6 [] c) /\
  run db1 (fun _ => false) plain false (Some (bs "5:x")) rootc = Exit.
Proof.
  split; [|split; [|split; [|split]]].
  - repeat split; try discriminate; cbn [getpwnam db1] in *; destruct (beqs s (bs "user")); try discriminate; injection H as <- <-; discriminate.
  - split; reflexivity.
  - vm_compute. reflexivity.
  - eexists _, _. split; [vm_compute; reflexivity|]. repeat split.
  - vm_compute. reflexivity.
Qed.
