(** C42: -E. *)
From Verif Require Import Base EnvModel EnvSpec EnvProofs.
From Coq Require Import String.
Import ListNotations.
Local Open Scope N_scope.

(** C42: an environment is always made: no access is outside of the array
    allocated, nor to a slot not yet written, and strace does not die; the
    only condition is that the number of strings is below 2^61 - 1, which
    does not fit into memory. *)
Theorem C42_safe : forall orig changes,
  Forall cstring orig -> Forall cstring changes ->
  N.of_nat (List.length orig) + N.of_nat (List.length changes) + 1 < 2 ^ 61 ->
  exists env, make_env orig changes = Ok env /\
    (List.length env <= List.length orig + List.length changes)%nat.
Proof.
  intros orig cs HO HC HL. exists (edits cs orig). split; [apply make_env_spec; auto|].
  clear. revert orig. induction cs as [|c cs IH]; intros l; [cbn; lia|].
  change (edits (c :: cs) l) with (edits cs (edit c l)). specialize (IH (edit c l)).
  pose proof (edit_len c l). cbn [List.length]. lia.
Qed.
Print Assumptions C42_safe.

(** C42: each variable is bound as its last edit says: VAR=VAL is the first
    binding of VAR, after VAR alone there is none; without an edit its
    bindings are the original ones. *)
Theorem C42_bindings : forall orig changes env,
  Forall cstring orig -> Forall cstring changes ->
  N.of_nat (List.length orig) + N.of_nat (List.length changes) + 1 < 2 ^ 61 ->
  make_env orig changes = Ok env ->
  forall n,
  match last_edit n changes with
  | None => bindings n env = bindings n orig
  | Some c => (sets c -> hd_error (bindings n env) = Some c) /\ (~ sets c -> bindings n env = [])
  end /\
  (List.length (bindings n env) <= Nat.max 1 (List.length (bindings n orig)))%nat.
Proof.
  intros orig cs env HO HC HL E n. rewrite make_env_spec in E by auto. injection E as <-.
  split; [apply edits_last|apply edits_count].
Qed.
Print Assumptions C42_bindings.

(** C42: the entries of all the variables not edited are kept, in the
    original order. *)
Theorem C42_others : forall orig changes env keep,
  Forall cstring orig -> Forall cstring changes ->
  N.of_nat (List.length orig) + N.of_nat (List.length changes) + 1 < 2 ^ 61 ->
  make_env orig changes = Ok env ->
  Forall (fun c => keep (name c) = false) changes ->
  only keep env = only keep orig.
Proof.
  intros orig cs env keep HO HC HL E HK. rewrite make_env_spec in E by auto. injection E as <-.
  apply edits_other, HK.
Qed.
Print Assumptions C42_others.

(** C42: the edits are applied in order: giving them all at once is giving
    the first ones, and the others to the result. *)
Theorem C42_in_order : forall orig c1 c2 env,
  Forall cstring orig -> Forall cstring c1 -> Forall cstring c2 ->
  N.of_nat (List.length orig) + N.of_nat (List.length c1) + N.of_nat (List.length c2) + 1 < 2 ^ 61 ->
  make_env orig c1 = Ok env ->
  make_env orig (c1 ++ c2) = make_env env c2.
Proof.
  intros orig c1 c2 env HO H1 H2 HL E.
  destruct (C42_safe orig c1 HO H1 ltac:(clear -HL; lia)) as (env' & E' & L).
  rewrite E in E'. injection E' as <-.
  rewrite make_env_spec in E by (auto; clear -HL; lia). injection E as <-.
  assert (HF : Forall cstring (edits c1 orig)).
  { clear -HO H1. revert orig HO. induction H1 as [|c cs Hc H IH]; intros l HO; [exact HO|].
    change (edits (c :: cs) l) with (edits cs (edit c l)). apply IH, edit_cstring; auto. }
  rewrite !make_env_spec; auto.
  - unfold edits. rewrite fold_left_app. reflexivity.
  - clear -HL L. lia.
  - apply Forall_app. auto.
  - rewrite app_length. clear -HL. lia.
Qed.
Print Assumptions C42_in_order.

(** Concrete cases. *)
Definition ex_orig : list (list N) :=
  [bs "PATH=/bin"; bs "HOME=/root"; bs "PATHX=1"; bs "HOME=/dup"; bs "TERM"].

Example ex_cstrings : Forall cstring ex_orig /\ Forall cstring [bs "PATH=/usr/bin"; bs "HOME"; bs "NEW=1"].
Proof. split; repeat constructor; unfold cstring; vm_compute; intuition discriminate. Qed.

Example ex_env :
  make_env ex_orig [bs "PATH=/usr/bin"; bs "HOME"; bs "NEW=1"; bs "TERM=vt100"; bs "NEW=a=b"] =
    Ok [bs "PATH=/usr/bin"; bs "PATHX=1"; bs "TERM=vt100"; bs "NEW=a=b"] /\
  make_env ex_orig [] = Ok ex_orig /\
  make_env [] [bs "A=1"; bs "A"; bs "B="] = Ok [bs "B="] /\
  make_env ex_orig [bs "HOME="] =
    Ok [bs "PATH=/bin"; bs "HOME="; bs "PATHX=1"; bs "HOME=/dup"; bs "TERM"].
Proof. vm_compute. repeat split. Qed.

Example ex_last :
  last_edit (bs "NEW") [bs "PATH=/usr/bin"; bs "NEW=1"; bs "NEW=a=b"; bs "NEWS"] = Some (bs "NEW=a=b").
Proof. reflexivity. Qed.
