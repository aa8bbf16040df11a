(** C01, C02: number sets (src/number_set.c). *)
From Verif Require Import Base NumSetModel NumSetSpec NumSetProofs.
Local Open Scope N_scope.

(** C01.  Whatever legitimate sequence of add / invert / clear requests is made
    on a freshly allocated array of [k] sets, no access is out of bounds and the
    membership test answers exactly what the history of requests says. *)
Theorem C01_number_set_history : forall k ops, Forall (op_ok k) ops ->
  exists a, nrun (alloc_number_set_array k) ops = Some a /\ length a = k /\
   forall i n, (i < k)%nat ->
     is_number_in_set_array n (Some a) i = Some (member i ops n).
Proof. exact number_set_history. Qed.
Print Assumptions C01_number_set_history.

(** C01: a set reported empty has no member. *)
Theorem C01_empty_has_no_member : forall k ops, Forall (op_ok k) ops ->
  exists a, nrun (alloc_number_set_array k) ops = Some a /\
  forall i, (i < k)%nat ->
  exists b, number_set_array_is_empty (Some a) i = Some b /\
    (b = true -> forall n, member i ops n = false).
Proof. exact array_is_empty_sound. Qed.
Print Assumptions C01_empty_has_no_member.

(** The converse fails: after listing a number and clearing, the set has no
    member and is not reported empty (the storage is kept). *)
Theorem C01_empty_converse_refuted :
  exists k ops i a, Forall (op_ok k) ops /\ (i < k)%nat /\
    nrun (alloc_number_set_array k) ops = Some a /\
    (forall n, member i ops n = false) /\
    number_set_array_is_empty (Some a) i = Some false.
Proof.
  exists 1%nat, [NAdd 3 0; NClear 1], 0%nat. eexists.
  split; [repeat constructor|]. split; [repeat constructor|].
  split; [reflexivity|]. split; [reflexivity|reflexivity].
Qed.
Print Assumptions C01_empty_converse_refuted.

(** C02 (partial): for sets that are not currently inverted and whose members are
    all below [m], completeness is reported exactly when every number below [m]
    is a member.  Missing: inverted sets, for which the statement is false, see
    the two [_refuted] theorems. *)
Theorem C02_complete_set_partial : forall k ops i m,
  Forall (op_ok k) ops -> (i < k)%nat -> m < 2^32 ->
  (forall n, member i ops n = true -> n < m) ->
  Nat.odd (length (filter (inverts i) (since_clear i [] ops))) = false ->
  exists a s, nrun (alloc_number_set_array k) ops = Some a /\ nth_error a i = Some s /\
    (is_complete_set (Some s) m = true <-> forall n, n < m -> member i ops n = true).
Proof. exact complete_set_partial. Qed.
Print Assumptions C02_complete_set_partial.

(** C02: "all" on a fresh array (one inversion, nothing listed) is complete. *)
Theorem C02_all_is_complete : forall k j m, (0 < k)%nat -> (j <= k)%nat -> (0 < j)%nat ->
  exists a s, nrun (alloc_number_set_array k) [NInvert j] = Some a /\ nth_error a 0 = Some s /\
    is_complete_set (Some s) m = true /\ forall n, member 0 [NInvert j] n = true.
Proof. exact inverted_untouched_complete. Qed.
Print Assumptions C02_all_is_complete.

(** C02: an array is complete when each of its sets is, with no out-of-bounds access. *)
Theorem C02_complete_array : forall a ms, (length ms <= length a)%nat ->
  exists b, is_complete_set_array a ms = Some b /\
   (b = true <-> forall i s m, nth_error a i = Some s -> nth_error ms i = Some m ->
                 is_complete_set (Some s) m = true).
Proof. exact complete_array_spec. Qed.
Print Assumptions C02_complete_array.

(** C02 is false as it stands (1): -e status=!successful,failed,unfinished,unavailable,detached
    (five statuses, all excluded) gives a set with no member that is reported complete. *)
Theorem C02_complete_set_refuted_excluded_all :
  exists ops a s, Forall (op_ok 1) ops /\
    nrun (alloc_number_set_array 1) ops = Some a /\ nth_error a 0 = Some s /\
    (forall n, n < 5 -> member 0 ops n = false) /\ is_complete_set (Some s) 5 = true.
Proof.
  exists [NInvert 1; NAdd 0 0; NAdd 1 0; NAdd 2 0; NAdd 3 0; NAdd 4 0]. do 2 eexists.
  split; [repeat constructor|]. split; [vm_compute; reflexivity|].
  split; [reflexivity|]. split; [|vm_compute; reflexivity].
  intros n Hn.
  assert (n = 0 \/ n = 1 \/ n = 2 \/ n = 3 \/ n = 4) as D by lia.
  destruct D as [->|[->|[->|[->| ->]]]]; reflexivity.
Qed.
Print Assumptions C02_complete_set_refuted_excluded_all.

(** C02 is false as it stands (2): -e status=failed -e status=all gives the full
    set, reported as not complete. *)
Theorem C02_complete_set_refuted_all_after_clear :
  exists ops a s, Forall (op_ok 1) ops /\
    nrun (alloc_number_set_array 1) ops = Some a /\ nth_error a 0 = Some s /\
    (forall n, member 0 ops n = true) /\ is_complete_set (Some s) 5 = false.
Proof.
  exists [NAdd 1 0; NClear 1; NInvert 1]. do 2 eexists.
  split; [repeat constructor|]. split; [vm_compute; reflexivity|].
  split; [reflexivity|]. split; [|vm_compute; reflexivity]. reflexivity.
Qed.
Print Assumptions C02_complete_set_refuted_all_after_clear.

(** Non-vacuity: a history over three sets with re-listing, inversion of two and
    clearing of one, and what it makes of some numbers. *)
Definition ex_ops := [NAdd 5 0; NAdd 70 0; NInvert 2; NAdd 5 1; NClear 1; NAdd 6 0; NAdd 4000000000 2].
Example ex_ops_ok : Forall (op_ok 3) ex_ops.
Proof. repeat constructor. Qed.
Example ex_members :
  map (fun p => member (fst p) ex_ops (snd p))
      [(0%nat,5); (0%nat,6); (1%nat,5); (1%nat,7); (2%nat,4000000000); (2%nat,1)]
  = [false; true; false; true; true; false].
Proof. reflexivity. Qed.
Example ex_complete_hyps :
  let ops := [NAdd 0 0; NAdd 2 0; NAdd 1 0] in
  Forall (op_ok 1) ops /\ (forall n, member 0 ops n = true -> n < 3) /\
  Nat.odd (length (filter (inverts 0) (since_clear 0 [] ops))) = false.
Proof.
  split; [repeat constructor|]. split; [|reflexivity]. intros n. unfold member. simpl.
  rewrite xorb_false_r. intros H. lia.
Qed.
