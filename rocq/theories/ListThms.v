(** Intrusive lists (C51). *)
From Verif Require Import Base ListModel ListSpec ListProofs.
Local Open Scope N_scope.

(** Whatever is in the memory at first, and whatever operations are made by the rules, each gives the
    value that it gives on sequences, and the links are those of the sequences that result. *)
Theorem C51_refines : forall os h R vs, abstract_run [] os = Some (R, vs) -> exists h', heap_run h os = Ok (h', vs) /\ rings h' R.
Proof. intros os h R vs E. eapply run_ok; [|exact E]. split; [constructor|]. split; [intros []|constructor]. Qed.
Print Assumptions C51_refines.
(** lists that are not concerned are not touched, nor is any other memory *)
Theorem C51_step : forall h R o R' v, rings h R -> abstract_op R o = Some (R', v) -> exists h', heap_op h o = Ok (h', v) /\ rings h' R'.
Proof. exact step_ok. Qed.
Print Assumptions C51_step.
(** what list_is_empty, list_head and list_tail say, and what list_foreach runs over *)
Theorem C51_queries : forall h R head items, rings h R -> In (head :: items) R ->
  list_is_empty h head = Ok (match items with [] => true | _ => false end) /\
  list_head h head = Ok (hd 0 items) /\ list_tail h head = Ok (last items 0) /\
  forall fuel, (length items <= fuel)%nat -> list_foreach fuel h head = Ok items.
Proof.
  intros h R head items (ND & NZ & F) IN. rewrite Forall_forall in F. specialize (F _ IN). apply in_split in IN as (R1 & R2 & ->). rewrite concat_app in ND, NZ. cbn [concat] in ND, NZ. rewrite !in_app_iff in NZ. cbn [In] in NZ.
  assert (N2 : NoDup (head :: items)) by (revert ND; clear; induction (concat R1) as [|y l IH]; cbn [app]; intros ND; [|apply nodup_cons in ND as [_ ND]; exact (IH ND)]; change (NoDup ((head :: items) ++ concat R2)) in ND; revert ND; generalize (head :: items); intros l; induction l as [|z l IH]; intros ND; [constructor|]; apply nodup_cons in ND as [A B]; rewrite in_app_iff in A; constructor; [tauto|exact (IH B)]).
  assert (H0 : head <> 0) by tauto. assert (Z : ~ In 0 items) by tauto. destruct (nodup_cons N2) as [NH _]. pose proof (empty_ok h head items H0 NH Z F) as E. split; [exact E|]. unfold list_head, list_tail, get_next, get_prev. rewrite E. cbn [rbind]. apply N.eqb_neq in H0. rewrite H0. apply N.eqb_neq in H0. split; [|split].
  - destruct items as [|x items]; [reflexivity|]. cbn [ring chain] in F. destruct F as (-> & _). reflexivity.
  - destruct (snoc_case items) as [->|(l & z & ->)]; [reflexivity|]. cbn [ring] in F. apply chain_app in F as (_ & _ & ->). rewrite last_last. destruct l; reflexivity.
  - intros fuel LF. apply foreach_ring; assumption.
Qed.
Print Assumptions C51_queries.
(** list_foreach_safe visits every item although items are removed on the way; those kept stay in order *)
Theorem C51_foreach_safe : forall h head items P fuel, head <> 0 -> NoDup (head :: items) -> ~ In 0 items -> items <> [] -> ring h (head :: items) -> (length items <= fuel)%nat ->
  exists h', list_foreach_safe fuel h head P = Ok (h', items) /\ ring h' (head :: filter (fun x => negb (P x)) items) /\ (forall x, In x items -> P x = true -> ring h' [x]) /\ (forall x, ~ In x (head :: items) -> next h' x = next h x /\ prev h' x = prev h x).
Proof.
  intros h head items P fuel H0 ND NZ NE Rg LF. destruct items as [|v t]; [congruence|]. pose proof Rg as RA. cbn [ring chain] in RA. destruct RA as (E1 & _). unfold list_foreach_safe, get_next. apply N.eqb_neq in H0. rewrite H0. apply N.eqb_neq in H0. cbn [rbind]. rewrite E1. assert (V : v <> 0) by (intros ->; apply NZ; left; reflexivity). apply N.eqb_neq in V. rewrite V. cbn [rbind].
  destruct (foreach_safe_ok head P t fuel h [] v []) as (h' & E & R1 & F & SB); [cbn in LF; lia|exact ND|cbn in *; intuition congruence|exact Rg|]. exists h'. split; [exact E|]. split; [exact R1|]. split; [|exact SB]. rewrite Forall_forall in F. exact F.
Qed.
Print Assumptions C51_foreach_safe.
(** an item of zeroed memory, not initialised, is in no list *)
Theorem C51_zeroed : forall h x, x <> 0 -> next h x = 0 -> prev h x = 0 -> list_is_empty h x = Ok true /\ list_remove h x = Ok (h, false) /\ (forall y, list_replace h x y = Ok (h, false)) /\ list_remove_head h x = Ok (h, 0) /\ list_remove_tail h x = Ok (h, 0).
Proof.
  intros h x X E1 E2. assert (E : list_is_empty h x = Ok true) by (unfold list_is_empty, get_next, get_prev; apply N.eqb_neq in X; rewrite X; cbn [rbind]; rewrite E1, E2; rewrite N.eqb_refl; rewrite orb_true_r; reflexivity).
  split; [exact E|]. unfold list_remove, list_replace, list_remove_head, list_remove_tail. rewrite E. unfold get_next, get_prev. apply N.eqb_neq in X. rewrite X. cbn [rbind]. rewrite E1. auto.
Qed.
Print Assumptions C51_zeroed.

(** two lists, 1 and 2; items move between them *)
Definition ops : list lop := [LInit 1; LInit 2; LInsert 1 10; LAppend 1 11; LInsert 1 12; LAppend 2 20; LRemove 10; LAppend 2 10; LReplace 20 21; LInit 20; LInsert 2 20; LRemoveHead 1; LRemoveTail 2; LRemove 10; LRemoveHead 1; LRemoveHead 1; LAppend 10 12].
Example C51_example : abstract_run [] ops = Some ([[10; 12]; [1]; [11]; [2; 20; 21]], [0; 0; 0; 0; 0; 0; 1; 0; 1; 0; 0; 12; 10; 0; 11; 0; 0]).
Proof. vm_compute. reflexivity. Qed.
Definition junk : heap := {| prev := fun x => x * 7 + 3; next := fun x => x + 1 |}.
Example C51_queries_example : match heap_run junk (firstn 11 ops) with Ok (h, _) => (list_foreach 3 h 2, list_foreach 2 h 1, list_tail h 2, match list_foreach_safe 3 h 2 (fun x => x =? 21) with Ok (h, l) => (l, list_foreach 2 h 2) | _ => ([], Undef) end) | _ => (Undef, Undef, Undef, ([], Undef)) end
  = (Ok [20; 21; 10], Ok [12; 11], Ok 10, ([20; 21; 10], Ok [20; 10])).
Proof. vm_compute. reflexivity. Qed.
