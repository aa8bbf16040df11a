(** C43, C44: attribution of addresses to mappings, freshness of the cache. *)
From Verif Require Import Base MmapModel MmapSpec MmapProofs.
From Coq Require Import Sorted.
Import ListNotations.
Open Scope N_scope.

(** C43: whatever ascending list of mappings is cached (up to 2^30 of them),
    the lookup of any address is defined, ends, and finds the mapping that
    contains the address, or nothing if none does. *)
Theorem C43_lookup : forall g es ip,
  ascending es -> (Z.of_nat (length es) <= 1073741824)%Z ->
  exists r, mmap_cache_search (Some (g, es)) ip = Ok r /\ attributed es ip r.
Proof.
  intros g es ip HA HL. cbn [mmap_cache_search]. unfold INT_MAX.
  destruct (Z.ltb_spec 2147483647 (Z.of_nat (length es))); [lia|].
  apply search_ok; auto; try lia.
  intros i e Hi _. assert (i < length es)%nat by (apply nth_error_Some; congruence).
  lia.
Qed.
Print Assumptions C43_lookup.

(** C43: from /proc/PID/maps, as the kernel writes it, to the answer: an
    address inside a mapping that has a name gets exactly that mapping, and
    every other address gets none. *)
Theorem C43_maps : forall g ls ip,
  kernel_maps ls -> (Z.of_nat (length (named ls)) <= 1073741824)%Z ->
  (forall l, In l (named ls) -> l_start l <= ip < l_end l ->
     exists e, mmap_cache_search (Some (g, build ls)) ip = Ok (Some e) /\ shows l e)
  /\
  ((forall l, In l (named ls) -> ~ l_start l <= ip < l_end l) ->
     mmap_cache_search (Some (g, build ls)) ip = Ok None).
Proof.
  intros g ls ip HK HL. pose proof (build_good ls) as HA.
  pose proof (build_kernel ls HK) as HB.
  destruct (C43_lookup g (build ls) ip HA) as (r & Hr & Hat).
  { rewrite HB, map_length. exact HL. }
  split.
  - intros l Hl Hc. exists (entry_of l). split; [|apply entry_shows].
    rewrite Hr. f_equal. eapply attributed_unique; eauto.
    rewrite HB. apply in_map. exact Hl.
  - intros Hn. rewrite Hr. f_equal. destruct r as [e|]; [|reflexivity].
    destruct Hat as (HI & HC). rewrite HB in HI.
    apply in_map_iff in HI as (l & <- & Hl). exfalso. apply (Hn l Hl). exact HC.
Qed.
Print Assumptions C43_maps.

(** C44: whatever the maps file contains, the ranges kept are ascending and
    do not overlap. *)
Theorem C44_ascending : forall ls, ascending (build ls).
Proof. exact build_good. Qed.
Print Assumptions C44_ascending.

(** C44: whatever the maps file contains, every range kept shows one of its
    lines; and nothing the kernel reports with a name is lost. *)
Theorem C44_lines : forall ls,
  (forall e, In e (build ls) -> exists l, In l (named ls) /\ shows l e) /\
  (kernel_maps ls -> Forall2 shows (named ls) (build ls)).
Proof.
  intros ls. split; [apply build_in|].
  intros H. rewrite (build_kernel ls H).
  induction (named ls) as [|l k IH]; constructor; [apply entry_shows|exact IH].
Qed.
Print Assumptions C44_lines.

(** C44: at every use, what is used for a tracee are the contents its maps
    file has had at some time not before the last mapping change seen, in
    every history with fewer than 2^32 such changes.
    Partial: at 2^32 changes the generation number wraps around (C44_wrap_refuted). *)
Theorem C44_fresh_partial : forall f h t,
  N.of_nat (reports h) < 2 ^ 32 ->
  let s := run (init f) (EEnable :: h ++ [EUse t]) in
  exists v, In v (versions h t (f t) [f t]) /\ cached s t = content v.
Proof.
  intros f h t Hn s.
  change (run (init f) (EEnable :: h ++ [EUse t])) with
    (run (step (init f) EEnable) (h ++ [EUse t])) in s.
  pose proof (run_fresh h _ _ _ (init_fresh f)
    ltac:(rewrite N.add_0_l; exact Hn)) as HF.
  subst s. rewrite run_app. change (files (step (init f) EEnable)) with f in HF.
  set (s := run (step (init f) EEnable) h) in *. clearbody s.
  destruct HF as (Hu & Hc & Hg & Hf & Hca).
  change (run s [EUse t]) with (fst (rebuild_if_invalid s t)).
  pose proof (rebuild_spec s t) as R.
  destruct (rebuild_if_invalid s t) as [s' r]. cbn [fst].
  destruct R as (_ & _ & _ & _ & _ & R6 & _).
  assert (X : caches s' t = option_map (pair (gen s)) (content (files s t)) ->
    exists v, In v (versions h t (f t) [f t]) /\ cached s' t = content v).
  { intros Q. exists (files s t). split; [apply Hf|]. unfold cached. rewrite Q.
    destruct (content (files s t)); reflexivity. }
  destruct (caches s t) as [[g es]|] eqn:Ec; [|apply X, R6].
  destruct (N.eqb_spec g (gen s)) as [E|E]; [|apply X, R6].
  destruct (Hca t g es Ec) as (_ & B). destruct B as (v & Hv & Hv'); [congruence|].
  exists v. split; [exact Hv|]. unfold cached. destruct R6 as (_ & ->). cbn.
  congruence.
Qed.
Print Assumptions C44_fresh_partial.

(** C44: in particular, when nothing changed unseen after the last mapping
    change seen, the current contents are used.
    Partial: as above. *)
Theorem C44_current_partial : forall f h t,
  N.of_nat (reports h) < 2 ^ 32 -> settled h true = true ->
  let s := run (init f) (EEnable :: h ++ [EUse t]) in
  cached s t = content (files s t).
Proof.
  intros f h t Hn HS s.
  destruct (C44_fresh_partial f h t Hn) as (v & Hv & Hc). fold s in Hc.
  destruct (settled_versions h t (f t) [f t] true) as (w & Hw); auto.
  rewrite Hw in Hv. destruct Hv as [<-|[]].
  rewrite Hc. f_equal.
  pose proof (run_fresh h _ _ _ (init_fresh f)
    ltac:(rewrite N.add_0_l; exact Hn)) as (_ & _ & _ & Hf & _).
  specialize (Hf t). change (files (step (init f) EEnable)) with f in Hf.
  rewrite Hw in Hf. destruct Hf as [Hf|[]]. rewrite Hf.
  subst s.
  change (run (init f) (EEnable :: h ++ [EUse t])) with
    (run (step (init f) EEnable) (h ++ [EUse t])).
  rewrite run_app. change (run (run (step (init f) EEnable) h) [EUse t]) with
    (fst (rebuild_if_invalid (run (step (init f) EEnable) h) t)).
  pose proof (rebuild_spec (run (step (init f) EEnable) h) t) as R.
  destruct (rebuild_if_invalid _ t) as [s' r].
  destruct R as (_ & _ & _ & R4 & _). cbn [fst]. rewrite R4. reflexivity.
Qed.
Print Assumptions C44_current_partial.

(** C44: what a use reports: READY only if the entries in use stay as they
    were, NOCACHE exactly if there are none. *)
Theorem C44_result : forall s t s' r,
  rebuild_if_invalid s t = (s', r) ->
  (r = READY -> cached s t <> None /\ cached s' t = cached s t) /\
  (r = NOCACHE <-> cached s' t = None) /\
  (r = RENEWED -> cached s' t = content (files s t)) /\
  (forall t', t' <> t -> cached s' t' = cached s t').
Proof.
  intros s t s' r H. pose proof (rebuild_spec s t) as R. rewrite H in R.
  destruct R as (_ & _ & _ & _ & R5 & R6 & R7).
  assert (X : caches s' t = option_map (pair (gen s)) (content (files s t)) ->
     cached s' t = content (files s t)).
  { intros Q. unfold cached. rewrite Q. destruct (content _); reflexivity. }
  repeat apply conj.
  - intros ->. unfold cached. destruct (caches s t) as [[g es]|].
    + destruct (g =? gen s); [|destruct R6; congruence].
      destruct R6 as (_ & ->). split; [discriminate|reflexivity].
    + destruct R6; congruence.
  - intros Hr. apply R7 in Hr. unfold cached. rewrite Hr. reflexivity.
  - intros Hr. apply R7. unfold cached in Hr. destruct (caches s' t); [discriminate|reflexivity].
  - intros ->. destruct (caches s t) as [[g es]|].
    + destruct (g =? gen s); [destruct R6; discriminate|]. apply X, R6.
    + apply X, R6.
  - intros t' Ht. unfold cached. rewrite R5 by exact Ht. reflexivity.
Qed.
Print Assumptions C44_result.

Definition ex_line (a b : N) (p : list N) : line :=
  mk_line a b chr_r chr_dash chr_x chr_p 0 8 1 p.

(** C44 fails beyond that bound: the generation is an unsigned int, and after
    exactly 2^32 mapping changes seen the old entries are used again. *)
Theorem C44_wrap_refuted : exists f h t,
  N.of_nat (reports h) = 2 ^ 32 /\ settled h true = true /\
  let s := run (init f) (EEnable :: h ++ [EUse t]) in
  cached s t <> content (files s t).
Proof.
  assert (Hq : exists q, N.of_nat q = 2 ^ 32)
    by (exists (N.to_nat (2 ^ 32)); apply N2Nat.id).
  destruct Hq as (q & Hq).
  pose (f1 := fun _ : N => Some [Some (ex_line 4096 8192 (bs "a"))]).
  pose (f2 := fun _ : N => Some [Some (ex_line 4096 8192 (bs "b"))]).
  exists f1, ([EUse 7; EFiles f2] ++ repeat EReport q), 7.
  assert (Hr : forall n, reports (repeat EReport n) = n).
  { clear. induction n; cbn; congruence. }
  assert (Hs : forall n b, n <> O -> settled (repeat EReport n) b = true).
  { clear. induction n as [|n IH]; intros b Hn; [congruence|]. cbn.
    destruct n; [reflexivity|apply IH; discriminate]. }
  split; [cbn [app reports]; rewrite Hr; exact Hq|].
  split; [cbn [app settled]; apply Hs; intros ->; cbn in Hq; lia|].
  set (s1 := run (init f1) [EEnable; EUse 7; EFiles f2]).
  change (EEnable :: ([EUse 7; EFiles f2] ++ repeat EReport q) ++ [EUse 7]) with
    ([EEnable; EUse 7; EFiles f2] ++ repeat EReport q ++ [EUse 7]).
  rewrite run_app. fold s1. rewrite run_app, run_reports; [|reflexivity|reflexivity].
  rewrite Hq. change (gen s1) with 0.
  replace ((0 + 2 ^ 32) mod 2 ^ 32) with 0 by reflexivity.
  vm_compute. discriminate.
Qed.
Print Assumptions C44_wrap_refuted.

(** The hypotheses are met by concrete cases. *)
Definition ex_maps : list (option line) :=
  [Some (ex_line 4096 8192 (bs "/bin/a")); None;
   Some (ex_line 8192 12288 (bs "/bin/a"));
   Some (ex_line 65536 131072 (bs "/lib/c"))].

Example ex_kernel_maps : kernel_maps ex_maps.
Proof.
  split; cbn [ex_maps named].
  - repeat apply Forall_cons; try apply Forall_nil;
      (split; [unfold prot_ok, ex_line; cbn; auto|reflexivity]).
  - repeat (apply SSorted_cons || apply SSorted_nil || apply Forall_cons
            || apply Forall_nil); unfold line_before; cbn; lia.
Qed.

Example ex_search :
  (match mmap_cache_search (Some (0, build ex_maps)) 10000 with
   | Ok (Some e) => e_start e | _ => 0 end) = 8192
  /\ mmap_cache_search (Some (0, build ex_maps)) 131072 = Ok None.
Proof. vm_compute. auto. Qed.

(** Overlapping and duplicate lines are left out. *)
Example ex_hostile :
  map e_start (build [Some (ex_line 100 200 []); Some (ex_line 100 200 []);
    Some (ex_line 150 300 []); Some (ex_line 50 60 []); Some (ex_line 200 201 []);
    Some (ex_line 9 8 []); Some (ex_line 500 600 [])]) = [100; 200].
Proof. reflexivity. Qed.

Example ex_history : let h := [EUse 1; EFiles (fun _ => Some ex_maps); EReport; EUse 2] in
  N.of_nat (reports h) < 2 ^ 32 /\ settled h true = true /\
  (match cached (run (init (fun _ => None)) (EEnable :: h ++ [EUse 1])) 1 with
   | Some es => length es | None => 0%nat end) = 3%nat.
Proof. vm_compute. auto. Qed.
