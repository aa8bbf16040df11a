From Verif Require Import Base XlatModel InfoModel InfoSpec MmapModel MmapSpec MmapProofs KvmModel KvmSpec.
From Verif Require StrtouModel StrtouSpec StrtouProofs ExtModel TvalSpec TvalThms InfoThms FutexThms MmapThms.
Local Open Scope N_scope.

(** ---- names ---- *)
Lemma strip_iff p : forall s r, strip_prefix p s = Some r <-> s = p ++ r.
Proof.
  induction p as [|a p IH]; intros s r; cbn [strip_prefix app]; [split; [intros H; injection H as H; exact H|intros ->; reflexivity]|]. destruct s as [|b s]; [split; discriminate|].
  destruct (N.eqb_spec a b) as [->|E]; [rewrite IH; split; [intros ->; reflexivity|intros H; injection H as H; exact H]|split; [discriminate|intros H; injection H as H _; congruence]].
Qed.
Lemma number_iff path c : of_vcpu path c <-> exists s, strip_prefix VCPU_DENTRY_PREFIX path = Some s /\ StrtouModel.string_to_uint s = Some c.
Proof.
  unfold of_vcpu, StrtouModel.string_to_uint. split; intros (s & A & B); exists s.
  - split; [apply strip_iff; exact A|]. apply StrtouProofs.string_to_uint_upto_iff; [reflexivity|exact B].
  - split; [apply strip_iff; exact A|]. apply StrtouProofs.string_to_uint_upto_iff in B; [exact B|reflexivity].
Qed.

(** ---- reasons ---- *)
Lemma exit_reasons_names : exit_reasons = map (app (bs "KVM_EXIT_")) reasons. Proof. vm_compute. reflexivity. Qed.
Lemma reason_ok n : match xlookup kvm_exit_reason n with Some x => Some x | None => Some (bs "KVM_EXIT_???") end = Some (reason n).
Proof.
  unfold kvm_exit_reason. rewrite FutexThms.indexed_lookup, exit_reasons_names, nth_error_map. unfold reason. destruct (nth_error reasons (N.to_nat n)) as [x|] eqn:E; cbn [option_map].
  - rewrite (nth_error_nth _ _ _ E). reflexivity.
  - rewrite nth_overflow by (apply nth_error_None, E). reflexivity.
Qed.
Lemma umoven_inv m n : forall a b, ExtModel.umoven m a n = Some b -> length b = n /\ TvalSpec.bytes_at m a b.
Proof.
  induction n as [|n IH]; intros a b H; cbn [ExtModel.umoven] in H.
  - injection H as <-. split; [reflexivity|]. intros i I. cbn in I. lia.
  - destruct (m (u64 a)) as [x|] eqn:E; [|discriminate]. destruct (ExtModel.umoven m (a + 1) n) as [r|] eqn:F; [|discriminate]. injection H as <-. destruct (IH _ _ F) as (L & B). split; [cbn; lia|]. intros [|i] I; cbn [nth].
    + rewrite N.add_0_r. exact E.
    + rewrite <- (B i) by (cbn in I; lia). f_equal. f_equal. lia.
Qed.

Section T.
Variables (t : N) (run_size : nat).
Notation step := (step t run_size).
Notation run := (run t run_size).

(** ---- the cache of mappings holds some of the mappings there have been ---- *)
Definition held (P : list (option line) -> Prop) (m : MmapModel.state) : Prop :=
  (forall ls, files m t = Some ls -> P ls) /\ (forall g es, caches m t = Some (g, es) -> exists ls, P ls /\ es = build ls).
Lemma held_rebuild P m : held P m -> held P (fst (rebuild_if_invalid m t)) /\ files (fst (rebuild_if_invalid m t)) = files m.
Proof.
  intros (F & C). pose proof (rebuild_spec m t) as R. destruct (rebuild_if_invalid m t) as [m' r]. destruct R as (_ & _ & _ & R4 & _ & R6 & _). cbn [fst]. split; [|exact R4]. split; [rewrite R4; exact F|].
  intros g es E. assert (X : caches m' t = option_map (pair (gen m)) (content (files m t)) -> exists ls, P ls /\ es = build ls).
  { intros Q. rewrite E in Q. unfold content in Q. destruct (files m t) as [ls|] eqn:Ef; [|discriminate]. destruct (build ls) as [|e es'] eqn:Eb; [discriminate|]. cbn in Q. injection Q as _ ->. exists ls. split; [apply F; reflexivity|symmetry; exact Eb]. }
  destruct (caches m t) as [[g0 es0]|] eqn:Ec; [|apply X, R6]. destruct (g0 =? gen m); [|apply X, R6]. destruct R6 as (_ & R6). rewrite R6 in E. injection E as -> ->. apply (C g). reflexivity.
Qed.
Lemma report_same (m : MmapModel.state) : files (report m) = files m /\ caches (report m) = caches m.
Proof. unfold report. induction (clients m) as [|n IH]; [split; reflexivity|]. cbn [Nat.iter nat_rect]. destruct IH as (A & B). cbn in *. unfold Nat.iter in *. rewrite A, B. split; reflexivity. Qed.
Lemma held_step P m e : held P m -> (forall f, e = EFiles f -> forall ls, f t = Some ls -> P ls) -> held P (MmapModel.step m e).
Proof.
  intros H E. destruct e as [|f| |t'|t']; cbn [MmapModel.step].
  - unfold enable. destruct (use_cache m); [exact H|exact H].
  - destruct H as (_ & C). split; [apply (E f eq_refl)|exact C].
  - destruct (report_same m) as (A & B). unfold held. rewrite A, B. exact H.
  - destruct (N.eq_dec t' t) as [->|X]; [apply held_rebuild, H|]. pose proof (rebuild_spec m t') as R. destruct (rebuild_if_invalid m t') as [m' r]. destruct R as (_ & _ & _ & R4 & R5 & _). cbn [fst]. unfold held. rewrite R4, (R5 t) by congruence. exact H.
  - destruct H as (F & C). split; [exact F|]. intros g es. unfold delete_mmap_cache. rewrite cached_set. destruct (t =? t'); [discriminate|apply C].
Qed.
Lemma slow_mm s fd v : mm (fst (slow t s fd v)) = mm s /\ fdpath (fst (slow t s fd v)) = fdpath s.
Proof. unfold slow. destruct (fdpath s fd); [|split; reflexivity]. destruct (strip_prefix _ _); [|split; reflexivity]. destruct (search_custom _ _ _); [|split; reflexivity]. destruct (StrtouModel.string_to_uint _); split; reflexivity. Qed.
Lemma get_mm s fd s' w : vcpu_get_info t s fd = Ok (s', w) -> mm s' = fst (rebuild_if_invalid (mm s) t) /\ fdpath s' = fdpath s.
Proof.
  unfold vcpu_get_info. destruct (rebuild_if_invalid (mm s) t) as [m1 st]. cbn [fst].
  assert (SL : forall x y, Ok (slow t x fd y) = Ok (s', w) -> mm x = m1 -> fdpath x = fdpath s -> mm s' = m1 /\ fdpath s' = fdpath s).
  { intros x y Q A B. injection Q as Q. pose proof (slow_mm x fd y) as (C & D). rewrite Q in C, D. cbn [fst] in C, D. split; congruence. }
  destruct st; [intros Q; injection Q as <- <-; split; reflexivity| |].
  - destruct (vcpu_find (vcpus s) fd) as [v|]; [|intros Q; apply (SL _ _ Q); reflexivity]. destruct (v_resolved v); [intros Q; injection Q as <- <-; split; reflexivity|intros Q; apply (SL _ _ Q); reflexivity].
  - destruct (vcpu_find (vcpus s) fd) as [v|]; [|intros Q; apply (SL _ _ Q); reflexivity]. destruct (v_resolved v); [|intros Q; apply (SL _ _ Q); reflexivity].
    destruct (mmap_cache_search _ _) as [[e|]| |]; cbn [rbind]; try discriminate; [|intros Q; apply (SL _ _ Q); reflexivity].
    destruct (strip_prefix _ _) as [z|]; [|intros Q; apply (SL _ _ Q); reflexivity]. destruct (StrtouModel.string_to_uint z) as [c|]; [|intros Q; injection Q as <- <-; split; reflexivity]. destruct (v_cpuid v =? c); [intros Q; injection Q as <- <-; split; reflexivity|intros Q; apply (SL _ _ Q); reflexivity].
Qed.

(** ---- the vcpus ---- *)
Lemma find_in l fd v : vcpu_find l fd = Some v -> In v l /\ v_fd v = fd.
Proof. induction l as [|a l IH]; cbn [vcpu_find]; [discriminate|]. destruct (N.eqb_spec (v_fd a) fd) as [E|E]; [intros H; injection H as <-; split; [left; reflexivity|exact E]|]. intros H. destruct (IH H) as (A & B). split; [right; exact A|exact B]. Qed.
Lemma set_in l fd w v : In v (vcpu_set l fd w) -> v = w \/ In v l.
Proof. induction l as [|a l IH]; cbn [vcpu_set]; [intros []|]. destruct (v_fd a =? fd); intros [H|H]; [left; congruence|right; right; exact H|right; left; exact H|]. destruct (IH H) as [X|X]; [left; exact X|right; right; exact X]. Qed.

Section I.
Variables (fd c : N) (l : line).
Definition there (ls : list (option line)) : Prop := forall l', In l' (named ls) -> of_vcpu (l_path l') c -> l_start l' = l_start l /\ l_end l' = l_end l.
Definition right (v : vcpu) : Prop := v_cpuid v = c /\ v_addr v = l_start l /\ v_len v = l_end l - l_start l.
Definition known (vs : list vcpu) : Prop := forall v, In v vs -> v_fd v = fd -> v_resolved v = true -> right v.
Definition named_ok (p : N -> option (list N)) : Prop := forall x c', p fd = Some x -> of_vcpu x c' -> c' = c.
Lemma custom_in m P path e : held P m -> search_custom t m path = Some e -> exists ls l', P ls /\ In l' (named ls) /\ shows l' e /\ e_path e = path /\ e_major e = 0.
Proof.
  intros (_ & C) H. unfold search_custom in H. destruct (caches m t) as [[g es]|] eqn:E; [|discriminate]. apply find_some in H. destruct H as (I & M). destruct (C g es eq_refl) as (ls & PL & ->). destruct (build_in _ _ I) as (l' & L & SH). exists ls, l'.
  unfold is_map_for_file in M. apply andb_true_iff in M as (M1 & M2). apply N.eqb_eq in M1. apply beqs_eq in M2. repeat split; try assumption; apply SH.
Qed.
Lemma slow_ok s fd' v P : held P (mm s) -> (forall ls, P ls -> there ls) -> named_ok (fdpath s) -> known (vcpus s) ->
  known (vcpus (fst (slow t s fd' v))) /\ (fd' = fd -> forall w, snd (slow t s fd' v) = Some w -> right w).
Proof.
  intros H PT NP K. unfold slow. destruct (fdpath s fd') as [path|] eqn:FP; [|split; [exact K|discriminate]]. destruct (strip_prefix VCPU_DENTRY_PREFIX path) as [z|] eqn:SP; [|split; [exact K|discriminate]].
  destruct (search_custom t (mm s) path) as [e|] eqn:SC; [|split; [exact K|discriminate]]. destruct (StrtouModel.string_to_uint z) as [c'|] eqn:SU; [|split; [exact K|discriminate]].
  assert (O : of_vcpu path c') by (apply number_iff; exists z; split; assumption).
  assert (W : fd' = fd -> right (mk_vcpu fd' c' (e_start e) (map_len e) true)).
  { intros ->. assert (CC : c' = c) by exact (NP _ _ FP O). subst c'. destruct (custom_in _ _ _ _ H SC) as (ls & l' & PL & IL & SH & EP & _). destruct SH as (S1 & S2 & _ & _ & _ & S6 & _). destruct (PT _ PL _ IL) as (X & Y); [rewrite <- S6, EP; exact O|].
    split; [reflexivity|]. split; [cbn; congruence|]. cbn. unfold map_len. rewrite S1, S2, X, Y. destruct (N.ltb_spec (l_start l) (l_end l)); [reflexivity|lia]. }
  cbn [fst snd vcpus]. split; [|intros Q w H1; injection H1 as <-; exact (W Q)].
  destruct v as [v|]; intros u I F R; [destruct (set_in _ _ _ _ I) as [-> |I']|destruct I as [<- |I']]; try (exact (W F)); apply K; assumption.
Qed.
Lemma get_ok s fd' P s' w : held P (mm s) -> (forall ls, P ls -> there ls) -> named_ok (fdpath s) -> known (vcpus s) -> vcpu_get_info t s fd' = Ok (s', w) ->
  known (vcpus s') /\ (fd' = fd -> forall x, w = Some x -> right x).
Proof.
  intros H PT NP K. unfold vcpu_get_info. destruct (held_rebuild P (mm s) H) as (H1 & _). destruct (rebuild_if_invalid (mm s) t) as [m1 st]. cbn [fst] in H1.
  assert (SL : forall x y, Ok (slow t x fd' y) = Ok (s', w) -> mm x = m1 -> fdpath x = fdpath s -> known (vcpus x) -> known (vcpus s') /\ (fd' = fd -> forall x, w = Some x -> right x)).
  { intros x y Q A B C. injection Q as Q. destruct (slow_ok x fd' y P) as (X & Y); [rewrite A; exact H1|exact PT|rewrite B; exact NP|exact C|]. rewrite Q in X, Y. split; [exact X|exact Y]. }
  assert (FR : forall v, vcpu_find (vcpus s) fd' = Some v -> v_resolved v = true -> fd' = fd -> right v) by (intros v F R E; destruct (find_in _ _ _ F) as (I & J); apply K; congruence).
  assert (K0 : forall v, vcpu_find (vcpus s) fd' = Some v -> known (vcpu_set (vcpus s) fd' (mk_vcpu fd' (v_cpuid v) (v_addr v) (v_len v) false))) by (intros v F u I J R; destruct (set_in _ _ _ _ I) as [-> |I']; [discriminate R|apply K; assumption]).
  destruct st; [intros Q; injection Q as <- <-; split; [exact K|discriminate]| |].
  - destruct (vcpu_find (vcpus s) fd') as [v|] eqn:VF; [|intros Q; apply (SL _ _ Q); try reflexivity; exact K]. destruct (v_resolved v) eqn:RV; [|intros Q; apply (SL _ _ Q); try reflexivity; exact K].
    intros Q; injection Q as <- <-. split; [exact K|]. intros E x X. injection X as <-. exact (FR v eq_refl RV E).
  - destruct (vcpu_find (vcpus s) fd') as [v|] eqn:VF; [|intros Q; apply (SL _ _ Q); try reflexivity; exact K]. destruct (v_resolved v) eqn:RV; [|intros Q; apply (SL _ _ Q); try reflexivity; exact K].
    destruct (mmap_cache_search _ _) as [[e|]| |]; cbn [rbind]; try discriminate; [|intros Q; apply (SL _ _ Q); try reflexivity; exact (K0 v eq_refl)].
    destruct (strip_prefix _ _) as [z|]; [|intros Q; apply (SL _ _ Q); try reflexivity; exact (K0 v eq_refl)]. destruct (StrtouModel.string_to_uint z) as [c'|]; [|intros Q; injection Q as <- <-; split; [exact K|discriminate]].
    destruct (v_cpuid v =? c'); [|intros Q; apply (SL _ _ Q); try reflexivity; exact (K0 v eq_refl)]. intros Q; injection Q as <- <-. split; [exact K|]. intros E x X. injection X as <-. exact (FR v eq_refl RV E).
Qed.
Lemma register_ok vs fd' cpuid : known vs -> known (vcpu_register vs fd' cpuid).
Proof.
  intros K. unfold vcpu_register. destruct (vcpu_find vs fd') as [v|].
  - destruct (v_cpuid v =? cpuid); [exact K|]. intros u I J R. destruct (set_in _ _ _ _ I) as [-> |I']; [discriminate R|apply K; assumption].
  - intros u [<- |I] J R; [discriminate R|apply K; assumption].
Qed.
Definition inv (P : list (option line) -> Prop) (s : state) : Prop := held P (mm s) /\ named_ok (fdpath s) /\ known (vcpus s).
Lemma step_ok (P : list (option line) -> Prop) s e s' o : (forall ls, P ls -> there ls) -> inv P s -> (forall f, e = Mm (EFiles f) -> forall ls, f t = Some ls -> P ls) -> (forall p, e = Fds p -> named_ok p) -> step s e = Ok (s', o) ->
  inv P s' /\ (forall arg mem out, e = Run arg mem -> u32 arg = fd -> o = Some out -> exists b, length b = run_size /\ TvalSpec.bytes_at mem (l_start l) b /\ out = reason (number_at b 8 4)).
Proof.
  intros PT (H & NP & K) FO PO. destruct e as [e|p|fd' cpuid|arg mem]; cbn [KvmModel.step].
  - intros Q. injection Q as <- <-. split; [|discriminate]. split; [|split; [exact NP|]].
    + apply held_step; [exact H|]. intros f -> ls. apply (FO f eq_refl).
    + cbn [vcpus]. destruct e; try exact K. destruct (_ =? t); [intros v []|exact K].
  - intros Q. injection Q as <- <-. split; [|discriminate]. split; [exact H|]. split; [apply (PO p eq_refl)|exact K].
  - intros Q. injection Q as <- <-. split; [|discriminate]. split; [exact H|]. split; [exact NP|]. apply register_ok, K.
  - unfold decode_run. destruct (vcpu_get_info t s (u32 arg)) as [[s1 w]| |] eqn:G; cbn [rbind]; try discriminate. intros Q. injection Q as <- <-. destruct (get_mm _ _ _ _ G) as (M1 & M2). destruct (get_ok _ _ _ _ _ H PT NP K G) as (A & B). cbn [fst snd]. split.
    + split; [rewrite M1; apply held_rebuild, H|]. split; [rewrite M2; exact NP|exact A].
    + intros arg0 mem0 out E F O. injection E as <- <-. destruct w as [w|]; [|discriminate O]. destruct (B F w eq_refl) as (_ & R2 & _). unfold attach_auxstr in O. destruct (_ <? _); [discriminate O|]. rewrite R2 in O. destruct (ExtModel.umoven mem (l_start l) run_size) as [b|] eqn:U; [|discriminate O].
      rewrite reason_ok in O. injection O as <-. destruct (umoven_inv _ _ _ _ U) as (X & Y). exists b. split; [exact X|]. split; [exact Y|]. rewrite InfoThms.ld_number. reflexivity.
Qed.
Lemma step_files s e s' o : step s e = Ok (s', o) -> files (mm s') = match e with Mm (EFiles f) => f | _ => files (mm s) end /\ fdpath s' = match e with Fds p => p | _ => fdpath s end.
Proof.
  destruct e as [e|p|fd' cpuid|arg mem]; cbn [KvmModel.step].
  - intros Q. injection Q as <- <-. split; [|reflexivity]. cbn [mm]. destruct e as [|f| |t'|t']; cbn [MmapModel.step]; try reflexivity.
    + unfold enable. destruct (use_cache _); reflexivity.
    + apply report_same.
    + pose proof (rebuild_spec (mm s) t') as R. destruct (rebuild_if_invalid (mm s) t') as [m' r]. apply R.
  - intros Q. injection Q as <- <-. split; reflexivity.
  - intros Q. injection Q as <- <-. split; reflexivity.
  - unfold decode_run. destruct (vcpu_get_info t s (u32 arg)) as [[s1 w]| |] eqn:G; cbn [rbind]; try discriminate. intros Q. injection Q as <- <-. destruct (get_mm _ _ _ _ G) as (M1 & M2). cbn [fst]. split; [|exact M2]. rewrite M1. pose proof (rebuild_spec (mm s) t) as R. destruct (rebuild_if_invalid (mm s) t) as [m' r]. apply R.
Qed.
Lemma maps_first f h : In f (maps_ever f h). Proof. destruct h; left; reflexivity. Qed.
Lemma paths_first p h : In p (paths_ever p h). Proof. destruct h; left; reflexivity. Qed.
Lemma run_ok (P : list (option line) -> Prop) h : forall s s', (forall ls, P ls -> there ls) -> inv P s -> (forall f, In f (maps_ever (files (mm s)) h) -> forall ls, f t = Some ls -> P ls) -> (forall p, In p (paths_ever (fdpath s) h) -> named_ok p) ->
  run s h = Ok s' -> inv P s'.
Proof.
  induction h as [|e h IH]; intros s s' PT I F N H; cbn [KvmModel.run] in H; [injection H as <-; exact I|]. destruct (step s e) as [[s1 o]| |] eqn:E; cbn [rbind fst] in H; try discriminate. destruct (step_files _ _ _ _ E) as (A & B).
  assert (F1 : forall f, In f (maps_ever (files (mm s1)) h) -> In f (maps_ever (files (mm s)) (e :: h))) by (intros f J; rewrite A in J; cbn [maps_ever]; right; destruct e as [[]| | |]; exact J).
  assert (N1 : forall p, In p (paths_ever (fdpath s1) h) -> In p (paths_ever (fdpath s) (e :: h))) by (intros p J; rewrite B in J; cbn [paths_ever]; right; destruct e; exact J).
  apply (IH s1); [exact PT| |intros f J; apply F, F1, J|intros p J; apply N, N1, J|exact H].
  apply (step_ok P s e s1 o PT I); [|intros p ->; apply N, N1; rewrite B; apply paths_first|exact E]. intros f -> ls. apply F, F1. rewrite A. apply maps_first.
Qed.
End I.
End T.
(** The exit reason shown after KVM_RUN is the one in the structure that is mapped for the virtual cpu of that descriptor.  Assumed: whenever
    the descriptor has been one of a virtual cpu, it was that one; and whenever that one was mapped, it was at the same place. *)
Theorem C103_reason_partial : forall t run_size f p h s arg mem s' out c l,
  (forall q path c', In q (paths_ever p h) -> q (arg mod 2^32) = Some path -> of_vcpu path c' -> c' = c) ->
  (forall g ls l', In g (maps_ever f h) -> g t = Some ls -> In l' (named ls) -> of_vcpu (l_path l') c -> l_start l' = l_start l /\ l_end l' = l_end l) ->
  run t run_size (init f p) h = Ok s -> step t run_size s (Run arg mem) = Ok (s', Some out) ->
  exists b, length b = run_size /\ TvalSpec.bytes_at mem (l_start l) b /\ out = reason (number_at b 8 4).
Proof.
  intros t run_size f p h s arg mem s' out c l NP TH R Q. set (P := there c l).
  assert (I0 : inv t (arg mod 2^32) c l P (init f p)).
  { split; [|split].
    - split; [intros ls E l' L; apply (TH f ls); [apply maps_first|exact E|exact L]|discriminate].
    - intros x c' A B. exact (NP p x c' (paths_first p h) A B).
    - intros v []. }
  assert (I1 : inv t (arg mod 2^32) c l P s).
  { apply (run_ok t run_size _ c l P h (init f p) s (fun ls H => H) I0); [| |exact R].
    - intros g G ls E l' L. exact (TH g ls l' G E L).
    - intros q G x c' A B. exact (NP q x c' G A B). }
  destruct (step_ok t run_size _ c l P s (Run arg mem) s' _ (fun ls H => H) I1 ltac:(discriminate) ltac:(discriminate) Q) as (_ & X). exact (X arg mem out eq_refl eq_refl eq_refl).
Qed.
Print Assumptions C103_reason_partial.

(** ---- it is shown ---- *)
Lemma mm_run t run_size h : forall s s', run t run_size s h = Ok s' -> mm s' = MmapModel.run (mm s) (mm_events t h).
Proof.
  induction h as [|e h IH]; intros s s' H; cbn [run] in H; [injection H as <-; reflexivity|]. destruct (step t run_size s e) as [[s1 o]| |] eqn:E; cbn [rbind fst] in H; try discriminate. rewrite (IH _ _ H). cbn [mm_events flat_map]. unfold mm_events. rewrite MmapProofs.run_app. f_equal.
  destruct e as [e|p|fd' cpuid|arg mem]; cbn [step] in E; try (injection E as <- <-; reflexivity).
  unfold decode_run in E. destruct (vcpu_get_info t s (u32 arg)) as [[s2 w]| |] eqn:G; cbn [rbind] in E; try discriminate. injection E as <- <-. destruct (get_mm _ _ _ _ _ G) as (M & _). exact M.
Qed.
Lemma slow_found t s g es v path z c e0 : fdpath s v = Some path -> strip_prefix VCPU_DENTRY_PREFIX path = Some z -> StrtouModel.string_to_uint z = Some c -> caches (mm s) t = Some (g, es) -> In e0 es -> e_path e0 = path -> e_major e0 = 0 ->
  forall u, exists s' w, slow t s v u = (s', Some w).
Proof.
  intros F Z C M I P Q u. unfold slow. rewrite F, Z. unfold search_custom. rewrite M. destruct (find (is_map_for_file path) es) as [e|] eqn:X.
  - rewrite C. eexists. eexists. reflexivity.
  - exfalso. pose proof (find_none _ _ X _ I) as Y. unfold is_map_for_file in Y. rewrite P, Q in Y. cbn [N.eqb andb] in Y. assert (B : beqs path path = true) by (apply beqs_eq; reflexivity). congruence.
Qed.
(** The reason is shown, if the mapping is there now, all changes of mappings have been seen, and the structure can be read. *)
Theorem C103_shown_partial : forall t run_size f p h s arg mem c l ls b,
  (forall q path c', In q (paths_ever p h) -> q (arg mod 2^32) = Some path -> of_vcpu path c' -> c' = c) ->
  (forall g ls l', In g (maps_ever f h) -> g t = Some ls -> In l' (named ls) -> of_vcpu (l_path l') c -> l_start l' = l_start l /\ l_end l' = l_end l) ->
  N.of_nat (reports (mm_events t h)) < 2^32 -> settled (mm_events t h) true = true ->
  run t run_size (init f p) h = Ok s ->
  fdpath s (arg mod 2^32) = Some (l_path l) -> of_vcpu (l_path l) c ->
  files (mm s) t = Some ls -> kernel_maps ls -> (Z.of_nat (length (named ls)) <= 1073741824)%Z -> In l (named ls) -> l_major l = 0 ->
  l_start l + N.of_nat run_size <= l_end l -> length b = run_size -> TvalSpec.bytes_at mem (l_start l) b ->
  exists s', step t run_size s (Run arg mem) = Ok (s', Some (reason (number_at b 8 4))).
Proof.
  intros t run_size f p h s arg mem c l ls b NP TH RP SE R FP OV FL KM LN IL MJ SZ LB MB. set (fd := arg mod 2^32) in *. set (P := there c l).
  assert (I0 : inv t fd c l P (init f p)).
  { split; [|split].
    - split; [intros ls' E l' L; apply (TH f ls'); [apply maps_first|exact E|exact L]|discriminate].
    - intros x c' A B. exact (NP p x c' (paths_first p h) A B).
    - intros v []. }
  assert (I1 : inv t fd c l P s).
  { apply (run_ok t run_size _ c l P h (init f p) s (fun ls H => H) I0); [| |exact R].
    - intros g G ls' E l' L. exact (TH g ls' l' G E L).
    - intros q G x c' A B. exact (NP q x c' G A B). }
  destruct I1 as (H & N1 & K).
  assert (E0 : exists e, In e (build ls) /\ shows l e).
  { pose proof (proj2 (MmapThms.C44_lines ls) KM) as F2. clear -F2 IL. induction F2 as [|a e la le A F2 IH]; [contradiction IL|]. destruct IL as [<- |IL]; [exists e; split; [left; reflexivity|exact A]|]. destruct (IH IL) as (e' & B & C). exists e'. split; [right; exact B|exact C]. }
  destruct E0 as (e0 & IE & SH). pose proof SH as (S1 & S2 & _ & S4 & _ & S6 & _).
  assert (CA : exists g, caches (fst (rebuild_if_invalid (mm s) t)) t = Some (g, build ls)).
  { pose proof (MmapThms.C44_current_partial f (mm_events t h) t RP SE) as CU. cbv zeta in CU. change (MmapModel.run (MmapModel.init f) (EEnable :: mm_events t h ++ [EUse t])) with (MmapModel.run (mm (init f p)) (mm_events t h ++ [EUse t])) in CU. rewrite MmapProofs.run_app, <- (mm_run _ _ _ _ _ R) in CU.
    change (MmapModel.run (mm s) [EUse t]) with (fst (rebuild_if_invalid (mm s) t)) in CU. destruct (held_rebuild t P (mm s) H) as (_ & FF). rewrite FF, FL in CU. unfold cached, content in CU.
    destruct (build ls) as [|e1 es1] eqn:BL; [contradiction IE|]. destruct (caches (fst (rebuild_if_invalid (mm s) t)) t) as [[g es]|]; [|discriminate CU]. cbn in CU. injection CU as ->. exists g. reflexivity. }
  destruct CA as (g & CA). pose proof (held_rebuild t P (mm s) H) as (H1 & _).
  assert (OV' : exists z, strip_prefix VCPU_DENTRY_PREFIX (l_path l) = Some z /\ StrtouModel.string_to_uint z = Some c) by (apply number_iff; exact OV). destruct OV' as (z & OZ & OC).
  assert (G : exists s' w, vcpu_get_info t s fd = Ok (s', Some w)).
  { unfold vcpu_get_info. pose proof (rebuild_spec (mm s) t) as RS. destruct (rebuild_if_invalid (mm s) t) as [m1 st]. cbn [fst] in *. destruct RS as (_ & _ & _ & _ & _ & _ & RN).
    assert (SL : forall x y, mm x = m1 -> fdpath x = fdpath s -> exists s' w, Ok (slow t x fd y) = Ok (s', Some w)).
    { intros x y A B. destruct (slow_found t x g (build ls) fd (l_path l) z c e0) with (u := y) as (s' & w & Q); try assumption; [rewrite B; exact FP|rewrite A; exact CA|congruence|]. exists s', w. rewrite Q. reflexivity. }
    destruct st; [exfalso; destruct RN as (RN & _); specialize (RN eq_refl); congruence| |].
    - destruct (vcpu_find (vcpus s) fd) as [v|] eqn:VF; [|apply SL; reflexivity]. destruct (v_resolved v); [eexists; eexists; reflexivity|apply SL; reflexivity].
    - destruct (vcpu_find (vcpus s) fd) as [v|] eqn:VF; [|apply SL; reflexivity]. destruct (v_resolved v) eqn:RV; [|apply SL; reflexivity].
      destruct (find_in _ _ _ VF) as (VI & VD). destruct (K v VI VD RV) as (K1 & K2 & K3). rewrite CA, K2. assert (RZ : l_start l < l_end l) by (destruct KM as (KM & _); rewrite Forall_forall in KM; apply (KM l IL)).
      destruct (proj1 (MmapThms.C43_maps g ls (l_start l) KM LN) l IL ltac:(lia)) as (e & SE1 & SE2). rewrite SE1. cbn [rbind]. assert (EP : e_path e = l_path l) by apply SE2. rewrite EP, OZ, OC, K1, N.eqb_refl. eexists. eexists. reflexivity. }
  destruct G as (s' & w & G). destruct (get_ok t fd c l s fd P s' (Some w) H (fun ls H => H) N1 K G) as (_ & RW). destruct (RW eq_refl w eq_refl) as (_ & W2 & W3).
  exists s'. cbn [step]. unfold decode_run. change (u32 arg) with fd. rewrite G. cbn [rbind fst snd]. unfold attach_auxstr. rewrite W2, W3. replace (l_end l - l_start l <? N.of_nat run_size) with false by (symmetry; apply N.ltb_ge; lia).
  rewrite <- LB. rewrite (TvalThms.umoven_bytes _ _ _ MB). rewrite reason_ok, InfoThms.ld_number. reflexivity.
Qed.
Print Assumptions C103_shown_partial.

(** ---- nothing undefined happens ---- *)
Lemma build_loop_length ls : forall acc, (length (build_loop ls acc) <= length acc + length (named ls))%nat.
Proof.
  induction ls as [|[x|] ls IH]; intros acc; cbn [build_loop named length]; [lia| |apply IH]. destruct (negb (known_prot x)); [specialize (IH acc); lia|]. destruct (l_end x <? l_start x); [lia|].
  destruct acc as [|e acc]; [specialize (IH [entry_of x]); cbn [length] in *; lia|]. destruct (_ && _); [specialize (IH (e :: acc)); cbn [length] in *; lia|]. destruct (_ || _); [specialize (IH (e :: acc)); cbn [length] in *; lia|specialize (IH (entry_of x :: e :: acc)); cbn [length] in *; lia].
Qed.
Definition short (ls : list (option line)) : Prop := (Z.of_nat (length (named ls)) <= 1073741824)%Z.
Lemma get_safe t s fd : held t short (mm s) -> exists r, vcpu_get_info t s fd = Ok r.
Proof.
  intros H. unfold vcpu_get_info. destruct (held_rebuild t short (mm s) H) as ((_ & H1) & _). destruct (rebuild_if_invalid (mm s) t) as [m1 st]. cbn [fst] in H1.
  assert (SE : forall a, exists r, mmap_cache_search (caches m1 t) a = Ok r).
  { intros a. destruct (caches m1 t) as [[g es]|] eqn:E; [|eexists; reflexivity]. destruct (H1 g es eq_refl) as (ls & SH & ->). destruct (MmapThms.C43_lookup g (build ls) a (build_good ls)) as (r & Q & _); [|exists r; exact Q].
    unfold build. rewrite rev_length. pose proof (build_loop_length ls []) as L. cbn [length] in L. unfold short in SH. lia. }
  destruct st; [eexists; reflexivity| |].
  - destruct (vcpu_find (vcpus s) fd) as [v|]; [|eexists; reflexivity]. destruct (v_resolved v); eexists; reflexivity.
  - destruct (vcpu_find (vcpus s) fd) as [v|]; [|eexists; reflexivity]. destruct (v_resolved v); [|eexists; reflexivity]. destruct (SE (v_addr v)) as (r & ->). cbn [rbind]. destruct r as [e|]; [|eexists; reflexivity].
    destruct (strip_prefix _ _) as [z|]; [|eexists; reflexivity]. destruct (StrtouModel.string_to_uint z) as [c|]; [|eexists; reflexivity]. destruct (_ =? c); eexists; reflexivity.
Qed.
(** As long as no maps file has more than 2^30 lines, every history is defined. *)
Theorem C103_defined : forall t run_size f p h,
  (forall g ls, In g (maps_ever f h) -> g t = Some ls -> (Z.of_nat (length (named ls)) <= 1073741824)%Z) ->
  exists s, run t run_size (init f p) h = Ok s.
Proof.
  intros t run_size f p h H. assert (G : forall h s, held t short (mm s) -> (forall g ls, In g (maps_ever (files (mm s)) h) -> g t = Some ls -> short ls) -> exists s', run t run_size s h = Ok s').
  { clear. induction h as [|e h IH]; intros s HE HM; [eexists; reflexivity|]. cbn [run].
    assert (S1 : exists s1 o, step t run_size s e = Ok (s1, o)).
    { destruct e as [e|q|fd cpuid|arg mem]; cbn [step]; try (eexists; eexists; reflexivity). unfold decode_run. destruct (get_safe t s (u32 arg) HE) as (r & ->). cbn [rbind]. eexists. eexists. reflexivity. }
    destruct S1 as (s1 & o & E). rewrite E. cbn [rbind fst]. destruct (step_files _ _ _ _ _ _ E) as (A & _).
    assert (F1 : forall g, In g (maps_ever (files (mm s1)) h) -> In g (maps_ever (files (mm s)) (e :: h))) by (intros g J; rewrite A in J; cbn [maps_ever]; right; destruct e as [[]| | |]; exact J).
    apply IH; [|intros g ls J; apply HM, F1, J].
    destruct e as [e|q|fd cpuid|arg mem]; cbn [step] in E; try (injection E as <- <-; exact HE).
    - injection E as <- <-. cbn [mm] in *. apply held_step; [exact HE|]. intros g -> ls. apply HM, F1. rewrite A. apply maps_first.
    - unfold decode_run in E. destruct (vcpu_get_info t s (u32 arg)) as [[s2 w]| |] eqn:Q; cbn [rbind] in E; try discriminate. injection E as <- <-. destruct (get_mm _ _ _ _ _ Q) as (M & _). cbn [fst]. rewrite M. apply held_rebuild, HE. }
  apply G; [|exact H]. split; [intros ls E; apply (H f ls (maps_first f h) E)|discriminate].
Qed.
Print Assumptions C103_defined.

(** ---- what the assumptions exclude ---- *)
Definition map_of (start len : N) (path : list N) : option line := Some (mk_line start (start + len) 114 119 45 115 0 0 14 path).
Definition cpu (n : list N) : list N := bs "anon_inode:kvm-vcpu:" ++ n.
Definition one (ls : list (option line)) : N -> option (list (option line)) := fun t => if t =? 1 then Some ls else None.
Definition fds (l : list (N * list N)) : N -> option (list N) := fun fd => option_map snd (find (fun x => fst x =? fd) l).
(** two structures of 16 bytes: the one at 0x1000 with the reason [a], the one at 0x3000 with the reason [b] *)
Definition two (a b : N) : ExtModel.memory := fun x => if (0x1000 <=? x) && (x <? 0x2000) then Some (if x =? 0x1008 then a else 0) else if (0x3000 <=? x) && (x <? 0x4000) then Some (if x =? 0x3008 then b else 0) else None.
Definition maps2 : list (option line) := [map_of 0x1000 0x1000 (cpu (bs "0")); map_of 0x3000 0x1000 (cpu (bs "1"))].
Definition shown (t : N) (f : N -> option (list (option line))) (p : N -> option (list N)) (h : list event) (arg : N) (mem : ExtModel.memory) : option (list N) :=
  match run t 16 (init f p) h with Ok s => match step t 16 s (Run arg mem) with Ok (_, o) => o | _ => None end | _ => None end.
(** Another virtual cpu is put at the number of the descriptor (dup2, close): the reason of the first one is shown. *)
Theorem C103_dup_refuted : exists f p h p' mem, settled (mm_events 1 h) true = true /\ let h' := h ++ [Fds p'] in
  p' 5 = Some (cpu (bs "1")) /\ one maps2 = f /\ shown 1 f p h' 5 mem = Some (bs "KVM_EXIT_HLT") /\ TvalSpec.bytes_at mem 0x3008 [2; 0; 0; 0] /\ reason 2 = bs "KVM_EXIT_IO".
Proof.
  exists (one maps2), (fds [(5, cpu (bs "0")); (6, cpu (bs "1"))]), [Create 5 0; Create 6 1; Run 5 (two 5 2)], (fds [(5, cpu (bs "1")); (6, cpu (bs "1"))]), (two 5 2).
  split; [reflexivity|]. split; [reflexivity|]. split; [reflexivity|]. split; [vm_compute; reflexivity|]. split; [|vm_compute; reflexivity]. intros i I. cbn [length] in I. do 4 (destruct i as [|i]; [reflexivity|]). lia.
Qed.
Print Assumptions C103_dup_refuted.
(** The structure is mapped again elsewhere; the change has been seen, and the stack tracer has used the cache since: the reason is read at the
    old place, although the virtual cpu is not there. *)
Definition moved : list (option line) := [map_of 0x1000 0x1000 (bs "/tmp/file"); map_of 0x3000 0x1000 (cpu (bs "0"))].
Theorem C103_moved_refuted : exists f p f' mem, let h := [Create 5 0; Run 5 mem; Mm (EFiles f'); Mm EReport] in
  settled (mm_events 1 h) true = true /\ f' = one moved /\ p 5 = Some (cpu (bs "0")) /\ TvalSpec.bytes_at mem 0x3008 [2; 0; 0; 0] /\
  shown 1 f p h 5 mem = Some (reason 2) /\ shown 1 f p (h ++ [Mm (EUse 1)]) 5 mem = Some (reason 5).
Proof.
  exists (one [map_of 0x1000 0x1000 (cpu (bs "0"))]), (fds [(5, cpu (bs "0"))]), (one moved), (two 5 2). cbv zeta.
  split; [reflexivity|]. split; [reflexivity|]. split; [reflexivity|]. split; [intros i I; cbn [length] in I; do 4 (destruct i as [|i]; [reflexivity|]); lia|]. split; vm_compute; reflexivity.
Qed.
Print Assumptions C103_moved_refuted.
(** The structure is mapped again at an address below that still covers the old one: the reason is read inside of it. *)
Theorem C103_overlap_refuted : exists f p f' mem, let h := [Create 5 0; Run 5 mem; Mm (EFiles f'); Mm EReport] in
  settled (mm_events 1 h) true = true /\ f' = one [map_of 0x1000 0x3000 (cpu (bs "0"))] /\ p 5 = Some (cpu (bs "0")) /\ TvalSpec.bytes_at mem 0x1008 [5; 0; 0; 0] /\
  shown 1 f p h 5 mem = Some (reason 2).
Proof.
  exists (one [map_of 0x3000 0x1000 (cpu (bs "0"))]), (fds [(5, cpu (bs "0"))]), (one [map_of 0x1000 0x3000 (cpu (bs "0"))]), (two 5 2). cbv zeta.
  split; [reflexivity|]. split; [reflexivity|]. split; [reflexivity|]. split; [intros i I; cbn [length] in I; do 4 (destruct i as [|i]; [reflexivity|]); lia|]. vm_compute; reflexivity.
Qed.
Print Assumptions C103_overlap_refuted.
(** The hypotheses are met: two virtual cpus, a change of the mappings that leaves them where they are. *)
Example C103_example : let p := fds [(5, cpu (bs "0")); (6, cpu (bs "1"))] in let h := [Create 5 0; Run 5 (two 5 2); Create 6 1; Run 6 (two 5 2); Mm (EFiles (one (map_of 0x500 0x100 (bs "/bin/x") :: maps2))); Mm EReport] in
  settled (mm_events 1 h) true = true /\ of_vcpu (cpu (bs "1")) 1 /\ kernel_maps (map_of 0x500 0x100 (bs "/bin/x") :: maps2) /\
  shown 1 (one maps2) p h 6 (two 5 2) = Some (bs "KVM_EXIT_IO") /\ shown 1 (one maps2) p h 5 (two 5 2) = Some (bs "KVM_EXIT_HLT") /\ shown 1 (one maps2) p h 5 (two 40 2) = Some (bs "KVM_EXIT_???").
Proof.
  cbv zeta. split; [reflexivity|]. split; [apply number_iff; exists (bs "1"); split; vm_compute; reflexivity|]. split.
  { split; cbn [named map_of maps2].
    - repeat (apply Forall_cons; [unfold prot_ok; cbn; split; [repeat split; auto|reflexivity]|]). apply Forall_nil.
    - repeat first [apply Sorted.SSorted_nil | apply Sorted.SSorted_cons | apply Forall_cons | apply Forall_nil | unfold line_before; cbn; lia | vm_compute; discriminate]. }
  split; [vm_compute; reflexivity|]. split; vm_compute; reflexivity.
Qed.
