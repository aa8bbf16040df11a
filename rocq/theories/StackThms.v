(** C83: stack traces. *)
From Verif Require Import Base Printf StackModel StackSpec.
Local Open Scope N_scope.

Lemma print_text f t : text f t -> print_cb f = t.
Proof.
  destruct 1; cbn [print_cb cstr]; unfold fmt_symbol, fmt_nosymbol, hex, number16.
  - rewrite app_nil_r. reflexivity.
  - reflexivity.
  - destruct H as [->| ->]; reflexivity.
  - reflexivity.
  - destruct a; [lia|reflexivity].
Qed.
Lemma sprint_text f t : text f t -> no_empty f -> sprint_call_or_error f = t.
Proof.
  intros T NE. rewrite <- (print_text f t T). destruct f as [b [[|c s]|] off t' src|m ip]; try reflexivity; [destruct NE|]. inversion T; subst. reflexivity.
Qed.
Lemma print_texts w r : texts w r -> map (fun f => Frame (print_cb f)) w = r.
Proof. induction 1; [reflexivity|]. cbn [map]. rewrite (print_text f t), IHtexts by assumption. reflexivity. Qed.
Lemma sprint_texts w r : texts w r -> Forall no_empty w -> map Frame (map sprint_call_or_error w) = r.
Proof. induction 1; intros F; [reflexivity|]. inversion F; subst. cbn [map]. rewrite (sprint_text f t), IHtexts by assumption. reflexivity. Qed.
(** outside of calls *)
Definition idle (s : tcb) : Prop := queue s = [] /\ cur s = None /\ pers s = 0 /\ staged s = None.
Definition at_ (o : list item) : tcb := {| queue := []; cur := None; pers := 0; staged := None; out := o |}.
Lemma idle_at s : idle s -> s = at_ (out s).
Proof. destruct s. unfold idle, at_. cbn. intros (-> & -> & -> & ->). reflexivity. Qed.
Lemma texts_nil r : texts [] r -> r = [].
Proof. inversion 1. reflexivity. Qed.
Lemma complete_all c : complete c = true -> successful c = true /\ failed c = true /\ unfinished c = true /\ unavailable c = true /\ detached c = true.
Proof. unfold complete. rewrite !andb_true_iff. tauto. Qed.
Lemma wanted_complete c err : complete c = true -> wanted c err = true.
Proof. intros E. apply complete_all in E. destruct err; cbn; tauto. Qed.
Lemma publish_wanted c err : (err && failed c) || (negb err && successful c) = wanted c err.
Proof. destruct err; cbn; [apply orb_false_r|reflexivity]. Qed.
Lemma disabled_at c q cu st o : disabled c {| queue := q; cur := cu; pers := 0; staged := st; out := o |} = false.
Proof. unfold disabled. cbn. apply andb_false_r. Qed.

Definition final (s : tcb) : Prop := staged s = None /\ queue s = [].
Lemma story_run c h o : story c h o -> plain c h -> forall o0, exists s, run c (at_ o0) h = Ok s /\ out s = o0 ++ o /\ final s.
Proof.
  induction 1 as [|id se ck w ok err p w' h o ST IH|id se ck w err p w' r h o W T ST IH|id se ck w err p w' h o W ST IH|id w r h o T ST IH|id w h o ST IH|d|id se ck w d|id se ck w r d U T|id se ck w d U]; intros P o0.
  - exists (at_ o0). split; [reflexivity|]. split; [symmetry; apply app_nil_r|]. split; reflexivity.
  - inversion P as [|? ? ? ? ? ? ? ? ? _ P'| | |]; subst. destruct (IH P' o0) as (s & E & R). exists s. split; [exact E|exact R].
  - inversion P as [|? ? ? ? ? ? ? ? ? Q P'| | |]; subst. specialize (Q eq_refl).
    destruct (IH P' (o0 ++ Begin id :: Result id :: r)) as (s & E & R). rewrite <- app_assoc in R. exists s. split; [|exact R]. rewrite <- E. clear E R IH.
    assert (PB : (if complete c then true else (err && failed c) || (negb err && successful c)) = true) by (rewrite publish_wanted, W; destruct (complete c); reflexivity).
    cbn [run step entering_trace]. rewrite (andb_comm (negb ck) se). destruct (se && negb ck) eqn:SE.
    + destruct (Q eq_refl) as (NE & F & _). pose proof (sprint_texts w r T F) as TX. unfold unwind_tcb_capture, at_. rewrite disabled_at. cbn [queue rbind].
      set (q := map sprint_call_or_error w) in *. assert (NQ : q <> []) by (unfold q; destruct w; [congruence|discriminate]).
      unfold exiting_trace, update_personality. destruct (complete c) eqn:C; cbn -[close_memstream];
        rewrite ?publish_wanted, ?W; cbn; unfold unwind_tcb_print; rewrite disabled_at; cbn [queue];
        (destruct q as [|q0 q]; [congruence|]); unfold queue_print; cbn; rewrite <- TX; cbn; rewrite <- ?app_assoc; reflexivity.
    + pose proof (print_texts w' r T) as TX. cbn [rbind].
      unfold exiting_trace, update_personality. destruct (complete c) eqn:C; cbn -[close_memstream];
        rewrite ?publish_wanted, ?W; cbn; unfold unwind_tcb_print; rewrite disabled_at; cbn; rewrite TX; cbn; rewrite <- ?app_assoc; reflexivity.
  - inversion P as [|? ? ? ? ? ? ? ? ? Q P'| | |]; subst. specialize (Q eq_refl).
    destruct (IH P' o0) as (s & E & R). exists s. split; [|exact R]. rewrite <- E. clear E R IH.
    assert (C : complete c = false) by (destruct (complete c) eqn:C; [|reflexivity]; pose proof (wanted_complete c err C); congruence).
    cbn [run step entering_trace]. rewrite (andb_comm (negb ck) se). destruct (se && negb ck) eqn:SE; [destruct (Q eq_refl) as (_ & _ & Q'); congruence|].
    cbn [rbind]. rewrite C. unfold exiting_trace, update_personality. cbn -[close_memstream]. rewrite C. cbn. rewrite publish_wanted, W. cbn. unfold at_. rewrite app_nil_r. reflexivity.
  - inversion P as [| |? ? ? ? P'| |]; subst. destruct (IH P' (o0 ++ Signal id :: r)) as (s & E & R). rewrite <- app_assoc in R. exists s. split; [|exact R]. rewrite <- E.
    cbn [run step print_stopped]. unfold unwind_tcb_print, at_, emit. cbn [staged queue cur pers out]. rewrite disabled_at. cbn. rewrite (print_texts w r T). rewrite <- app_assoc. reflexivity.
  - inversion P as [| |? ? ? ? P'| |]; subst. destruct (IH P' o0) as (s & E & R). exists s. split; [exact E|exact R].
  - clear P. eexists. split; [reflexivity|]. unfold died. destruct (complete c); cbn; rewrite app_nil_r; repeat split; reflexivity.
  - clear P. eexists. split; [reflexivity|]. unfold died. destruct (complete c); cbn; rewrite app_nil_r; repeat split; reflexivity.
  - inversion P as [| | | |? ? ? ? ? ? Q]; subst. specialize (Q eq_refl). cbn [run step entering_trace]. rewrite (andb_comm (negb ck) se). destruct (se && negb ck) eqn:SE.
    + destruct (Q eq_refl) as (F & _). pose proof (sprint_texts w r T F) as TX. unfold unwind_tcb_capture, at_. rewrite disabled_at. cbn [queue rbind].
      eexists. split; [reflexivity|]. unfold died, print_event_exit. destruct (complete c) eqn:C; cbn; rewrite ?U; cbn; rewrite ?C; cbn; rewrite TX, <- ?app_assoc; repeat split; reflexivity.
    + apply texts_nil in T. subst r. cbn [rbind]. eexists. split; [reflexivity|]. unfold died, print_event_exit.
      destruct (complete c) eqn:C; cbn; rewrite ?U; cbn; rewrite ?C; cbn; rewrite <- ?app_assoc, ?app_nil_r; repeat split; reflexivity.
  - inversion P as [| | | |? ? ? ? ? ? Q]; subst. specialize (Q eq_refl). cbn [run step entering_trace]. rewrite (andb_comm (negb ck) se).
    assert (C : complete c = false) by (destruct (complete c) eqn:C; [|reflexivity]; apply complete_all in C; destruct C as (_ & _ & C & _); congruence).
    destruct (se && negb ck) eqn:SE; [destruct (Q eq_refl); congruence|].
    cbn [rbind]. eexists. split; [reflexivity|]. unfold died, print_event_exit. rewrite C. cbn. rewrite U. cbn. rewrite ?app_nil_r. repeat split; reflexivity.
Qed.

(** ** The cache *)
Definition good (look : N -> N -> option info) (x : ctx) : Prop :=
  forall i, gen (cache x i) <= generation x /\ (gen (cache x i) = generation x -> look (generation x) (pc (cache x i)) = Some (val (cache x i))).
Lemma find_loop_hit x a idx n : forall i u l j, find_loop x a idx n i u l = (true, j) -> gen (cache x j) = generation x /\ pc (cache x j) = a.
Proof.
  induction n as [|n IH]; intros i u l j E; [discriminate|]. cbn [find_loop] in E. destruct ((gen (cache x (idx + i)) =? generation x) && (pc (cache x (idx + i)) =? a)) eqn:H.
  - injection E as <-. apply andb_true_iff in H. rewrite !N.eqb_eq in H. exact H.
  - destruct (negb _); eapply IH; exact E.
Qed.
Lemma find_bucket_hit x a j : find_bucket x a = (true, j) -> gen (cache x j) = generation x /\ pc (cache x j) = a.
Proof. unfold find_bucket. generalize (bucket a) as b. intros b. apply (find_loop_hit x a b 32 0 None b j). Qed.
Lemma touch_good look x i : good look x -> good look (touch x i).
Proof. intros G j. cbn [cache generation touch]. unfold put. destruct (N.eqb_spec j i) as [->|_]; [|apply G]. cbn [gen pc val]. apply G. Qed.
Lemma store_good look x i a v : good look x -> look (generation x) a = Some v -> good look (store x i a v).
Proof. intros G L j. cbn [cache generation store]. unfold put. destruct (N.eqb_spec j i) as [->|_]; [|apply G]. cbn [gen pc val]. split; [lia|]. intros _. exact L. Qed.
Definition finish (look : N -> option info) (x : ctx) (a : N) (q : bool * N) : ctx * list frame :=
  match q with
  | (true, i) => (touch x i, [call_of (val (cache x i))])
  | (false, i) => match look a with Some v => (store x i a v, [call_of v]) | None => (x, []) end
  end.
Lemma finish_ok look x a q : good look x -> (fst q = true -> gen (cache x (snd q)) = generation x /\ pc (cache x (snd q)) = a) ->
  let y := finish (look (generation x)) x a q in
  snd y = match look (generation x) a with Some v => [call_of v] | None => [] end /\ good look (fst y) /\ generation (fst y) = generation x.
Proof.
  intros G H. destruct q as [[|] i]; cbn [fst snd finish] in *.
  - destruct (H eq_refl) as [Hg Hp]. destruct (G i) as [_ V]. specialize (V Hg). rewrite Hp in V. rewrite V. split; [reflexivity|]. split; [apply touch_good; exact G|reflexivity].
  - destruct (look (generation x) a) as [v|] eqn:L; cbn [fst snd]; (split; [reflexivity|]); (split; [|reflexivity]); [apply store_good; assumption|exact G].
Qed.
Lemma callback_finish look x a : callback look x a = finish look x a (find_bucket x a).
Proof. unfold callback, finish. generalize (find_bucket x a). intros [[|] i]; reflexivity. Qed.
Lemma bucket_ok x a : fst (find_bucket x a) = true -> gen (cache x (snd (find_bucket x a))) = generation x /\ pc (cache x (snd (find_bucket x a))) = a.
Proof.
  generalize (find_bucket_hit x a). generalize (find_bucket x a). intros [b i] H. cbn [fst snd]. intros ->. apply H. reflexivity.
Qed.
Lemma callback_ok look x a : good look x -> let y := callback (look (generation x)) x a in
  snd y = match look (generation x) a with Some v => [call_of v] | None => [] end /\ good look (fst y) /\ generation (fst y) = generation x.
Proof. intros G. cbv zeta. rewrite callback_finish. generalize (bucket_ok x a). generalize (find_bucket x a). intros q H. exact (finish_ok look x a q G H). Qed.
Lemma found_eq look f : found look f = match look (address f) with Some v => [call_of v] | None => [] end.
Proof. unfold found. generalize (address f). intros a. destruct (look a) as [[[[[m s] o] t] l]|]; reflexivity. Qed.
Lemma address_eq (a : N) (act : bool) : (if act then a else u64 (a + 2 ^ 64 - 1)) = address (a, act).
Proof. unfold address. cbn [fst snd]. reflexivity. Qed.
Definition continue (d : N) (y : ctx * list frame) (k : ctx -> ctx * list frame) : ctx * list frame :=
  let (x, f) := y in if d =? 1 then (x, f ++ [Error (bs "too many stack frames") 0]) else let (x, g) := k x in (x, f ++ g).
Lemma walk_some look e bad d x a act l : walk look e bad d x (Some (a, act) :: l) = continue d (callback look x (address (a, act))) (fun x => walk look e bad (d - 1) x l).
Proof. unfold continue. cbn [walk]. rewrite address_eq. generalize (callback look x (address (a, act))). intros y. reflexivity. Qed.
Lemma walk_ok look e bad l : forall limit x, (0 < limit)%nat -> good look x -> let y := walk (look (generation x)) e bad (N.of_nat limit) x l in
  snd y = told (look (generation x)) e bad limit l /\ good look (fst y) /\ generation (fst y) = generation x.
Proof.
  induction l as [|[[a act]|] l IH]; intros limit x LP G; cbv zeta.
  - cbn [walk fst snd]. split; [|auto]. unfold told. cbn [readable]. rewrite firstn_nil. cbn [flat_map app length].
    destruct (Nat.leb_spec limit 0); [lia|]. destruct bad; reflexivity.
  - rewrite walk_some. generalize (callback_ok look x (address (a, act)) G). cbv zeta. rewrite <- found_eq. generalize (callback (look (generation x)) x (address (a, act))).
    intros [x1 f1]. cbn [fst snd]. intros (-> & G1 & GE). unfold continue.
    unfold told. cbn [readable all_readable forallb]. destruct limit as [|n]; [lia|]. cbn [firstn flat_map length]. rewrite <- app_assoc.
    destruct (N.eqb_spec (N.of_nat (S n)) 1) as [E1|E1].
    + assert (n = 0%nat) by (clear -E1; lia). subst n. cbn [firstn flat_map app Nat.leb fst snd]. auto.
    + replace (N.of_nat (S n) - 1) with (N.of_nat n) by (clear -E1; lia). specialize (IH n x1 ltac:(clear -E1; lia) G1). cbv zeta in IH. rewrite GE in IH.
      revert IH. generalize (walk (look (generation x)) e bad (N.of_nat n) x1 l). intros [x2 g]. cbn [fst snd]. intros (-> & G2 & GE2). split; [|split; [exact G2|exact GE2]].
      reflexivity.
  - cbn [walk fst snd]. split; [|auto]. unfold told. cbn [readable]. rewrite firstn_nil. cbn [flat_map app length].
    destruct (Nat.leb_spec limit 0); [lia|]. reflexivity.
Qed.
Lemma remap_good look x : good look x -> good look (remap x).
Proof. intros G i. cbn [cache generation remap]. destruct (G i) as [A _]. split; [lia|]. intros E. lia. Qed.
Lemma walks_ok look limit h : (0 < limit)%nat -> forall x, good look x -> walks look (N.of_nat limit) x h = told_all look limit (generation x) h.
Proof.
  intros LP. induction h as [|[|e bad l] h IH]; intros x G; [reflexivity| |].
  - cbn [walks told_all]. rewrite IH by (apply remap_good; exact G). reflexivity.
  - cbn [walks told_all]. generalize (walk_ok look e bad l limit x LP G). cbv zeta. generalize (walk (look (generation x)) e bad (N.of_nat limit) x l).
    intros [x' f]. cbn [fst snd]. intros (-> & G' & GE). rewrite IH by exact G'. rewrite GE. reflexivity.
Qed.
Lemma good0 look : good look ctx0.
Proof. intros i. cbn [cache generation ctx0 gen empty_entry]. split; [lia|]. intros E. discriminate. Qed.

(** ** The theorems *)
(** Each call is shown with its own stack, taken when it should be, and strace does not give up. *)
Theorem C83_told_partial : forall c h o, story c h o -> plain c h -> exists s, run c init h = Ok s /\ out s = o.
Proof. intros c h o ST P. destruct (story_run c h o ST P []) as (s & E & O & _). exists s. auto. Qed.
(** What is shown for an address is what libdw tells of it now, whatever was remembered. *)
Theorem C83_cache : forall look limit h, (0 < limit)%nat -> walks look (N.of_nat limit) ctx0 h = told_all look limit 1 h.
Proof. intros look limit h L. apply (walks_ok look limit h L ctx0 (good0 look)). Qed.
(** A stack has at most as many calls as were asked for. *)
Theorem C83_limit : forall look e bad limit l, (length (filter (fun f => match f with Call _ _ _ _ _ => true | _ => false end) (told look e bad limit l)) <= limit)%nat.
Proof.
  intros look e bad limit l. unfold told. rewrite filter_app, app_length.
  assert (Z : forall b c : bool, length (filter (fun f => match f with Call _ _ _ _ _ => true | _ => false end) (if b then [Error (bs "too many stack frames") 0] else if c then [Error e 0] else [])) = 0%nat) by (intros [] []; reflexivity).
  rewrite Z, Nat.add_0_r. pose proof (firstn_le_length limit (readable l)) as FL. transitivity (length (firstn limit (readable l))); [|apply firstn_le_length].
  induction (firstn limit (readable l)) as [|f r IH]; [reflexivity|]. cbn [flat_map]. rewrite filter_app, app_length. cbn [length].
  assert (length (filter (fun f => match f with Call _ _ _ _ _ => true | _ => false end) (found look f)) <= 1)%nat.
  { unfold found. destruct (look (address f)) as [[[[[m s] o] t] x]|]; cbn; lia. }
  specialize (IH (Nat.le_trans _ _ _ (Nat.le_succ_diag_r _) FL)) || idtac. lia.
Qed.

(** *** Cases *)
Definition every : config := {| libunwind := false; quiet_personality := false; successful := true; failed := true; unfinished := true; unavailable := true; detached := true |}.
Definition opt_z : config := {| libunwind := false; quiet_personality := false; successful := true; failed := false; unfinished := false; unavailable := false; detached := false |}.
Definition fr (n : N) : frame := Call (Some (bs "/bin/a")) (Some (bs "main")) n (4096 + n) None.
Definition tx (n : N) : list N := bs " > /bin/a(main+" ++ number16 n ++ bs ") [" ++ number16 (4096 + n) ++ bs "]".
Lemma fr_text n : text (fr n) (tx n).
Proof. apply (x_fun (bs "/bin/a")). Qed.
Lemma frs_texts n : texts [fr n] [Frame (tx n)].
Proof. constructor; [apply fr_text|constructor]. Qed.
(** a read, a signal, an execve that fails, exit_group *)
Definition exh : list event :=
  [Enter 1 false false false []; Leave true false 0 [fr 1]; Stop 2 true [fr 2]; Enter 3 true false false [fr 3]; Leave true true 0 [fr 4]; Enter 5 true false false [fr 5]; ExitStop; Die_ true].
Definition exo : list item :=
  [Begin 1; Result 1; Frame (tx 1); Signal 2; Frame (tx 2); Begin 3; Result 3; Frame (tx 3); Begin 5; NoReturn 5; Death; Frame (tx 5)].
Example told_met : story every exh exo /\ plain every exh.
Proof.
  split.
  - unfold exh, exo. apply (s_call every 1 false false [] false 0 [fr 1] [Frame (tx 1)]); [reflexivity|apply frs_texts|]. apply (s_signal every 2 [fr 2] [Frame (tx 2)]); [apply frs_texts|].
    apply (s_call every 3 true false [fr 3] true 0 [fr 4] [Frame (tx 3)]); [reflexivity|apply frs_texts|]. apply (s_exit every 5 true false [fr 5] [Frame (tx 5)] true); [reflexivity|apply frs_texts].
  - unfold exh. apply p_leave; [intros _ Q; discriminate Q|]. apply p_stop. apply p_leave; [intros _ _; split; [discriminate|split; [repeat constructor|reflexivity]]|].
    apply p_exit. intros _ _. split; [repeat constructor|reflexivity].
Qed.
Example cache_met : walks (fun g a => if a <? 100 then Some (Some (bs "/bin/a"), Some (bs "f"), a, g, None) else None) 2 ctx0 [Walk [] false [Some (7, true)]; Remap; Walk [] false [Some (7, true); Some (8, false); Some (9, true)]]
  = [[Call (Some (bs "/bin/a")) (Some (bs "f")) 7 1 None]; [Call (Some (bs "/bin/a")) (Some (bs "f")) 7 2 None; Call (Some (bs "/bin/a")) (Some (bs "f")) 7 2 None; Error (bs "too many stack frames") 0]].
Proof. vm_compute. reflexivity. Qed.

(** With -z, a process that tries to execute two files that do not exist makes strace give up:
    the stack of the first execve, which is not shown, is still there when the second one is entered. *)
Theorem C83_abort : forall c id w w' id' x x', failed c = false -> disabled c init = false -> w <> [] ->
  let h := [Enter id true false false w; Leave true true 0 w'; Enter id' true false false x; Leave true true 0 x'] in
  story c h [] /\ run c init h = Die.
Proof.
  intros c id w w' id' x x' F D NE h. split.
  - apply s_unwanted; [exact F|]. apply s_unwanted; [exact F|]. constructor.
  - assert (C : complete c = false) by (unfold complete; rewrite F, andb_false_r; reflexivity). unfold h. cbn [run step entering_trace negb andb]. unfold unwind_tcb_capture at 1. rewrite D. cbn [queue init rbind].
    rewrite C. unfold exiting_trace, update_personality. cbn. rewrite C. cbn. rewrite F. cbn. unfold unwind_tcb_capture, disabled. cbn [pers]. rewrite andb_false_r. cbn [queue]. destruct w; [congruence|]. reflexivity.
Qed.
Theorem C83_abort_refuted : ~ (forall c h o, story c h o -> exists s, run c init h = Ok s).
Proof.
  intros H. destruct (C83_abort opt_z 1 [fr 1] [fr 1] 2 [fr 2] [fr 2] eq_refl eq_refl ltac:(discriminate)) as [A B]. destruct (H _ _ _ A) as (s & E). congruence.
Qed.
(** With -z, the stack of a failed execve, which is not shown, is shown as that of the next call; and that of exit_group is shown although the call is not. *)
Theorem C83_wrong_stack_refuted : ~ (forall c h o s, story c h o -> run c init h = Ok s -> out s = o).
Proof.
  intros H. pose (h := [Enter 1 true false false [fr 1]; Leave true true 0 [fr 1]; Enter 2 false false false []; Leave true false 0 [fr 2]]).
  assert (ST : story opt_z h [Begin 2; Result 2; Frame (tx 2)]).
  { apply s_unwanted; [reflexivity|]. apply (s_call opt_z 2 false false [] false 0 [fr 2] [Frame (tx 2)]); [reflexivity|apply frs_texts|constructor]. }
  assert (R : run opt_z init h = Ok (at_ [Begin 2; Result 2; Frame (tx 1)])) by (vm_compute; reflexivity).
  specialize (H _ _ _ _ ST R). vm_compute in H. discriminate H.
Qed.
Theorem C83_hidden_stack_refuted : ~ (forall c id w d s, unfinished c = false -> run c init [Enter id true false false w; ExitStop; Die_ d] = Ok s -> out s = death d).
Proof.
  intros H. assert (R : run opt_z init [Enter 1 true false false [fr 1]; ExitStop; Die_ true] = Ok {| queue := []; cur := Some (1, false); pers := 0; staged := None; out := [Death; Frame (tx 1)] |}) by (vm_compute; reflexivity).
  specialize (H opt_z 1 [fr 1] true _ eq_refl R). discriminate H.
Qed.
(** When execve changes the mode of a process, its stack is shown before the end of its line, or, with libunwind, after the next execve that changes the mode back. *)
Theorem C83_mode_refuted : ~ (forall c h o s, complete c = true -> story c h o -> run c init h = Ok s -> filter (fun i => match i with Mode => false | _ => true end) (out s) = o).
Proof.
  intros H. pose (h := [Enter 1 true false false [fr 1]; Leave true false 1 [fr 2]]).
  assert (ST : story every h [Begin 1; Result 1; Frame (tx 1)]) by (apply (s_call every 1 true false [fr 1] false 1 [fr 2] [Frame (tx 1)]); [reflexivity|apply frs_texts|constructor]).
  assert (R : run every init h = Ok {| queue := []; cur := None; pers := 1; staged := None; out := [Begin 1; Mode; Frame (tx 1); Result 1; Frame (tx 2)] |}) by (vm_compute; reflexivity).
  specialize (H every h _ _ eq_refl ST R). discriminate H.
Qed.
Theorem C83_mode_libunwind_refuted : ~ (forall c h o s, libunwind c = true -> complete c = true -> story c h o -> run c init h = Ok s -> filter (fun i => match i with Mode => false | _ => true end) (out s) = o).
Proof.
  intros H. pose (c := {| libunwind := true; quiet_personality := false; successful := true; failed := true; unfinished := true; unavailable := true; detached := true |}).
  pose (h := [Enter 1 true false false [fr 1]; Leave true false 1 [fr 2]; Enter 2 true false false [fr 3]; Leave true false 0 [fr 4]]).
  assert (ST : story c h [Begin 1; Result 1; Frame (tx 1); Begin 2; Result 2; Frame (tx 3)]).
  { apply (s_call c 1 true false [fr 1] false 1 [fr 2] [Frame (tx 1)]); [reflexivity|apply frs_texts|]. apply (s_call c 2 true false [fr 3] false 0 [fr 4] [Frame (tx 3)]); [reflexivity|apply frs_texts|constructor]. }
  assert (R : run c init h = Ok (at_ [Begin 1; Mode; Result 1; Begin 2; Mode; Result 2; Frame (tx 1)])) by (vm_compute; reflexivity).
  specialize (H c h _ _ eq_refl eq_refl ST R). discriminate H.
Qed.
(** A function with an empty name is shown in two ways. *)
Theorem C83_empty_name_refuted : ~ (forall f t, text f t -> print_cb f = t /\ sprint_call_or_error f = t).
Proof.
  intros H. destruct (H (Call (Some (bs "/bin/a")) (Some []) 1 2 None) (bs " > /bin/a() [0x2]")) as [_ E]; [|vm_compute in E; discriminate E].
  apply (x_none (bs "/bin/a") (Some []) 1 2 None). right. reflexivity.
Qed.
(** With libdw, a stack of exactly as many calls as are allowed is said to be cut. *)
Theorem C83_exact_refuted : ~ (forall look limit l, (0 < limit)%nat -> (length l <= limit)%nat -> Forall (fun f => f <> None) l -> ~ In (Error (bs "too many stack frames") 0) (snd (walk look [] false (N.of_nat limit) ctx0 l))).
Proof.
  intros H. apply (H (fun _ => None) 1%nat [Some (5, true)]); [lia|cbn; lia|constructor; [discriminate|constructor]|]. vm_compute. left. reflexivity.
Qed.
Print Assumptions C83_told_partial.
Print Assumptions C83_cache.
Print Assumptions C83_limit.
Print Assumptions C83_abort.
Print Assumptions C83_abort_refuted.
Print Assumptions C83_wrong_stack_refuted.
Print Assumptions C83_hidden_stack_refuted.
Print Assumptions C83_mode_refuted.
Print Assumptions C83_mode_libunwind_refuted.
Print Assumptions C83_empty_name_refuted.
Print Assumptions C83_exact_refuted.
