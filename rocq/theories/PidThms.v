(** C78: a process ID of a tracee's PID namespace is shown with the ID that the same process, group
    or session has in strace's PID namespace, whatever has been cached before. *)
From Verif Require Import Base RetModel PidModel PidSpec PidProofs.
Local Open Scope Z_scope.

(** Whatever /proc shows over time, all its processes having no more namespaces than there is
    room for: no translation touches memory outside of the arrays. *)
Theorem C78_safe : forall c h, parent_known c = true -> roomy h -> exists s, run c init h = Ok s.
Proof.
  intros c h P R. destruct (run_wf c h P R init wf_init) as (s & E & _). exists s. exact E.
Qed.
Print Assumptions C78_safe.

(** After any history: the ID of a process, group or session of the tracee's PID namespace is
    translated to its ID in strace's namespace; an ID nobody has there, to none. *)
Theorem C78_translated : forall c w v h s t tk n id ty, sane w -> shallow w -> shows w v -> configured c w ->
  roomy h -> run c init h = Ok s -> traced w t tk n -> 0 < id ->
  exists r t' s', translate_pid c v s t id ty = Ok (r, t', s') /\
    (n = strace_ns w -> r = id) /\
    (forall u, In u (tasks w) -> id_in u ty n = Some id -> id_in u ty (strace_ns w) = Some r) /\
    (n <> strace_ns w -> (forall u, In u (tasks w) -> id_in u ty n <> Some id) -> r = 0).
Proof.
  intros c w v h s t tk n id ty Sn Sh Sw Cf Rm Er T Hid.
  assert (W : wf s).
  { destruct (run_wf c h ltac:(apply Cf) Rm init wf_init) as (s1 & E1 & W1). rewrite Er in E1. injection E1 as ->. exact W1. }
  destruct (translate_world c v w Sn Sh Sw Cf s t tk n id ty W T Hid) as (r & s' & E & _ & H).
  exists r, {| t_pid := t_pid t; t_ns := n |}, s'. split; [exact E|].
  destruct H as [[E1 E2]|[Ne H]].
  - subst. repeat split; [|congruence]. intros u Iu Eu. exact Eu.
  - split; [congruence|].
    assert (Hn : inside w n).
    { destruct T as (It & Ei & (l & El) & _). exists tk. split; [exact It|]. exists [], l. split; [exact El|].
      rewrite <- El. eapply assoc_in. exact Ei. }
    split.
    + intros u Iu Eu. destruct (inside_our w Sn u n Hn Iu (assoc_in _ _ _ _ Eu)) as (l1 & l2 & El & Io).
      assert (Iou : In (strace_ns w) (chain u)) by (rewrite El; apply in_or_app; right; exact Io).
      destruct (in_proc w Sn u Iu Iou) as (p & Ep).
      destruct H as [[_ M]|(q & (x & Ix & _ & Ex & Er' & _))]; [exfalso; exact (M p u Iu Ep Eu)|].
      rewrite <- Er'. apply (common w Sn u x ty n (strace_ns w) id Iu Ix); auto; [lia|]. exists l1, l2. auto.
    + intros _ N. destruct H as [[-> _]|(q & (x & Ix & _ & Ex & _))]; [reflexivity|]. exfalso. exact (N x Ix Ex).
Qed.
Print Assumptions C78_translated.

(** The number under which strace looks for a tracee in /proc is the one /proc has it under. *)
Theorem C78_proc_pid : forall c w v h s t i, sane w -> shallow w -> shows w v -> configured c w ->
  roomy h -> run c init h = Ok s -> In t (tasks w) -> id_in t TID (strace_ns w) = Some i ->
  exists p s', get_proc_pid c v s i = Ok (p, s') /\ id_in t TID (proc_ns w) = Some p.
Proof.
  intros c w v h s t i Sn Sh Sw Cf Rm Er It Ei.
  assert (W : wf s).
  { destruct (run_wf c h ltac:(apply Cf) Rm init wf_init) as (s1 & E1 & W1). rewrite Er in E1. injection E1 as ->. exact W1. }
  destruct (get_proc_pid_world c v w Sn Sh Sw Cf s t i W It Ei) as (p & s' & E & _ & H). exists p, s'. auto.
Qed.
Print Assumptions C78_proc_pid.

(** What is printed for an ID: the number, the name of the process (/proc being that of
    strace's namespace), and the ID in strace's namespace if it is another number. *)
Theorem C78_shown : forall c w v h s trans comm t tk n id ty u r, sane w -> shallow w -> shows w v -> configured c w ->
  roomy h -> run c init h = Ok s -> traced w t tk n -> 0 < id ->
  In u (tasks w) -> id_in u ty n = Some id -> id_in u ty (strace_ns w) = Some r ->
  exists text t' s', printpid c v s trans comm t id ty = Ok (pr_z id ++ text ++
      (if trans && negb (r =? id) then bs " /* " ++ pr_z r ++ bs " in strace's PID NS */" else []), t', s') /\
    (comm = true -> ty = TID \/ ty = TGID -> proc_ns w = strace_ns w ->
     forall p, In p (tasks w) -> id_in p TID (strace_ns w) = Some r -> text = bs "<" ++ name p ++ bs ">") /\
    (comm = false \/ ty = PGID \/ ty = SID -> text = []).
Proof.
  intros c w v h s trans comm t tk n id ty u r Sn Sh Sw Cf Rm Er T Hid Iu En Eo.
  destruct (C78_translated c w v h s t tk n id ty Sn Sh Sw Cf Rm Er T Hid) as (r' & t' & s' & E & _ & H & _).
  assert (r' = r) as -> by (specialize (H u Iu En); congruence).
  assert (R0 : (r =? 0) = false).
  { destruct (inside_our w Sn u n) as (l1 & l2 & El & Io); [|exact Iu|eapply assoc_in; exact En|].
    - destruct T as (It & Ei & (l & El) & _). exists tk. split; [exact It|]. exists [], l. split; [exact El|].
      rewrite <- El. eapply assoc_in. exact Ei.
    - destruct (above w Sn u ty n (strace_ns w) id Iu En) as (j & Ej & Nj); [lia|exists l1, l2; auto|].
      assert (j = r) by congruence. lia. }
  unfold printpid, printpid_translation. set (cm := comm && (ptype_eqb ty TID || ptype_eqb ty TGID)).
  destruct (trans || cm) eqn:TC.
  - rewrite E. cbn [rbind fst snd]. rewrite R0.
    exists (if cm then bs "<" ++ comm_of v r ++ bs ">" else []), t', s'. split; [reflexivity|]. split.
    + intros -> Ty Pn p Ip Ep. replace cm with true by (destruct Ty; subst ty; reflexivity).
      rewrite <- Pn in Ep. destruct (entry _ _ Sw p r Ip Ep) as (_ & _ & -> & _). reflexivity.
    + intros X. replace cm with false; [reflexivity|]. unfold cm. destruct X as [->|[->| ->]]; [reflexivity|..]; destruct comm; reflexivity.
  - apply orb_false_iff in TC as [-> C0]. cbn [rbind fst snd andb]. exists [], t, s. rewrite !app_nil_r. split; [reflexivity|]. split; [|auto].
    intros -> Ty. exfalso. destruct Ty; subst ty; discriminate C0.
Qed.
Print Assumptions C78_shown.

(** A number that is a process, or if less than -1 a group (kill, F_SETOWN, ...), is shown as such; 0 and -1, which are neither, without more. *)
Theorem C78_process_or_group : forall c w v h s trans comm t tk n, sane w -> shallow w -> shows w v -> configured c w ->
  roomy h -> run c init h = Ok s -> traced w t tk n ->
  let other r id := if trans && negb (r =? id) then bs " /* " ++ pr_z r ++ bs " in strace's PID NS */" else [] in
  (forall id u r, 0 < id -> In u (tasks w) -> id_in u TGID n = Some id -> id_in u TGID (strace_ns w) = Some r ->
    exists text t' s', printpid_tgid_pgid c v s trans comm t id = Ok (pr_z id ++ text ++ other r id, t', s') /\
      (comm = true -> proc_ns w = strace_ns w -> forall p, In p (tasks w) -> id_in p TID (strace_ns w) = Some r -> text = bs "<" ++ name p ++ bs ">") /\
      (comm = false -> text = [])) /\
  (forall id u r, 1 < id -> In u (tasks w) -> id_in u PGID n = Some id -> id_in u PGID (strace_ns w) = Some r ->
    exists t' s', printpid_tgid_pgid c v s trans comm t (- id) = Ok (pr_z (- id) ++ other r id, t', s')) /\
  (forall id, -1 <= id <= 0 -> printpid_tgid_pgid c v s trans comm t id = Ok (pr_z id, t, s)).
Proof.
  intros c w v h s trans comm t tk n Sn Sh Sw Cf Rm Er T other.
  assert (P : forall id ty x t' s', printpid c v s trans comm t id ty = Ok (pr_z id ++ x, t', s') -> printpid_translation c v s trans comm t id ty = Ok (x, t', s')).
  { intros id ty x t' s' E. unfold printpid in E. destruct (printpid_translation c v s trans comm t id ty) as [[[y a] b]| |]; cbn [rbind fst snd] in E; try discriminate E.
    injection E as E1 -> ->. apply app_inv_head in E1. subst y. reflexivity. }
  split; [|split].
  - intros id u r Hid Iu En Eo. destruct (C78_shown c w v h s trans comm t tk n id TGID u r Sn Sh Sw Cf Rm Er T Hid Iu En Eo) as (text & t' & s' & E & H1 & H2).
    exists text, t', s'. unfold printpid_tgid_pgid. replace (0 <? id) with true by (symmetry; apply Z.ltb_lt; exact Hid). rewrite (P _ _ _ _ _ E). split; [reflexivity|]. split; [|auto]. intros C Pn. apply (H1 C); auto.
  - intros id u r Hid Iu En Eo. destruct (C78_shown c w v h s trans comm t tk n id PGID u r Sn Sh Sw Cf Rm Er T ltac:(lia) Iu En Eo) as (text & t' & s' & E & _ & H2).
    rewrite (H2 ltac:(auto)) in E. exists t', s'. unfold printpid_tgid_pgid. replace (0 <? - id) with false by (symmetry; apply Z.ltb_ge; lia). replace (- id <? -1) with true by (symmetry; apply Z.ltb_lt; lia).
    rewrite Z.opp_involutive, (P _ _ _ _ _ E). reflexivity.
  - intros id Hid. unfold printpid_tgid_pgid. replace (0 <? id) with false by (symmetry; apply Z.ltb_ge; lia). replace (id <? -1) with false by (symmetry; apply Z.ltb_ge; lia). cbn [rbind fst snd]. rewrite app_nil_r. reflexivity.
Qed.
Print Assumptions C78_process_or_group.

(** ** worlds to compute with *)
Definition view_of (w : world) : view :=
  let at_ p := find (fun t => match id_in t TID (proc_ns w) with Some q => p =? q | None => false end) (tasks w) in
  {| ns_of := fun p => match at_ p with
                       | Some t => if existsb (N.eqb (strace_ns w)) (chain t) then upto (strace_ns w) (chain t) else firstn 1 (chain t)
                       | None => [] end;
     ids_of := fun p ty => match at_ p with
                           | Some t => rev (firstn (length (upto (proc_ns w) (chain t))) (ids t ty))
                           | None => [] end;
     dirs := flat_map (fun t => match id_in t TID (proc_ns w) with Some q => [(q, [])] | None => [] end) (tasks w);
     comm_of := fun p => match at_ p with Some t => name t | None => [] end |}.
Lemma view_shows w : sane w -> shows w (view_of w).
Proof.
  intros Sn. split.
  - intros t p It Ep.
    assert (F : find (fun t => match id_in t TID (proc_ns w) with Some q => p =? q | None => false end) (tasks w) = Some t).
    { destruct (find _ (tasks w)) as [u|] eqn:F.
      - apply find_some in F as [Iu Eu]. destruct (id_in u TID (proc_ns w)) as [q|] eqn:Eq; [|discriminate].
        assert (q = p) by lia. subst q. f_equal. exact (tid_unique w Sn u t _ _ Iu It Eq Ep).
      - pose proof (find_none _ _ F t It) as X. cbn in X. rewrite Ep in X. lia. }
    unfold view_of. cbn [ns_of ids_of comm_of]. rewrite F. repeat split; try reflexivity.
    exists p, []. split; [|split; [exact (tid_range w Sn t _ _ It Ep)|left; reflexivity]].
    cbn [dirs]. apply in_flat_map. exists t. split; [exact It|]. rewrite Ep. left. reflexivity.
  - intros p N.
    assert (F : find (fun t => match id_in t TID (proc_ns w) with Some q => p =? q | None => false end) (tasks w) = None).
    { destruct (find _ (tasks w)) as [u|] eqn:F; [|reflexivity]. apply find_some in F as [Iu Eu].
      destruct (id_in u TID (proc_ns w)) as [q|] eqn:Eq; [|discriminate]. exfalso. apply (N u Iu). rewrite Eq. f_equal. lia. }
    unfold view_of. cbn [ns_of ids_of]. rewrite F. auto.
Qed.

(** tasks with one number for all kinds of ID, no two tasks with the same number in a namespace *)
Fixpoint nodupb (l : list N) : bool := match l with [] => true | x :: r => negb (existsb (N.eqb x) r) && nodupb r end.
Fixpoint after (n : N) (l : list N) : option (list N) :=
  match l with [] => None | m :: r => if N.eqb m n then Some r else after n r end.
Definition agree (a b : list N) : bool :=
  forallb (fun n => match after n a, after n b with Some x, Some y => beqs x y | _, _ => true end) a.
Definition clash (t u : task) : bool :=
  existsb (fun n => match id_in t TID n, id_in u TID n with Some i, Some j => i =? j | _, _ => false end) (chain t).
Definition simple_task (chain : list N) (x : list Z) (name : list N) : task := {| chain := chain; ids := fun _ => x; name := name |}.
Fixpoint pairs_ok (l : list task) : bool :=
  match l with [] => true | t :: r => forallb (fun u => negb (clash t u)) r && pairs_ok r end.
Definition good_task (t : task) : bool :=
  nodupb (chain t) && negb (existsb (N.eqb 0) (chain t)) && (length (ids t TID) =? length (chain t))%nat &&
  forallb (fun i => (1 <=? i) && (i <=? 2147483647)) (ids t TID).
Definition good_world (w : world) : bool :=
  forallb good_task (tasks w) && forallb (fun t => forallb (fun u => agree (chain t) (chain u)) (tasks w)) (tasks w) &&
  pairs_ok (tasks w) &&
  existsb (fun t => match chain t with n :: _ => N.eqb n (strace_ns w) && existsb (N.eqb (proc_ns w)) (chain t) | [] => false end) (tasks w).

Lemma nodupb_ok l : nodupb l = true -> NoDup l.
Proof.
  induction l as [|x r IH]; intros H; [constructor|]. cbn in H. apply andb_true_iff in H as [H1 H2]. constructor; [|auto].
  intros I. apply negb_true_iff in H1. apply not_true_iff_false in H1. apply H1, existsb_exists. exists x. split; [exact I|apply N.eqb_refl].
Qed.
Lemma after_split n l1 l2 : ~ In n l1 -> after n (l1 ++ n :: l2) = Some l2.
Proof.
  induction l1 as [|m r IH]; intros H; cbn; [rewrite N.eqb_refl; reflexivity|].
  destruct (N.eqb_spec m n) as [->|Ne]; [exfalso; apply H; left; reflexivity|]. apply IH. intros X. apply H. right. exact X.
Qed.
Lemma assoc_range l x n i : assoc l x n = Some i -> In i x.
Proof.
  revert x; induction l as [|m r IH]; intros [|y x] H; cbn in *; try discriminate.
  destruct (N.eqb m n); [injection H as ->; left; reflexivity|right; eapply IH; exact H].
Qed.
Lemma good_sane w : (forall t ty, In t (tasks w) -> ids t ty = ids t TID) -> good_world w = true -> sane w.
Proof.
  intros Same H. unfold good_world in H. rewrite !andb_true_iff in H. destruct H as [[[G A] P] M].
  rewrite forallb_forall in G.
  assert (Gt : forall t, In t (tasks w) -> NoDup (chain t) /\ ~ In 0%N (chain t) /\ length (ids t TID) = length (chain t) /\
                           forall i, In i (ids t TID) -> 1 <= i <= 2147483647).
  { intros t It. pose proof (G t It) as X. unfold good_task in X. rewrite !andb_true_iff in X. destruct X as [[[X1 X2] X3] X4].
    split; [apply nodupb_ok, X1|]. split; [|split].
    - intros I. apply negb_true_iff in X2. apply not_true_iff_false in X2. apply X2, existsb_exists. exists 0%N. split; [exact I|reflexivity].
    - apply Nat.eqb_eq, X3.
    - intros i Ii. rewrite forallb_forall in X4. specialize (X4 i Ii). lia. }
  assert (Eid : forall t ty n, In t (tasks w) -> id_in t ty n = id_in t TID n).
  { intros t ty n It. unfold id_in. rewrite (Same t ty It). reflexivity. }
  assert (Cl : forall t u n i, In t (tasks w) -> In u (tasks w) -> id_in t TID n = Some i -> id_in u TID n = Some i -> t = u).
  { clear -P. induction (tasks w) as [|a l IH]; intros t u n i It Iu Et Eu; [destruct It|].
    cbn in P. apply andb_true_iff in P as [P1 P2]. rewrite forallb_forall in P1.
    assert (K : forall x y, id_in x TID n = Some i -> id_in y TID n = Some i -> clash x y = true).
    { intros x y Ex Ey. apply existsb_exists. exists n. split; [eapply assoc_in; exact Ex|]. rewrite Ex, Ey. apply Z.eqb_refl. }
    destruct It as [<-|It], Iu as [<-|Iu]; [reflexivity|..|eapply (IH P2); eauto].
    - specialize (P1 u Iu). rewrite (K _ _ Et Eu) in P1. discriminate.
    - specialize (P1 t It). rewrite (K _ _ Eu Et) in P1. discriminate. }
  split.
  - intros t It. destruct (Gt t It) as (X1 & X2 & X3 & _). split; [exact X1|split; [exact X2|]]. intros ty. rewrite (Same t ty It). exact X3.
  - intros t u l1 l2 m1 m2 n It Iu Et Eu. rewrite forallb_forall in A. specialize (A t It). rewrite forallb_forall in A. specialize (A u Iu).
    unfold agree in A. rewrite forallb_forall in A. specialize (A n ltac:(rewrite Et; apply in_or_app; right; left; reflexivity)).
    destruct (Gt t It) as (X1 & _). destruct (Gt u Iu) as (Y1 & _). rewrite Et in X1, A. rewrite Eu in Y1, A.
    rewrite !after_split in A; [apply beqs_eq, A|apply (nodup_split _ _ _ Y1)|apply (nodup_split _ _ _ X1)].
  - intros t n i It E. destruct (Gt t It) as (_ & _ & _ & X). apply X. eapply assoc_range. exact E.
  - exact Cl.
  - intros t ty n m i It E Ni (l1 & l2 & El & Im). rewrite Eid by exact It.
    destruct (Gt t It) as (_ & _ & X3 & X4). unfold id_in.
    assert (In m (chain t)) as Imc by (rewrite El; apply in_or_app; right; exact Im).
    destruct (split_first _ _ Imc) as (k1 & k2 & Ek & Nk). rewrite Ek, assoc_split; [|exact Nk|rewrite <- Ek; exact X3].
    destruct (nth_error (ids t TID) (length k1)) as [j|] eqn:Ej.
    + exists j. split; [reflexivity|]. apply nth_error_In in Ej. specialize (X4 j Ej). lia.
    + apply nth_error_None in Ej. rewrite X3, Ek, app_length in Ej. cbn in Ej. lia.
  - intros t u ty n m i It Iu _ Et Eu _. rewrite Eid in Et by exact It. rewrite Eid in Eu by exact Iu. rewrite (Cl t u n i It Iu Et Eu). reflexivity.
  - apply existsb_exists in M as (t & It & M). destruct (chain t) as [|n l] eqn:Ec; [discriminate|].
    apply andb_true_iff in M as [M1 M2]. apply N.eqb_eq in M1. subst n. exists t, l. split; [exact It|]. split; [exact Ec|].
    rewrite Ec. apply existsb_exists in M2 as (z & Iz & Ez). apply N.eqb_eq in Ez. subst z. exact Iz.
Qed.

(** Strace in the initial namespace 1, two tracees in namespace 2; later, the second is gone and
    another process has taken both of its numbers in /proc *)
Definition me := simple_task [1%N] [10] (bs "strace").
Definition one := simple_task [2; 1]%N [5; 20] (bs "one").
Definition two := simple_task [2; 1]%N [7; 22] (bs "two").
Definition two' := simple_task [2; 1]%N [9; 22] (bs "late").
Definition w1 : world := {| tasks := [me; one; two]; strace_ns := 1; proc_ns := 1 |}.
Definition w2 : world := {| tasks := [me; one; two']; strace_ns := 1; proc_ns := 1 |}.
Definition cfg : config := {| pid_max := 64; our_ns := 1; proc_ours := true; parent_known := true |}.
Ltac same := let t := fresh in let ty := fresh in let I := fresh in
  intros t ty I; cbn in I; repeat (destruct I as [I|I]; [rewrite <- I; reflexivity|]); destruct I.
Lemma w1_sane : sane w1.
Proof. apply good_sane; [same|reflexivity]. Qed.
Lemma w2_sane : sane w2.
Proof. apply good_sane; [same|reflexivity]. Qed.
Definition tcb1 : tcb := {| t_pid := 20; t_ns := 0 |}.
Example ex_traced : traced w2 tcb1 one 2.
Proof. split; [right; left; reflexivity|]. split; [reflexivity|]. split; [exists [1%N]; reflexivity|left; reflexivity]. Qed.
Example ex_configured : configured cfg w1 /\ configured cfg w2.
Proof. split; (split; [reflexivity|split; [split; reflexivity|reflexivity]]). Qed.
Example ex_shallow : shallow w2.
Proof. intros t I; cbn in I; repeat (destruct I as [I|I]; [rewrite <- I; cbn; lia|]); destruct I. Qed.
Definition before : list event := [Print (view_of w1) tcb1 7 TID; Print (view_of w1) tcb1 5 TGID].
Example ex_roomy : roomy before.
Proof.
  assert (X : forall p ty, (length (ids_of (view_of w1) p ty) <= 32)%nat).
  { intros p ty. unfold view_of. cbn [ids_of]. destruct (find _ _) as [t|] eqn:F; [|cbn; lia]. apply find_some in F as [I _].
    cbn in I. rewrite rev_length, firstn_length. repeat (destruct I as [I|I]; [rewrite <- I; cbn [ids simple_task me one two length]; lia|]). destruct I. }
  intros e I p ty. repeat (destruct I as [<-|I]; [apply X|]). destruct I.
Qed.
(** 7 was 22 and is cached as such; now nobody has it, and 9 is 22 *)
Example ex_history : exists s, run cfg init before = Ok s /\
  cached_pid s TID 2 7 = 22 /\
  (exists t s1, translate_pid cfg (view_of w2) s tcb1 7 TID = Ok (0, t, s1)) /\
  (exists t s1, printpid cfg (view_of w2) s true true tcb1 9 TID = Ok (bs "9<late> /* 22 in strace's PID NS */", t, s1)) /\
  (exists t s1, printpid_tgid_pgid cfg (view_of w2) s true true tcb1 9 = Ok (bs "9<late> /* 22 in strace's PID NS */", t, s1)) /\
  (exists t s1, printpid_tgid_pgid cfg (view_of w2) s true true tcb1 (-9) = Ok (bs "-9 /* 22 in strace's PID NS */", t, s1)).
Proof.
  eexists. split; [vm_compute; reflexivity|]. split; [reflexivity|].
  split; [|split; [|split]]; (eexists; eexists; vm_compute; reflexivity).
Qed.

(** /proc of the namespace above strace's: the number shown is right, the name is that of
    another process, the one /proc has under the number of strace's namespace. *)
Definition w3 : world :=
  {| tasks := [simple_task [2; 1]%N [10; 110] (bs "strace"); simple_task [3; 2; 1]%N [5; 20; 120] (bs "tracee");
               simple_task [1]%N [20] (bs "other")]; strace_ns := 2; proc_ns := 1 |}.
Definition cfg3 : config := {| pid_max := 150; our_ns := 2; proc_ours := false; parent_known := true |}.
Lemma w3_sane : sane w3.
Proof. apply good_sane; [same|reflexivity]. Qed.
Theorem C78_name_refuted :
  ~ forall c w v trans t tk n id u r text t' s', sane w -> shallow w -> shows w v -> configured c w -> traced w t tk n -> 0 < id ->
    In u (tasks w) -> id_in u TID n = Some id -> id_in u TID (strace_ns w) = Some r ->
    printpid c v init trans true t id TID = Ok (text, t', s') ->
    exists rest, text = pr_z id ++ bs "<" ++ name u ++ bs ">" ++ rest.
Proof.
  intros H.
  assert (exists t' s', printpid cfg3 (view_of w3) init true true {| t_pid := 20; t_ns := 0 |} 5 TID =
                          Ok (bs "5<other> /* 20 in strace's PID NS */", t', s')) as (t' & s' & E).
  { eexists; eexists; vm_compute; reflexivity. }
  eapply (H cfg3 w3 (view_of w3) true {| t_pid := 20; t_ns := 0 |} (simple_task [3; 2; 1]%N [5; 20; 120] (bs "tracee")) 3%N 5
            (simple_task [3; 2; 1]%N [5; 20; 120] (bs "tracee")) 20) in E.
  - destruct E as (rest & E). discriminate E.
  - exact w3_sane.
  - intros t I; cbn in I; repeat (destruct I as [I|I]; [rewrite <- I; cbn; lia|]); destruct I.
  - apply view_shows, w3_sane.
  - split; [reflexivity|split; [split; intros X; discriminate X|reflexivity]].
  - split; [right; left; reflexivity|]. split; [reflexivity|]. split; [eexists; reflexivity|left; reflexivity].
  - lia.
  - right; left; reflexivity.
  - reflexivity.
  - reflexivity.
Qed.
Print Assumptions C78_name_refuted.

(** 33 namespaces, which the kernel permits (levels 0 to 32): the array of 32 IDs is left. *)
Definition deep : task := simple_task (map N.of_nat (rev (seq 1 33))) (map Z.of_nat (rev (seq 41 33))) (bs "deep").
Definition w4 : world := {| tasks := [me; deep]; strace_ns := 1; proc_ns := 1 |}.
Lemma w4_sane : sane w4.
Proof. apply good_sane; [same|reflexivity]. Qed.
Theorem C78_depth_refuted :
  ~ forall c w v t tk n id ty, sane w -> (forall t, In t (tasks w) -> (length (chain t) <= 33)%nat) -> shows w v -> configured c w ->
    traced w t tk n -> 0 < id -> exists r, translate_pid c v init t id ty = Ok r.
Proof.
  intros H. destruct (H {| pid_max := 64; our_ns := 1; proc_ours := true; parent_known := true |} w4 (view_of w4)
                        {| t_pid := 41; t_ns := 0 |} deep 33%N 73 TID) as (r & E).
  - exact w4_sane.
  - intros t I; cbn [tasks w4 In] in I. destruct I as [<-|[<-|[]]]; cbn; lia.
  - apply view_shows, w4_sane.
  - split; [reflexivity|split; [split; reflexivity|reflexivity]].
  - split; [right; left; reflexivity|]. split; [reflexivity|]. split; [eexists; reflexivity|left; reflexivity].
  - lia.
  - vm_compute in E. discriminate E.
Qed.
Print Assumptions C78_depth_refuted.

(** A kernel without NS_GET_PARENT: the first ID looked up is taken for one of strace's namespace. *)
Theorem C78_old_kernel_refuted :
  ~ forall c w v t tk n id ty r t' s', sane w -> shallow w -> shows w v ->
    our_ns c = strace_ns w -> (proc_ours c = true <-> proc_ns w = strace_ns w) -> traced w t tk n -> 0 < id -> n <> strace_ns w ->
    translate_pid c v init t id ty = Ok (r, t', s') -> r <> 0 ->
    exists u, In u (tasks w) /\ id_in u ty n = Some id /\ id_in u ty (strace_ns w) = Some r.
Proof.
  intros H.
  assert (exists t' s', translate_pid {| pid_max := 64; our_ns := 1; proc_ours := true; parent_known := false |} (view_of w2) init tcb1 5 TID =
                          Ok (5, t', s')) as (t' & s' & E).
  { eexists; eexists; vm_compute; reflexivity. }
  eapply (H _ w2 _ tcb1 one 2%N) in E.
  - destruct E as (u & I & E1 & E2). cbn [tasks w2 In] in I. destruct I as [<-|[<-|[<-|[]]]]; discriminate E1 || discriminate E2.
  - exact w2_sane.
  - exact ex_shallow.
  - apply view_shows, w2_sane.
  - reflexivity.
  - split; reflexivity.
  - exact ex_traced.
  - lia.
  - discriminate.
  - lia.
Qed.
Print Assumptions C78_old_kernel_refuted.
