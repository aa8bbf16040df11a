(** C79: the program strace runs is the one the search rule finds. *)
From Verif Require Import Base StartModel StartSpec.
Local Open Scope N_scope.

Lemma runnable_program e p : runnable e p = true <-> program e p.
Proof.
  assert (K : forall m, N.land m 73 <> 0 <-> (N.testbit m 0 = true \/ N.testbit m 3 = true \/ N.testbit m 6 = true)).
  { intros m. split.
    - intros H. destruct (N.testbit m 0) eqn:B0; [auto|]. destruct (N.testbit m 3) eqn:B3; [auto|]. destruct (N.testbit m 6) eqn:B6; [auto|].
      exfalso. apply H. apply N.bits_inj_iff. intros i. rewrite N.land_spec, N.bits_0.
      destruct (N.lt_ge_cases i 7) as [L|L].
      + assert (i = 0 \/ i = 1 \/ i = 2 \/ i = 3 \/ i = 4 \/ i = 5 \/ i = 6) as C by lia.
        destruct C as [->|[->|[->|[->|[->|[->| ->]]]]]]; rewrite ?B0, ?B3, ?B6; try reflexivity; apply andb_false_r.
      + rewrite (N.bits_above_log2 73); [apply andb_false_r|]. change (N.log2 73) with 6. lia.
    - intros H E. assert (X : forall i, N.testbit m i = true -> N.testbit 73 i = true -> False).
      { intros i A B. assert (N.testbit (N.land m 73) i = true) as Y by (rewrite N.land_spec, A, B; reflexivity).
        rewrite E, N.bits_0 in Y. discriminate. }
      destruct H as [H|[H|H]]; exact (X _ H eq_refl). }
  unfold runnable, program. destruct (stat e p) as [i|]; split.
  - intros H. apply andb_true_iff in H as [H1 H2]. exists i. split; [reflexivity|]. split; [exact H1|]. apply K.
    intros X. rewrite X in H2. discriminate.
  - intros (j & E & R & B). injection E as <-. rewrite R. cbn [andb]. apply K in B. destruct (N.eqb_spec (N.land (mode i) 73) 0); [contradiction|reflexivity].
  - discriminate.
  - intros (j & E & _). discriminate.
Qed.

Lemma len_app (a b : list N) : len (a ++ b) = len a + len b.
Proof. unfold len. rewrite app_length. lia. Qed.
Lemma written_ok l : len l <= 4096 -> written l = Ok l.
Proof. intros H. unfold written, PATH_MAX. replace (len l <=? 4096) with true by lia. reflexivity. Qed.

(** what is built for an element of PATH: the file of that directory, or nothing when it is too long to exist *)
Lemma build_ok e d name : system e -> exists r, build e d name = Ok r /\
  match r with
  | Some x => exists w, directory e d = Some w /\ x = in_dir w name
  | None => forall w, directory e d = Some w -> ~ program e (in_dir w name)
  end.
Proof.
  intros [Sl Sc]. unfold build, PATH_MAX.
  assert (Long : forall w, 4096 <= len (in_dir w name) -> ~ program e (in_dir w name)).
  { intros w H (i & E & _). rewrite (Sl _ H) in E. discriminate. }
  assert (In_ : forall w, w <> [] -> len (in_dir w name) = len w + (if last w 0 =? slash then 0 else 1) + len name).
  { intros w Hw. unfold in_dir. rewrite !len_app. change (ch "/") with slash. destruct (last w 0 =? slash); cbn [len]; unfold len; cbn; lia. }
  assert (Rest : forall w, w <> [] -> len w < 4096 -> directory e d = Some w ->
    exists r, (rlet b := (if negb (len w =? 0) && negb (last w 0 =? slash) then written (w ++ [slash]) else Ok w) in
      if 4096 - 1 <? len name + len b then Ok None
      else rlet x := written (b ++ name ++ [0]) in Ok (Some (b ++ name))) = Ok r /\
    match r with
    | Some x => exists w, directory e d = Some w /\ x = in_dir w name
    | None => forall w, directory e d = Some w -> ~ program e (in_dir w name)
    end).
  { intros w Hw Lw Ed. assert (0 < len w) as Pw by (destruct w; [congruence|unfold len; cbn; lia]).
    replace (len w =? 0) with false by lia. cbn [negb andb].
    assert (exists b, (if negb (last w 0 =? slash) then written (w ++ [slash]) else Ok w) = Ok b /\ b ++ name = in_dir w name) as (b & Eb & Ib).
    { unfold in_dir. change (ch "/") with slash. destruct (last w 0 =? slash); cbn [negb].
      - exists w. split; reflexivity.
      - rewrite written_ok by (rewrite len_app; change (len [slash]) with 1; lia). exists (w ++ [slash]). split; [reflexivity|].
        rewrite <- app_assoc. reflexivity. }
    rewrite Eb. cbn [rbind]. destruct (4096 - 1 <? len name + len b) eqn:T.
    - exists None. split; [reflexivity|]. intros w' Ew. rewrite Ed in Ew. injection Ew as <-. apply Long. rewrite <- Ib, len_app. lia.
    - rewrite written_ok by (rewrite !len_app; change (len [0]) with 1; lia). cbn [rbind]. exists (Some (b ++ name)). split; [reflexivity|].
      exists w. auto. }
  destruct d as [|c d].
  - change (len []) with 0. cbn [N.eqb]. destruct (cwd e) as [w|] eqn:C.
    + destruct (Sc w eq_refl) as [Lw [r Er]]. fold (len w) in Lw. rewrite written_ok by (rewrite len_app; change (len [0]) with 1; lia).
      cbn [rbind]. apply Rest; [subst w; discriminate|exact Lw|exact C].
    + cbn [rbind]. exists None. split; [reflexivity|]. intros w Ew. cbn [directory] in Ew. congruence.
  - replace (len (c :: d) =? 0) with false by (unfold len; cbn; lia).
    destruct (4096 - 1 <? len (c :: d)) eqn:T.
    + cbn [rbind]. exists None. split; [reflexivity|]. intros w Ew. cbn [directory] in Ew. injection Ew as <-. apply Long. rewrite In_ by discriminate. lia.
    + rewrite written_ok by lia. cbn [rbind]. apply Rest; [discriminate|lia|reflexivity].
Qed.

(** the elements the loop looks at: a last element that is empty is not among them *)
Definition looked (p : list N) : list (list N) :=
  if beqs (last (elements p) []) [] then removelast (elements p) else elements p.
Lemma elements_cons p : exists d ds, elements p = d :: ds.
Proof.
  destruct p as [|c r]; cbn [elements]; [eexists; eexists; reflexivity|].
  destruct (c =? ch ":"); [eexists; eexists; reflexivity|]. destruct (elements r); eexists; eexists; reflexivity.
Qed.
Lemma looked_piece c r : looked (c :: r) = fst (piece (c :: r)) :: looked (snd (piece (c :: r))).
Proof.
  revert c; induction r as [|c' r IH]; intros c.
  - unfold looked. cbn [piece elements]. change colon with (ch ":"). destruct (c =? ch ":"); reflexivity.
  - destruct (c =? ch ":") eqn:Ec.
    + cbn [piece]. change colon with (ch ":"). rewrite Ec. cbn [fst snd]. unfold looked. 
      cbn [elements]. rewrite Ec. fold (elements (c' :: r)). destruct (elements_cons (c' :: r)) as (d & ds & E). 
      change (if c' =? ch ":" then [] :: elements r else match elements r with d0 :: ds0 => (c' :: d0) :: ds0 | [] => [[c']] end) with (elements (c' :: r)).
      rewrite E. change (last ([] :: d :: ds) []) with (last (d :: ds) []). destruct (beqs (last (d :: ds) []) []); reflexivity.
    + specialize (IH c').
      assert (P : piece (c :: c' :: r) = (c :: fst (piece (c' :: r)), snd (piece (c' :: r)))).
      { remember (c' :: r) as q. cbn [piece]. change colon with (ch ":"). rewrite Ec. destruct (piece q); reflexivity. }
      rewrite P. clear P. destruct (piece (c' :: r)) as [pa pb]. cbn [fst snd] in *. unfold looked in IH |- *.
      assert (E : elements (c :: c' :: r) = match elements (c' :: r) with d :: ds => (c :: d) :: ds | [] => [[c]] end).
      { remember (c' :: r) as q. cbn [elements]. rewrite Ec. reflexivity. }
      rewrite E. destruct (elements_cons (c' :: r)) as (d & ds & E2). rewrite E2 in IH |- *.
      destruct ds as [|d2 ds].
      * cbn [last removelast] in *. replace (beqs (c :: d) []) with false by reflexivity.
        destruct (beqs d []) eqn:B; [discriminate IH|]. injection IH as -> IH. rewrite <- IH. reflexivity.
      * change (last ((c :: d) :: d2 :: ds) []) with (last (d2 :: ds) []). change (last (d :: d2 :: ds) []) with (last (d2 :: ds) []) in IH.
        destruct (beqs (last (d2 :: ds) []) []).
        -- change (removelast ((c :: d) :: d2 :: ds)) with ((c :: d) :: removelast (d2 :: ds)).
           change (removelast (d :: d2 :: ds)) with (d :: removelast (d2 :: ds)) in IH. injection IH as -> IH. rewrite <- IH. reflexivity.
        -- injection IH as -> IH. rewrite <- IH. reflexivity.
Qed.
Lemma piece_shorter c r : (length (snd (piece (c :: r))) < length (c :: r))%nat.
Proof.
  revert c; induction r as [|c' r IH]; intros c.
  - cbn [piece]. destruct (c =? colon); cbn; lia.
  - specialize (IH c'). remember (c' :: r) as q. cbn [piece]. destruct (c =? colon); [cbn; lia|]. destruct (piece q). cbn [snd length] in *. lia.
Qed.
Lemma search_finds e name : system e -> forall fuel p, (length p <= fuel)%nat ->
  exists r, search fuel e name p = Ok r /\ finds e name (looked p) r.
Proof.
  intros Sy. induction fuel as [|fuel IH]; intros p L.
  - destruct p; [|cbn in L; lia]. exists None. split; [reflexivity|constructor].
  - destruct p as [|c p]; [exists None; split; [reflexivity|constructor]|].
    cbn [search]. rewrite looked_piece. pose proof (piece_shorter c p) as Sh. destruct (piece (c :: p)) as [d rest]. cbn [fst snd] in *.
    destruct (IH rest) as (r & Er & Fr); [cbn in L, Sh; lia|].
    destruct (build_ok e d name Sy) as (b & -> & Hb). cbn [rbind]. destruct b as [x|].
    + destruct Hb as (w & Ew & ->). destruct (runnable e (in_dir w name)) eqn:R.
      * eexists. split; [reflexivity|]. apply Here; [exact Ew|]. apply runnable_program, R.
      * exists r. split; [exact Er|]. apply Further; [|exact Fr]. intros w' Ew' X. rewrite Ew in Ew'. injection Ew' as <-.
        apply runnable_program in X. congruence.
    + exists r. split; [exact Er|]. apply Further; [exact Hb|exact Fr].
Qed.

(** For any name, PATH and file system: the array for the path is not left. *)
Theorem C79_safe : forall e name, system e -> exists o, startup_child e name = Ok o.
Proof.
  intros e name Sy. unfold startup_child. destruct (PATH_MAX - 1 <? len name) eqn:T; [eexists; reflexivity|].
  unfold PATH_MAX in T.
  assert (exists p, (if has slash name then rlet w := written (name ++ [0]) in Ok (Some name)
               else match path e with None => Ok None | Some l => search (length l) e name l end) = Ok p) as (p & ->).
  { destruct (has slash name).
    - rewrite written_ok by (rewrite len_app; change (len [0]) with 1; lia). eexists; reflexivity.
    - destruct (path e) as [l|]; [|eexists; reflexivity]. destruct (search_finds e name Sy (length l) l (le_n _)) as (r & E & _). exists r. exact E. }
  cbn [rbind]. destruct p as [[|c p]|]; try (eexists; reflexivity). destruct (stat e (c :: p)); eexists; reflexivity.
Qed.
Print Assumptions C79_safe.

(** A name without a slash, PATH not ending with a colon: the program is the first executable file of
    that name in the directories of PATH; if there is none, strace says so and runs nothing. *)
Theorem C79_search : forall e name p, system e -> ~ In (ch "/") name -> N.of_nat (length name) < 4096 ->
  path e = Some p -> last p (ch ":") <> ch ":" ->
  exists r, finds e name (elements p) r /\
    match r with
    | Some x => exists eu eg, startup_child e name = Ok (Exec x eu eg)
    | None => startup_child e name = Ok Cannot_find
    end.
Proof.
  intros e name p Sy Ns Ln Ep La. destruct (search_finds e name Sy (length p) p (le_n _)) as (r & E & F).
  assert (EL : looked p = elements p).
  { unfold looked. assert (last (elements p) [] <> []) as X.
    { clear -La. induction p as [|c r IH]; [cbn in La; congruence|].
      destruct r as [|c' r].
      - cbn [last] in La. cbn [elements]. destruct (N.eqb_spec c (ch ":")); [contradiction|]. cbn. discriminate.
      - change (last (c :: c' :: r) (ch ":")) with (last (c' :: r) (ch ":")) in La. specialize (IH La).
        remember (c' :: r) as q. cbn [elements]. destruct (elements_cons q) as (d & ds & Eq). rewrite Eq in IH |- *.
        destruct (c =? ch ":"); [exact IH|]. destruct ds as [|d2 ds]; [cbn; discriminate|exact IH]. }
    destruct (beqs (last (elements p) []) []) eqn:B; [apply beqs_eq in B; contradiction|reflexivity]. }
  rewrite EL in F. exists r. split; [exact F|]. unfold startup_child.
  replace (PATH_MAX - 1 <? len name) with false by (unfold PATH_MAX, len; lia).
  replace (has slash name) with false.
  2:{ symmetry. apply not_true_iff_false. intros X. apply existsb_exists in X as (z & Iz & Ez). apply N.eqb_eq in Ez. subst z. exact (Ns Iz). }
  rewrite Ep, E. cbn [rbind]. destruct r as [x|]; [|reflexivity].
  assert (exists i, stat e x = Some i) as (i & Ei).
  { clear -F. remember (Some x) as r. induction F; try discriminate; [|auto]. injection Heqr as <-. destruct H0 as (i & E & _). exists i. exact E. }
  assert (x <> []) as Nx.
  { clear -F Sy. remember (Some x) as r. induction F; try discriminate; [|auto]. injection Heqr as <-. intros X.
    assert (d = []) as -> by (unfold in_dir in X; destruct d; [reflexivity|discriminate X]).
    destruct el as [|c l0]; cbn in H; [|discriminate]. destruct (proj2 Sy [] H) as (_ & r & Er). discriminate. }
  destruct x as [|c x]; [congruence|]. rewrite Ei. eexists; eexists; reflexivity.
Qed.
Print Assumptions C79_search.

(** A name with a slash is the path itself. *)
Theorem C79_slash : forall e name, In (ch "/") name -> N.of_nat (length name) < 4096 ->
  match stat e name with
  | Some i => startup_child e name = Ok (Exec name (if N.testbit (mode i) 11 then uid i else run_uid e) (if N.testbit (mode i) 10 then gid i else run_gid e))
  | None => startup_child e name = Ok Cannot_stat
  end.
Proof.
  intros e name I L. unfold startup_child. replace (PATH_MAX - 1 <? len name) with false by (unfold PATH_MAX, len; lia).
  replace (has slash name) with true by (symmetry; apply existsb_exists; exists slash; split; [exact I|apply N.eqb_refl]).
  rewrite written_ok by (rewrite len_app; change (len [0]) with 1; unfold len; lia). cbn [rbind].
  destruct name as [|c name]; [destruct I|]. destruct (stat e (c :: name)); reflexivity.
Qed.
Print Assumptions C79_slash.

(** PATH ending with a colon: the current directory, which is the last element, is not searched. *)
Definition ex_env (p : list N) : env :=
  {| path := Some p; cwd := Some (bs "/home"); run_uid := 1000; run_gid := 100;
     stat := fun x => if beqs x (bs "/home/prog") then Some {| regular := true; mode := 493; uid := 0; gid := 0 |}
                      else if beqs x (bs "/bin/prog") then Some {| regular := false; mode := 493; uid := 0; gid := 0 |} else None |}.
Lemma ex_system p : system (ex_env p).
Proof.
  split.
  - intros x H. cbn [stat ex_env]. destruct (beqs x (bs "/home/prog")) eqn:B; [apply beqs_eq in B; subst x; cbn in H; lia|].
    destruct (beqs x (bs "/bin/prog")) eqn:B2; [apply beqs_eq in B2; subst x; cbn in H; lia|reflexivity].
  - intros w H. injection H as <-. split; [reflexivity|]. eexists; reflexivity.
Qed.
Theorem C79_last_element_refuted :
  ~ forall e name p, system e -> ~ In (ch "/") name -> N.of_nat (length name) < 4096 -> path e = Some p ->
    exists r, finds e name (elements p) r /\
      match r with
      | Some x => exists eu eg, startup_child e name = Ok (Exec x eu eg)
      | None => startup_child e name = Ok Cannot_find
      end.
Proof.
  intros H. destruct (H (ex_env (bs "/bin:")) (bs "prog") (bs "/bin:") (ex_system _)) as (r & F & R).
  - cbn. intros [X|[X|[X|[X|[]]]]]; discriminate.
  - reflexivity.
  - reflexivity.
  - assert (startup_child (ex_env (bs "/bin:")) (bs "prog") = Ok Cannot_find) as E by reflexivity.
    destruct r as [x|]; [destruct R as (? & ? & R); congruence|]. clear R E.
    change (elements (bs "/bin:")) with [bs "/bin"; []] in F. inversion F as [| |? ? ? _ F1]; subst. inversion F1 as [| |? ? ? N F2]; subst.
    apply (N (bs "/home") eq_refl). eexists. split; [reflexivity|]. split; [reflexivity|]. left. reflexivity.
Qed.
Print Assumptions C79_last_element_refuted.

(** the directory /bin/prog is passed over; the empty element is /home *)
Example ex_found : startup_child (ex_env (bs "/bin::/usr/bin")) (bs "prog") = Ok (Exec (bs "/home/prog") 1000 100).
Proof. reflexivity. Qed.
Example ex_last : last (bs "/bin::/usr/bin") (ch ":") <> ch ":" /\ elements (bs "/bin::/usr/bin") = [bs "/bin"; []; bs "/usr/bin"].
Proof. split; [discriminate|reflexivity]. Qed.
