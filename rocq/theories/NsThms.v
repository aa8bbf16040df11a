(** C105: which namespaces are shown with -e namespace=new. *)
From Verif Require Import Base Printf NsModel NsSpec.
From Verif Require QuoteSpec XlatText BitsModel BitsProofs TvalModel TvalSpec DateThms NumaSpec.
Local Open Scope N_scope.

(** ---- flags ---- *)
Lemma land_bit f k : negb (N.land f (2 ^ k) =? 0) = N.testbit f k.
Proof.
  destruct (N.testbit f k) eqn:E.
  - apply negb_true_iff, N.eqb_neq. intros H. apply (f_equal (fun x => N.testbit x k)) in H. rewrite N.land_spec, E, N.pow2_bits_true, N.bits_0 in H. discriminate.
  - apply negb_false_iff, N.eqb_eq. apply N.bits_inj. intros i. rewrite N.land_spec, N.bits_0. destruct (N.eq_dec i k) as [-> |]; [rewrite E; reflexivity|].
    rewrite N.pow2_bits_false by auto. apply andb_false_r.
Qed.
Lemma land_zero f x k : N.land f x = 0 -> N.testbit x k = true -> N.testbit f k = false.
Proof. intros H T. apply (f_equal (fun y => N.testbit y k)) in H. rewrite N.land_spec, T, andb_true_r, N.bits_0 in H. exact H. Qed.
Definition tab_ok (f : N) (r : N * list N) (k : list N * list N) : Prop := snd r = fst k /\ negb (N.land f (fst r) =? 0) = asked f (snd k).
Lemma table f : Forall2 (tab_ok f) ns kinds.
Proof.
  unfold ns, kinds. constructor.
  - split; [reflexivity|]. cbn [fst snd asked existsb]. rewrite N.land_lor_distr_r, orb_false_r. change 0x2000000 with (2 ^ 25). change 0x200000000 with (2 ^ 33).
    rewrite <- !land_bit. destruct (N.eqb_spec (N.land f (2 ^ 25)) 0) as [-> |N1]; cbn [negb orb]; [rewrite N.lor_0_l; reflexivity|].
    apply negb_true_iff, N.eqb_neq. intros H. apply N.lor_eq_0_iff in H. tauto.
  - repeat (constructor; [split; [reflexivity|]; cbn [fst snd asked existsb]; rewrite orb_false_r, <- land_bit; reflexivity|]). constructor.
Qed.

(** ---- the text ---- *)
Lemma path_ok p name : ns_path p name (bs "/proc/" ++ TvalModel.sdec p ++ bs "/ns/" ++ name).
Proof. exists (TvalModel.sdec p). split; [apply DateThms.sdec_integer|reflexivity]. Qed.
Lemma sdec_short p : (- 2 ^ 31 <= p < 2 ^ 31)%Z -> (length (TvalModel.sdec p) <= 11)%nat.
Proof.
  intros H. unfold TvalModel.sdec. destruct (Z.ltb_spec p 0).
  - rewrite app_length. change (length (bs "-")) with 1%nat. pose proof (pr_num_length 10 (Z.to_N (- p)) 9 ltac:(lia)) as L. change (10 ^ N.of_nat 10) with 10000000000 in L. lia.
  - pose proof (pr_num_length 10 (Z.to_N p) 9 ltac:(lia)) as L. change (10 ^ N.of_nat 10) with 10000000000 in L. lia.
Qed.
Lemma read_ok link p name : (- 2 ^ 31 <= p < 2 ^ 31)%Z -> kernel_links link -> (length name <= 6)%nat ->
  exists t, read_namespace_id link p name = Ok t /\ t = link (bs "/proc/" ++ TvalModel.sdec p ++ bs "/ns/" ++ name) /\
    forall x, t = Some x -> x <> [] /\ (length x <= length name + 13)%nat.
Proof.
  intros P K L. unfold read_namespace_id. set (path := bs "/proc/" ++ TvalModel.sdec p ++ bs "/ns/" ++ name).
  assert (LP : (length path <= 27)%nat).
  { unfold path. rewrite !app_length. pose proof (sdec_short p P). change (length (bs "/proc/")) with 6%nat. change (length (bs "/ns/")) with 4%nat. lia. }
  destruct (N.leb_spec (15 + 4 * 3 + 7) (N.of_nat (length path))); [lia|]. exists (link path).
  assert (X : forall x, link path = Some x -> x <> [] /\ (length x <= length name + 13)%nat).
  { intros x E. destruct (K p path name x (path_ok p name) E) as (d & -> & D). split; [destruct name; discriminate|].
    rewrite !app_length. change (length (bs ":[")) with 2%nat. change (length (bs "]")) with 1%nat. lia. }
  split; [|split; [reflexivity|exact X]]. f_equal. destruct (link path) as [x|] eqn:E; [|reflexivity]. destruct (X x eq_refl).
  destruct (N.leb_spec 4097 (N.of_nat (length x))); [lia|reflexivity].
Qed.
Lemma commas_snoc q t : q <> [] -> NumaSpec.commas (q ++ [t]) = NumaSpec.commas q ++ bs ", " ++ t.
Proof.
  induction q as [|x q IH]; [contradiction|]. intros _. destruct q as [|y q]; [reflexivity|].
  change (NumaSpec.commas ((x :: y :: q) ++ [t])) with (x ++ bs ", " ++ NumaSpec.commas ((y :: q) ++ [t])). rewrite IH by discriminate.
  change (NumaSpec.commas (x :: y :: q)) with (x ++ bs ", " ++ NumaSpec.commas (y :: q)). rewrite <- !app_assoc. reflexivity.
Qed.
Lemma commas_nonempty q : q <> [] -> Forall (fun x : list N => x <> []) q -> NumaSpec.commas q <> [].
Proof.
  intros H F. destruct q as [|x q]; [contradiction|]. inversion F; subst. intros E. destruct q as [|y q]; cbn [NumaSpec.commas] in E; [contradiction|].
  destruct x; [contradiction|discriminate].
Qed.
Definition budget (tab : list (N * list N)) : nat := fold_right (fun r a => length (snd r) + 15 + a)%nat 0%nat tab.
Definition found (link : links) (p : Z) (flags : N) (ks : list (list N * list N)) (paths : list (list N)) : list (list N) :=
  flat_map (fun kp => if asked flags (snd (fst kp)) then match link (snd kp) with Some x => [x] | None => [] end else []) (combine ks paths).
Definition pathof (p : Z) (k : list N * list N) : list N := bs "/proc/" ++ TvalModel.sdec p ++ bs "/ns/" ++ fst k.
Lemma loop_ok link p flags : (- 2 ^ 31 <= p < 2 ^ 31)%Z -> kernel_links link -> forall tab ks, Forall2 (tab_ok flags) tab ks ->
  Forall (fun r => (length (snd r) <= 6)%nat) tab -> forall q, Forall (fun x => x <> []) q ->
  (length (NumaSpec.commas q) + (if match q with [] => true | _ => false end then 0 else 2) + budget tab <= N.to_nat str_size + 1)%nat ->
  ns_loop link p flags tab (NumaSpec.commas q) = Ok (NumaSpec.commas (q ++ found link p flags ks (map (pathof p) ks))) /\
  Forall (fun x => x <> []) (q ++ found link p flags ks (map (pathof p) ks)).
Proof.
  intros P K. induction 1 as [|[f s] [name bits] tab ks [E1 E2] F IH]; intros LN q Q B.
  - cbn [ns_loop map]. unfold found. cbn [combine flat_map]. rewrite app_nil_r. auto.
  - cbn [fst snd] in E1, E2. subst s. inversion LN as [|? ? L1 LN']; subst. cbn [snd] in L1. cbn [ns_loop]. rewrite E2.
    unfold found. cbn [map combine flat_map fst snd]. fold (found link p flags ks (map (pathof p) ks)).
    change (budget ((f, name) :: tab)) with (length name + 15 + budget tab)%nat in B.
    destruct (asked flags bits); [|cbn [app]; apply IH; [assumption..|]; destruct q; lia].
    destruct (read_ok link p name P K L1) as (t & R & T & X). rewrite R. cbn [rbind]. change (bs "/proc/" ++ TvalModel.sdec p ++ bs "/ns/" ++ name) with (pathof p (name, bits)) in T. rewrite <- T.
    destruct t as [x|]; [|cbn [app]; apply IH; [assumption..|]; destruct q; lia].
    destruct (X x eq_refl) as [NE LX]. rewrite (app_assoc q [x]).
    assert (Q' : Forall (fun y => y <> []) (q ++ [x])) by (apply Forall_app; split; [exact Q|constructor; [exact NE|constructor]]).
    destruct q as [|y q].
    + cbn [NumaSpec.commas app] in *. cbn [rbind]. rewrite BitsProofs.xappendstr_fits by (cbn [app length] in *; lia). cbn [rbind app].
      apply (IH LN' [x] Q'). cbn [NumaSpec.commas length] in *. lia.
    + pose proof (commas_snoc (y :: q) x ltac:(discriminate)) as CS. pose proof (commas_nonempty (y :: q) ltac:(discriminate) Q) as CN.
      assert (CL : length (NumaSpec.commas ((y :: q) ++ [x])) = (length (NumaSpec.commas (y :: q)) + 2 + length x)%nat).
      { rewrite CS, !app_length. change (length (bs ", ")) with 2%nat. lia. }
      assert (S1 : match NumaSpec.commas (y :: q) with [] => Ok (NumaSpec.commas (y :: q)) | _ => BitsModel.xappendstr str_size (NumaSpec.commas (y :: q)) (bs ", ") end = Ok (NumaSpec.commas (y :: q) ++ bs ", ")).
      { rewrite BitsProofs.xappendstr_fits; [destruct (NumaSpec.commas (y :: q)); [contradiction|reflexivity]|].
        rewrite app_length. change (length (bs ", ")) with 2%nat. cbv beta iota in B. lia. }
      rewrite S1. cbn [rbind]. rewrite BitsProofs.xappendstr_fits.
      2: { rewrite <- app_assoc, <- CS, CL. cbv beta iota in B. lia. }
      cbn [rbind]. rewrite <- app_assoc, <- CS. apply (IH LN' ((y :: q) ++ [x]) Q'). rewrite CL. cbn [app]. cbv beta iota in B |- *. lia.
Qed.
Lemma auxstr_ok link p flags : (- 2 ^ 31 <= p < 2 ^ 31)%Z -> kernel_links link ->
  exists t, namespaces link p flags t /\ auxstr_of link p flags = Ok (shown t).
Proof.
  intros P K. exists (found link p flags kinds (map (pathof p) kinds)). split.
  - exists (map (pathof p) kinds). split; [|reflexivity]. generalize kinds. induction l; cbn [map]; constructor; [apply path_ok|assumption].
  - destruct (loop_ok link p flags P K ns kinds (table flags)) with (q := @nil (list N)) as [E F].
    + repeat (constructor; [cbn; lia|]). constructor.
    + constructor.
    + vm_compute. lia.
    + unfold auxstr_of. change [] with (NumaSpec.commas []) at 1. rewrite E. cbn [rbind app] in *. f_equal. unfold shown.
      remember (found link p flags kinds (map (pathof p) kinds)) as t eqn:Et. clear Et.
      destruct t as [|x t]; [reflexivity|]. pose proof (commas_nonempty (x :: t) ltac:(discriminate) F). destruct (NumaSpec.commas (x :: t)); [contradiction|reflexivity].
Qed.

Definition valid (p : Z) : Prop := (- 2 ^ 31 <= p < 2 ^ 31)%Z.
(** C105: after setns and unshare the namespaces of the process that are of the kinds in the flags are shown.
    Partial: the process has the same number in /proc as for strace (C105_proc_refuted), the flags of setns have no bits above
    the 32 that the kernel looks at (C105_high_refuted), and namespaces that were entered with flags 0 are not shown (C105_any_refuted). *)
Theorem C105_self_partial : forall e flags q, show e = true -> failed e = false -> valid q -> kernel_links (l e) -> q = pid e ->
  (flags < 2 ^ 32 -> exists t, namespaces (l e) q (flags mod 2 ^ 32) t /\ setns e flags = Ok (shown t)) /\
  (exists t, namespaces (l e) q flags t /\ unshare e flags = Ok (shown t)).
Proof.
  intros e flags q S F V K ->. split.
  - intros H. rewrite N.mod_small by exact H. destruct (auxstr_ok (l e) (pid e) flags V K) as (t & N & E). exists t. split; [exact N|].
    unfold setns. rewrite S, F. exact E.
  - destruct (auxstr_ok (l e) (pid e) flags V K) as (t & N & E). exists t. split; [exact N|]. unfold unshare. rewrite S, F. exact E.
Qed.
Print Assumptions C105_self_partial.

Lemma nothing link p flags t : (forall k b, In k kinds -> In b (snd k) -> N.testbit flags b = false) -> namespaces link p flags t -> t = [].
Proof.
  intros H (paths & _ & ->). assert (A : forall k, In k kinds -> asked flags (snd k) = false).
  { intros k K. unfold asked. apply not_true_is_false. intros X. apply existsb_exists in X as (b & B & T). rewrite (H k b K B) in T. discriminate. }
  revert A. clear. revert paths. generalize kinds. induction l as [|k ks IH]; intros [|x paths] A; try reflexivity. cbn [combine flat_map fst snd].
  rewrite A by (left; reflexivity). cbn [app]. apply IH. intros k' K'. apply A. right. exact K'.
Qed.
Lemma kinds_bits k b : In k kinds -> In b (snd k) -> b = 33 \/ N.testbit 0x7e020080 b = true.
Proof.
  intros K B. cbn [kinds In] in K. repeat (destruct K as [<- |K]; [cbn [snd In] in B; intuition (subst; auto)|]). destruct K.
Qed.
(** C105: after clone and clone3 the namespaces of the child that are of the kinds in the flags are shown, the low 8 bits of the flags of clone
    being a signal.  Partial: the flags of clone have no bits above the 32 that the kernel looks at (C105_high_refuted), those of clone3
    are not changed during the call (C105_changed_refuted). *)
Theorem C105_child_partial : forall e flags q larger, show e = true -> failed e = false -> valid q -> kernel_links (l e) -> tr e (rval e) = Some q ->
  (flags < 2 ^ 32 -> exists t, namespaces (l e) q (2 ^ 8 * (flags / 2 ^ 8)) t /\ clone e flags = Ok (shown t)) /\
  (exists t, namespaces (l e) q flags t /\ clone3 e (Some flags) (Some flags) larger = Ok (shown t)).
Proof.
  intros e flags q larger S F V K T. split.
  - intros H. assert (D : N.ldiff flags 0xff = 2 ^ 8 * (flags / 2 ^ 8)).
    { change 0xff with (N.ones 8). rewrite N.ldiff_ones_r, N.shiftl_mul_pow2, N.shiftr_div_pow2. lia. }
    destruct (auxstr_ok (l e) q (2 ^ 8 * (flags / 2 ^ 8)) V K) as (t & N & E). exists t. split; [exact N|].
    unfold clone. rewrite D, S, F. cbn [negb]. unfold clone_nsflags. set (f := 2 ^ 8 * (flags / 2 ^ 8)) in *.
    assert (L : f < 2 ^ 32) by (unfold f; pose proof (N.div_mod flags (2 ^ 8) ltac:(lia)); lia).
    destruct (N.eqb_spec (N.land f 0x7e020080) 0) as [Z|Z]; cbn [negb andb].
    + assert (X : t = []).
      { eapply nothing; [|exact N]. intros k b B1 B2. destruct (kinds_bits k b B1 B2) as [-> |B]; [|apply (land_zero f 0x7e020080 b Z B)].
        destruct (N.eq_dec f 0) as [-> |]; [apply N.bits_0|]. apply N.bits_above_log2. apply N.log2_lt_pow2; [lia|]. lia. }
      subst t. destruct (_ =? 0); reflexivity.
    + destruct (N.eqb_spec (N.land f (N.lor 0x1381000 0x7e020080)) 0) as [Z2|_].
      * exfalso. apply Z. rewrite N.land_lor_distr_r in Z2. apply N.lor_eq_0_iff in Z2. apply Z2.
      * unfold get_namespace_auxstr. rewrite T. exact E.
  - destruct (auxstr_ok (l e) q flags V K) as (t & N & E). exists t. split; [exact N|]. unfold clone3. rewrite S, F. cbn [negb]. unfold clone3_nsflags.
    destruct (N.eqb_spec (N.land flags 0x27e020080) 0) as [Z|Z]; cbn [negb andb].
    + assert (X : t = []).
      { eapply nothing; [|exact N]. intros k b B1 B2. apply (land_zero flags 0x27e020080 b Z). destruct (kinds_bits k b B1 B2) as [-> |B]; [reflexivity|].
        change 0x27e020080 with (N.lor 0x200000000 0x7e020080). rewrite N.lor_spec, B. apply orb_true_r. }
      subst t. destruct (_ && _); reflexivity.
    + destruct (N.eqb_spec (N.land flags (N.lor 0x101000 0x27e020080)) 0) as [Z2|_].
      * exfalso. apply Z. rewrite N.land_lor_distr_r in Z2. apply N.lor_eq_0_iff in Z2. apply Z2.
      * unfold get_namespace_auxstr. rewrite T. exact E.
Qed.
Print Assumptions C105_child_partial.

(** C105: without -e namespace=new, after a failed call and when the child is not found in /proc, nothing is shown. *)
Theorem C105_none : forall e flags before after larger,
  (show e = false \/ failed e = true -> setns e flags = Ok None /\ unshare e flags = Ok None /\ clone e flags = Ok None /\ clone3 e before after larger = Ok None) /\
  (tr e (rval e) = None -> clone e flags = Ok None /\ clone3 e before after larger = Ok None).
Proof.
  intros e flags before after larger. split.
  - intros H. unfold setns, unshare, clone, clone3. assert (X : show e && negb (failed e) = false) by (destruct H as [-> | ->]; [reflexivity|apply andb_false_r]). rewrite X. clear X.
    repeat split.
    + destruct (_ =? 0); [reflexivity|]. destruct H as [-> | ->]; [unfold clone_nsflags; rewrite N.land_0_r; reflexivity|rewrite andb_false_r; reflexivity].
    + destruct before; [|reflexivity]. destruct (_ && _); [reflexivity|]. destruct (failed e); [reflexivity|]. destruct H as [-> |]; [|discriminate].
      destruct after; [|reflexivity]. unfold clone3_nsflags. rewrite N.land_0_r. reflexivity.
  - intros H. unfold clone, clone3, get_namespace_auxstr. rewrite H. split.
    + destruct (_ =? 0); [reflexivity|]. destruct (_ && _); reflexivity.
    + destruct before; [|reflexivity]. destruct (_ && _); [reflexivity|]. destruct (failed e); [reflexivity|]. destruct after; [|reflexivity]. destruct (_ && _); reflexivity.
Qed.
Print Assumptions C105_none.

(** ---- what is not so ---- *)
(** the links of one process, whose number in /proc is [p] *)
Definition of_process (p : list N) (x : list N) (path : list N) : option (list N) :=
  if beqs path (bs "/proc/" ++ p ++ bs "/ns/net") then Some (bs "net:[" ++ x ++ bs "]")
  else if beqs path (bs "/proc/" ++ p ++ bs "/ns/cgroup") then Some (bs "cgroup:[4026531835]") else None.
Definition ex_env (pid : Z) (l : links) : env := {| show := true; failed := false; pid := pid; rval := 8; tr := fun z => Some z; l := l |}.

(** In another PID namespace than that of /proc, the number that strace has is taken for one of /proc: the namespaces of process 7 of
    /proc are shown for the process whose number there is 107. *)
Theorem C105_proc_refuted : ~ (forall e flags q t, show e = true -> failed e = false -> valid q -> flags < 2 ^ 32 ->
  tr e (pid e) = Some q -> namespaces (l e) q flags t -> setns e flags = Ok (shown t)).
Proof.
  intros H.
  set (lk := fun path => match of_process (bs "7") (bs "4026531840") path with Some t => Some t | None => of_process (bs "107") (bs "4026532999") path end).
  specialize (H {| show := true; failed := false; pid := 7; rval := 0; tr := fun z => Some (z + 100)%Z; l := lk |} 0x40000000 107%Z [bs "net:[4026532999]"]
                eq_refl eq_refl ltac:(split; vm_compute; [discriminate|reflexivity]) ltac:(reflexivity) eq_refl).
  assert (N : namespaces lk 107 0x40000000 [bs "net:[4026532999]"]).
  { exists (map (fun k => bs "/proc/107/ns/" ++ fst k) kinds). split; [|vm_compute; reflexivity].
    generalize kinds. induction l as [|k ks IH]; cbn [map]; constructor; [|exact IH]. exists (bs "107"). split; [|reflexivity]. left. exists 107. split; [|reflexivity]. split; [discriminate|reflexivity]. }
  specialize (H N). vm_compute in H. discriminate H.
Qed.
Print Assumptions C105_proc_refuted.

(** setns(fd, 0) enters a namespace of any kind: it is not shown. *)
Theorem C105_any_refuted : ~ (forall e before after, show e = true -> failed e = false ->
  l e = after -> (exists path, before path <> after path /\ exists name, ns_path (pid e) name path) -> setns e 0 <> Ok None).
Proof.
  intros H. apply (H (ex_env 7 (of_process (bs "7") (bs "4026532999"))) (of_process (bs "7") (bs "4026531840")) (of_process (bs "7") (bs "4026532999")) eq_refl eq_refl eq_refl).
  - exists (bs "/proc/7/ns/net"). split; [vm_compute; discriminate|]. exists (bs "net"). exists (bs "7"). split; [|reflexivity]. left. exists 7. repeat split. discriminate.
  - vm_compute. reflexivity.
Qed.
Print Assumptions C105_any_refuted.

(** The kernel looks at the low 32 bits of the flags of setns and clone; bit 33 is taken for CLONE_INTO_CGROUP all the same, and a
    cgroup namespace is shown that is not new. *)
Theorem C105_high_refuted :
  ~ (forall e flags t, show e = true -> failed e = false -> valid (pid e) -> namespaces (l e) (pid e) (flags mod 2 ^ 32) t -> setns e flags = Ok (shown t)) /\
  ~ (forall e flags q t, show e = true -> failed e = false -> valid q -> tr e (rval e) = Some q -> namespaces (l e) q (2 ^ 8 * (flags mod 2 ^ 32 / 2 ^ 8)) t -> clone e flags = Ok (shown t)).
Proof.
  assert (N : forall p n, TvalSpec.number p n -> namespaces (of_process p (bs "4026531840")) (Z.of_N n) 0x40000000
     (match of_process p (bs "4026531840") (bs "/proc/" ++ p ++ bs "/ns/net") with Some x => [x] | None => [] end)).
  { intros p n P. exists (map (fun k => bs "/proc/" ++ p ++ bs "/ns/" ++ fst k) kinds). split.
    - generalize kinds. induction l as [|k ks IH]; cbn [map]; constructor; [|exact IH]. exists p. split; [|reflexivity]. left. exists n. split; [exact P|reflexivity].
    - cbn [kinds map combine flat_map fst snd]. cbn [asked existsb]. change (N.testbit 1073741824 30) with true. cbn [app orb]. repeat change (N.testbit 1073741824 _) with false. cbn [orb app]. rewrite app_nil_r. reflexivity. }
  split; intros H.
  - specialize (H (ex_env 7 (of_process (bs "7") (bs "4026531840"))) 0x240000000 _ eq_refl eq_refl ltac:(split; vm_compute; [discriminate|reflexivity]) (N (bs "7") 7 ltac:(split; [discriminate|reflexivity]))).
    vm_compute in H. discriminate H.
  - specialize (H (ex_env 7 (of_process (bs "8") (bs "4026531840"))) 0x240000000 8%Z _ eq_refl eq_refl ltac:(split; vm_compute; [discriminate|reflexivity]) eq_refl (N (bs "8") 8 ltac:(split; [discriminate|reflexivity]))).
    vm_compute in H. discriminate H.
Qed.
Print Assumptions C105_high_refuted.

(** The flags of clone3 are read again when the call ends: what another thread has written there meanwhile is taken for what was asked for. *)
Theorem C105_changed_refuted : ~ (forall e flags later q t larger, show e = true -> failed e = false -> valid q -> tr e (rval e) = Some q ->
  namespaces (l e) q flags t -> clone3 e (Some flags) (Some later) larger = Ok (shown t)).
Proof.
  intros H. specialize (H (ex_env 7 (of_process (bs "8") (bs "4026531840"))) 0x40000000 0 8%Z [bs "net:[4026531840]"] false eq_refl eq_refl ltac:(split; vm_compute; [discriminate|reflexivity]) eq_refl).
  assert (N : namespaces (of_process (bs "8") (bs "4026531840")) 8 0x40000000 [bs "net:[4026531840]"]).
  { exists (map (fun k => bs "/proc/8/ns/" ++ fst k) kinds). split; [|vm_compute; reflexivity].
    generalize kinds. induction l as [|k ks IH]; cbn [map]; constructor; [|exact IH]. exists (bs "8"). split; [|reflexivity]. left. exists 8. split; [|reflexivity]. split; [discriminate|reflexivity]. }
  specialize (H N). vm_compute in H. discriminate H.
Qed.
Print Assumptions C105_changed_refuted.

(** All namespaces at once: the text fills the buffer to its last byte; the links are like those of the kernel. *)
Definition all_links (path : list N) : option (list N) :=
  match find (fun k => beqs path (bs "/proc/8/ns/" ++ fst k)) kinds with Some k => Some (fst k ++ bs ":[4026531835]") | None => None end.
Lemma no_slash d n : TvalSpec.integer d n -> ~ In 47 d.
Proof.
  assert (X : forall t a k, rd_num 10 a t = Some k -> ~ In 47 t).
  { induction t as [|c t IH]; intros a k E; [intros []|]. cbn [rd_num] in E. destruct (QuoteSpec.hex_val c) as [x|] eqn:Hc; [|discriminate]. destruct (x <? 10); [|discriminate].
    intros [-> |I]; [discriminate Hc|exact (IH _ _ E I)]. }
  intros [(k & [_ R] & _)|(t & k & -> & [_ R] & _)]; [exact (X _ _ _ R)|]. intros [E|I]; [discriminate E|exact (X _ _ _ R I)].
Qed.
Lemma all_links_ok : kernel_links all_links.
Proof.
  intros p path name t (d & D & ->) E. unfold all_links in E. destruct (find _ kinds) as [k|] eqn:Fd; [|discriminate]. apply find_some in Fd as [_ B]. apply beqs_eq in B.
  change (bs "/proc/8/ns/" ++ fst k) with (bs "/proc/" ++ bs "8" ++ bs "/ns/" ++ fst k) in B. apply app_inv_head in B.
  apply (XlatText.split_at 47) in B; [|eapply no_slash, D|cbn; lia|right; eexists; reflexivity..]. destruct B as [_ B]. apply app_inv_head in B. subst name.
  exists (bs "4026531835"). split; [|vm_compute; lia]. inversion E. reflexivity.
Qed.
Example C105_example :
  kernel_links all_links /\ valid 8 /\
  clone3 (ex_env 7 all_links) (Some 0x7e020080) (Some 0x7e020080) false =
    Ok (Some (bs "cgroup:[4026531835], ipc:[4026531835], mnt:[4026531835], net:[4026531835], pid:[4026531835], time:[4026531835], uts:[4026531835], user:[4026531835]")) /\
  clone (ex_env 7 all_links) 0x60000080 = Ok (Some (bs "net:[4026531835], pid:[4026531835]")) /\
  unshare (ex_env 8 all_links) 0x80 = Ok (Some (bs "time:[4026531835]")) /\ unshare (ex_env 8 all_links) 0x200 = Ok None.
Proof. split; [exact all_links_ok|]. split; [split; vm_compute; [discriminate|reflexivity]|]. repeat split; vm_compute; reflexivity. Qed.
