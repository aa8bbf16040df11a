From Coq Require Import Sorted.
From Verif Require Import Base Printf BitsModel XlatModel XlatSpec XlatProofs XlatText IoctlModel IoctlSpec IoctlProofs.
Local Open Scope N_scope.

Lemma pxval_text verb x v d : table_ok x -> value_text x (pxval verb x v d) v.
Proof.
  intros OK. unfold pxval, printxvals_ex, value_text. cbn [xlookups]. pose proof (xlookup_spec x v OK) as H. destruct (xlookup x v) as [s|]; [left; exact H|right]. eexists. reflexivity.
Qed.
Definition dtab (A : arch) := [(IOC_NONE A, bs "_IOC_NONE"); (IOC_READ A, bs "_IOC_READ"); (IOC_WRITE A, bs "_IOC_WRITE")].
Definition dsel (A : arch) (d : N) : list (N * list N) :=
  if (d =? 0) then (match A with Generic => [(0, bs "_IOC_NONE")] | _ => [] end) else filter (fun e => negb (N.land d (fst e) =? 0)) (dtab A).
Lemma dir_printed A verb c : dir_text A (printflags_ex (IOC_DIR A c) (dflt verb (bs "_IOC_???")) XABBREV FMT_X [ioctl_dirs A]) (IOC_DIR A c).
Proof.
  assert (R : match A with Generic => IOC_DIR A c < 4 | _ => IOC_DIR A c < 8 end).
  { destruct A; try apply dir_small. cbn [IOC_DIR]. rewrite (land_mod _ 2). apply N.mod_lt. lia. }
  generalize dependent (IOC_DIR A c). clear c. intros d R.
  assert (P : forall D, printflags_ex d (Some D) XABBREV FMT_X [ioctl_dirs A] = match dsel A d with [] => bs "0" | _ => join_bar (map snd (dsel A d)) end /\ (dsel A d = [] -> d = 0) /\ ors (dsel A d) = d /\ Forall (fun e => In e (dtab A)) (dsel A d)).
  { intros D. assert (X : d = 0 \/ d = 1 \/ d = 2 \/ d = 3 \/ d = 4 \/ d = 5 \/ d = 6 \/ d = 7) by (clear -R; destruct A; lia).
    assert (Y : match A with Generic => d < 4 | _ => True end) by (destruct A; auto). clear R.
    destruct X as [->|[->|[->|[->|[->|[->|[->| ->]]]]]]]; destruct A; try discriminate Y; (split; [reflexivity|]); (split; [first [reflexivity|intros E; discriminate E]|]); (split; [reflexivity|]); apply Forall_forall; intros e I; cbn in I |- *; tauto. }
  unfold dflt. destruct (P (match verb with XVERBOSE => [] | _ => bs "_IOC_???" end)) as (-> & Z & O & F). unfold dir_text. destruct (dsel A d) as [|e l] eqn:E; [left; auto|]. right. exists (e :: l). split; [reflexivity|]. split; [discriminate|]. split; [symmetry; exact O|exact F].
Qed.
Lemma code_printed A T verb c : c < 2^32 -> denotes A T (ioctl_print_code A verb c) c.
Proof. intros H. rewrite <- (ioc_eq A c H) at 2. unfold ioctl_print_code. apply DCode, dir_printed. Qed.
Lemma den_eq A T s c c' : denotes A T s c -> c = c' -> denotes A T s c'. Proof. intros D <-. exact D. Qed.
Ltac fin H := eapply den_eq; [|exact H]; rewrite ?H.
Lemma sized_den A T c s d t n : c < 2^32 -> In (s, d, t, n) (sized A) -> IOC_DIR A c = d -> IOC_TYPE c = t -> IOC_NR c = n -> denotes A T (call1 s (dec (IOC_SIZE A c))) c.
Proof. intros L I <- <- <-. eapply den_eq; [unfold call1, dec; apply DSized; exact I|apply ioc_eq, L]. Qed.
Lemma evdev_den A T verb c s : c < 2^32 -> tables_ok T -> IOC_TYPE c = 69 -> ~ misnamed A c -> evdev_decode_number A T verb c = Some s -> denotes A T s c.
Proof.
  intros L (_ & OA & OE & _) TY NM H. unfold evdev_decode_number in H. cbv zeta in H. pose proof (ioc_eq A c L) as EQ.
  assert (NB : IOC_NR c < 256) by (rewrite nr_eq; apply N.mod_lt; lia).
  destruct ((IOC_DIR A c =? IOC_WRITE A) && ((192 <=? IOC_NR c) && (IOC_NR c <=? 255))) eqn:C1.
  { injection H as <-. apply andb_true_iff in C1 as [C1 C2]. apply N.eqb_eq in C1. assert (SZ : IOC_SIZE A c = 24) by (destruct (N.eq_dec (IOC_SIZE A c) 24); [assumption|exfalso; apply NM; unfold misnamed; right; right; right; split; [exact TY|split; [assumption|right; split; [exact C1|lia]]]]).
    eapply den_eq; [unfold call1; apply (DSAbs A T (IOC_NR c - 192)), pxval_text, OA|]. rewrite <- EQ at 2. rewrite C1, TY, SZ. f_equal. lia. }
  destruct (IOC_DIR A c =? IOC_READ A) eqn:C2; cbn [negb] in H; [|discriminate]. apply N.eqb_eq in C2.
  destruct ((32 <=? IOC_NR c) && (IOC_NR c <=? 63)) eqn:C3.
  { injection H as <-. eapply den_eq; [unfold call2, dec; apply (DGBit A T (IOC_NR c - 32))|].
    - destruct (N.eqb_spec (IOC_NR c) 32) as [E|E]; [right; split; [lia|reflexivity]|left; apply pxval_text, OE].
    - rewrite <- EQ at 3. rewrite C2, TY. f_equal. lia. }
  destruct ((64 <=? IOC_NR c) && (IOC_NR c <=? 127)) eqn:C4.
  { injection H as <-. assert (SZ : IOC_SIZE A c = 24) by (destruct (N.eq_dec (IOC_SIZE A c) 24); [assumption|exfalso; apply NM; unfold misnamed; right; right; right; split; [exact TY|split; [assumption|left; split; [exact C2|lia]]]]).
    eapply den_eq; [unfold call1; apply (DGAbs A T (IOC_NR c - 64)), pxval_text, OA|]. rewrite <- EQ at 2. rewrite C2, TY, SZ. f_equal. lia. }
  repeat match type of H with (if ?b then _ else _) = _ => let E := fresh "E" in destruct b eqn:E; [injection H as <-; apply N.eqb_eq in E; eapply sized_den; [exact L| |exact C2|exact TY|exact E]; cbn; auto 20|] end. discriminate.
Qed.
Lemma hiddev_den A T c s : c < 2^32 -> IOC_TYPE c = 72 -> ~ misnamed A c -> hiddev_decode_number A c = Some s -> denotes A T s c.
Proof.
  intros L TY NM H. unfold hiddev_decode_number in H. cbv zeta in H.
  destruct (IOC_DIR A c =? IOC_READ A) eqn:C; apply N.eqb_eq in C || apply N.eqb_neq in C.
  - assert (N6 : (IOC_NR c =? 6) = false) by (apply N.eqb_neq; intros E; apply NM; left; auto). rewrite N6 in H.
    repeat match type of H with (if ?b then _ else _) = _ => let E := fresh "E" in destruct b eqn:E; [injection H as <-; apply N.eqb_eq in E; eapply sized_den; [exact L| |exact C|exact TY|exact E]; cbn; auto 25|] end. discriminate.
  - destruct (IOC_DIR A c =? N.lor (IOC_READ A) (IOC_WRITE A)) eqn:C2; [|discriminate]. apply N.eqb_eq in C2.
    repeat match type of H with (if ?b then _ else _) = _ => let E := fresh "E" in destruct b eqn:E; [injection H as <-; apply N.eqb_eq in E; eapply sized_den; [exact L| |exact C2|exact TY|exact E]; unfold sized; do 14 right; cbn; auto|] end. discriminate.
Qed.
Lemma number_den A T verb tty c stop r : c < 2^32 -> tables_ok T -> ~ misnamed A c -> ioctl_decode_command_number A T verb tty c = (stop, r) ->
  (stop = true -> tty = true /\ exists s, r = Some s /\ tty_denotes T s c) /\ (stop = false -> forall s, r = Some s -> denotes A T s c).
Proof.
  intros L OK NM H. unfold ioctl_decode_command_number in H. cbv zeta in H. pose proof (ioc_eq A c L) as EQ.
  destruct (N.eqb_spec (IOC_TYPE c) 33) as [TY|_].
  { injection H as <- <-. split; [discriminate|]. intros _ s E. destruct (N.eqb_spec c (IOC A (IOC_READ A) 33 2 8)) as [->|]; [|discriminate]. injection E as <-. apply DSecc. }
  destruct (N.eqb_spec (IOC_TYPE c) 69) as [TY|_].
  { injection H as <- H. split; [discriminate|]. intros _ s ->. eapply evdev_den; eauto. }
  destruct (N.eqb_spec (IOC_TYPE c) 72) as [TY|_].
  { injection H as <- H. split; [discriminate|]. intros _ s ->. eapply hiddev_den; eauto. }
  destruct (N.eqb_spec (IOC_TYPE c) 77) as [TY|_].
  { injection H as <- H. split; [discriminate|]. intros _ s ->.
    assert (SZ : IOC_DIR A c = IOC_READ A \/ IOC_DIR A c = IOC_WRITE A -> IOC_SIZE A c = 4) by (intros D; destruct (N.eq_dec (IOC_SIZE A c) 4); [assumption|exfalso; apply NM; right; right; left; auto]).
    destruct (N.eqb_spec (IOC_DIR A c) (IOC_WRITE A)) as [D|_]; [|destruct (N.eqb_spec (IOC_DIR A c) (IOC_READ A)) as [D|_]; [|discriminate]]; injection H as <-; unfold call1, dec.
    - eapply den_eq; [apply DMixW|]. rewrite <- EQ at 2. rewrite D, TY, SZ by auto. reflexivity.
    - eapply den_eq; [apply DMixR|]. rewrite <- EQ at 2. rewrite D, TY, SZ by auto. reflexivity. }
  destruct (N.eqb_spec (IOC_TYPE c) 84) as [TY|_].
  { destruct tty; [|injection H as <- <-; split; [discriminate|intros _ s E; discriminate]]. destruct OK as (_ & _ & _ & OT). pose proof (xlookup_spec (term_names T) c OT) as X. destruct (xlookup (term_names T) c) as [s|]; injection H as <- <-; split; try discriminate.
    intros _. split; [reflexivity|]. exists s. split; [reflexivity|exact X]. }
  destruct (N.eqb_spec (IOC_TYPE c) 85) as [TY|_].
  { injection H as <- H. split; [discriminate|]. intros _ s ->. destruct (N.eqb_spec (IOC_DIR A c) (IOC_READ A)) as [D|_]; [|discriminate]. destruct (N.eqb_spec (IOC_NR c) 44) as [E|_]; [|discriminate]. injection H as <-. eapply sized_den; [exact L| |exact D|exact TY|exact E]. cbn. auto 25. }
  destruct (N.eqb_spec (IOC_TYPE c) 106) as [TY|_].
  { injection H as <- H. split; [discriminate|]. intros _ s ->. destruct (N.eqb_spec (IOC_DIR A c) (IOC_READ A)) as [D|_]; [|discriminate]. destruct (N.eqb_spec (IOC_NR c) 19) as [E|_]; [|discriminate]. injection H as <-. eapply sized_den; [exact L| |exact D|exact TY|exact E]. cbn. auto 25. }
  destruct (N.eqb_spec (IOC_TYPE c) 107) as [TY|_].
  { injection H as <- H. split; [discriminate|]. intros _ s ->. destruct (N.eqb_spec (IOC_DIR A c) (IOC_WRITE A)) as [D|_]; [|discriminate]. destruct (N.eqb_spec (IOC_NR c) 0) as [E|_]; [|discriminate]. injection H as <-.
    assert (SZ : IOC_SIZE A c = 0) by (destruct (N.eq_dec (IOC_SIZE A c) 0); [assumption|exfalso; apply NM; right; left; auto]). rewrite SZ. unfold call1, dec. eapply den_eq; [apply (DSpi A T 0)|]. rewrite <- EQ. rewrite D, TY, E, SZ. reflexivity. }
  injection H as <- <-. split; [discriminate|]. intros _ s E. discriminate.
Qed.
Lemma command_spec A T verb tty c : c < 2^32 -> tables_ok T -> ~ misnamed A c ->
  (tty = true /\ tty_denotes T (command_name A T verb tty c) c) \/
  exists parts, command_name A T verb tty c = join_or parts /\ parts <> [] /\ Forall (fun s => denotes A T s c) parts /\ forall s, In (c, s) (ents T) -> In s parts.
Proof.
  intros L OK NM. unfold command_name. destruct (ioctl_decode_command_number A T verb tty c) as [stop r] eqn:D. destruct (number_den A T verb tty c stop r L OK NM D) as [D1 D2].
  destruct stop; [left; destruct (D1 eq_refl) as (-> & s & -> & X); auto|]. right. specialize (D2 eq_refl). clear D1 D.
  pose proof (lookup_spec (ents T) c (proj1 OK)) as LS.
  assert (NI : forall s, In s (names_of (ents T) c) <-> In (c, s) (ents T)).
  { intros s. unfold names_of. rewrite in_map_iff. split; [intros ([v x] & <- & I); apply filter_In in I as [I E]; cbn in *; apply N.eqb_eq in E; subst; exact I|]. intros I. exists (c, s). split; [reflexivity|]. apply filter_In. split; [exact I|apply N.eqb_refl]. }
  assert (ND : Forall (fun s => denotes A T s c) (names_of (ents T) c)) by (apply Forall_forall; intros s I; apply DName, NI, I).
  destruct (ioctl_lookup (ents T) c) as [i|].
  - destruct LS as [NE LS]. rewrite LS. destruct r as [s|].
    + exists (s :: names_of (ents T) c). split; [|split; [discriminate|split; [constructor; auto|intros x I; right; apply NI, I]]]. destruct (names_of (ents T) c); [contradiction|]. reflexivity.
    + exists (names_of (ents T) c). split; [reflexivity|]. split; [exact NE|]. split; [exact ND|intros x I; apply NI, I].
  - assert (NX : forall s, ~ In (c, s) (ents T)) by (intros s I; apply NI in I; rewrite LS in I; exact I). destruct r as [s|].
    + exists [s]. split; [reflexivity|]. split; [discriminate|]. split; [constructor; auto|intros x I; exfalso; eapply NX, I].
    + exists [ioctl_print_code A verb c]. split; [reflexivity|]. split; [discriminate|]. split; [constructor; [apply code_printed, L|constructor]|intros x I; exfalso; eapply NX, I].
Qed.
