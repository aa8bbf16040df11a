(** Lemmas for OptThms: one option. *)
From Verif Require Import Base StrtouModel StrtouSpec StrtouThms QualModel QualSpec QualProofs OptModel OptSpec OptProofs.
Local Open Scope N_scope.
Ltac other R2 := match goal with |- raw2 (?l ++ [?o]) ?y => match type of R2 with raw2 _ ?x => exact (raw2_other l x y o (fun k v H => H) eq_refl eq_refl eq_refl eq_refl R2) end end.
Ltac plain R1 R2 := split; [exact I|split; [destruct R1; constructor; proj; keep|other R2]].
Ltac argument R1 R2 := split; [|split; [destruct R1; constructor; proj; keep|other R2]].
Ltac flag := rewrite has_snoc; isx; rewrite orb_true_r; reflexivity.
Lemma step e l x o : raw1 e l x -> raw2 l x ->
  match option1 e x o with
  | Ok x' => wf e o /\ raw1 e (l ++ [o]) x' /\ raw2 (l ++ [o]) x'
  | Die => ~ wf e o \/ (has is_c (l ++ [o]) = true /\ has is_C (l ++ [o]) = true)
  | Undef => False
  end.
Proof.
  intros R1 R2. destruct o; cbn [option1].
  - (* a *) destruct (string_to_uint s) as [n|] eqn:E; cbn [opt_res rbind].
    + apply to_uint in E. argument R1 R2; [exists n; exact E|]. apply latest_yes. exact E.
    + left. intros (v & H). apply to_uint in H. congruence.
  - (* b *) destruct (beqs s (bs "execve")) eqn:E.
    + apply beqs_eq in E. argument R1 R2; [exact E|]. flag.
    + left. intros H. apply beqs_eq in H. congruence.
  - (* c *) destruct (N.eqb_spec (cflag x) 2) as [E|E].
    + right. rewrite !has_snoc. isx. rewrite orb_true_r, orb_false_r. split; [reflexivity|]. destruct R1. destruct (has is_c l); [congruence|]. destruct (has is_C l); [reflexivity|congruence].
    + assert (NC : has is_C l = false). { destruct R1. destruct (has is_C l) eqn:Q; [|reflexivity]. destruct (has is_c l) eqn:P; [contradiction w_both; split; reflexivity|congruence]. }
      plain R1 R2.
      * rewrite !has_snoc. isx. rewrite orb_true_r. reflexivity.
      * rewrite !has_snoc. isx. rewrite NC. intros [_ A]. discriminate.
  - (* C *) destruct (N.eqb_spec (cflag x) 1) as [E|E].
    + right. rewrite !has_snoc. isx. rewrite orb_true_r, orb_false_r. split; [|reflexivity]. destruct R1. destruct (has is_c l); [reflexivity|]. destruct (has is_C l); congruence.
    + assert (NC : has is_c l = false). { destruct R1. destruct (has is_c l); [congruence|reflexivity]. }
      plain R1 R2.
      * rewrite !has_snoc. isx. rewrite orb_true_r, NC. reflexivity.
      * rewrite !has_snoc. isx. rewrite NC. intros [A _]. discriminate.
  - (* D *) plain R1 R2. rewrite times_snoc. isx. rewrite w_D. reflexivity.
  - (* daemonize *) destruct (find_arg_val _ _ _) as [n|] eqn:E; cbn [opt_res rbind].
    + apply daemon_iff in E. argument R1 R2; [exists n; exact E|apply latest_yes; exact E|]. rewrite has_snoc. isx. rewrite orb_true_r. symmetry. apply negb_true_iff, N.eqb_neq. intros ->.
      destruct s as [s|]; cbn [daemon_kind] in E; [|discriminate]. destruct E as (w & J & _). cbn [In] in J. repeat match type of J with _ \/ _ => destruct J as [J|J]; [apply pair_equal_spec in J; destruct J as [J _]; discriminate J|] end. exact J.
    + left. intros (v & H). apply daemon_iff in H. congruence.
  - (* e *) pose proof (qualify_means s) as M. destruct (qualify s) as [k v]. cbn [fst snd] in M. pose proof (do_qual_ok e x k v) as Q. pose proof (wf_qual e (o_e s) k v M I) as W.
    destruct (do_qual e x k v) as [x'| |] eqn:E.
    + split; [apply W, Q; eexists; reflexivity|]. split; [exact (raw1_qual _ _ _ (o_e s) I (do_qual_raw1 _ _ _ _ _ _ R1 E))|exact (do_qual_raw2 _ _ _ (o_e s) _ _ _ R2 M E)].
    + left. intros A. apply W, Q in A. destruct A as (x' & A). discriminate.
    + revert E. unfold do_qual. destruct (negb _); discriminate.
  - (* f *) plain R1 R2. rewrite times_snoc. isx. rewrite w_f. reflexivity.
  - plain R1 R2. flag.
  - plain R1 R2. flag.
  - plain R1 R2. flag.
  - (* I *) destruct (parse_interruptible_arg s) as [n|] eqn:E; cbn [opt_res rbind].
    + apply interruptible_iff in E. argument R1 R2; [exists n; exact E|]. apply latest_yes. exact E.
    + left. intros (v & H). apply interruptible_iff in H. congruence.
  - (* kill *) plain R1 R2. flag.
  - (* o *) plain R1 R2; [apply latest_yes; reflexivity|flag].
  - (* p *) rewrite pid_tokens_between. destruct (pids (self e) (between s)) as [r|] eqn:E; cbn [opt_res rbind].
    + apply pids_ok in E. argument R1 R2; [exact (Forall2_wf _ _ _ E)|]. apply collected_snoc; [assumption|exact E].
    + left. exact (pids_bad _ _ E).
  - (* q *) plain R1 R2. rewrite times_snoc. isx. rewrite w_q. reflexivity.
  - (* r *) destruct (timescale s) as [n|] eqn:E; cbn [opt_res rbind].
    + apply timescale_iff in E. argument R1 R2; [exists n; exact E|]. apply latest_yes. exists n. split; [exact E|reflexivity].
    + left. intros (v & H). apply timescale_iff in H. congruence.
  - (* s *) destruct (string_to_uint s) as [n|] eqn:E; cbn [opt_res rbind].
    + apply to_uint in E. destruct (N.ltb_spec 1073741823 n) as [L|L].
      * left. intros (v & [H Hv]). destruct E as [E _]. destruct (C03_numeral_unique _ _ _ _ _ H E) as [-> _]. lia.
      * assert (H : number 1073741823 s n) by (destruct E as [E _]; split; [exact E|exact L]). argument R1 R2; [exists n; exact H|]. apply latest_yes. exact H.
    + left. intros (v & [H Hv]). assert (K : number int_max s v) by (split; [exact H|unfold int_max; lia]). apply to_uint in K. congruence.
  - (* t *) plain R1 R2. rewrite times_snoc. isx. rewrite w_t. reflexivity.
  - (* timestamps *) destruct (parse_ts_arg _ _) as [x'|] eqn:E; cbn [opt_res].
    + pose proof (parse_ts_wf _ _ _ E) as W. rewrite ts_text in W. apply parse_ts_ok in E. rewrite ts_text in E. destruct E as (f & p & Hf & Hp & ->). cbv zeta.
      split; [exact W|]. split.
      * assert (Tf : exists g b, latest r_fmt (l ++ [o_timestamps s]) 0 g /\ latest r_unstated (l ++ [o_timestamps s]) false b /\
            (match f with Some f => f | None => if tfmt x =? 0 then 1 else tfmt x end) = if (g =? 0) && b then 1 else g).
        { destruct (w_ts _ _ _ R1) as (g & b & Hg & Hb & Ht). destruct f as [f|].
          - exists f, false. split; [apply latest_yes; exact Hf|]. split; [apply latest_yes; exists (Some f); split; [exact Hf|reflexivity]|]. rewrite andb_false_r. reflexivity.
          - exists g, true. split; [apply latest_no; [|exact Hg]|]. { intros w H. pose proof (latest_fun _ _ _ _ _ format_fun Hf H). discriminate. }
            split; [apply latest_yes; exists None; split; [exact Hf|reflexivity]|]. rewrite Ht, andb_true_r. destruct (N.eqb_spec g 0) as [->|Ng]; cbn [andb].
            + destruct b; reflexivity.
            + destruct (N.eqb_spec g 0); [contradiction|reflexivity]. }
        assert (Td : latest r_dig (l ++ [o_timestamps s]) 0 (match p with Some d => d | None => tdig x end)).
        { destruct p as [d|]; [apply latest_yes; exact Hp|]. apply latest_no; [|exact (w_dig _ _ _ R1)]. intros w H. pose proof (latest_fun _ _ _ _ _ precision_fun Hp H). discriminate. }
        destruct R1. destruct p as [d|]; constructor; proj; keep; try flag; try assumption; try exact Tf; try exact Td; rewrite has_snoc; isx; rewrite orb_true_r; discriminate.
      * destruct p as [d|]; other R2.
    + left. apply parse_ts_bad in E. exact E.
  - (* T *) destruct (timescale s) as [n|] eqn:E; cbn [opt_res rbind].
    + apply timescale_iff in E. argument R1 R2; [exists n; exact E|]. apply latest_yes. exists n. split; [exact E|reflexivity].
    + left. intros (v & H). apply timescale_iff in H. congruence.
  - (* U *) plain R1 R2. flag.
  - (* v *) pose proof (do_qual_ok e x Abbrev (bs "none")) as Q. assert (M : sets o_v Abbrev (bs "none")) by (split; reflexivity). revert M Q. generalize (bs "none"). intros v M Q. pose proof (wf_qual e _ _ _ M I) as W.
    destruct (do_qual e x Abbrev v) as [x'| |] eqn:E.
    + split; [apply W, Q; eexists; reflexivity|]. split; [exact (raw1_qual _ _ _ o_v I (do_qual_raw1 _ _ _ _ _ _ R1 E))|exact (do_qual_raw2 _ _ _ o_v _ _ _ R2 M E)].
    + left. intros A. apply W, Q in A. destruct A as (x' & A). discriminate.
    + revert E. unfold do_qual. destruct (negb _); discriminate.
  - (* w *) plain R1 R2. flag.
  - (* x *) plain R1 R2. rewrite times_snoc. isx. rewrite w_x. clear. generalize (times is_x l). intros n. lia.
  - (* hex *) destruct (find_arg_val _ _ _) as [n|] eqn:E; cbn [opt_res rbind].
    + apply hex_iff in E. argument R1 R2; [exists n; exact E|apply latest_yes; exists n; split; [exact E|reflexivity]|flag].
    + left. intros (v & H). apply hex_iff in H. congruence.
  - (* X *) destruct (beqs s (bs "raw")) eqn:E1; [|destruct (beqs s (bs "abbrev")) eqn:E2; [|destruct (beqs s (bs "verbose")) eqn:E3]].
    + apply beqs_eq in E1. assert (K : xlat_kind s 1) by (rewrite E1; left; reflexivity). argument R1 R2; [exists 1; exact K|]. apply latest_yes. exact K.
    + apply beqs_eq in E2. assert (K : xlat_kind s 2) by (rewrite E2; right; left; reflexivity). argument R1 R2; [exists 2; exact K|]. apply latest_yes. exact K.
    + apply beqs_eq in E3. assert (K : xlat_kind s 3) by (rewrite E3; right; right; left; reflexivity). argument R1 R2; [exists 3; exact K|]. apply latest_yes. exact K.
    + left. intros (v & H). unfold xlat_kind in H. cbn [In] in H.
      destruct H as [H|[H|[H|[]]]]; apply pair_equal_spec in H; destruct H as [_ H]; symmetry in H; apply beqs_eq in H; congruence.
  - (* y *) plain R1 R2. rewrite times_snoc. isx. rewrite w_y. reflexivity.
  - (* Y *) pose proof (do_qual_ok e x DecodePid (bs "comm")) as Q. assert (M : sets o_Y DecodePid (bs "comm")) by (split; reflexivity). revert M Q. generalize (bs "comm"). intros v M Q. pose proof (wf_qual e _ _ _ M I) as W.
    destruct (do_qual e x DecodePid v) as [x'| |] eqn:E.
    + split; [apply W, Q; eexists; reflexivity|]. split; [exact (raw1_qual _ _ _ o_Y I (do_qual_raw1 _ _ _ _ _ _ R1 E))|exact (do_qual_raw2 _ _ _ o_Y _ _ _ R2 M E)].
    + left. intros A. apply W, Q in A. destruct A as (x' & A). discriminate.
    + revert E. unfold do_qual. destruct (negb _); discriminate.
  - (* pidns *) pose proof (do_qual_ok e x DecodePid (bs "pidns")) as Q. assert (M : sets o_pidns DecodePid (bs "pidns")) by (split; reflexivity). revert M Q. generalize (bs "pidns"). intros v M Q. pose proof (wf_qual e _ _ _ M I) as W.
    destruct (do_qual e x DecodePid v) as [x'| |] eqn:E.
    + split; [apply W, Q; eexists; reflexivity|]. split; [exact (raw1_qual _ _ _ o_pidns I (do_qual_raw1 _ _ _ _ _ _ R1 E))|exact (do_qual_raw2 _ _ _ o_pidns _ _ _ R2 M E)].
    + left. intros A. apply W, Q in A. destruct A as (x' & A). discriminate.
    + revert E. unfold do_qual. destruct (negb _); discriminate.
  - (* z *) split; [exact I|]. set (e' := {| program := program e; exitkill := exitkill e; seccomp_ok := seccomp_ok e; self := self e; valid := fun _ _ => true |}).
    assert (E : do_qual e' x Status (bs "successful") = Ok (set_quals x (fun k => if kind_eq_dec k Status then Some (bs "successful") else quals x k))) by reflexivity.
    split; [|exact (do_qual_raw2 _ _ _ o_z _ _ _ R2 (conj eq_refl eq_refl) E)]. apply (raw1_qual e l _ o_z I). destruct R1; constructor; proj; assumption.
  - (* Z *) split; [exact I|]. set (e' := {| program := program e; exitkill := exitkill e; seccomp_ok := seccomp_ok e; self := self e; valid := fun _ _ => true |}).
    assert (E : do_qual e' x Status (bs "failed") = Ok (set_quals x (fun k => if kind_eq_dec k Status then Some (bs "failed") else quals x k))) by reflexivity.
    split; [|exact (do_qual_raw2 _ _ _ o_Z _ _ _ R2 (conj eq_refl eq_refl) E)]. apply (raw1_qual e l _ o_Z I). destruct R1; constructor; proj; assumption.
  - (* seccomp *) plain R1 R2. flag.
  - (* limit *) destruct (string_to_uint_upto s (2^63 - 1)) as [n|] eqn:E; cbn [opt_res rbind].
    + apply upto in E; [|reflexivity]. destruct (N.eqb_spec n 0) as [->|Nz].
      * left. intros (v & H & Nv). apply Nv. exact (number_fun _ _ _ _ H E).
      * argument R1 R2; [exists n; split; assumption|apply latest_yes; exists n; repeat split; try assumption; apply E|flag].
    + left. intros (v & H & _). apply upto in H; [congruence|reflexivity].
  - (* argv0 *) plain R1 R2. flag.
  - (* show pid *) plain R1 R2. flag.
  - (* qual *)
    assert (G : forall v, sets (o_qual k s) k v -> match do_qual e x k v with
       | Ok x' => wf e (o_qual k s) /\ raw1 e (l ++ [o_qual k s]) x' /\ raw2 (l ++ [o_qual k s]) x'
       | Die => ~ wf e (o_qual k s) \/ (has is_c (l ++ [o_qual k s]) = true /\ has is_C (l ++ [o_qual k s]) = true)
       | Undef => False end).
    { intros v M. pose proof (do_qual_ok e x k v) as Q. pose proof (wf_qual e _ _ _ M I) as W. destruct (do_qual e x k v) as [x'| |] eqn:E.
      + split; [apply W, Q; eexists; reflexivity|]. split; [exact (raw1_qual _ _ _ (o_qual k s) I (do_qual_raw1 _ _ _ _ _ _ R1 E))|exact (do_qual_raw2 _ _ _ (o_qual k s) _ _ _ R2 M E)].
      + left. intros A. apply W, Q in A. destruct A as (x' & A). discriminate.
      + revert E. unfold do_qual. destruct (negb _); discriminate. }
    destruct s as [s|]; [apply G; split; reflexivity|].
    destruct k; try (left; intros (k & v & [-> H] & _); destruct H as [[H _]|[[H _]|[[H _]|[H _]]]]; discriminate H); apply G; (split; [reflexivity|]); tauto.
Qed.
