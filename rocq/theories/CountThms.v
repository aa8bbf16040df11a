(** C40, C59: the system call summary. *)
From Verif Require Import Base TimeModel TimeSpec TimeProofs CountModel CountSpec CountProofs.
From Coq Require Import String Sorted Permutation.
Import ListNotations.
Local Open Scope N_scope.

Lemma sane_filter g f h : Forall (sane g) h -> Forall (sane g) (filter f h).
Proof.
  rewrite !Forall_forall. intros H e He. apply filter_In in He as (He & _). auto.
Qed.

(** C40: after any sequence of completed calls, each known call that occurred
    has the exact number of calls and of failures, and the exact sum, minimum
    and maximum of the times charged. *)
Theorem C40_counters : forall g h,
  normal (overhead g) -> Forall (sane g) h -> N.of_nat (List.length h) < 2 ^ 64 ->
  exists cv, count_all g no_counts h = Some cv /\
  forall p k, (k < nsys g p)%nat -> of_call p k h <> [] ->
  exists l c, cv p = Some l /\ nth_error l k = Some c /\ exact g (of_call p k h) c.
Proof.
  intros g h HO HS HL.
  destruct (inv_run g h HO HS [] no_counts (inv0 g)) as (cv & E & HI).
  exists cv. split; [exact E|]. intros p k Hk Hne. specialize (HI p). cbn [app] in HI.
  destruct (cv p) as [l|].
  - destruct HI as (_ & HLen & HA).
    destruct (nth_error l k) as [c|] eqn:En; [|apply nth_error_None in En; lia].
    exists l, c. split; [reflexivity|]. split; [exact En|].
    apply agrees_exact; auto; [apply sane_filter, HS|].
    pose proof (filter_len (fun e => Nat.eqb (v_pers e) p && (v_scno e =? N.of_nat k)) h).
    unfold of_call. lia.
  - exfalso. apply Hne. unfold of_pers in HI. unfold of_call. clear -HI Hk.
    induction h as [|a h IH]; [reflexivity|]. cbn [filter] in *.
    destruct (Nat.eqb (v_pers a) p); cbn [andb] in *; auto.
    destruct (N.ltb_spec (v_scno a) (N.of_nat (nsys g p))); [discriminate|].
    destruct (N.eqb_spec (v_scno a) (N.of_nat k)); [lia|auto].
Qed.
Print Assumptions C40_counters.

(** C40: a table is printed for exactly the personalities in which known
    calls occurred. *)
Theorem C40_tables : forall g h cv,
  normal (overhead g) -> Forall (sane g) h ->
  count_all g no_counts h = Some cv ->
  forall p, cv p = None <-> of_pers g p h = [].
Proof.
  intros g h cv HO HS E p.
  destruct (inv_run g h HO HS [] no_counts (inv0 g)) as (cv' & E' & HI).
  rewrite E in E'. injection E' as <-. specialize (HI p). cbn [app] in HI.
  destruct (cv p) as [l|].
  - destruct HI as (X & _). split; [discriminate|congruence].
  - split; auto.
Qed.
Print Assumptions C40_tables.

(** C40: the table has exactly one row for each call that occurred, with its
    exact counters; the totals are those of all the known calls of the
    personality.  [sort] is what qsort does to the array of indices; every
    call that occurred must have a name in the table of system calls. *)
Theorem C40_summary : forall g h cv p l sort names,
  normal (overhead g) -> Forall (sane g) h -> N.of_nat (List.length h) < 2 ^ 64 ->
  count_all g no_counts h = Some cv -> cv p = Some l ->
  (forall l' ix, Permutation (sort l' ix) ix) ->
  (forall k, (k < nsys g p)%nat -> of_call p k h <> [] ->
     exists s, nth_error names k = Some (Some s)) ->
  exists t rs, call_summary_pers sort names l = Ok (t, rs) /\
    t_calls t = N.of_nat (List.length (of_pers g p h)) /\
    t_errors t = N.of_nat (List.length (failed (of_pers g p h))) /\
    ns (t_cum t) = sum (map (charged g) (of_pers g p h)) /\
    is_min (ns (t_min t)) (map (charged g) (of_pers g p h)) /\
    is_max (ns (t_max t)) (map (charged g) (of_pers g p h)) /\
    NoDup (map fst rs) /\
    (forall k, In k (map fst rs) <-> (k < nsys g p)%nat /\ of_call p k h <> []) /\
    (forall k c, In (k, c) rs -> exact g (of_call p k h) c).
Proof.
  intros g h cv p l sort names HO HS HL E Ep Hsort HN.
  destruct (inv_run g h HO HS [] no_counts (inv0 g)) as (cv' & E' & HI).
  rewrite E in E'. injection E' as <-. specialize (HI p). cbn [app] in HI. rewrite Ep in HI.
  destruct HI as (Hne & HLen & HA).
  destruct (tally_all_spec g p h HS HL l names 0 totals0) as (t & l' & ET & TA & F2).
  { intros k c Hk. apply HA. exact Hk. }
  { intros k Hk. rewrite HLen in Hk. apply HN. exact Hk. }
  { rewrite below_0. apply tagrees0. }
  unfold call_summary_pers. rewrite ET. cbn [rbind].
  exists t, (rows l' (sort l' (seq 0 (List.length l)))). split; [reflexivity|].
  cbn [Nat.add] in TA. rewrite HLen in TA |- *.
  change (below p (nsys g p) h) with (of_pers g p h) in TA.
  destruct TA as (T1 & T2 & (_ & T3) & (_ & _ & T4) & (_ & _ & T5)).
  pose proof (filter_len (fun e => Nat.eqb (v_pers e) p && (v_scno e <? N.of_nat (nsys g p))) h) as L1.
  fold (of_pers g p h) in L1.
  pose proof (filter_len v_err (of_pers g p h)) as L2. fold (failed (of_pers g p h)) in L2.
  split; [rewrite T1; apply N.mod_small; lia|].
  split; [rewrite T2; apply N.mod_small; lia|].
  split; [exact T3|]. split; [apply T4, Hne|]. split; [apply T5, Hne|].
  pose proof (Hsort l' (seq 0 (nsys g p))) as HP.
  assert (Hlen' : List.length l' = nsys g p).
  { rewrite <- HLen. clear -F2. induction F2; cbn; congruence. }
  assert (HC : forall k c', nth_error l' k = Some c' -> c_calls c' <> 0 ->
     (k < nsys g p)%nat /\ of_call p k h <> [] /\ exact g (of_call p k h) c').
  { intros k c' Hk Hc.
    assert (Hkl : (k < nsys g p)%nat) by (rewrite <- Hlen'; apply nth_error_Some; congruence).
    split; [exact Hkl|].
    destruct (nth_error l k) as [c|] eqn:En; [|apply nth_error_None in En; lia].
    assert (W : with_avg c c').
    { clear -F2 Hk En. revert k Hk En. induction F2 as [|a b l l' W F IH]; intros k Hk En.
      - destruct k; discriminate.
      - destruct k as [|k]; cbn in *; [congruence|eauto]. }
    destruct W as (W1 & W2 & W3 & W4 & W5 & _).
    pose proof (HA k c En) as Hag.
    assert (Hn : of_call p k h <> []).
    { intros X. rewrite X in Hag. destruct Hag as (X1 & _). apply Hc. rewrite W1, X1. reflexivity. }
    split; [exact Hn|].
    assert (He : exact g (of_call p k h) c).
    { apply agrees_exact; auto; [apply sane_filter, HS|].
      pose proof (filter_len (fun e => Nat.eqb (v_pers e) p && (v_scno e =? N.of_nat k)) h).
      unfold of_call. lia. }
    unfold exact in *. rewrite W1, W2, W3, W4, W5. exact He. }
  split; [|split].
  - apply rows_nodup. eapply Permutation_NoDup; [apply Permutation_sym, HP|]. apply seq_NoDup.
  - intros k. split.
    + intros X. apply in_map_iff in X as ([k' c'] & Ek & HIn). cbn in Ek. subst k'.
      apply rows_in in HIn as (_ & Hk & Hc). destruct (HC k c' Hk Hc) as (A & B & _). auto.
    + intros (Hk & Hn). destruct (nth_error l' k) as [c'|] eqn:En; [|apply nth_error_None in En; lia].
      apply in_map_iff. exists (k, c'). split; [reflexivity|]. apply rows_in.
      split; [|split; [exact En|]].
      * eapply Permutation_in; [apply Permutation_sym, HP|]. apply in_seq. lia.
      * destruct (nth_error l k) as [c|] eqn:El; [|apply nth_error_None in El; lia].
        assert (W : with_avg c c').
        { clear -F2 En El. revert k El En. induction F2 as [|a b l l' W F IH]; intros k El En.
          - destruct k; discriminate.
          - destruct k as [|k]; cbn in *; [congruence|eauto]. }
        destruct W as (W1 & _). rewrite W1.
        destruct (HA k c El) as (A1 & _). rewrite A1.
        pose proof (filter_len (fun e => Nat.eqb (v_pers e) p && (v_scno e =? N.of_nat k)) h).
        fold (of_call p k h) in H. unfold u64. rewrite N.mod_small by lia.
        destruct (of_call p k h); [congruence|]. cbn. lia.
  - intros k c' HIn. apply rows_in in HIn as (_ & Hk & Hc). apply (HC k c' Hk Hc).
Qed.
Print Assumptions C40_summary.

(** C40: the average shown is the sum divided by the number of calls, rounded
    to the nearest nanosecond.  Partial: sums below 2^33 seconds only (see
    C17_div_refuted). *)
Theorem C40_average_partial : forall t c name t' c',
  tally t c (Some name) = Ok (t', c') ->
  normal (c_time c) -> (0 <= sec (c_time c) < 2 ^ 33)%Z -> 1 <= c_calls c < 2 ^ 64 ->
  ns (c_avg c') = ((ns (c_time c) + Z.of_N (c_calls c) / 2) / Z.of_N (c_calls c))%Z.
Proof.
  intros t c name t' c' H HN HR HC. cbn [tally] in H. injection H as _ <-. cbn [c_avg].
  apply ts_div_ns; [exact HN|exact HR|]. change (2 ^ 64)%Z with (Z.of_N (2 ^ 64)). lia.
Qed.
Print Assumptions C40_average_partial.

(** C40: the orders: rows are compared by decreasing time. *)
Theorem C40_orders : forall a b,
  normal (c_time a) -> normal (c_time b) -> normal (c_min a) -> normal (c_min b) ->
  normal (c_max a) -> normal (c_max b) ->
  ((time_cmp a b < 0)%Z <-> (ns (c_time a) > ns (c_time b))%Z) /\
  ((min_time_cmp a b < 0)%Z <-> (ns (c_min a) > ns (c_min b))%Z) /\
  ((max_time_cmp a b < 0)%Z <-> (ns (c_max a) > ns (c_max b))%Z) /\
  (normal (c_avg a) -> normal (c_avg b) -> ((avg_time_cmp a b < 0)%Z <-> (ns (c_avg a) > ns (c_avg b))%Z)) /\
  (c_calls a < 2 ^ 32 -> c_calls b < 2 ^ 32 ->
     ((count_cmp a b < 0)%Z <-> c_calls b < c_calls a)) /\
  (c_errors a < 2 ^ 32 -> c_errors b < 2 ^ 32 ->
     ((error_cmp a b < 0)%Z <-> c_errors b < c_errors a)).
Proof.
  intros a b A1 B1 A2 B2 A3 B3.
  assert (X : forall x y, normal x -> normal y -> ((- ts_cmp x y < 0)%Z <-> (ns x > ns y)%Z)).
  { intros x y Hx Hy. destruct (ts_cmp_ns x y Hx Hy) as (C1 & C2 & C3).
    split; intros H.
    - destruct (Z.lt_total (ns x) (ns y)) as [L|[L|L]].
      + apply C1 in L. lia.
      + apply C2 in L. lia.
      + lia.
    - apply C3 in H. lia. }
  assert (Y : forall x y, x < 2 ^ 32 -> y < 2 ^ 32 -> ((u32_cmp x y < 0)%Z <-> y < x)).
  { intros x y Hx Hy. unfold u32_cmp, u32. rewrite !N.mod_small by assumption. cbv zeta.
    destruct (N.ltb_spec x y); [lia|]. destruct (N.ltb_spec y x); lia. }
  split; [apply X; auto|]. split; [apply X; auto|]. split; [apply X; auto|]. split; [intros; apply X; auto|].
  split; intros; apply Y; auto.
Qed.
Print Assumptions C40_orders.

(** C40 fails for counters from 2^32 on: a call that occurred 2^32 times is
    ordered after one that occurred once. *)
Theorem C40_order_refuted : exists a b,
  c_calls b < c_calls a /\ (count_cmp a b > 0)%Z.
Proof.
  exists (mk_cc zero_ts zero_ts zero_ts zero_ts (2 ^ 32) 0),
         (mk_cc zero_ts zero_ts zero_ts zero_ts 1 0).
  vm_compute. auto.
Qed.
Print Assumptions C40_order_refuted.

Definition ex_t (s n : Z) : ts := {| sec := s; nsec := n |}.
Definition ex_ev (p : nat) (k : N) (err : bool) (a b : ts) : ev :=
  mk_ev p k err b a zero_ts zero_ts.
Definition ex_cfg : cfg := mk_cfg (fun _ => 4%nat) true (ex_t 0 100).

(** C40 fails for a call number inside of the table that has no entry there
    (e.g. 400 on x86_64): it is counted, and the summary then takes the
    length of its name, which is NULL. *)
Theorem C40_gap_refuted : exists g h cv l names sort,
  normal (overhead g) /\ Forall (sane g) h /\ count_all g no_counts h = Some cv /\
  cv 0%nat = Some l /\ List.length names = nsys g 0%nat /\
  call_summary_pers sort names l = Undef.
Proof.
  pose (e := ex_ev 0 2 true (ex_t 1 0) (ex_t 1 500)).
  destruct (count_all ex_cfg no_counts [e]) as [cv|] eqn:E; [|vm_compute in E; discriminate].
  destruct (cv 0%nat) as [l|] eqn:El.
  2:{ vm_compute in E. injection E as <-. vm_compute in El. discriminate. }
  exists ex_cfg, [e], cv, l, [Some (bs "read"); Some (bs "write"); None; Some (bs "close")], (fun _ ix => ix).
  split; [unfold normal; cbn; lia|]. split.
  { constructor; [|constructor]. unfold sane, normal. vm_compute. intuition; discriminate. }
  split; [exact E|]. split; [exact El|]. split; [reflexivity|].
  vm_compute in E. injection E as <-. vm_compute in El. injection El as <-. vm_compute. reflexivity.
Qed.
Print Assumptions C40_gap_refuted.

(** C59: -U accepts exactly the comma separated lists of names of distinct
    columns, and shows these columns in this order, followed by the names
    of the calls unless they are among them; the array of columns is never
    overrun and always ends with an empty slot. *)
Theorem C59_columns : forall s,
  set_count_summary_columns s <> Undef /\
  (forall r, set_count_summary_columns s = Ok r -> (List.length r <= 8)%nat /\ NoDup r /\ In CSC_SC_NAME r) /\
  (forall r, set_count_summary_columns s = Ok r <->
     exists ws cs, ws <> [] /\ s = join_comma ws /\ Forall2 names_column ws cs /\ NoDup cs /\
       r = cs ++ (if existsb (N.eqb CSC_SC_NAME) cs then [] else [CSC_SC_NAME])).
Proof.
  intros s.
  assert (V0 : valid_cols []) by (split; constructor).
  destruct (columns_loop_spec (S (List.length s)) s [] ltac:(lia) V0) as (HU & HR).
  unfold set_count_summary_columns.
  assert (VR : forall cs ws, Forall2 names_column ws cs -> Forall (fun c => 1 <= c < 9) cs).
  { intros cs ws H. induction H as [|w c ws cs Hw H IH]; constructor; auto.
    apply find_column_spec in Hw. apply find_column_first in Hw as (_ & X). exact X. }
  destruct (columns_loop (S (List.length s)) s []) as [cols| |] eqn:El.
  - cbn [rbind].
    destruct (proj1 (HR cols) eq_refl) as (ws & cs & H0 & H1 & H2 & H3 & H4).
    cbn [app] in H3, H4. subst cs.
    assert (Uq : forall ws' cs', ws' <> [] -> s = join_comma ws' -> Forall2 names_column ws' cs' ->
       NoDup cs' -> cs' = cols).
    { intros ws' cs' A B C D. assert (X : Ok cols = Ok ([] ++ cs')); [|injection X; auto].
      apply HR. exists ws', cs'. split; [exact A|]. split; [exact B|]. split; [exact C|].
      split; [|reflexivity]. split; [exact D|]. eapply VR; eauto. }
    destruct (existsb (N.eqb CSC_SC_NAME) cols) eqn:Ex.
    + split; [discriminate|]. split.
      * intros r E. injection E as <-. split; [apply valid_len; exact H3|].
        split; [apply H3|]. apply existsb_eqb. exact Ex.
      * intros r. split.
        -- intros E. injection E as <-. exists ws, cols.
           rewrite Ex, app_nil_r. repeat (split; [solve [auto|apply H3]|]). reflexivity.
        -- intros (ws' & cs' & A & B & C & D & ->). rewrite (Uq ws' cs' A B C D), Ex, app_nil_r.
           reflexivity.
    + assert (Hn : ~ In CSC_SC_NAME cols) by (intros X; apply existsb_eqb in X; congruence).
      rewrite (put_ok _ _ H3).
      pose proof (valid_snoc cols CSC_SC_NAME H3 Hn ltac:(unfold CSC_SC_NAME; lia)) as HV.
      split; [discriminate|]. split.
      * intros r E. injection E as <-. split; [apply valid_len, HV|]. split; [apply HV|].
        apply in_app_iff. right. left. reflexivity.
      * intros r. split.
        -- intros E. injection E as <-. exists ws, cols. rewrite Ex.
           repeat (split; [solve [auto|apply H3]|]). reflexivity.
        -- intros (ws' & cs' & A & B & C & D & ->). rewrite (Uq ws' cs' A B C D), Ex.
           reflexivity.
  - cbn [rbind]. split; [discriminate|]. split; [discriminate|]. intros r. split; [discriminate|].
    intros (ws & cs & A & B & C & D & ->). assert (X : @Die (list N) = Ok ([] ++ cs)); [|discriminate].
    apply HR. exists ws, cs. split; [exact A|]. split; [exact B|]. split; [exact C|].
    split; [|reflexivity]. split; [exact D|]. eapply VR; eauto.
  - congruence.
Qed.
Print Assumptions C59_columns.

(** Concrete cases. *)
Definition ex_h : list ev :=
  [ex_ev 0 1 false (ex_t 1 0) (ex_t 1 500); ex_ev 0 3 true (ex_t 2 0) (ex_t 2 50);
   ex_ev 1 1 false (ex_t 1 0) (ex_t 9 0); ex_ev 0 1 true (ex_t 1 900000000) (ex_t 3 0);
   ex_ev 0 77 false (ex_t 1 0) (ex_t 2 0)].

Example ex_sane : normal (overhead ex_cfg) /\ Forall (sane ex_cfg) ex_h.
Proof.
  split; [unfold normal; cbn; lia|].
  repeat constructor; unfold sane, normal; vm_compute; intuition discriminate.
Qed.

Example ex_counts :
  match count_all ex_cfg no_counts ex_h with
  | Some cv =>
      match cv 0%nat with
      | Some l =>
          match call_summary_pers (fun _ ix => ix)
                  [None; Some (bs "write"); None; Some (bs "close")] l with
          | Ok (t, rs) => (t_calls t, t_errors t, ns (t_cum t), ns (t_min t), ns (t_max t),
                           map fst rs, map (fun r => c_calls (snd r)) rs)
          | _ => (0, 0, 0%Z, 0%Z, 0%Z, [], [])
          end
      | None => (0, 0, 0%Z, 0%Z, 0%Z, [], [])
      end
  | None => (0, 0, 0%Z, 0%Z, 0%Z, [], [])
  end = (3, 2, 1100000300%Z, 0%Z, 1099999900%Z, [1; 3]%nat, [2; 1]).
Proof. vm_compute. reflexivity. Qed.

Example ex_columns :
  set_count_summary_columns (bs "calls,time-total,errors") = Ok [6; 2; 7; 8] /\
  set_count_summary_columns (bs "name,calls") = Ok [8; 6] /\
  set_count_summary_columns (bs "calls,count") = Die /\
  set_count_summary_columns (bs "calls,") = Die /\
  set_count_summary_columns (bs "none") = Die /\
  set_count_summary_columns (bs "time,time-total,min-time,max-time,avg-time,calls,errors") =
    Ok [1; 2; 3; 4; 5; 6; 7; 8].
Proof. vm_compute. repeat split. Qed.
