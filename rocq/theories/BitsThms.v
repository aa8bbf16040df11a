(** C47, C48. *)
From Coq Require Import Sorted.
From Verif Require Import Base QuoteProofs Printf BitsModel BitsSpec BitsProofs.
Local Open Scope N_scope.

(** C47: the smallest set bit at or after [cur] and below [size], or -1 if none; the byte
    order within words is given by [xm]. *)
Theorem C47_next_set_bit : forall arr xm cur size,
  size <= 2^32 - 8 -> cur < 2^32 -> covers arr xm size ->
  exists r, next_set_bit arr xm cur size = Ok r /\
    match r with
    | Some b => cur <= b < size /\ bit_set arr xm b /\ forall b', cur <= b' < b -> ~ bit_set arr xm b'
    | None => forall b', cur <= b' < size -> ~ bit_set arr xm b'
    end.
Proof. exact next_set_bit_spec. Qed.
Print Assumptions C47_next_set_bit.
Example ex_nsb : covers [0; 4; 129] 0 23 /\ next_set_bit [0; 4; 129] 0 0 23 = Ok (Some 10) /\
  next_set_bit [0; 4; 129] 0 11 23 = Ok (Some 16) /\ next_set_bit [0; 4; 129] 0 17 23 = Ok None /\
  next_set_bit [0; 0; 0; 1] 3 0 32 = Ok (Some 0).
Proof.
  repeat split. intros p Hp. rewrite N.lxor_0_r. cbn. lia.
Qed.

(** C48: the text of a mask is the list of the signals in it, or after `~' of those not in
    it, each once in increasing order, between brackets.
    Partial: -X verbose with a real-time signal in the mask is excluded, strace ends with an error there (see the refuted theorem). *)
Theorem C48_mask_text_partial : forall g st xm prefix mask bytes text,
  words g bytes * 32 <= 2^32 - 8 ->
  let m := firstn (N.to_nat (4 * words g bytes)) mask in
  bytes_ok mask -> covers m xm (words g bytes * 32) ->
  sprintsigmask_n g st xm prefix mask bytes = Ok text ->
  exists (inv : bool) (l : list nat),
    text = prefix ++ (if inv then bs "~" else []) ++ bs "[" ++ join (map (item g st) (map N.of_nat l)) ++ bs "]" /\
    StronglySorted lt l /\
    forall n, In n l <-> (1 <= n <= N.to_nat (words g bytes * 32))%nat /\ (if inv then ~ sig_in m xm n else sig_in m xm n).
Proof.
  intros g st xm prefix mask bytes text HS m HB HC E. subst m.
  destruct (sprintsigmask_ok g st xm prefix mask bytes text HS HC E) as (inv & T). subst text.
  set (m := firstn (N.to_nat (4 * words g bytes)) mask) in *.
  exists inv, (sigs (shown_mask inv m) xm 0 (N.to_nat (words g bytes * 32))). split; [reflexivity|]. split.
  - unfold sigs. generalize (fun n => bitb (shown_mask inv m) xm (N.of_nat n - 1)). intros f.
    assert (S : forall n s, StronglySorted lt (filter f (seq s n)) /\ Forall (fun k => (s <= k)%nat) (filter f (seq s n))).
    { induction n as [|n IH]; intros s; [split; constructor|]. cbn [seq filter]. destruct (IH (S s)) as [A B].
      assert (B' : Forall (fun k => (s <= k)%nat) (filter f (seq (S s) n))) by (eapply Forall_impl; [|exact B]; cbn; lia).
      destruct (f s); [|auto]. split; [|constructor; auto]. constructor; [exact A|]. eapply Forall_impl; [|exact B]. cbn; lia. }
    apply S.
  - intros n. rewrite sigs_in. unfold sig_in. split; intros [H1 H2]; (split; [exact H1|]); destruct inv; cbn [shown_mask] in *; auto.
    + apply bit_set_inv in H2; auto; [apply bytes_firstn; auto|]. apply HC. apply div8_lt. exact H1.
    + apply bit_set_inv; auto; [apply bytes_firstn; auto|]. apply HC. apply div8_lt. exact H1.
Qed.
Print Assumptions C48_mask_text_partial.

(** Equal texts come from equal sets.
    Partial: as above. *)
Theorem C48_lossless_partial : forall g st xm prefix m1 m2 bytes text,
  let w := words g bytes in
  w * 32 <= 2^32 - 8 -> names_ok g (N.to_nat (w * 32)) -> bytes_ok m1 -> bytes_ok m2 ->
  covers (firstn (N.to_nat (4 * w)) m1) xm (w * 32) -> covers (firstn (N.to_nat (4 * w)) m2) xm (w * 32) ->
  sprintsigmask_n g st xm prefix m1 bytes = Ok text -> sprintsigmask_n g st xm prefix m2 bytes = Ok text ->
  forall n, (1 <= n <= N.to_nat (w * 32))%nat ->
    sig_in (firstn (N.to_nat (4 * w)) m1) xm n <-> sig_in (firstn (N.to_nat (4 * w)) m2) xm n.
Proof. exact lossless. Qed.
Print Assumptions C48_lossless_partial.

(** the names in use are readable *)
Definition brkb (c : N) : bool := (c =? 32) || (c =? 93).
Definition names_check (g : sigcfg) (n : nat) : bool :=
  let names := map (fun i => signame_txt g XABBREV (N.of_nat i)) (seq 1 n) in
  forallb (fun s => match s with [] => false | _ => forallb (fun c => negb (brkb c)) s end) names &&
  forallb (fun i => forallb (fun j => implb (beqs (signame_txt g XABBREV (N.of_nat i)) (signame_txt g XABBREV (N.of_nat j))) (i =? j)%nat) (seq 1 n)) (seq 1 n).
Lemma names_check_ok g n : names_check g n = true -> names_ok g n.
Proof.
  intros H. apply andb_true_iff in H as [H1 H2]. rewrite forallb_forall in H1, H2. split.
  - intros i Hi. specialize (H1 (signame_txt g XABBREV (N.of_nat i)) ltac:(apply in_map_iff; exists i; split; [reflexivity|apply in_seq; lia])).
    destruct (signame_txt g XABBREV (N.of_nat i)) as [|c s]; [discriminate|]. split; [discriminate|].
    apply Forall_forall. intros x Hx. rewrite forallb_forall in H1. specialize (H1 x Hx). unfold brk, brkb in *.
    destruct (N.eqb_spec x 32), (N.eqb_spec x 93); cbn in H1; try discriminate. tauto.
  - intros i j Hi Hj E. specialize (H2 i ltac:(apply in_seq; lia)). rewrite forallb_forall in H2. specialize (H2 j ltac:(apply in_seq; lia)).
    rewrite E, beqs_refl in H2. cbn in H2. apply Nat.eqb_eq; auto.
Qed.
Lemma generic_names : names_ok generic_sigs 64.
Proof. apply names_check_ok. vm_compute. reflexivity. Qed.
Lemma names_ok_le g n k : (k <= n)%nat -> names_ok g n -> names_ok g k.
Proof. intros H [A B]. split; [intros i Hi; apply A; lia|intros i j Hi Hj; apply B; lia]. Qed.
Lemma generic_words bytes : words generic_sigs bytes <= 2.
Proof. unfold words. cbn [nsig_bytes generic_sigs]. assert ((N.min bytes 8 + 3) / 4 < 3) by (apply N.div_lt_upper_bound; lia). lia. Qed.
Lemma covers_le mask w : 4 * w <= N.of_nat (length mask) -> covers (firstn (N.to_nat (4 * w)) mask) 0 (w * 32).
Proof. intros H p Hp. rewrite N.lxor_0_r, firstn_length. lia. Qed.

(** With the common 64-signal tables on little-endian machines, a mask is always printed,
    and losslessly, in the default and the raw style... *)
Lemma body_len g st f : forall n s sep, (length (body g st sep (filter f (seq s n))) <=
  fold_right (fun i a => S (length (item g st (N.of_nat i))) + a) 0 (seq s n))%nat.
Proof.
  induction n as [|n IH]; intros s sep; [cbn; lia|]. cbn [seq filter fold_right]. destruct (f s).
  - cbn [body length]. rewrite app_length. specialize (IH (S s) 32). lia.
  - specialize (IH (S s) sep). lia.
Qed.
Theorem C48_generic_printed : forall st prefix mask bytes,
  st <> XVERBOSE -> (length prefix <= 16)%nat -> bytes_ok mask -> 4 * words generic_sigs bytes <= N.of_nat (length mask) ->
  exists text, sprintsigmask_n generic_sigs st 0 prefix mask bytes = Ok text.
Proof.
  intros st prefix mask bytes Hst HP HB HL. pose proof (generic_words bytes) as HW.
  apply sprintsigmask_fits; auto; [lia|apply covers_le; auto|].
  intros inv. rewrite <- text_eq, !app_length. cbn [length].
  set (w := words generic_sigs bytes) in *. set (l := sigs _ _ _ _).
  assert (LB : (length (body generic_sigs st 91 l) <= 400)%nat).
  { unfold l, sigs. etransitivity; [apply body_len|]. rewrite Nat.sub_0_r.
    assert (C : w = 0 \/ w = 1 \/ w = 2) by lia.
    destruct st; [|clear LB || idtac|congruence]; destruct C as [->|[->| ->]]; vm_compute; lia. }
  assert (C400 : out_cap generic_sigs = 464) by reflexivity. rewrite C400.
  assert (length (if inv then [126%N] else []) <= 1)%nat by (destruct inv; cbn; lia).
  match goal with |- context [length (if ?b then [91] else [])] => assert (length (if b then [91%N] else []) <= 1)%nat by (destruct b; cbn; lia) end.
  lia.
Qed.
Print Assumptions C48_generic_printed.
Theorem C48_generic_lossless : forall st prefix m1 m2 bytes text,
  let w := words generic_sigs bytes in
  bytes_ok m1 -> bytes_ok m2 -> 4 * w <= N.of_nat (length m1) -> 4 * w <= N.of_nat (length m2) ->
  sprintsigmask_n generic_sigs st 0 prefix m1 bytes = Ok text -> sprintsigmask_n generic_sigs st 0 prefix m2 bytes = Ok text ->
  forall n, (1 <= n <= N.to_nat (w * 32))%nat ->
    sig_in (firstn (N.to_nat (4 * w)) m1) 0 n <-> sig_in (firstn (N.to_nat (4 * w)) m2) 0 n.
Proof.
  intros st prefix m1 m2 bytes text w B1 B2 L1 L2. pose proof (generic_words bytes) as HW. fold w in HW.
  apply C48_lossless_partial; auto; try (apply covers_le; auto); fold w; [lia|].
  apply (names_ok_le _ 64); [lia|exact generic_names].
Qed.
Print Assumptions C48_generic_lossless.
(** ... but with -X verbose strace dies on a mask of the realtime signals: the text does not
    fit the buffer. *)
Theorem C48_verbose_dies_refuted : exists mask, bytes_ok mask /\ length mask = 8%nat /\
  sprintsigmask_n generic_sigs XVERBOSE 0 [] mask 8 = Die.
Proof. exists [0; 0; 0; 128; 255; 255; 255; 255]. split; [repeat constructor|]. split; [reflexivity|]. vm_compute. reflexivity. Qed.
Print Assumptions C48_verbose_dies_refuted.
Example ex_mask : sprintsigmask_n generic_sigs XABBREV 0 (bs "sa_mask=") [0; 64; 1; 0; 2; 0; 0; 0] 8 = Ok (bs "sa_mask=[TERM CHLD RT_2]") /\
  sprintsigmask_n generic_sigs XABBREV 0 [] [255; 254; 255; 255; 255; 255; 255; 255] 8 = Ok (bs "~[KILL]") /\
  sprintsigmask_n generic_sigs XVERBOSE 0 [] [1; 0; 0; 0] 4 = Ok (bs "[1 /* HUP */]") /\
  sprintsigmask_n generic_sigs XRAW 0 [] [0; 0; 0; 0] 4 = Ok (bs "[]").
Proof. vm_compute. repeat split. Qed.
