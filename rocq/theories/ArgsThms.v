(** C63: 64-bit arguments. *)
From Verif Require Import Base ArgsModel ArgsSpec ArgsProofs PathModel PathSpec PathProofs PathThms.
Local Open Scope N_scope.

(** C63: if the registers hold the arguments as the calling convention says, every argument is
    printed with its value, in the order of the manual page. *)
Theorem C63_arguments v be adv1 s regs vals : (adv1 = true -> v = Even) ->
  passed v be regs 0 (prototype adv1 s) vals ->
  read_args v be regs 0 (decoder adv1 s) = printed_order adv1 s vals.
Proof.
  intros Hadv H.
  assert (Hadv2 : s = L_fadvise64_64 -> adv1 = true -> v = Even) by auto. clear Hadv.
  destruct s; cbn [prototype decoder printed_order] in *; try (destruct adv1; cbn [prototype decoder printed_order] in * );
  repeat (match goal with
   | H : passed _ _ _ _ [] _ |- _ => apply width_nil in H; subst
   | H : passed _ _ _ ?i (W :: _) ?v |- _ =>
       let x := fresh "x" in let k := fresh "k" in destruct (width_cons _ _ _ _ _ _ _ H) as (x & k & ->);
       let E := fresh "E" in apply word_read in H as [E H]; subst x
   | H : passed _ _ _ ?i (L :: _) ?v |- _ =>
       let x := fresh "x" in let k := fresh "k" in let n := fresh "n" in let E := fresh "E" in let B := fresh "B" in
       destruct (width_cons _ _ _ _ _ _ _ H) as (x & k & ->);
       apply long_read in H as (n & E & H & B); [|lia]
   end);
  cbn [read_args] in *.
  all: change 0 with (N.of_nat 0) in *; change 1 with (N.of_nat 1) in *; change 2 with (N.of_nat 2) in *; change 3 with (N.of_nat 3) in *.
  all: try (rewrite (Hadv2 eq_refl eq_refl) in *;
            change (getllval Even be regs (N.of_nat 1)) with (getllval Even be regs (N.of_nat 2))).
  all: repeat (match goal with E : getllval _ _ _ (N.of_nat ?n) = _ |- context [getllval _ _ _ (N.of_nat ?n)] => rewrite E end).
  all: rewrite ?Nnat.Nat2N.id; try reflexivity.
  all: repeat f_equal; lia.
Qed.
Print Assumptions C63_arguments.

(** C63: the offset of preadv and pwritev, which the kernel takes as two words whose low one
    comes first whatever the byte order. *)
Theorem C63_low_high (k8 : bool) (regs : nat -> N) arg x : x < 2^64 ->
  (if k8 then regs arg = x else regs arg = x mod 2^32 /\ regs (S arg) mod 2^32 = x / 2^32) ->
  low_high_val k8 regs arg = x.
Proof.
  intros Hx H. unfold low_high_val. destruct k8; [exact H|]. destruct H as [H1 H2].
  rewrite H1, (high_part _ _ H2), N.lor_comm. apply lor_split.
Qed.
Print Assumptions C63_low_high.
(** If the low word is sign-extended, the offset is shown wrong. *)
Theorem C63_low_high_refuted : exists (regs : nat -> N) (x : N), x < 2^64 /\ regs 3%nat mod 2^32 = x mod 2^32 /\ regs 4%nat mod 2^32 = x / 2^32 /\
  low_high_val false regs 3 <> x.
Proof.
  exists (fun i => match i with 3%nat => 2^64 - 2^31 | _ => 1 end), (2^32 + 2^31).
  repeat split; discriminate.
Qed.
Print Assumptions C63_low_high_refuted.

(** Concrete cases: ARM's fadvise64_64; sync_file_range on SH, i386 and x86_64. *)
Example ex_arm : read_args Even false (fun i => nth i [3; 4; 5; 1; 6; 2] 0) 0 (decoder true L_fadvise64_64) = [3; 2^32 + 5; 2^33 + 6; 4]
  /\ passed Even false (fun i => nth i [3; 4; 5; 1; 6; 2] 0) 0 (prototype true L_fadvise64_64) [3; 4; 2^32 + 5; 2^33 + 6].
Proof.
  split; [reflexivity|]. apply passed_w; [reflexivity|]. apply passed_w; [reflexivity|].
  apply (passed_pair _ _ _ 2 2); [discriminate|split; [lia|split; [reflexivity|intros; lia]]|reflexivity|split; reflexivity|].
  apply (passed_pair _ _ _ 4 4); [discriminate|split; [lia|split; [reflexivity|intros; lia]]|reflexivity|split; reflexivity|].
  constructor.
Qed.
Example ex_sync :
  read_args Sh false (fun i => nth i [3; 4; 5; 99; 6; 2; 7] 0) 0 (decoder false L_sync_file_range) = [3; 5 * 2^32 + 4; 2^33 + 6; 7] /\
  read_args Pair false (fun i => nth i [3; 4; 5; 6; 2; 7] 0) 0 (decoder false L_sync_file_range) = [3; 5 * 2^32 + 4; 2^33 + 6; 7] /\
  read_args Pair true (fun i => nth i [3; 5; 4; 2; 6; 7] 0) 0 (decoder false L_sync_file_range) = [3; 5 * 2^32 + 4; 2^33 + 6; 7] /\
  read_args One false (fun i => nth i [3; 2^40; 2^50; 7] 0) 0 (decoder false L_sync_file_range) = [3; 2^40; 2^50; 7].
Proof. repeat split; reflexivity. Qed.

(** C41: fanotify_mark, whose dirfd and pathname follow a 64-bit mask. *)
Theorem C41_fanotify_mark mal h set e ws fdset v be regs vals : built mal h set ->
  passed v be regs 0 (prototype false L_fanotify_mark) vals ->
  exists b dirfd pathname,
    nth_error vals 3 = Some dirfd /\ nth_error vals 4 = Some pathname /\
    match_set e ws (N.to_nat (snd (getllval v be regs 2))) set fdset (bs "fanotify_mark") true true false regs = Ok b /\
    (b = true <-> fd_hits e h fdset (to_int dirfd) \/ path_hits e h pathname).
Proof.
  intros HB H. apply built_holds in HB. cbn [prototype] in H.
  destruct (width_cons _ _ _ _ _ _ _ H) as (x1 & k1 & ->). apply word_read in H as [_ H].
  destruct (width_cons _ _ _ _ _ _ _ H) as (x2 & k2 & ->). apply word_read in H as [_ H].
  destruct (width_cons _ _ _ _ _ _ _ H) as (x3 & k3 & ->). apply long_read in H as (n & E & H & _); [|lia].
  destruct (width_cons _ _ _ _ _ _ _ H) as (x4 & k4 & ->). apply word_read in H as [E4 H].
  destruct (width_cons _ _ _ _ _ _ _ H) as (x5 & k5 & ->). apply word_read in H as [E5 H].
  change 2 with (N.of_nat 2). rewrite E. cbn [snd]. rewrite Nnat.Nat2N.id.
  unfold match_set. cbn [orb negb]. change (group_of (bs "fanotify_mark")) with G_fanotify_mark. cbv iota.
  rewrite E4, E5. eexists _, x4, x5. split; [reflexivity|]. split; [reflexivity|]. split; [reflexivity|].
  rewrite orb_true_iff, (fdmatch_spec e set h fdset _ HB), (upathmatch_spec e set h _ HB). tauto.
Qed.
Print Assumptions C41_fanotify_mark.
Example ex_fanotify : match_set ex_env 4 (N.to_nat (snd (getllval Even false (fun i => nth i [3; 1; 4; 5; 9; 4096] 0) 2)))
  None (Some (fun fd => (fd =? 9)%Z)) (bs "fanotify_mark") true true false (fun i => nth i [3; 1; 4; 5; 9; 4096] 0) = Ok true.
Proof. reflexivity. Qed.
