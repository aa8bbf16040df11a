From Verif Require Import Base AllocModel AllocThms BitsModel BitsSpec BitsThms PathModel PathSpec.
From Coq Require Import String.
Import ListNotations.
Local Open Scope N_scope.

Lemma rbind_ok {A B} (x : res A) (f : A -> res B) b :
  rbind x f = Ok b -> exists a, x = Ok a /\ f a = Ok b.
Proof. destruct x; cbn; intros H; try discriminate. eauto. Qed.

(** The set of paths. *)

Definition wf (s : pset) : Prop :=
  NoDup (sel s) /\ N.of_nat (List.length (sel s)) <= cap s /\ cap s < 2 ^ 64.

Lemma pathmatch_in p s : pathmatch p (Some s) = true <-> In p (sel s).
Proof.
  cbn. rewrite existsb_exists. split.
  - intros (x & Hx & E). apply beqs_eq in E. congruence.
  - intros H. exists p. split; [exact H|apply beqs_refl].
Qed.

Lemma grow_gt mal c n b : c < 2 ^ 64 ->
  xgrowarray 32 mal (c =? 0) c 8 = Ok (n, b) -> c < n /\ n < 2 ^ 64.
Proof.
  intros Hc H.
  destruct (C53_grow_partial 32 mal (c =? 0) c 8 n b) as (_ & B & C & D & E); auto; [split; cbn; lia|].
  split; [|lia]. destruct (N.eqb_spec c 0) as [->|]; [lia|]. apply E. reflexivity.
Qed.

Lemma storepath_spec mal p s : wf s ->
  match storepath mal p s with
  | Ok s' => wf s' /\ (forall q, In q (sel s') <-> In q (sel s) \/ q = p) /\
             (In p (sel s) -> s' = s)
  | Die => True
  | Undef => False
  end.
Proof.
  intros (HN & HL & HC). unfold storepath.
  destruct (pathmatch p (Some s)) eqn:Em.
  - apply pathmatch_in in Em. split; [split; auto|]. split; [|auto].
    intros q. split; [auto|]. intros [| ->]; auto.
  - assert (Hnot : ~ In p (sel s)).
    { intros X. apply pathmatch_in in X. congruence. }
    assert (X : forall c, N.of_nat (List.length (sel s)) < c -> c < 2 ^ 64 ->
      wf (mk_pset (sel s ++ [p]) c) /\
      (forall q, In q (sel (mk_pset (sel s ++ [p]) c)) <-> In q (sel s) \/ q = p) /\
      (In p (sel s) -> mk_pset (sel s ++ [p]) c = s)).
    { intros c H1 H2. split.
      - split; [|cbn; rewrite app_length; cbn; split; lia].
        cbn. apply NoDup_Add with (a := p) (l := sel s).
        + replace (sel s) with (sel s ++ []) at 1 by apply app_nil_r.
          apply Add_app.
        + auto.
      - split; [|tauto]. intros q. cbn. rewrite in_app_iff. cbn. intuition. }
    destruct (N.leb_spec (cap s) (N.of_nat (List.length (sel s)))) as [Hle|Hgt].
    + destruct (xgrowarray 32 mal (cap s =? 0) (cap s) 8) as [[n b]| |] eqn:Eg; cbn [rbind]; auto.
      * apply grow_gt in Eg; [|exact HC].
        destruct (N.ltb_spec (N.of_nat (List.length (sel s))) n); [|lia].
        apply X; lia.
      * unfold xgrowarray in Eg. revert Eg.
        assert (Y : forall g, rbind (Ok g) (fun grow : N => let n' := szmod 32 (cap s + grow) in
           if n' <? cap s then Die else rlet b := xallocarray 32 mal n' 8 in Ok (n', b)) <> Undef).
        { intros g. cbn [rbind]. cbv zeta. destruct (_ <? _); [discriminate|].
          unfold xallocarray. cbv zeta. destruct (_ && _); cbn; [discriminate|].
          destruct (mal _); cbn; discriminate. }
        destruct (cap s =? 0); [cbn [N.eqb Pos.eqb]|]; apply Y.
    + cbn [rbind].
      destruct (N.ltb_spec (N.of_nat (List.length (sel s))) (cap s)); [|lia].
      apply X; auto.
Qed.

Lemma select_spec mal p r s : wf s ->
  match select_set mal p r s with
  | Ok s' => wf s' /\ (forall q, In q (sel s') <-> In q (sel s) \/ q = p \/ r = Some q) /\
             (In p (sel s) -> (forall q, r = Some q -> In q (sel s)) -> s' = s)
  | Die => True
  | Undef => False
  end.
Proof.
  intros HW. unfold select_set. pose proof (storepath_spec mal p s HW) as H1.
  destruct (storepath mal p s) as [s1| |]; cbn [rbind]; auto.
  destruct H1 as (W1 & I1 & D1).
  destruct r as [rp|].
  - destruct (beqs p rp) eqn:Eb.
    + apply beqs_eq in Eb. subst rp. split; [exact W1|]. split; [|auto].
      intros q. rewrite I1. split; [tauto|]. intros [X|[X|X]]; auto.
      injection X as ->. auto.
    + pose proof (storepath_spec mal rp s1 W1) as H2.
      destruct (storepath mal rp s1) as [s2| |]; auto.
      destruct H2 as (W2 & I2 & D2). split; [exact W2|]. split.
      * intros q. rewrite I2, I1. split.
        -- intros [[X|X]|X]; auto. subst q. auto.
        -- intros [X|[X|X]]; auto. injection X as ->. auto.
      * intros A B. rewrite D2; [auto|]. apply I1. left. apply B. reflexivity.
  - split; [exact W1|]. split; [|auto]. intros q. rewrite I1. intuition; discriminate.
Qed.

Lemma select_all_spec mal h : forall s, wf s ->
  match select_all mal h s with
  | Ok s' => wf s' /\ (forall q, In q (sel s') <-> In q (sel s) \/ selected h q)
  | Die => True
  | Undef => False
  end.
Proof.
  induction h as [|[p r] h IH]; intros s HW; cbn [select_all].
  - split; [exact HW|]. intros q. split; [auto|]. intros [H|(p & r & [] & _)]; exact H.
  - pose proof (select_spec mal p r s HW) as H1.
    destruct (select_set mal p r s) as [s1| |]; cbn [rbind]; auto.
    destruct H1 as (W1 & I1 & _). specialize (IH s1 W1).
    destruct (select_all mal h s1) as [s2| |]; auto.
    destruct IH as (W2 & I2). split; [exact W2|].
    intros q. rewrite I2, I1. unfold selected. split.
    + intros [[H|H]|(p' & r' & HI & H)]; auto.
      * right. exists p, r. split; [left; reflexivity|exact H].
      * right. exists p', r'. split; [right; exact HI|exact H].
    + intros [H|(p' & r' & [HI|HI] & H)]; auto.
      * injection HI as -> ->. auto.
      * right. exists p', r'. auto.
Qed.

Lemma wf_empty : wf empty_pset.
Proof. split; [constructor|]. cbn. lia. Qed.

(** A set as used by the matcher: what was selected. *)
Definition holds (set : option pset) h : Prop :=
  match set with
  | Some s => forall q, In q (sel s) <-> selected h q
  | None => h = []
  end.

Lemma holds_match set h q : holds set h ->
  pathmatch q set = true <-> selected h q.
Proof.
  intros H. destruct set as [s|].
  - rewrite pathmatch_in. apply H.
  - cbn in *. subst h. split; [discriminate|]. intros (p & r & [] & _).
Qed.

Lemma upathmatch_spec e set h a : holds set h ->
  upathmatch e a set = true <-> path_hits e h a.
Proof.
  intros H. unfold path_hits.
  transitivity (exists p, ustr e a = Some p /\ pathmatch p set = true).
  - unfold upathmatch. destruct set as [s|].
    + destruct (ustr e a) as [p|]; split.
      * intros E. eauto.
      * intros (q & Q & E). congruence.
      * discriminate.
      * intros (q & Q & _). discriminate.
    + split; [discriminate|]. intros (p & _ & X). exact X.
  - split; intros (p & A & B); exists p; split; auto; apply (holds_match set h p H); exact B.
Qed.

Lemma fdmatch_spec e set h fdset fd : holds set h ->
  fdmatch e fd set fdset = true <-> fd_hits e h fdset fd.
Proof.
  intros H. unfold fd_hits, fdmatch.
  assert (P : (match set with
       | None => false
       | Some _ => match fdpath e fd with Some p => pathmatch p set | None => false end
       end = true) <-> exists p, fdpath e fd = Some p /\ selected h p).
  { destruct (fdpath e fd) as [p|] eqn:Ep.
    - transitivity (pathmatch p set = true).
      + destruct set; [tauto|]. cbn. tauto.
      + rewrite (holds_match set h p H). split; [eauto|]. intros (q & Q & E). congruence.
    - split; [destruct set; discriminate|]. intros (p & Q & _). discriminate. }
  destruct fdset as [f|].
  - destruct (Z.leb_spec 0 fd); cbn [andb].
    + destruct (f fd) eqn:Ef.
      * split; auto. intros _. left. eauto.
      * rewrite P. split; auto. intros [(g & G1 & G2 & G3)|]; auto. congruence.
    + rewrite P. split; auto. intros [(g & G1 & G2 & G3)|]; auto. lia.
  - rewrite P. split; auto. intros [(g & G1 & G2 & G3)|]; auto. discriminate.
Qed.

(** The dispatcher: operands tested by each simple group. *)
Definition ops (g : group) (tf : bool) : option (list (kind * nat)) :=
  match g with
  | G_fd_fd => Some [(Fd, 0); (Fd, 1)]%nat
  | G_fd_path => Some [(Fd, 0); (Path, 1)]%nat
  | G_path_path => Some [(Path, 0); (Path, 1)]%nat
  | G_x_path => Some [(Path, 1)]%nat
  | G_fd_path_fd_path => Some [(Fd, 0); (Fd, 2); (Path, 1); (Path, 3)]%nat
  | G_mmap => Some [(Fd, 4)]%nat
  | G_x_fd_path => Some [(Fd, 1); (Path, 2)]%nat
  | G_fd_x_fd => Some [(Fd, 0); (Fd, 2)]%nat
  | G_epoll_ctl => Some [(Fd, 2)]%nat
  | G_none => Some []
  | G_default => Some [((if tf then Path else Fd), 0%nat)]
  | _ => None
  end.

Definition hitb (e : env) (set : option pset) fdset (args : nat -> N) (o : kind * nat) : bool :=
  match fst o with
  | Fd => fdmatch e (to_int (args (snd o))) set fdset
  | Path => upathmatch e (args (snd o)) set
  | Oth => false
  end.

Lemma match_ops e ws ll set fdset sen tf td tn args l :
  tf || td || tn = true -> ops (group_of sen) tf = Some l ->
  match_set e ws ll set fdset sen tf td tn args = Ok (existsb (hitb e set fdset args) l).
Proof.
  intros HF HO. unfold match_set. rewrite HF. cbn [negb].
  destruct (group_of sen); cbn [ops] in HO; try discriminate;
    injection HO as <-; cbn [existsb hitb fst snd]; unfold hitb; cbn [fst snd];
    rewrite ?orb_false_r, ?orb_assoc; auto.
  destruct tf; [reflexivity|]. cbn [orb] in HF. rewrite HF. reflexivity.
Qed.

(** Same operands. *)
Fixpoint sig_ops (i : nat) (sig : list kind) : list (kind * nat) :=
  match sig with
  | [] => []
  | Oth :: s => sig_ops (S i) s
  | k :: s => (k, i) :: sig_ops (S i) s
  end.

Lemma sig_ops_in sig : forall i k n, In (k, n) (sig_ops i sig) <->
  k <> Oth /\ (i <= n)%nat /\ nth_error sig (n - i) = Some k.
Proof.
  induction sig as [|k0 s IH]; intros i k n; cbn [sig_ops].
  - split; [intros []|]. intros (_ & _ & H). destruct (n - i)%nat; discriminate.
  - assert (X : In (k, n) (sig_ops (S i) s) <->
       k <> Oth /\ (S i <= n)%nat /\ nth_error (k0 :: s) (n - i) = Some k).
    { rewrite IH. split; intros (A & B & C); split; auto; split; try lia.
      - replace (n - i)%nat with (S (n - S i)) by lia. exact C.
      - replace (n - i)%nat with (S (n - S i)) in C by lia. exact C. }
    assert (Y : k0 <> Oth -> (k, n) = (k0, i) \/ In (k, n) (sig_ops (S i) s) <->
       k <> Oth /\ (i <= n)%nat /\ nth_error (k0 :: s) (n - i) = Some k).
    { intros Hk. rewrite X. split.
      - intros [E|(A & B & C)]; [|split; auto; split; [lia|auto]].
        injection E as -> ->. split; auto. split; [lia|]. rewrite Nat.sub_diag. reflexivity.
      - intros (A & B & C). destruct (Nat.eq_dec n i) as [->|Hn].
        + left. rewrite Nat.sub_diag in C. cbn in C. congruence.
        + right. split; auto. split; [lia|auto]. }
    destruct k0.
    + cbn [In]. rewrite <- Y by discriminate. intuition.
    + cbn [In]. rewrite <- Y by discriminate. intuition.
    + rewrite X. split; intros (A & B & C); split; auto; split; auto; [lia|].
      destruct (Nat.eq_dec n i) as [->|Hn]; [|lia].
      rewrite Nat.sub_diag in C. cbn in C. congruence.
Qed.

Definition keq (a b : kind) : bool :=
  match a, b with Fd, Fd | Path, Path | Oth, Oth => true | _, _ => false end.
Definition oeq (a b : kind * nat) : bool := keq (fst a) (fst b) && Nat.eqb (snd a) (snd b).
Definition inclb (a b : list (kind * nat)) : bool :=
  forallb (fun x => existsb (oeq x) b) a.

Lemma oeq_eq a b : oeq a b = true -> a = b.
Proof.
  destruct a as [k n], b as [k' n']. unfold oeq. cbn. intros H.
  apply andb_true_iff in H as (A & B). apply Nat.eqb_eq in B. subst.
  destruct k, k'; try discriminate; reflexivity.
Qed.

Lemma inclb_incl a b : inclb a b = true -> incl a b.
Proof.
  unfold inclb. rewrite forallb_forall. intros H x Hx. specialize (H x Hx).
  apply existsb_exists in H as (y & Hy & E). apply oeq_eq in E. congruence.
Qed.

Definition row_ok (r : string * bool * bool * bool * list kind) : bool :=
  let '(s, tf, td, tn, sig) := r in
  (tf || td || tn) &&
  match ops (group_of (bs s)) tf with
  | Some l => inclb l (sig_ops 0 sig) && inclb (sig_ops 0 sig) l
  | None => false
  end.

Lemma manual_ok : forallb row_ok manual = true.
Proof. vm_compute. reflexivity. Qed.

Lemma hitb_spec e set h fdset args k n : holds set h ->
  hitb e set fdset args (k, n) = true <-> arg_hits e h fdset k (args n).
Proof.
  intros H. unfold hitb. cbn [fst snd]. destruct k; cbn [arg_hits].
  - apply fdmatch_spec, H.
  - apply upathmatch_spec, H.
  - split; [discriminate|tauto].
Qed.

Lemma row_match e ws ll set h fdset args s tf td tn sig :
  holds set h -> row_ok (s, tf, td, tn, sig) = true ->
  exists b, match_set e ws ll set fdset (bs s) tf td tn args = Ok b /\
  (b = true <-> exists i k, nth_error sig i = Some k /\ arg_hits e h fdset k (args i)).
Proof.
  intros HH HR. unfold row_ok in HR. apply andb_true_iff in HR as (HF & HR).
  destruct (ops (group_of (bs s)) tf) as [l|] eqn:Eo; [|discriminate].
  apply andb_true_iff in HR as (H1 & H2). apply inclb_incl in H1, H2.
  eexists. split; [eapply match_ops; eauto|].
  rewrite existsb_exists. split.
  - intros ([k n] & HI & HB). apply (hitb_spec e set h fdset args k n HH) in HB.
    apply H1, sig_ops_in in HI as (_ & _ & HN). rewrite Nat.sub_0_r in HN. eauto.
  - intros (i & k & HN & HA). exists (k, i). split.
    + apply H2, sig_ops_in. split; [intros ->; exact HA|]. split; [lia|].
      rewrite Nat.sub_0_r. exact HN.
    + apply (hitb_spec e set h fdset args k i HH). exact HA.
Qed.

(** poll *)
Lemma poll_loop_spec e set h fdset : holds set h -> forall fuel cur n,
  (n < fuel)%nat -> cur + 8 * N.of_nat n < 2 ^ 64 ->
  exists b, poll_loop fuel e set fdset cur (cur + 8 * N.of_nat n) = Ok b /\
  (b = true <-> exists k, (k < n)%nat /\
     (forall j, (j <= k)%nat -> pollfd e (cur + 8 * N.of_nat j) <> None) /\
     exists fd, pollfd e (cur + 8 * N.of_nat k) = Some fd /\ fd_hits e h fdset fd).
Proof.
  intros HH. induction fuel as [|fuel IH]; intros cur n Hf Hw; [lia|].
  cbn [poll_loop]. destruct n as [|n].
  - destruct (N.ltb_spec cur (cur + 8 * N.of_nat 0)); [lia|].
    exists false. split; [reflexivity|]. split; [discriminate|]. intros (k & Hk & _). lia.
  - destruct (N.ltb_spec cur (cur + 8 * N.of_nat (S n))); [|lia].
    destruct (pollfd e cur) as [fd|] eqn:Ep.
    + destruct (fdmatch e fd set fdset) eqn:Em.
      * exists true. split; [reflexivity|]. split; [|auto]. intros _.
        exists O. split; [lia|]. split.
        -- intros j Hj. replace j with O by lia. rewrite N.add_0_r. congruence.
        -- exists fd. rewrite N.add_0_r. split; [exact Ep|].
           apply (fdmatch_spec e set h); auto.
      * unfold u64. rewrite N.mod_small by lia.
        replace (cur + 8 * N.of_nat (S n)) with (cur + 8 + 8 * N.of_nat n) in * by lia.
        destruct (IH (cur + 8) n) as (b & Hb & Hs); [lia|lia|].
        exists b. split; [exact Hb|]. rewrite Hs. split.
        -- intros (k & Hk & HA & HE). exists (S k). split; [lia|]. split.
           ++ intros [|j] Hj; [rewrite N.add_0_r; congruence|].
              replace (cur + 8 * N.of_nat (S j)) with (cur + 8 + 8 * N.of_nat j) by lia.
              apply HA. lia.
           ++ replace (cur + 8 * N.of_nat (S k)) with (cur + 8 + 8 * N.of_nat k) by lia.
              exact HE.
        -- intros ([|k] & Hk & HA & fd' & HE & Hh).
           ++ rewrite N.add_0_r, Ep in HE. injection HE as <-.
              apply (fdmatch_spec e set h) in Hh; auto. congruence.
           ++ exists k. split; [lia|]. split.
              ** intros j Hj. specialize (HA (S j)).
                 replace (cur + 8 * N.of_nat (S j)) with (cur + 8 + 8 * N.of_nat j) in HA by lia.
                 apply HA. lia.
              ** exists fd'. split; auto.
                 replace (cur + 8 * N.of_nat (S k)) with (cur + 8 + 8 * N.of_nat k) in HE by lia.
                 exact HE.
    + exists false. split; [reflexivity|]. split; [discriminate|].
      intros (k & Hk & HA & _). exfalso. apply (HA O); [lia|]. rewrite N.add_0_r. exact Ep.
Qed.

(** select *)
Lemma xsel_bits_spec e set h fdset fds nfds : holds set h ->
  nfds <= 2 ^ 32 - 8 -> covers fds 0 nfds -> forall fuel j,
  j <= nfds -> (N.to_nat (nfds - j) + 1 < fuel)%nat ->
  exists b, xsel_bits fuel e set fdset fds j nfds = Ok b /\
  (b = true <-> exists k, j <= k < nfds /\ bit_set fds 0 k /\ fd_hits e h fdset (Z.of_N k)).
Proof.
  intros HH Hn HC. induction fuel as [|fuel IH]; intros j Hj Hf; [lia|].
  cbn [xsel_bits].
  destruct (C47_next_set_bit fds 0 j nfds Hn) as (r & Hr & Hs); [lia|exact HC|].
  rewrite Hr. cbn [rbind]. destruct r as [b|].
  - destruct Hs as (Hb & Hset & Hmin).
    destruct (fdmatch e (Z.of_N b) set fdset) eqn:Em.
    + exists true. split; [reflexivity|]. split; [|auto]. intros _. exists b.
      split; [lia|]. split; [exact Hset|]. apply (fdmatch_spec e set h); auto.
    + destruct (IH (b + 1)) as (c & Hc & Hs); [lia|lia|].
      exists c. split; [exact Hc|]. rewrite Hs. split.
      * intros (k & Hk & HB & HF). exists k. split; [lia|auto].
      * intros (k & Hk & HB & HF). exists k. split; [|auto].
        assert (k <> b). { intros ->. apply (fdmatch_spec e set h) in HF; auto. congruence. }
        assert (~ k < b). { intros X. apply (Hmin k); [lia|exact HB]. }
        lia.
  - exists false. split; [reflexivity|]. split; [discriminate|].
    intros (k & Hk & HB & _). exfalso. apply (Hs k Hk HB).
Qed.

Lemma xsel_sets_spec e set h fdset fdsize nfds : holds set h ->
  nfds <= 2 ^ 32 - 8 -> 
  (forall a l, ubytes e a fdsize = Some l -> covers l 0 nfds) ->
  forall addrs, exists b, xsel_sets e set fdset addrs fdsize nfds = Ok b /\
  (b = true <-> exists a fds k, In a addrs /\ a <> 0 /\ ubytes e a fdsize = Some fds /\
     k < nfds /\ bit_set fds 0 k /\ fd_hits e h fdset (Z.of_N k)).
Proof.
  intros HH Hn HC. induction addrs as [|a l (b & Hb & Hs)].
  - exists false. split; [reflexivity|]. split; [discriminate|].
    intros (a & fds & k & [] & _).
  - cbn [xsel_sets].
    destruct (N.eqb_spec a 0) as [->|Ha].
    + exists b. split; [exact Hb|]. rewrite Hs. split.
      * intros (a & fds & k & HI & HR). exists a, fds, k. split; [right; exact HI|exact HR].
      * intros (a & fds & k & [<-|HI] & H0 & HR); [congruence|]. exists a, fds, k. auto.
    + destruct (ubytes e a fdsize) as [fds|] eqn:Eu.
      * destruct (xsel_bits_spec e set h fdset fds nfds HH Hn (HC _ _ Eu)
          (S (S (N.to_nat nfds))) 0) as (c & Hc & Hcs); [lia|lia|].
        rewrite Hc. cbn [rbind]. destruct c.
        -- exists true. split; [reflexivity|]. split; [|auto]. intros _.
           destruct (proj1 Hcs eq_refl) as (k & Hk & HB & HF).
           exists a, fds, k. split; [left; reflexivity|]. split; [exact Ha|].
           split; [exact Eu|]. split; [lia|auto].
        -- exists b. split; [exact Hb|]. rewrite Hs. split.
           ++ intros (a' & fds' & k & HI & HR). exists a', fds', k. split; [right; exact HI|exact HR].
           ++ intros (a' & fds' & k & [<-|HI] & H0 & HU & HR); [|exists a', fds', k; auto].
              rewrite Eu in HU. injection HU as <-.
              assert (X : false = true); [|discriminate].
              apply Hcs. exists k. destruct HR as (H1 & H2 & H3). split; [lia|auto].
      * exists b. split; [exact Hb|]. rewrite Hs. split.
        -- intros (a' & fds & k & HI & HR). exists a', fds, k. split; [right; exact HI|exact HR].
        -- intros (a' & fds & k & [<-|HI] & H0 & HU & HR); [congruence|]. exists a', fds, k. auto.
Qed.

Lemma covers_len l nfds : nfds <= 8 * N.of_nat (List.length l) -> covers l 0 nfds.
Proof. intros H p Hp. rewrite N.lxor_0_r. lia. Qed.

Lemma fdsize_ge ws n : (ws = 4 \/ ws = 8) -> n <= 8 * (((n + 7) / 8 + ws - 1) / ws * ws).
Proof.
  intros [->| ->].
  - pose proof (N.div_mod (n + 7) 8 ltac:(lia)). pose proof (N.mod_lt (n + 7) 8 ltac:(lia)).
    set (q := (n + 7) / 8) in *. clearbody q.
    pose proof (N.div_mod (q + 4 - 1) 4 ltac:(lia)). pose proof (N.mod_lt (q + 4 - 1) 4 ltac:(lia)).
    lia.
  - pose proof (N.div_mod (n + 7) 8 ltac:(lia)). pose proof (N.mod_lt (n + 7) 8 ltac:(lia)).
    set (q := (n + 7) / 8) in *. clearbody q.
    pose proof (N.div_mod (q + 8 - 1) 8 ltac:(lia)). pose proof (N.mod_lt (q + 8 - 1) 8 ltac:(lia)).
    lia.
Qed.
