(** C80: what -yy shows of a socket. *)
From Verif Require Import Base Printf QuoteModel QuoteSpec InfoSpec InfoThms DiagModel DiagSpec DiagProofs.
Local Open Scope N_scope.

(** What the kernel sends consists of bytes. *)
Definition sane (a : ask) : Prop := forall r l, reply (aw a) r = Some l -> Forall bytes_ok l.
(** When nothing is found, the inode alone is shown, if the protocol is known. *)
Definition bare (a : ask) (o : option (list N)) : Prop :=
  o = match known (aproto a) with Some p => Some (pname p ++ bs ":[" ++ pr_num 10 (ainode a) ++ bs "]") | None => None end.

Lemma step_ok e a c : sane a -> exists f, (forall c, lookup e (aw a) (ainode a) (aproto a) c = Ok (f, store c (ainode a) f)) /\
  (forall d, f = Some d -> told e a d) /\
  exists o, (forall c, uncached e (aw a) (ainode a) (aproto a) c = Ok (o, store c (ainode a) f)) /\ (f = None -> bare a o) /\ (forall d, f = Some d -> o = Some d) /\
  get_sockaddr_by_inode e (aw a) (ainode a) (aproto a) c =
    Ok (match get_cached c (ainode a) with Some d => (Some d, c) | None => (o, store c (ainode a) f) end).
Proof.
  intros S. destruct (lookup_ok e (aw a) (ainode a) (aproto a) S) as (f & E & T). exists f. split; [exact E|]. split.
  { intros d ->. destruct a. exact T. }
  assert (U : exists o, (forall c, uncached e (aw a) (ainode a) (aproto a) c = Ok (o, store c (ainode a) f)) /\ (f = None -> bare a o) /\ (forall d, f = Some d -> o = Some d)).
  { unfold uncached, bare. destruct f as [d|].
    - exists (Some d). split; [intros c'; rewrite E; reflexivity|]. split; [discriminate|auto].
    - exists (match known (aproto a) with Some p => Some (pname p ++ bs ":[" ++ pr_num 10 (ainode a) ++ bs "]") | None => None end).
      split; [|split; [auto|discriminate]]. intros c'. rewrite E. cbn [rbind]. rewrite protocol_known. destruct (known (aproto a)); reflexivity. }
  destruct U as (o & U1 & U2 & U3). exists o. split; [exact U1|]. split; [exact U2|]. split; [exact U3|].
  unfold get_sockaddr_by_inode. destruct (get_cached c (ainode a)); [reflexivity|apply U1].
Qed.

(** Whatever the kernel answers, no byte outside the message is read and no buffer overflows. *)
Theorem C80_safe : forall e l, Forall sane l -> exists ds c, run e l init = Ok (ds, c) /\ length ds = length l.
Proof.
  intros e l. generalize init. induction l as [|a l IH]; intros c S; [exists [], c; auto|]. inversion S; subst.
  destruct (step_ok e a c H1) as (f & _ & _ & o & _ & _ & _ & E). cbn [run]. rewrite E.
  destruct (get_cached c (ainode a)) as [d|]; cbn [rbind].
  - destruct (IH c H2) as (ds & c' & R & L). rewrite R. cbn [rbind]. exists (Some d :: ds), c'. cbn [length]. auto.
  - destruct (IH (store c (ainode a) f) H2) as (ds & c' & R & L). rewrite R. cbn [rbind]. exists (o :: ds), c'. cbn [length]. auto.
Qed.
Print Assumptions C80_safe.

(** In any run, what is shown of a socket is what the kernel told of this very socket -- now, or when it
    was asked for before -- in the words of the protocol; or else the bare inode.  It is never about another socket. *)
Lemma own_from e : forall l c ds c' (T : N -> list N -> Prop), Forall sane l ->
  (forall i d, get_cached c i = Some d -> T i d) -> run e l c = Ok (ds, c') ->
  forall k a o, nth_error l k = Some a -> nth_error ds k = Some o ->
  bare a o \/ exists d, o = Some d /\ (T (ainode a) d \/ exists j a', (j <= k)%nat /\ nth_error l j = Some a' /\ ainode a' = ainode a /\ told e a' d).
Proof.
  induction l as [|b l IH]; intros c ds c' T S C R k a o Ka Ko; [destruct k; discriminate|]. inversion S; subst.
  destruct (step_ok e b c H1) as (f & _ & FT & ob & _ & OB & OF & E). cbn [run] in R. rewrite E in R.
  set (c1 := match get_cached c (ainode b) with Some _ => c | None => store c (ainode b) f end).
  set (o1 := match get_cached c (ainode b) with Some d => Some d | None => ob end).
  assert (R' : exists ds1, run e l c1 = Ok (ds1, c') /\ ds = o1 :: ds1).
  { unfold c1, o1. destruct (get_cached c (ainode b)); cbn [rbind] in R;
      match type of R with context [run e l ?x] => destruct (run e l x) as [[ds1 c2]| |] end; cbn [rbind] in R; try discriminate; injection R as <- <-; eauto. }
  clear R. destruct R' as (ds1 & R & ->).
  assert (C1 : forall i d, get_cached c1 i = Some d -> T i d \/ (i = ainode b /\ f = Some d)).
  { intros i d. unfold c1. destruct (get_cached c (ainode b)); [auto|]. destruct f as [df|]; cbn [store]; [|auto]. intros G. apply cached_other in G. destruct G as [[-> ->]|G]; auto. }
  destruct k as [|k].
  - injection Ka as ->. injection Ko as <-. unfold o1. destruct (get_cached c (ainode a)) as [d|] eqn:G.
    + right. exists d. split; [reflexivity|]. left. auto.
    + destruct f as [d|]; [|left; auto]. right. exists d. split; [auto|]. right. exists 0%nat, a. repeat split; auto.
  - destruct (IH c1 ds1 c' (fun i d => T i d \/ (i = ainode b /\ f = Some d)) H2 C1 R k a o Ka Ko) as [B|(d & -> & X)]; [left; auto|].
    right. exists d. split; [reflexivity|]. destruct X as [[X|[X1 X2]]|(j & a' & J & N & I & Td)].
    + left. auto.
    + right. exists 0%nat, b. repeat split; auto; lia.
    + right. exists (1 + j)%nat, a'. repeat split; auto; lia.
Qed.
Theorem C80_own : forall e l ds c, Forall sane l -> run e l init = Ok (ds, c) ->
  forall k a o, nth_error l k = Some a -> nth_error ds k = Some o ->
  bare a o \/ exists d, o = Some d /\ exists j a', (j <= k)%nat /\ nth_error l j = Some a' /\ ainode a' = ainode a /\ told e a' d.
Proof.
  intros e l ds c S R k a o Ka Ko.
  destruct (own_from e l init ds c (fun _ _ => False) S) with (k := k) (a := a) (o := o) as [B|(d & -> & [[]|X])]; auto; [|right; eauto].
  intros i d. unfold get_cached, init. cbn [fst snd]. destruct (i =? 0); discriminate.
Qed.
Print Assumptions C80_own.

(** Remembering is invisible as long as the answers do not change: if asking for a socket with nothing
    remembered always gives the same, then it is shown every time, whatever else is asked for in between. *)
Theorem C80_steady : forall e l (F : N -> option (list N)) ds c, Forall sane l ->
  (forall a, In a l -> exists c', get_sockaddr_by_inode e (aw a) (ainode a) (aproto a) init = Ok (F (ainode a), c')) ->
  run e l init = Ok (ds, c) -> ds = map (fun a => F (ainode a)) l.
Proof.
  intros e l F ds c S A R.
  assert (G : forall l c ds c', Forall sane l -> (forall i d, get_cached c i = Some d -> F i = Some d) ->
    (forall a, In a l -> exists c', get_sockaddr_by_inode e (aw a) (ainode a) (aproto a) init = Ok (F (ainode a), c')) ->
    run e l c = Ok (ds, c') -> ds = map (fun a => F (ainode a)) l).
  { clear. induction l as [|b l IH]; intros c ds c' S C A R; [injection R as <- _; reflexivity|]. inversion S; subst.
    destruct (step_ok e b init H1) as (f0 & L0 & _ & o0 & U0 & _ & O0 & E0).
    assert (I0 : get_cached init (ainode b) = None) by (unfold get_cached, init; cbn [fst snd]; destruct (ainode b =? 0); reflexivity).
    rewrite I0 in E0. destruct (A b (or_introl eq_refl)) as (c2 & A2). rewrite E0 in A2. injection A2 as FB _.
    cbn [run] in R. unfold get_sockaddr_by_inode in R. cbn [map].
    assert (A' : forall a, In a l -> exists c', get_sockaddr_by_inode e (aw a) (ainode a) (aproto a) init = Ok (F (ainode a), c')) by (intros; apply A; right; auto).
    destruct (get_cached c (ainode b)) as [d|] eqn:G; cbn [rbind] in R.
    - destruct (run e l c) as [[ds1 c3]| |] eqn:R1; cbn [rbind] in R; try discriminate. injection R as <- <-. rewrite (C _ _ G).
      f_equal. eapply IH; eauto.
    - rewrite U0 in R. cbn [rbind] in R. destruct (run e l (store c (ainode b) f0)) as [[ds1 c3]| |] eqn:R1; cbn [rbind] in R; try discriminate.
      injection R as <- <-. rewrite FB. f_equal. eapply (IH (store c (ainode b) f0)); eauto.
      intros i d. destruct f0 as [df|]; cbn [store]; [|auto]. intros X. apply cached_other in X. destruct X as [[-> ->]|X]; auto. rewrite <- FB. apply O0. reflexivity. }
  eapply (G l init); eauto. intros i d. unfold get_cached, init. cbn [fst snd]. destruct (i =? 0); discriminate.
Qed.
Print Assumptions C80_steady.

(** A socket the kernel tells of is found, wherever in the answer: behind any number of datagrams and
    messages about other sockets. *)
Theorem C80_found : forall e l a p before l1 m l2 rest t ds c,
  Forall sane (l ++ [a]) -> ~ In (ainode a) (map ainode l) ->
  known (aproto a) = Some p -> opened (aw a) = true ->
  reply (aw a) (question e p (ainode a)) = Some (map datagram before ++ datagram (l1 ++ m :: l2) :: rest) ->
  let other m := wellformed p m /\ bytes_ok m /\ inode_of p m <> ainode a in
  Forall (fun g => g <> [] /\ Forall other g /\ N.of_nat (length (datagram g)) <= 8192) before ->
  Forall other l1 -> N.of_nat (length (datagram (l1 ++ m :: l2))) <= 8192 ->
  wellformed p m -> bytes_ok m -> inode_of p m = ainode a -> text_of e p m t ->
  run e (l ++ [a]) init = Ok (ds, c) ->
  exists d, nth_error ds (length l) = Some (Some d) /\ says e p m (ainode a) d.
Proof.
  intros e l a p before l1 m l2 rest t ds c SN NI K O R other B L1 S8 W BM IN TX RUN.
  assert (FP : fam_ok p).
  { apply protos_fam. destruct (aproto a) as [|n]; [discriminate|]. cbn [known] in K. eapply nth_error_In; eauto. }
  destruct (pparse_ok e p m (ainode a) FP BM) as (r & E & PR).
  assert (PD : exists d, r = Pos d /\ says e p m (ainode a) d).
  { destruct r as [| |d]; cbn [parsed] in PR.
    - exfalso. destruct PR as [PR|[_ PR]]; [destruct W as (_ & W & _); lia|eapply PR; eauto].
    - exfalso. destruct PR. auto.
    - exists d. split; [auto|]. destruct PR as (_ & P2 & P3). split; [auto|]. split; auto. }
  destruct PD as (d & -> & SY).
  assert (LK : forall c, lookup e (aw a) (ainode a) (aproto a) c = Ok (Some d, store c (ainode a) (Some d))).
  { intros c0. unfold lookup. destruct (aproto a) as [|n] eqn:EN; [discriminate|]. pose proof K as K'. cbn [known] in K.
    replace (S (length protocols) <=? S n)%nat with false.
    2:{ symmetry. apply Nat.leb_gt. pose proof (proj1 (nth_error_Some protos n) ltac:(congruence)) as LT. rewrite rows, map_length. lia. }
    rewrite O. cbn [negb]. rewrite protocol_known, K'. cbn [option_map]. unfold get_details, row_of. rewrite request_question, R.
    cbn [app]. pose proof (receive_found e p (ainode a) FP before l1 m l2 rest d B L1 W E S8) as RF. unfold pparse in RF. rewrite RF. cbn [rbind]. rewrite cached_same. reflexivity. }
  exists d. split; [|exact SY].
  assert (G : forall l c ds c', Forall sane (l ++ [a]) -> get_cached c (ainode a) = None -> ~ In (ainode a) (map ainode l) -> run e (l ++ [a]) c = Ok (ds, c') -> nth_error ds (length l) = Some (Some d)).
  { clear -LK. induction l as [|b l IH]; intros c ds c' S G NI RUN.
    - cbn [app run] in RUN. unfold get_sockaddr_by_inode in RUN. rewrite G in RUN. unfold uncached in RUN. rewrite LK in RUN. cbn [rbind] in RUN. injection RUN as <- _. reflexivity.
    - cbn [app] in S. inversion S; subst. destruct (step_ok e b c H1) as (f & _ & _ & ob & _ & _ & _ & E). cbn [app run] in RUN. rewrite E in RUN. cbn [map In] in NI.
      destruct (get_cached c (ainode b)) as [db|]; cbn [rbind] in RUN.
      + destruct (run e (l ++ [a]) c) as [[ds1 c2]| |] eqn:R1; cbn [rbind] in RUN; try discriminate. injection RUN as <- <-. cbn [length nth_error]. eapply IH; eauto.
      + destruct (run e (l ++ [a]) (store c (ainode b) f)) as [[ds1 c2]| |] eqn:R1; cbn [rbind] in RUN; try discriminate. injection RUN as <- <-. cbn [length nth_error].
        eapply (IH (store c (ainode b) f)); eauto. destruct (get_cached (store c (ainode b) f) (ainode a)) as [x|] eqn:X; [|reflexivity].
        exfalso. destruct f as [df|]; cbn [store] in X; [|congruence]. apply cached_other in X. destruct X as [[X _]|X]; [|congruence]. apply NI. left. auto. }
  eapply (G l init); eauto. unfold get_cached, init. cbn [fst snd]. destruct (ainode a =? 0); reflexivity.
Qed.
Print Assumptions C80_found.

(** * Cases *)
Definition le2 (n : N) : list N := [n mod 256; n / 256].
Definition le4 (n : N) : list N := [n mod 256; n / 256 mod 256; n / 65536 mod 256; n / 16777216].
Definition msg (body : list N) : list N := le4 (16 + N.of_nat (length body)) ++ le2 20 ++ repeat 0 10 ++ body.
Definition attr (ty : N) (d : list N) : list N := le2 (4 + N.of_nat (length d)) ++ le2 ty ++ d.
Definition unix_msg (ino : N) (attrs : list (list N)) : list N := msg ([1; 1; 1; 0] ++ le4 ino ++ repeat 255 8 ++ concat (map pad attrs)).
Definition tcp_msg (ino : N) (sport dport : list N) (src dst : list N) : list N :=
  msg ([2; 1; 0; 0] ++ sport ++ dport ++ src ++ repeat 0 12 ++ dst ++ repeat 0 40 ++ le4 ino).
Definition ex_env : env := {| ntop6 := fun _ => []; xflag := HEXSTR_NONE; os_release := 0x060000 |}.
Definition answers (l : list (list N)) : world := {| opened := true; reply := fun _ => Some l |}.
Definition look (l : list (list N)) (i : N) (p : nat) : ask := {| aw := answers l; ainode := i; aproto := p |}.

Definition web : list N := tcp_msg 77 [0; 80] [48; 57] [127; 0; 0; 1] [10; 0; 0; 5].
Definition ex_tcp : list (list N) := [datagram [tcp_msg 76 [0; 22] [0; 0] [0; 0; 0; 0] [0; 0; 0; 0]]; datagram [tcp_msg 1101 [1; 187] [0; 0] [127; 0; 0; 1] [0; 0; 0; 0]; web]].
(** 77 and 1101 share an entry of the cache *)
Example ex_run : exists c, run ex_env [look ex_tcp 77 3; look ex_tcp 1101 3; look ex_tcp 77 3; look [] 5 3; look [datagram [unix_msg 9 [attr 2 (le4 10); attr 0 (bs "/tmp/x")]]] 9 0] init =
  Ok ([Some (bs "TCP:[127.0.0.1:80->10.0.0.5:12345]"); Some (bs "TCP:[127.0.0.1:443]"); Some (bs "TCP:[127.0.0.1:80->10.0.0.5:12345]"); Some (bs "TCP:[5]"); Some (bs "UNIX:[9->10,""/tmp/x""]")], c).
Proof. eexists. vm_compute. reflexivity. Qed.

(** What is remembered is not asked for again: a socket that is connected after it has been shown is shown unconnected. *)
Theorem C80_stale_refuted : exists e a1 a2 d1 d2 c1 c2 c, sane a1 /\ sane a2 /\ ainode a1 = ainode a2 /\ aproto a1 = aproto a2 /\
  get_sockaddr_by_inode e (aw a1) (ainode a1) (aproto a1) init = Ok (Some d1, c1) /\
  get_sockaddr_by_inode e (aw a2) (ainode a2) (aproto a2) init = Ok (Some d2, c2) /\ d1 <> d2 /\
  run e [a1; a2] init = Ok ([Some d1; Some d1], c).
Proof.
  exists ex_env, (look [datagram [tcp_msg 77 [0; 80] [0; 0] [127; 0; 0; 1] [0; 0; 0; 0]]] 77 3), (look [datagram [web]] 77 3).
  exists (bs "TCP:[127.0.0.1:80]"), (bs "TCP:[127.0.0.1:80->10.0.0.5:12345]"). do 3 eexists.
  split; [intros r l E; cbn in E; injection E as <-; repeat constructor|].
  split; [intros r l E; cbn in E; injection E as <-; repeat constructor|].
  split; [reflexivity|]. split; [reflexivity|]. split; [vm_compute; reflexivity|]. split; [vm_compute; reflexivity|]. split; [discriminate|]. vm_compute. reflexivity.
Qed.
Print Assumptions C80_stale_refuted.

(** Of an abstract name only what precedes its first NUL is shown, and nothing tells that there is more. *)
Theorem C80_abstract_refuted : exists e m1 m2 n1 n2 d c1 c2,
  says e (P (bs "UNIX") 1 0) m1 9 d /\ says e (P (bs "UNIX") 1 0) m2 9 d /\
  attributes (skipn 32 m1) [attr 0 n1] /\ attributes (skipn 32 m2) [attr 0 n2] /\ n1 <> n2 /\ (length n1 < 108)%nat /\ (length n2 < 108)%nat /\
  get_sockaddr_by_inode e (answers [datagram [m1]]) 9 1 init = Ok (Some d, c1) /\
  get_sockaddr_by_inode e (answers [datagram [m2]]) 9 1 init = Ok (Some d, c2).
Proof.
  set (m1 := unix_msg 9 [attr 0 [0; 97; 0; 98]]). set (m2 := unix_msg 9 [attr 0 [0; 97; 0; 99]]).
  assert (A1 : attributes (skipn 32 m1) [attr 0 [0; 97; 0; 98]]).
  { change (attr 0 [0; 97; 0; 98]) with (first 2 (skipn 32 m1)). constructor; [split; [cbn; lia|split; vm_compute; discriminate]|].
    constructor. intros [C _]. vm_compute in C. lia. }
  assert (A2 : attributes (skipn 32 m2) [attr 0 [0; 97; 0; 99]]).
  { change (attr 0 [0; 97; 0; 99]) with (first 2 (skipn 32 m2)). constructor; [split; [cbn; lia|split; vm_compute; discriminate]|].
    constructor. intros [C _]. vm_compute in C. lia. }
  assert (Q : forall n, quoted ex_env [97; 0; n] (bs """a""")).
  { intros n. exists (bs "a"). split; [reflexivity|]. split; [repeat constructor; discriminate|]. intros h _. destruct h; reflexivity. }
  assert (SY : forall m n, m = unix_msg 9 [attr 0 [0; 97; 0; n]] -> wellformed (P (bs "UNIX") 1 0) m -> attributes (skipn 32 m) [attr 0 [0; 97; 0; n]] ->
     name_of [attr 0 [0; 97; 0; n]] = [0; 97; 0; n] -> says ex_env (P (bs "UNIX") 1 0) m 9 (bs "UNIX:[9,@""a""]")).
  { intros m n -> W A NM. split; [exact W|]. split; [reflexivity|]. exists (bs "9,@""a"""). split; [|reflexivity]. split; [reflexivity|].
    exists [attr 0 [0; 97; 0; n]], (bs ",@""a"""). split; [exact A|]. split; [rewrite NM; intros [_ X]; discriminate|]. split; [reflexivity|].
    rewrite NM. exists (bs """a"""). split; [reflexivity|apply Q]. }
  exists ex_env, m1, m2, [0; 97; 0; 98], [0; 97; 0; 99], (bs "UNIX:[9,@""a""]"). do 2 eexists.
  split; [apply (SY m1 98); [reflexivity|split; [reflexivity|split; [cbn; lia|reflexivity]]|exact A1|reflexivity]|].
  split; [apply (SY m2 99); [reflexivity|split; [reflexivity|split; [cbn; lia|reflexivity]]|exact A2|reflexivity]|].
  split; [exact A1|]. split; [exact A2|]. split; [discriminate|]. split; [cbn; lia|]. split; [cbn; lia|].
  split; vm_compute; reflexivity.
Qed.
Print Assumptions C80_abstract_refuted.

(** The hypotheses of C80_found are met: the third message of an answer in two datagrams. *)
Example found_met : exists d ds c, run ex_env [look ex_tcp 1101 3; look ex_tcp 77 3] init = Ok (ds, c) /\ nth_error ds 1 = Some (Some d) /\ says ex_env (P (bs "TCP") 2 6) web 77 d.
Proof.
  assert (W : forall ino s d a b, length s = 2%nat -> length d = 2%nat -> length a = 4%nat -> length b = 4%nat -> wellformed (P (bs "TCP") 2 6) (tcp_msg ino s d a b)).
  { intros ino s d a b. destruct s as [|? [|? [|]]], d as [|? [|? [|]]], a as [|? [|? [|? [|? [|]]]]], b as [|? [|? [|? [|? [|]]]]]; try discriminate. intros _ _ _ _. split; [reflexivity|]. split; [cbn; lia|reflexivity]. }
  assert (SA : Forall sane [look ex_tcp 1101 3; look ex_tcp 77 3]).
  { repeat constructor; intros r l E; cbn [look answers aw reply] in E; injection E as <-; repeat constructor. }
  destruct (C80_safe ex_env _ SA) as (ds & c & R & _). 
  destruct (C80_found ex_env [look ex_tcp 1101 3] (look ex_tcp 77 3) (P (bs "TCP") 2 6) [[tcp_msg 76 [0; 22] [0; 0] [0; 0; 0; 0] [0; 0; 0; 0]]]
     [tcp_msg 1101 [1; 187] [0; 0] [127; 0; 0; 1] [0; 0; 0; 0]] web [] [] (bs "127.0.0.1:80->10.0.0.5:12345") ds c SA) as (d & D1 & D2); try reflexivity.
  - intros [X|[]]. discriminate.
  - repeat constructor; try discriminate; apply W; reflexivity.
  - repeat constructor; try discriminate; apply W; reflexivity.
  - vm_compute. discriminate.
  - apply W; reflexivity.
  - repeat constructor.
  - split; [left; reflexivity|]. split; [intros _; reflexivity|]. intros NP. exfalso. apply NP. left. discriminate.
  - exact R.
  - exists d, ds, c. auto.
Qed.
