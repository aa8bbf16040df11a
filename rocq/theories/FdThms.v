(** C69: what is shown of a descriptor. *)
From Verif Require Import Base StrtouModel StrtouSpec StrtouProofs QuoteModel QuoteSpec QuoteProofs Printf BitsModel BitsSpec BitsProofs BitsThms XlatModel XlatText RetModel RetProofs TimeModel QualModel InjectModel FtsModel FtsSpec FtsText IexpModel IexpProofs FdModel FdSpec FdProofs.
Local Open Scope N_scope.

(** The link in /proc is taken apart: "(deleted)" is shown only for a name that was removed, and then the rest is that
    name; otherwise the name shown is the file's, or leads to it. *)
Theorem C69_deleted : forall path unlinked id lookup, (2 <= length path)%nat -> (unlinked = false -> lookup path = Some id) ->
  let (p, d) := fd_path (kernel_link path unlinked) (Some id) lookup in
  (d = true -> unlinked = true /\ p = path) /\ (d = false -> unlinked = false /\ p = path \/ lookup p = Some id).
Proof. exact fd_path_spec. Qed.
Print Assumptions C69_deleted.
Definition ex_fs (p : list N) : option (N * N) := if beqs p (bs "/tmp/a (deleted)") then Some (7, 1) else if beqs p (bs "/tmp/b") then Some (8, 1) else None.
Example ex_del1 : fd_path (kernel_link (bs "/tmp/b") true) (Some (9, 1)) ex_fs = (bs "/tmp/b", true). Proof. reflexivity. Qed.
Example ex_del2 : fd_path (kernel_link (bs "/tmp/a (deleted)") false) (Some (7, 1)) ex_fs = (bs "/tmp/a (deleted)", false). Proof. reflexivity. Qed.
Example ex_del3 : fd_path (kernel_link (bs "/tmp/b") false) (Some (8, 1)) ex_fs = (bs "/tmp/b", false). Proof. reflexivity. Qed.

(** fdinfo: what is found for a prefix is on the first line that begins with it (and is accepted). *)
Theorem C69_fdinfo : forall ss lines, ForallOrdPairs (fun a b => forall l, starts_with (pfx a) l -> ~ starts_with (pfx b) l) ss ->
  length (scan_fdinfo_lines ss (Some lines)) = length ss /\
  forall i s, nth_error ss i = Some s ->
    match nth_error (scan_fdinfo_lines ss (Some lines)) i with
    | Some (Some v) => accept s v = true /\ exists pre post, lines = pre ++ (pfx s ++ v) :: post /\
        forall l u, In l pre -> l = pfx s ++ u -> accept s u = false
    | _ => forall l u, In l lines -> l = pfx s ++ u -> accept s u = false
    end.
Proof.
  intros ss lines X. assert (X' : excl ss).
  { clear lines. induction X as [|s ss F X IH]; constructor; [|exact IH]. eapply Forall_impl; [|exact F]. intros b H l v E. apply strip_iff in E as ->. apply not_starts, H. exists v. reflexivity. }
  rewrite scan_info_spec by exact X'. split; [apply map_length|]. intros i s E. rewrite nth_error_map, E. cbn [option_map]. clear.
  induction lines as [|l lines IH]; cbn [first_acc]; [intros l u []|]. destruct (takes s l) as [v|] eqn:T.
  - unfold takes in T. destruct (strip (pfx s) l) as [v'|] eqn:S1; [|discriminate]. cbn [obind] in T. destruct (accept s v') eqn:A; [|discriminate]. injection T as ->. apply strip_iff in S1 as ->. split; [exact A|]. exists [], lines. split; [reflexivity|]. intros l u [].
  - assert (NA : forall u, l = pfx s ++ u -> accept s u = false) by (intros u ->; unfold takes in T; rewrite strip_app in T; cbn [obind] in T; destruct (accept s u); [discriminate|reflexivity]).
    destruct (first_acc s lines) as [v|].
    + destruct IH as (A & pre & post & -> & F). split; [exact A|]. exists (l :: pre), post. split; [reflexivity|]. intros l' u [<-|I] EQ; [apply NA, EQ|eapply F; eauto].
    + intros l' u [<-|I] EQ; [apply NA, EQ|eapply IH; eauto].
Qed.
Print Assumptions C69_fdinfo.

Lemma sock_zero p : ~ starts_with (bs "socket:[") p -> socket_inode p = 0.
Proof. intros H. unfold socket_inode. rewrite not_starts by exact H. reflexivity. Qed.
Lemma dec_dval n : exists vs, Forall2 (dval 10) (dec n) vs /\ dnum 10 0 vs = n.
Proof.
  assert (G : forall s acc m, Forall digit s -> rd_num 10 acc s = Some m -> exists vs, Forall2 (dval 10) s vs /\ dnum 10 acc vs = m).
  { induction s as [|c s IH]; intros acc m F R; [injection R as <-; exists []; split; [constructor|reflexivity]|]. inversion F as [|? ? D F']; subst. cbn [rd_num] in R. unfold digit in D. unfold hex_val in R.
    destruct (N.leb_spec 48 c); [|lia]. destruct (N.leb_spec c 57); [|lia]. cbn [andb] in R. destruct (N.ltb_spec (c - 48) 10); [|lia]. destruct (IH _ _ F' R) as (vs & V & E). exists (c - 48 :: vs). split; [constructor; [unfold dval; lia|exact V]|]. cbn [dnum]. rewrite <- E. f_equal. lia. }
  apply G; [apply pr_num_digit|apply pr_num_rd; lia].
Qed.
Lemma dec_head n : exists c r, dec n = c :: r /\ 48 <= c <= 57.
Proof. destruct (dec n) as [|c r] eqn:E; [exfalso; eapply pr_num_ne, E|]. exists c, r. split; [reflexivity|]. pose proof (pr_num_digit n) as F. unfold dec in E. rewrite E in F. inversion F as [|? ? D _]; subst. exact D. Qed.
Lemma strtoul_dec i : strtoul10 (dec i ++ bs "]") = ((if 2^64 <=? i then 2^64 - 1 else i), bs "]").
Proof.
  unfold strtoul10. destruct (dec_dval i) as (vs & V & D). destruct (dec_head i) as (c & r & E & C). assert (SK : skip_space (dec i ++ bs "]") = dec i ++ bs "]") by (apply (skip_space_app []); [constructor|]; intros c' r' X; rewrite E in X; injection X as <- _; unfold blank; lia).
  rewrite SK. assert (SG : (match dec i ++ bs "]" with c :: r => if c =? 45 then (true, r) else if c =? 43 then (false, r) else (false, dec i ++ bs "]") | [] => (false, dec i ++ bs "]") end) = (false, dec i ++ bs "]")).
  { rewrite E. cbn [app]. destruct (N.eqb_spec c 45); [lia|]. destruct (N.eqb_spec c 43); [lia|reflexivity]. }
  rewrite SG. rewrite (digs_run 10 (dec i) vs (bs "]")) by (auto; try lia; reflexivity).
  destruct vs as [|v vs]; [inversion V as [X|]; rewrite E in X; discriminate X|]. rewrite D. reflexivity.
Qed.
Lemma sock_inode i : 0 < i -> socket_inode (bs "socket:[" ++ dec i ++ bs "]") <> 0.
Proof.
  intros P. unfold socket_inode. rewrite strip_app, rev_app_distr, strtoul_dec. change (rev (bs "]")) with [93]. cbn [app]. rewrite N.eqb_refl. change (length (bs "]") =? 1)%nat with true. destruct (N.leb_spec (2^64) i); [discriminate|].
  destruct (N.eqb_spec i 0); [lia|]. cbn [negb andb]. exact n.
Qed.
(** which printers do not take a path *)
Lemma slash_not p q : starts_with (bs "/") p -> (exists c r, q = c :: r /\ c <> 47) -> ~ starts_with q p.
Proof. intros (v & ->) (c & r & -> & C) (u & E). injection E as E _. apply C. symmetry. exact E. Qed.
Definition plain (p : list N) : Prop := ~ starts_with (bs "socket:[") p /\ ~ starts_with (bs "pidfd:") p /\ ~ In p [bs "anon_inode:[eventfd]"; bs "anon_inode:[pidfd]"; bs "anon_inode:[signalfd]"].
Lemma slash_plain p : starts_with (bs "/") p -> plain p.
Proof.
  intros H. split; [apply slash_not; [exact H|]; eexists; eexists; split; [reflexivity|discriminate]|]. split; [apply slash_not; [exact H|]; eexists; eexists; split; [reflexivity|discriminate]|].
  destruct H as (v & ->). intros I. repeat (destruct I as [I|I]; [discriminate I|]). exact I.
Qed.
Lemma no_socket w : ~ starts_with (bs "socket:[") (w_path w) -> printsocket w = None.
Proof. intros H. unfold printsocket. rewrite sock_zero by exact H. reflexivity. Qed.
Lemma no_dev x w : ~ starts_with (bs "/") (w_path w) -> printdev x w = Ok None.
Proof. intros H. unfold printdev. destruct (w_path w) as [|c r]; [reflexivity|]. destruct (N.eqb_spec c 47) as [->|_]; [exfalso; apply H; exists r; reflexivity|reflexivity]. Qed.
Lemma slash_head {A} p (y : option A) : starts_with (bs "/") p -> (match p with c :: _ => if c =? 47 then y else None | [] => None end) = y.
Proof. intros (v & ->). reflexivity. Qed.
Lemma beqs_ne a b : a <> b -> beqs a b = false.
Proof. intros H. destruct (beqs a b) eqn:E; [|reflexivity]. exfalso. apply H, beqs_eq, E. Qed.
Lemma no_eventfd w : w_path w <> bs "anon_inode:[eventfd]" -> printeventfd w = None.
Proof. intros H. unfold printeventfd. rewrite beqs_ne by exact H. reflexivity. Qed.
Lemma no_pidfd w : ~ starts_with (bs "pidfd:") (w_path w) -> w_path w <> bs "anon_inode:[pidfd]" -> printpidfd w = None.
Proof. intros H1 H2. unfold printpidfd. rewrite not_starts by exact H1. rewrite beqs_ne by exact H2. reflexivity. Qed.
Lemma no_signalfd g st xm w : w_path w <> bs "anon_inode:[signalfd]" -> printsignalfd g st xm w = Ok None.
Proof. intros H. unfold printsignalfd. rewrite beqs_ne by exact H. reflexivity. Qed.

Section Shown.
Context (h : hexrule) (x : xflag_opts) (g : sigcfg) (st : xstyle_t) (xm : N) (k : kinds) (w : fdworld).
Hypothesis HR : rule_ok h (path_style x).
Hypothesis HX : In xm [0; 3; 7].
(** what is written behind the number *)
Definition behind : res (option (list N)) :=
  match (if k_socket k then printsocket w else None) with
  | Some t => Ok (Some t)
  | None =>
  rlet d := (if k_dev k then printdev x w else Ok None) in
  match d with Some t => Ok (Some t) | None =>
  match (if k_eventfd k then printeventfd w else None) with Some t => Ok (Some t) | None =>
  match (if k_pidfd k then printpidfd w else None) with Some t => Ok (Some t) | None =>
  if k_signalfd k then printsignalfd g st xm w else Ok None
  end end end end.
Lemma printfd_behind pid fd : (0 < pid)%Z -> no_kinds k = false -> printfd x g st xm k pid fd (Some w) =
  rlet b := behind in match b with
    | Some t => Ok (sdec fd ++ t)
    | None => if k_path k then rlet q := path_quoted x (w_path w) in Ok (sdec fd ++ angle q ++ (if w_deleted w then bs "(deleted)" else [])) else Ok (sdec fd)
    end.
Proof.
  intros P NK. unfold printfd, behind. change (pr_z fd) with (sdec fd). rewrite NK. destruct (Z.ltb_spec 0 pid); [|lia]. cbn [negb orb].
  destruct (if k_socket k then printsocket w else None); [reflexivity|]. destruct (if k_dev k then printdev x w else Ok None) as [[d|]| |]; cbn [rbind]; try reflexivity.
  destruct (if k_eventfd k then printeventfd w else None); [reflexivity|]. destruct (if k_pidfd k then printpidfd w else None); [reflexivity|]. destruct (if k_signalfd k then printsignalfd g st xm w else Ok None) as [[d|]| |]; reflexivity.
Qed.
Lemma event_excl : excl [{| pfx := bs "eventfd-count:"; accept := any |}; {| pfx := bs "eventfd-id:"; accept := any |}; {| pfx := bs "eventfd-semaphore:"; accept := any |}].
Proof.
  repeat constructor; cbn [pfx]; intros l v E; apply strip_iff in E as ->; apply not_starts; intros (u & E); discriminate E.
Qed.
Lemma eventfd_text c i s : seen (Eventfd c i s) w -> exists t, printeventfd w = Some t /\
  t = bs "<{eventfd-count=" ++ (if c =? 0 then bs "0" else bs "0x" ++ pr_num 16 c) ++
          match i with Some n => bs ", eventfd-id=" ++ dec n ++ opt_text (fun n => bs ", eventfd-semaphore=" ++ dec n) s | None => [] end ++ bs "}>".
Proof.
  intros (_ & _ & P & _ & l & I & C & MI & MS). unfold printeventfd. rewrite P, I. change (beqs (bs "anon_inode:[eventfd]") (bs "anon_inode:[eventfd]")) with true. cbn [negb].
  rewrite scan_info_spec by apply event_excl. cbn [map]. rewrite (first_acc_with _ any _ _ C) by reflexivity. rewrite counter_text.
  destruct (counter_lead c) as (d & r & E & Z). rewrite E. eexists. split; [reflexivity|].
  assert (HC : (if d =? 48 then [] else bs "0x") ++ d :: r = (if c =? 0 then bs "0" else bs "0x" ++ d :: r)).
  { rewrite <- E. destruct (N.eqb_spec c 0) as [->|NC]; [rewrite (proj2 Z eq_refl); reflexivity|]. destruct (N.eqb_spec d 48) as [X|_]; [apply Z in X; contradiction|reflexivity]. }
  assert (UI : (match first_acc {| pfx := bs "eventfd-id:"; accept := any |} l with Some v => uint_line v | None => (-1)%Z end) = match i with Some n => Z.of_N n | None => (-1)%Z end).
  { destruct i as [n|]; cbn [maybe] in MI; [|rewrite first_acc_none by exact MI; reflexivity]. destruct MI as [B F]. rewrite (first_acc_with _ any _ _ F) by reflexivity. apply uint_dec; [exact B|]. repeat constructor. }
  assert (US : (match first_acc {| pfx := bs "eventfd-semaphore:"; accept := any |} l with Some v => uint_line v | None => (-1)%Z end) = match s with Some n => Z.of_N n | None => (-1)%Z end).
  { destruct s as [n|]; cbn [maybe] in MS; [|rewrite first_acc_none by exact MS; reflexivity]. destruct MS as [B F]. rewrite (first_acc_with _ any _ _ F) by reflexivity. apply uint_dec; [exact B|]. repeat constructor. }
  rewrite UI, US. unfold angle. rewrite <- HC. clear. destruct i as [n|].
  - destruct (Z.eqb_spec (Z.of_N n) (-1)); [lia|]. rewrite pr_z_dec. destruct s as [m|]; cbn [opt_text].
    + destruct (Z.eqb_spec (Z.of_N m) (-1)); [lia|]. rewrite pr_z_dec. rewrite <- ?app_assoc. reflexivity.
    + change (-1 =? -1)%Z with true. rewrite <- ?app_assoc. reflexivity.
  - change (-1 =? -1)%Z with true. rewrite <- ?app_assoc. reflexivity.
Qed.
Lemma dev_text p d ma mi pts : seen (Device p d ma mi pts) w -> exists body, escaped h p body /\ printdev x w = Ok (Some
   (bs "<" ++ body ++ bs "<" ++ (match d with Block => bs "block " | Char => bs "char " end) ++ dec ma ++ bs ":" ++ dec mi ++ opt_text (fun n => bs " @/dev/pts/" ++ dec n) pts ++ bs ">>")).
Proof.
  intros (B & L & P & D & SL & W & T1 & T2). destruct (path_quoted_spec h x (w_path w) B L HR) as (body & Q & E). exists body. rewrite P in E. split; [exact E|].
  unfold printdev. rewrite P, slash_head, W by exact SL. rewrite P in Q. rewrite Q. cbn [rbind]. f_equal. f_equal.
  assert (TT : (if is_ptmx (d, ma, mi) && (0 <=? tty_index w)%Z then bs " @/dev/pts/" ++ pr_z (tty_index w) else []) = opt_text (fun n => bs " @/dev/pts/" ++ dec n) pts).
  { destruct (is_ptmx (d, ma, mi)) eqn:IP.
    - assert (PT : ptmx d ma mi) by (unfold is_ptmx in IP; destruct d; [discriminate|]; assert (ma = 5 /\ mi = 2) by (repeat match type of IP with context [match ?q with _ => _ end] => destruct q; try discriminate IP end; auto); split; auto).
      specialize (T2 PT). unfold tty_index. destruct (w_info w) as [l|]; [|subst pts; reflexivity]. rewrite scan_one. destruct pts as [n|]; cbn [maybe] in T2.
      + destruct T2 as [N1 F]. rewrite (first_acc_with _ any _ _ F) by reflexivity. rewrite uint_dec by (try constructor; exact N1). destruct (Z.leb_spec 0 (Z.of_N n)); [|lia]. cbn [andb]. rewrite pr_z_dec. reflexivity.
      + rewrite first_acc_none by exact T2. reflexivity.
    - destruct T1 as [->|(-> & -> & ->)]; [reflexivity|discriminate IP]. }
  rewrite TT. unfold angle. destruct d; rewrite <- ?app_assoc; reflexivity.
Qed.
Lemma pidfd_text p n : seen (Pidfd p n) w -> printpidfd w = Some (bs "<" ++ (if (0 <? n)%Z then bs "pid:" ++ dec (Z.to_N n) else p) ++ bs ">").
Proof.
  intros (_ & _ & P & _ & K & R & l & I & F). unfold printpidfd. rewrite P, I. rewrite scan_one, (first_acc_with _ any _ _ F) by reflexivity. rewrite uint_sdec by exact R.
  assert (K' : (match strip (bs "pidfd:") p with Some _ => false | None => true end) && negb (beqs p (bs "anon_inode:[pidfd]")) = false).
  { destruct K as [->|(i & ->)]; [reflexivity|]. change (bs "pidfd:[" ++ dec i ++ bs "]") with (bs "pidfd:" ++ bs "[" ++ dec i ++ bs "]"). rewrite strip_app. reflexivity. }
  rewrite K'. unfold angle. destruct (Z.ltb_spec 0 n); [|reflexivity]. unfold pr_z. destruct (Z.ltb_spec n 0); [lia|]. reflexivity.
Qed.
Lemma signalfd_text m t : seen (Signalfd m) w -> printsignalfd g st xm w = Ok t -> exists mask text, t = Some (bs "<" ++ text ++ bs ">") /\ length mask = 8%nat /\ bytes_ok mask /\
      (forall b, b < 64 -> (bit_set mask xm b <-> N.testbit m b = true)) /\ sprintsigmask_n g st xm (bs "signalfd:") mask 8 = Ok text.
Proof.
  intros (_ & _ & P & _ & R & l & I & F). unfold printsignalfd. rewrite P, I. change (beqs (bs "anon_inode:[signalfd]") (bs "anon_inode:[signalfd]")) with true. cbn [negb].
  destruct (sigmask_spec xm m HX R) as (mask & E & L & B & S1). rewrite scan_one, (first_acc_with _ _ _ _ F) by (rewrite E; reflexivity). rewrite E. rewrite L. change (N.of_nat 8) with 8.
  destruct (sprintsigmask_n g st xm (bs "signalfd:") mask 8) as [text| |] eqn:ST; cbn [rbind]; intros Q; [|discriminate|discriminate]. injection Q as <-. exists mask, text. auto.
Qed.
Lemma sock_text i : seen (Socket i) w -> printsocket w = Some (bs "<" ++ (match w_sock w with Some d => d | None => w_path w end) ++ bs ">").
Proof. intros (_ & _ & P & R & _). unfold printsocket. pose proof (sock_inode i ltac:(lia)) as H. rewrite <- P in H. destruct (N.eqb_spec (socket_inode (w_path w)) 0); [contradiction|]. reflexivity. Qed.

Ltac nop P := first [rewrite no_socket by (rewrite P; intros (? & X); discriminate X)|idtac].
Lemma behind_spec o r : seen o w -> behind = Ok r -> if its_kind k o then exists t, r = Some t /\ wanted h g st xm k o w t else r = None.
Proof.
  intros SE. unfold behind. destruct o as [p u|p d ma mi pts|i|c i s|p n|m|p]; cbn [its_kind].
  - destruct SE as (_ & _ & P & _ & SL & W). destruct (slash_plain p SL) as (P1 & P2 & P3). rewrite no_socket by (rewrite P; exact P1).
    assert (ND : printdev x w = Ok None). { unfold printdev. rewrite P, slash_head, W by exact SL. reflexivity. }
    rewrite ND, no_eventfd, no_pidfd, no_signalfd by (rewrite P; auto; intros X; apply P3; rewrite X; cbn; auto). destruct (k_socket k), (k_dev k), (k_eventfd k), (k_pidfd k), (k_signalfd k); cbn [rbind]; intros X; injection X as <-; reflexivity.
  - destruct (dev_text _ _ _ _ _ SE) as (body & E & T). destruct SE as (_ & _ & P & _ & SL & W & _). destruct (slash_plain p SL) as (P1 & P2 & P3). rewrite no_socket by (rewrite P; exact P1).
    rewrite T, no_eventfd, no_pidfd, no_signalfd by (rewrite P; auto; intros X; apply P3; rewrite X; cbn; auto). destruct (k_socket k), (k_dev k) eqn:KD; cbn [rbind]; intros X;
      try (injection X as <-; eexists; split; [reflexivity|]; split; [exact KD|]; exists body; split; [exact E|reflexivity]);
      destruct (k_eventfd k), (k_pidfd k), (k_signalfd k); injection X as <-; reflexivity.
  - pose proof (sock_text i SE) as T. destruct SE as (_ & _ & P & _). rewrite T. destruct (k_socket k) eqn:KS; [intros X; injection X as <-; eexists; split; [reflexivity|]; split; [exact KS|reflexivity]|].
    rewrite no_dev, no_eventfd, no_pidfd, no_signalfd by (rewrite P; first [intros (? & X); discriminate X|intros X; discriminate X]). destruct (k_dev k), (k_eventfd k), (k_pidfd k), (k_signalfd k); cbn [rbind]; intros X; injection X as <-; reflexivity.
  - destruct (eventfd_text c i s SE) as (t & T & TE). destruct SE as (_ & _ & P & _). rewrite T. rewrite no_socket, no_dev, no_pidfd, no_signalfd by (rewrite P; first [intros (? & X); discriminate X|intros X; discriminate X]).
    destruct (k_socket k), (k_dev k), (k_eventfd k) eqn:KE; cbn [rbind]; intros X; try (injection X as <-; eexists; split; [reflexivity|]; split; [exact KE|exact TE]); destruct (k_pidfd k), (k_signalfd k); injection X as <-; reflexivity.
  - pose proof (pidfd_text p n SE) as T. destruct SE as (_ & _ & P & _ & K & _). rewrite T.
    assert (NP : ~ starts_with (bs "socket:[") p /\ ~ starts_with (bs "/") p /\ p <> bs "anon_inode:[eventfd]" /\ p <> bs "anon_inode:[signalfd]").
    { destruct K as [->|(i & ->)]; repeat split; first [intros (? & X); discriminate X|intros X; discriminate X]. }
    destruct NP as (N1 & N2 & N3 & N4). rewrite no_socket, no_dev, no_eventfd, no_signalfd by (rewrite P; assumption).
    destruct (k_socket k), (k_dev k), (k_eventfd k), (k_pidfd k) eqn:KE; cbn [rbind]; intros X; try (injection X as <-; eexists; split; [reflexivity|]; split; [exact KE|reflexivity]); destruct (k_signalfd k); injection X as <-; reflexivity.
  - assert (P : w_path w = bs "anon_inode:[signalfd]") by apply SE. rewrite no_socket, no_dev, no_eventfd, no_pidfd by (rewrite P; first [intros (? & X); discriminate X|intros X; discriminate X]).
    assert (Q : (if k_signalfd k then printsignalfd g st xm w else Ok None) = Ok r -> if k_signalfd k then exists t, r = Some t /\ wanted h g st xm k (Signalfd m) w t else r = None).
    { destruct (k_signalfd k) eqn:KE; [|intros X; injection X as <-; reflexivity]. intros X. destruct (signalfd_text m r SE X) as (mask & text & -> & M1 & M2 & M3 & M4). eexists. split; [reflexivity|]. split; [exact KE|]. exists mask, text. auto. }
    destruct (k_socket k), (k_dev k), (k_eventfd k), (k_pidfd k); exact Q.
  - destruct SE as (_ & _ & P & _ & P0 & P1 & P2 & P3). rewrite no_socket, no_dev, no_eventfd, no_pidfd, no_signalfd by (rewrite P; auto; intros X; apply P3; rewrite X; cbn; auto).
    destruct (k_socket k), (k_dev k), (k_eventfd k), (k_pidfd k), (k_signalfd k); cbn [rbind]; intros X; injection X as <-; reflexivity.
Qed.
End Shown.

(** Whatever the descriptor is and whatever is asked for: its number, and behind it what was asked for. *)
Theorem C69_shown : forall h x g st xm k pid fd o w t, rule_ok h (path_style x) -> In xm [0; 3; 7] -> (0 < pid)%Z -> seen o w ->
  printfd x g st xm k pid fd (Some w) = Ok t ->
  exists r, t = sdec fd ++ r /\
    if its_kind k o then wanted h g st xm k o w r
    else if k_path k then path_text h w r else r = [].
Proof.
  intros h x g st xm k pid fd o w t HR HX HP SE. destruct (no_kinds k) eqn:NK.
  - unfold printfd. rewrite NK, orb_true_r. intros E. injection E as <-. exists []. rewrite app_nil_r. split; [reflexivity|]. unfold no_kinds in NK. apply negb_true_iff in NK. repeat (apply orb_false_iff in NK as [NK ?]). rewrite H. destruct o; cbn [its_kind]; try rewrite NK; try rewrite H3; try rewrite H2; try rewrite H1; try rewrite H0; reflexivity.
  - rewrite printfd_behind by auto. destruct (behind x g st xm k w) as [r| |] eqn:BH; cbn [rbind]; try discriminate. pose proof (behind_spec h x g st xm k w HR HX o r SE BH) as S1. destruct (its_kind k o).
    + destruct S1 as (t' & -> & W). intros E. injection E as <-. exists t'. auto.
    + subst r. destruct (k_path k); [|intros E; injection E as <-; exists []; rewrite app_nil_r; auto]. destruct SE as (B & L & _). destruct (path_quoted_spec h x (w_path w) B L HR) as (body & -> & ES). cbn [rbind]. intros E. injection E as <-.
      eexists. split; [reflexivity|]. exists body. split; [exact ES|]. unfold angle. rewrite <- !app_assoc. reflexivity.
Qed.
Print Assumptions C69_shown.

(** Nothing fails where there are only signals with short names and no verbose style. *)
Theorem C69_printed : forall h x st k pid fd o w, rule_ok h (path_style x) -> st <> XVERBOSE -> seen o w ->
  exists t, printfd x generic_sigs st 0 k pid fd (Some w) = Ok t.
Proof.
  intros h x st k pid fd o w HR ST SE. assert (PQ : exists q, path_quoted x (w_path w) = Ok q) by (destruct SE as (B & L & _); destruct (path_quoted_spec h x (w_path w) B L HR) as (q & Q & _); exists q; exact Q). destruct PQ as (q & PQ).
  unfold printfd. destruct (negb (0 <? pid)%Z || no_kinds k); [eexists; reflexivity|]. destruct (if k_socket k then printsocket w else None); [eexists; reflexivity|].
  assert (D : exists d, (if k_dev k then printdev x w else Ok None) = Ok d).
  { destruct (k_dev k); [|eexists; reflexivity]. unfold printdev. destruct (match w_path w with c :: _ => if c =? 47 then w_dev w (w_path w) else None | [] => None end) as [[[kk ma] mi]|]; [|eexists; reflexivity]. rewrite PQ. eexists. reflexivity. }
  destruct D as ([d|] & ->); cbn [rbind]; [eexists; reflexivity|]. destruct (if k_eventfd k then printeventfd w else None); [eexists; reflexivity|]. destruct (if k_pidfd k then printpidfd w else None); [eexists; reflexivity|].
  assert (S1 : exists d, (if k_signalfd k then printsignalfd generic_sigs st 0 w else Ok None) = Ok d).
  { destruct (k_signalfd k); [|eexists; reflexivity]. destruct o.
    - rewrite no_signalfd; [eexists; reflexivity|]. destruct SE as (_ & _ & P & _ & SL & _). destruct (slash_plain _ SL) as (_ & _ & P3). intros X. apply P3. rewrite <- P, X. cbn. auto.
    - rewrite no_signalfd; [eexists; reflexivity|]. destruct SE as (_ & _ & P & _ & SL & _). destruct (slash_plain _ SL) as (_ & _ & P3). intros X. apply P3. rewrite <- P, X. cbn. auto.
    - rewrite no_signalfd; [eexists; reflexivity|]. destruct SE as (_ & _ & -> & _). discriminate.
    - rewrite no_signalfd; [eexists; reflexivity|]. destruct SE as (_ & _ & -> & _). discriminate.
    - rewrite no_signalfd; [eexists; reflexivity|]. destruct SE as (_ & _ & -> & _ & [->|(j & ->)] & _); discriminate.
    - pose proof SE as (_ & _ & P & _ & R & l & I & F). unfold printsignalfd. rewrite P, I. change (beqs (bs "anon_inode:[signalfd]") (bs "anon_inode:[signalfd]")) with true. cbn [negb].
      destruct (sigmask_spec 0 mask (or_introl eq_refl) R) as (m & E & L & B & _). rewrite scan_one, (first_acc_with _ _ _ _ F) by (rewrite E; reflexivity). rewrite E, L. change (N.of_nat 8) with 8.
      destruct (C48_generic_printed st (bs "signalfd:") m 8 ST) as (text & T); [cbn; lia|exact B|rewrite L; vm_compute; discriminate|]. rewrite T. eexists. reflexivity.
    - rewrite no_signalfd; [eexists; reflexivity|]. destruct SE as (_ & _ & P & _ & _ & _ & _ & P3). intros X. apply P3. rewrite <- P, X. cbn. auto. }
  destruct S1 as ([s|] & ->); cbn [rbind]; [eexists; reflexivity|]. destruct (k_path k); [|eexists; reflexivity]. rewrite PQ. eexists. reflexivity.
Qed.
Print Assumptions C69_printed.

(** Two different descriptors, paths or devices never look the same. *)
Lemma cut_at (c : N) a b a' b' : ~ In c a -> ~ In c a' -> a ++ c :: b = a' ++ c :: b' -> a = a' /\ b = b'.
Proof.
  revert a'. induction a as [|y a IH]; intros [|y' a'] H H' E.
  - injection E as ->. auto.
  - injection E as <- _. exfalso. apply H'. left. reflexivity.
  - injection E as -> _. exfalso. apply H. left. reflexivity.
  - injection E as -> E. destruct (IH a') as [-> ->]; auto; intros I; [apply H|apply H']; right; exact I.
Qed.
Lemma dec_range n c : In c (dec n) -> 48 <= c <= 57.
Proof. intros I. pose proof (proj1 (Forall_forall _ _) (pr_num_digit n) c I) as D. exact D. Qed.
Lemma sdec_range z c : In c (sdec z) -> c = 45 \/ 48 <= c <= 57.
Proof. unfold sdec. destruct (z <? 0)%Z; intros I; [destruct I as [<-|I]; [auto|]|]; right; eapply dec_range, I. Qed.
Lemma dec_inj n m : dec n = dec m -> n = m.
Proof. intros H. apply pr_num_inj in H; [exact H|lia]. Qed.
Lemma sdec_inj a b : sdec a = sdec b -> a = b.
Proof.
  unfold sdec. assert (NM : forall n m, bs "-" ++ dec n <> dec m) by (intros n m E; assert (I : In 45 (dec m)) by (rewrite <- E; left; reflexivity); apply dec_range in I; lia).
  destruct (Z.ltb_spec a 0), (Z.ltb_spec b 0); intros E; [apply app_inv_head, dec_inj in E; lia|exfalso; eapply NM, E|exfalso; eapply NM; symmetry; exact E|apply dec_inj in E; lia].
Qed.
Lemma escaped_fun h p q body : escaped h p body -> escaped h q body -> p = q.
Proof. intros (A & _) (B & _). congruence. Qed.
Lemma sdec_cut fd fd' b b' : sdec fd ++ bs "<" ++ b = sdec fd' ++ bs "<" ++ b' -> fd = fd' /\ b = b'.
Proof. intros E. apply (cut_at 60) in E as [E1 E2]; [split; [apply sdec_inj; exact E1|exact E2]| |]; intros I; apply sdec_range in I; lia. Qed.

Theorem C69_paths_differ : forall h fd fd' w w' r r', sdec fd ++ r = sdec fd' ++ r' -> path_text h w r -> path_text h w' r' ->
  fd = fd' /\ w_path w = w_path w' /\ w_deleted w = w_deleted w'.
Proof.
  intros h fd fd' w w' r r' E (b & B & ->) (b' & B' & ->). apply sdec_cut in E as [-> E]. split; [reflexivity|]. apply (cut_at 62) in E as [<- E]; [|apply B|apply B']. split; [eapply escaped_fun; eauto|].
  destruct (w_deleted w), (w_deleted w'); auto; discriminate E.
Qed.
Print Assumptions C69_paths_differ.

Theorem C69_devices_differ : forall h g st xm k fd fd' w w' r r' p d ma mi pts, sdec fd ++ r = sdec fd' ++ r' ->
  wanted h g st xm k (Device p d ma mi pts) w r ->
  ~ path_text h w' r' /\
  forall p' d' ma' mi' pts', wanted h g st xm k (Device p' d' ma' mi' pts') w' r' ->
    fd = fd' /\ p = p' /\ d = d' /\ ma = ma' /\ mi = mi' /\ pts = pts'.
Proof.
  intros h g st xm k fd fd' w w' r r' p d ma mi pts E (_ & b & B & ->). split.
  - intros (b' & B' & ->). apply sdec_cut in E as [_ E]. destruct B as (_ & B1 & B2), B' as (_ & B3 & B4). clear -B1 B2 B3 B4 E. revert b' B3 B4 E. induction b as [|c b IH]; intros [|c' b'] B3 B4 E.
    + discriminate E.
    + injection E as <- _. apply B3. left. reflexivity.
    + injection E as -> _. apply B2. left. reflexivity.
    + injection E as -> E. apply (IH ltac:(intros I; apply B1; right; exact I) ltac:(intros I; apply B2; right; exact I) b'); auto; intros I; [apply B3|apply B4]; right; exact I.
  - intros p' d' ma' mi' pts' (_ & b' & B' & ->). apply sdec_cut in E as [-> E]. split; [reflexivity|]. apply (cut_at 60) in E as [<- E]; [|apply B|apply B']. split; [eapply escaped_fun; eauto|].
    assert (G : dec ma ++ bs ":" ++ dec mi ++ opt_text (fun n => bs " @/dev/pts/" ++ dec n) pts ++ bs ">>" = dec ma' ++ bs ":" ++ dec mi' ++ opt_text (fun n => bs " @/dev/pts/" ++ dec n) pts' ++ bs ">>" /\ d = d').
    { destruct d, d'; try discriminate E; [change (bs "block ") with [98; 108; 111; 99; 107; 32] in E|change (bs "char ") with [99; 104; 97; 114; 32] in E]; apply app_inv_head in E; auto. }
    destruct G as [G ->]. split; [reflexivity|]. apply (cut_at 58) in G as [G1 G2]; [|intros I; apply dec_range in I; lia|intros I; apply dec_range in I; lia]. apply dec_inj in G1. split; [exact G1|].
    assert (CUT : forall n m u v, (exists c s, u = c :: s /\ ~ 48 <= c <= 57) -> (exists c s, v = c :: s /\ ~ 48 <= c <= 57) -> dec n ++ u = dec m ++ v -> n = m /\ u = v).
    { intros n m u v (c & s & -> & C) (c' & s' & -> & C') Q. assert (QQ : dec n = dec m /\ c :: s = c' :: s').
      { pose proof (dec_range n) as R1. pose proof (dec_range m) as R2. revert R1 R2 Q. generalize (dec n) (dec m). clear -C C'. intros l. induction l as [|y l IH]; intros [|z l'] R1 R2 Q.
        - auto.
        - injection Q as <- _. exfalso. apply C, R2. left. reflexivity.
        - injection Q as -> _. exfalso. apply C', R1. left. reflexivity.
        - injection Q as -> Q. destruct (IH l') as [-> ->]; auto; intros x0 I; [apply R1|apply R2]; right; exact I. }
      destruct QQ as [Q1 Q2]. apply dec_inj in Q1. auto. }
    assert (OT : forall o, exists c s, opt_text (fun n => bs " @/dev/pts/" ++ dec n) o ++ bs ">>" = c :: s /\ ~ 48 <= c <= 57) by (intros [n|]; eexists; eexists; (split; [reflexivity|cbn; lia])).
    apply CUT in G2 as [-> G3]; auto. split; [reflexivity|]. destruct pts as [n|], pts' as [m|]; cbn [opt_text] in G3; auto; try discriminate G3.
    rewrite <- !app_assoc in G3. apply app_inv_head in G3. apply CUT in G3 as [-> _]; [reflexivity| |]; exists 62, [62]; (split; [reflexivity|lia]).
Qed.
Print Assumptions C69_devices_differ.

(** ---- concrete cases ---- *)
Definition all_kinds : kinds := {| k_socket := true; k_dev := true; k_eventfd := true; k_pidfd := true; k_signalfd := true; k_path := true |}.
Definition ex_w (p : list N) (del : bool) (dv : option (devkind * N * N)) (info : list (list N)) : fdworld :=
  {| w_path := p; w_deleted := del; w_dev := fun _ => dv; w_info := Some info; w_sock := None |}.
Definition ex_print (w : fdworld) : res (list N) := printfd HEXSTR_NONE generic_sigs XABBREV 0 all_kinds 1 3 (Some w).
Example ex_file : ex_print (ex_w (bs "/tmp/<a>") true None []) = Ok (bs "3</tmp/\74a\76>(deleted)"). Proof. reflexivity. Qed.
Example ex_ptmx : ex_print (ex_w (bs "/dev/ptmx") false (Some (Char, 5, 2)) [bs "pos: 0" ++ [10]; bs "tty-index:" ++ [9] ++ bs "4" ++ [10]]) = Ok (bs "3</dev/ptmx<char 5:2 @/dev/pts/4>>"). Proof. reflexivity. Qed.
Definition ex_efd : fdworld := ex_w (bs "anon_inode:[eventfd]") false None [bs "pos: 0" ++ [10]; bs "eventfd-count: " ++ hex16 32 255 ++ [10]; bs "eventfd-id: 7" ++ [10]].
Example ex_event : ex_print ex_efd = Ok (bs "3<{eventfd-count=0xff, eventfd-id=7}>"). Proof. reflexivity. Qed.
Example ex_event_seen : seen (Eventfd 255 (Some 7) None) ex_efd.
Proof.
  split; [repeat constructor; unfold is_byte; lia|]. split; [reflexivity|]. split; [reflexivity|]. split; [reflexivity|]. eexists. split; [reflexivity|].
  assert (NS : forall p l, strip p l = None -> ~ starts_with p l) by (intros p l H (v & ->); rewrite strip_app in H; discriminate H).
  split; [exists [bs "pos: 0" ++ [10]], [bs "eventfd-id: 7" ++ [10]]; split; [reflexivity|]; repeat constructor; apply NS; reflexivity|]. split.
  - split; [lia|]. exists [bs "pos: 0" ++ [10]; bs "eventfd-count: " ++ hex16 32 255 ++ [10]], []. split; [reflexivity|]. repeat constructor; apply NS; reflexivity.
  - cbn [maybe]. unfold none_with. repeat constructor; apply NS; reflexivity.
Qed.
Example ex_pid : ex_print (ex_w (bs "anon_inode:[pidfd]") false None [bs "Pid:" ++ [9] ++ bs "42" ++ [10]]) = Ok (bs "3<pid:42>"). Proof. reflexivity. Qed.
Example ex_sig : ex_print (ex_w (bs "anon_inode:[signalfd]") false None [bs "sigmask:" ++ [9] ++ hex16 48 0x4001 ++ [10]]) = Ok (bs "3<signalfd:[HUP TERM]>"). Proof. vm_compute. reflexivity. Qed.
Example ex_sock : ex_print (ex_w (bs "socket:[77]") false None []) = Ok (bs "3<socket:[77]>"). Proof. reflexivity. Qed.
