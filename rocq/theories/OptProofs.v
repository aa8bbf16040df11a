(** Lemmas for OptThms. *)
From Verif Require Import Base StrtouModel StrtouSpec StrtouThms QualModel QualSpec QualProofs OptModel OptSpec.
From Coq Require Import PeanoNat.
Local Open Scope N_scope.

(** ** Lists *)
Lemma latest_yes {A V} (R : A -> V -> Prop) l o d v : R o v -> latest R (l ++ [o]) d v.
Proof. intros H. left. exists l, o, []. repeat split; [exact H|intros b w []]. Qed.
Lemma latest_no {A V} (R : A -> V -> Prop) l o d v : (forall w, ~ R o w) -> latest R l d v -> latest R (l ++ [o]) d v.
Proof.
  intros N [(l1 & a & l2 & -> & Ra & Nn)|[-> Nn]].
  - left. exists l1, a, (l2 ++ [o]). rewrite <- app_assoc. repeat split; [exact Ra|]. intros b w I. apply in_app_or in I. destruct I as [I|[<-|[]]]; [exact (Nn b w I)|exact (N w)].
  - right. split; [reflexivity|]. intros b w I. apply in_app_or in I. destruct I as [I|[<-|[]]]; [exact (Nn b w I)|exact (N w)].
Qed.
Lemma latest_nil {A V} (R : A -> V -> Prop) d : latest R [] d d.
Proof. right. split; [reflexivity|intros b w []]. Qed.
Lemma latest_cons_yes {A V} (R : A -> V -> Prop) t l d w v : R t w -> latest R l w v -> latest R (t :: l) d v.
Proof.
  intros Rt [(l1 & a & l2 & -> & Ra & Nn)|[-> Nn]].
  - left. exists (t :: l1), a, l2. repeat split; assumption.
  - left. exists [], t, l. repeat split; assumption.
Qed.
Lemma latest_cons_no {A V} (R : A -> V -> Prop) t l d v : (forall w, ~ R t w) -> latest R l d v -> latest R (t :: l) d v.
Proof.
  intros N [(l1 & a & l2 & -> & Ra & Nn)|[-> Nn]].
  - left. exists (t :: l1), a, l2. repeat split; assumption.
  - right. split; [reflexivity|]. intros b w [<-|I]; [exact (N w)|exact (Nn b w I)].
Qed.
(** only one value when every element states only one *)
Lemma latest_fun {A V} (R : A -> V -> Prop) l d v v' : (forall a x y, R a x -> R a y -> x = y) -> latest R l d v -> latest R l d v' -> v = v'.
Proof.
  intros F. revert v v'. induction l as [|o l IH] using rev_ind; intros v v' H H'.
  - destruct H as [(l1 & a & l2 & E & _)|[-> _]]; [destruct l1; discriminate|]. destruct H' as [(l1 & a & l2 & E & _)|[-> _]]; [destruct l1; discriminate|reflexivity].
  - assert (G : forall x, latest R (l ++ [o]) d x -> R o x \/ ((forall w, ~ R o w) /\ latest R l d x)).
    { clear. intros x [(l1 & a & l2 & E & Ra & Nn)|[-> Nn]].
      - destruct l2 as [|b l2' _] using rev_ind.
        + apply app_inj_tail in E. destruct E as [_ ->]. left. exact Ra.
        + change (a :: l2' ++ [b]) with ((a :: l2') ++ [b]) in E. rewrite app_assoc in E. apply app_inj_tail in E. destruct E as [-> ->].
          right. split; [intros w; apply Nn; apply in_or_app; right; left; reflexivity|]. left. exists l1, a, l2'. repeat split; [exact Ra|]. intros c w I. apply Nn. apply in_or_app; left; exact I.
      - right. split; [intros w; apply Nn; apply in_or_app; right; left; reflexivity|]. right. split; [reflexivity|]. intros c w I. apply Nn. apply in_or_app; left; exact I. }
    apply G in H. apply G in H'. destruct H as [H|[N H]], H' as [H'|[N' H']]; [exact (F _ _ _ H H')|contradiction (N' _ H)|contradiction (N _ H')|exact (IH _ _ H H')].
Qed.
Lemma has_snoc p l o : has p (l ++ [o]) = has p l || p o.
Proof. unfold has. rewrite existsb_app. cbn. rewrite orb_false_r. reflexivity. Qed.
Lemma times_snoc p l o : times p (l ++ [o]) = times p l + (if p o then 1 else 0).
Proof. unfold times. rewrite filter_app, app_length. cbn [filter]. destruct (p o); cbn [length]; lia. Qed.
Lemma has_times p l : has p l = negb (times p l =? 0).
Proof.
  induction l as [|o l IH] using rev_ind; [reflexivity|]. rewrite has_snoc, times_snoc, IH. destruct (p o); [rewrite orb_true_r; symmetry; apply negb_true_iff, N.eqb_neq; lia|rewrite orb_false_r, N.add_0_r; reflexivity].
Qed.
Lemma collected_snoc {A} (R : opt -> list A -> Prop) l o r v : collected R l r -> R o v -> collected R (l ++ [o]) (r ++ v).
Proof. intros (rs & F & ->) H. exists (rs ++ [v]). split; [apply Forall2_app; [exact F|constructor; [exact H|constructor]]|]. rewrite concat_app. cbn. rewrite app_nil_r. reflexivity. Qed.
Lemma collected_nil {A} (R : opt -> list A -> Prop) : collected R [] [].
Proof. exists []. split; [constructor|reflexivity]. Qed.
Lemma Forall2_fun {A B} (R : A -> B -> Prop) l r r' : (forall a x y, R a x -> R a y -> x = y) -> Forall2 R l r -> Forall2 R l r' -> r = r'.
Proof. intros F H. revert r'. induction H as [|a b l r Ra _ IH]; intros r' H'; inversion H'; subst; [reflexivity|]. f_equal; [eapply F; eassumption|apply IH; assumption]. Qed.
Lemma collected_fun {A} (R : opt -> list A -> Prop) l r r' : (forall a x y, R a x -> R a y -> x = y) -> collected R l r -> collected R l r' -> r = r'.
Proof. intros F (a & Fa & ->) (b & Fb & ->). f_equal. eapply Forall2_fun; eassumption. Qed.

(** ** Arguments *)
Lemma to_uint s v : string_to_uint s = Some v <-> number int_max s v.
Proof. unfold string_to_uint. rewrite C03_string_to_uint_upto by reflexivity. reflexivity. Qed.
Lemma upto s m v : m < 2^63 -> string_to_uint_upto s m = Some v <-> number m s v.
Proof. intros L. rewrite C03_string_to_uint_upto by exact L. reflexivity. Qed.
Lemma number_fun m s v w : number m s v -> number m s w -> v = w.
Proof. intros [H _] [H' _]. exact (proj1 (C03_numeral_unique _ _ _ _ _ H H')). Qed.
Lemma opt_res_ok {A} (o : option A) a : opt_res o = Ok a <-> o = Some a.
Proof. destruct o; cbn; split; intros E; try discriminate; [injection E as ->; reflexivity|injection E as ->; reflexivity]. Qed.
Lemma find_word t s v : find_xlat_val_ex t s false = Some v -> word t s v.
Proof.
  induction t as [|[a n] t IH]; cbn [find_xlat_val_ex]; [discriminate|]. destruct (strcaseeq n s) eqn:E.
  - intros [= ->]. exists n. split; [left; reflexivity|]. apply beqs_eq in E. symmetry. exact E.
  - intros H. destruct (IH H) as (m & I & S). exists m. split; [right; exact I|exact S].
Qed.
Lemma find_none t s v : find_xlat_val_ex t s false = None -> ~ word t s v.
Proof.
  induction t as [|[a n] t IH]; cbn [find_xlat_val_ex]; [intros _ (m & [] & _)|]. destruct (strcaseeq n s) eqn:E; [discriminate|].
  intros H (m & [I|I] & Sm); [|apply (IH H); exists m; split; assumption]. injection I as <- <-. unfold strcaseeq in E. rewrite Sm in E.
  rewrite (proj2 (beqs_eq _ _) eq_refl) in E. discriminate.
Qed.
(** words of the table that are the same have the same value *)
Definition ok_table (t : list (N * list N)) : bool := forallb (fun p => forallb (fun q => negb (strcaseeq (snd p) (snd q)) || (fst p =? fst q)) t) t.
Lemma word_fun t s v w : ok_table t = true -> word t s v -> word t s w -> v = w.
Proof.
  intros O (n & I & Sn) (m & J & Sm). unfold ok_table in O. rewrite forallb_forall in O. specialize (O _ I). rewrite forallb_forall in O. specialize (O _ J). cbn [fst snd] in O.
  unfold strcaseeq in O. unfold same in Sn, Sm. rewrite <- Sn, <- Sm in O. rewrite (proj2 (beqs_eq _ _) eq_refl) in O. cbn in O. apply N.eqb_eq in O. exact O.
Qed.
Lemma find_iff t s v : ok_table t = true -> find_xlat_val_ex t s false = Some v <-> word t s v.
Proof.
  intros O. split; [apply find_word|]. intros H. destruct (find_xlat_val_ex t s false) as [w|] eqn:E; [|contradiction (find_none _ _ v E)].
  f_equal. exact (word_fun t s w v O (find_word _ _ _ E) H).
Qed.
Lemma timescale_iff s d : timescale s = Some d <-> precision s d.
Proof.
  destruct s as [[|c s]|]; cbn [timescale precision].
  - split; [discriminate|]. intros (n & I & Sn). cbn in I. unfold same in Sn. repeat (destruct I as [I|I]; [injection I as <- <-; discriminate|]). destruct I.
  - apply find_iff. reflexivity.
  - split; [intros [= <-]; reflexivity|intros ->; reflexivity].
Qed.
Definition intr_table := [(1, bs "anywhere"); (1, bs "always"); (2, bs "waiting"); (3, bs "never"); (4, bs "never_tstp")].
Lemma not_both s v w m : word intr_table s v -> ~ number m s w.
Proof.
  intros (n & I & Sn) [(b & g & ds & -> & Fb & G & D & Fd & _) _].
  assert (H : exists c r, b ++ g ++ ds ++ [] = c :: r /\ (blank c \/ c = 43 \/ c = 45 \/ digit c)).
  { destruct Fb as [|c b Hc _]; [|exists c, (b ++ g ++ ds ++ []); split; [reflexivity|left; exact Hc]]. destruct G as [->|[->|[-> _]]]; cbn [app].
    - destruct ds as [|c ds]; [contradiction|]. exists c, (ds ++ []). split; [reflexivity|]. inversion Fd; subst. right; right; right; assumption.
    - eexists _, _. split; [reflexivity|right; left; reflexivity].
    - eexists _, _. split; [reflexivity|right; right; left; reflexivity]. }
  destruct H as (c & r & E & Hc). rewrite E in Sn. unfold same in Sn. cbn [map] in Sn.
  assert (L : tolower c = c \/ 65 <= c <= 90) by (unfold tolower; destruct ((65 <=? c) && (c <=? 90)) eqn:Q; [right; lia|left; reflexivity]).
  assert (K : c < 65). { unfold blank, digit in Hc. lia. }
  destruct L as [L|L]; [|lia]. rewrite L in Sn. clear - Sn K I. apply (f_equal (hd 0)) in Sn. cbn [hd] in Sn. unfold intr_table in I. cbn [In] in I.
  repeat match type of I with _ \/ _ => destruct I as [I|I]; [apply pair_equal_spec in I; destruct I as [_ <-]; vm_compute in Sn; subst c; clear - K; lia|] end. destruct I.
Qed.
Lemma interruptible_iff s v : parse_interruptible_arg s = Some v <-> interruptible s v.
Proof.
  unfold parse_interruptible_arg, interruptible. change [(1, bs "anywhere"); (1, bs "always"); (2, bs "waiting"); (3, bs "never"); (4, bs "never_tstp")] with intr_table.
  destruct (find_xlat_val_ex intr_table s false) as [w|] eqn:E.
  - pose proof (find_word _ _ _ E) as W. split.
    + intros [= <-]. left. exact W.
    + intros [H|[H _]]; [f_equal; eapply (word_fun intr_table); [reflexivity|exact W|exact H]|]. contradiction (not_both _ _ _ _ W H).
  - split.
    + destruct (string_to_uint_upto s 4) as [[|p]|] eqn:U; [discriminate| |discriminate]. intros [= <-]. right. split; [apply upto; [reflexivity|exact U]|discriminate].
    + intros [H|[H Nz]]; [contradiction (find_none _ _ _ E H)|]. apply upto in H; [|reflexivity]. rewrite H. destruct v; [contradiction|reflexivity].
Qed.
Lemma find_arg_iff t d s v : ok_table t = true -> find_arg_val t d s = Some v <-> match s with None => v = d | Some s => word t s v end.
Proof. intros O. destruct s as [s|]; cbn [find_arg_val]; [apply find_iff; exact O|]. split; [intros [= <-]; reflexivity|intros ->; reflexivity]. Qed.
Lemma daemon_iff s v : find_arg_val [(1, bs "grandchild"); (2, bs "pgroup"); (2, bs "pgrp"); (3, bs "session")] 1 s = Some v <-> daemon_kind s v.
Proof. apply find_arg_iff. reflexivity. Qed.
Lemma hex_iff s v : find_arg_val [(0, bs "none"); (3, bs "non-ascii-chars"); (1, bs "non-ascii"); (2, bs "all")] 2 s = Some v <-> hex_kind s v.
Proof.
  rewrite find_arg_iff by reflexivity. destruct s as [s|]; [|reflexivity]. cbn [hex_kind].
  split; intros (n & I & Sn); exists n; (split; [|exact Sn]); cbn [In] in *; tauto.
Qed.

(** processes *)
Definition fold_sep (c : N) : N := if (c =? 10) || (c =? 9) || (c =? 32) then 44 else c.
Lemma sep_fold c : is_sep c = (fold_sep c =? 44).
Proof. unfold is_sep, fold_sep. destruct (c =? 10); [reflexivity|]. destruct (c =? 9); [reflexivity|]. destruct (c =? 32); reflexivity. Qed.
Lemma fold_nosep c : is_sep c = false -> fold_sep c = c.
Proof. unfold is_sep, fold_sep. destruct (c =? 10); [discriminate|]. destruct (c =? 9); [discriminate|]. destruct (c =? 32); [discriminate|reflexivity]. Qed.
Lemma split_nonnil d s : split d s <> [].
Proof. destruct s as [|c s]; cbn [split]; [discriminate|]. destruct (c =? d); [discriminate|]. destruct (split d s); discriminate. Qed.
Lemma pid_tokens_spec s cur : pid_tokens s cur = filter nonempty (match split 44 (map fold_sep s) with p :: ps => (rev cur ++ p) :: ps | [] => [] end).
Proof.
  revert cur. induction s as [|c s IH]; intros cur; cbn [pid_tokens map split].
  - cbn [filter]. destruct cur as [|a cur]; [reflexivity|]. rewrite app_nil_r. destruct (rev (a :: cur)) eqn:E; [apply (f_equal (@length N)) in E; rewrite rev_length in E; discriminate|reflexivity].
  - rewrite sep_fold. destruct (fold_sep c =? 44) eqn:E.
    + assert (R : pid_tokens s [] = filter nonempty (split 44 (map fold_sep s))). { rewrite IH. destruct (split 44 (map fold_sep s)) eqn:Q; [contradiction (split_nonnil _ _ Q)|reflexivity]. }
      cbn [filter]. rewrite app_nil_r. destruct cur as [|a cur]; [exact R|]. rewrite R. destruct (rev (a :: cur)) eqn:Q; [apply (f_equal (@length N)) in Q; rewrite rev_length in Q; discriminate|reflexivity].
    + rewrite IH. rewrite (fold_nosep c) by (rewrite sep_fold; exact E). destruct (split 44 (map fold_sep s)) as [|p ps] eqn:Q; [contradiction (split_nonnil _ _ Q)|].
      cbn [rev]. rewrite <- app_assoc. reflexivity.
Qed.
Lemma pid_tokens_between s : pid_tokens s [] = between s.
Proof. rewrite pid_tokens_spec. unfold between, comma_tokens. fold fold_sep. change (map (fun c : N => if (c =? 10) || (c =? 9) || (c =? 32) then 44 else c) s) with (map fold_sep s). destruct (split 44 (map fold_sep s)) eqn:Q; [contradiction (split_nonnil _ _ Q)|reflexivity]. Qed.
Lemma pids_ok self l r : pids self l = Some r -> Forall2 (process self) l r.
Proof.
  revert r. induction l as [|t l IH]; intros r; cbn [pids].
  - intros [= <-]. constructor.
  - unfold obind. destruct (string_to_uint t) as [p|] eqn:U; [|discriminate]. destruct (N.eqb_spec p 0) as [|Nz]; [discriminate|]. destruct (N.eqb_spec p self) as [|Ns]; [discriminate|]. cbn [orb].
    destruct (pids self l) as [r'|]; [|discriminate]. intros [= <-]. constructor; [split; [apply to_uint; exact U|split; assumption]|apply IH; reflexivity].
Qed.
Lemma pids_bad self l : pids self l = None -> ~ forall t, In t l -> exists p, process self t p.
Proof.
  induction l as [|t l IH]; cbn [pids]; [discriminate|]. unfold obind. intros H A. destruct (A t (or_introl eq_refl)) as (p & U & Nz & Ns). apply to_uint in U. rewrite U in H.
  destruct (N.eqb_spec p 0); [contradiction|]. destruct (N.eqb_spec p self); [contradiction|]. cbn [orb] in H. destruct (pids self l) as [r|]; [discriminate|]. apply IH; [reflexivity|]. intros u I. apply A. right. exact I.
Qed.
Lemma process_fun self a x y : process self a x -> process self a y -> x = y.
Proof. intros [H _] [H' _]. exact (number_fun _ _ _ _ H H'). Qed.
Lemma Forall2_wf {A B} (R : A -> B -> Prop) l r : Forall2 R l r -> forall t, In t l -> exists p, R t p.
Proof. induction 1 as [|a b l r Ra _ IH]; intros t I; [destruct I|]. destruct I as [<-|I]; [exists b; exact Ra|exact (IH t I)]. Qed.

(** time stamps *)
Fixpoint find2 (t : list (N * list N)) (u : list N) : option N :=
  match t with [] => None | (v, n) :: t => if beqs (map tolower n) u then Some v else find2 t u end.
Lemma find2_eq t s : find_xlat_val_ex t s false = find2 t (map tolower s).
Proof. induction t as [|[v n] t IH]; cbn [find_xlat_val_ex find2]; [reflexivity|]. rewrite IH. reflexivity. Qed.
Definition strip2 (p u : list N) : option (list N) := if beqs (firstn (length p) u) (map tolower p) then Some (skipn (length p) u) else None.
Definition token2 (u : list N) : token :=
  match strip2 (bs "format:") u with
  | Some u => match find2 formats u with Some f => Format f | None => Bad end
  | None =>
  match strip2 (bs "precision:") u with
  | Some u => match find2 units u with Some f => Precision f | None => Bad end
  | None => match find2 formats u with Some f => Format f | None => match find2 units u with Some d => Precision d | None => Bad end end
  end end.
Lemma strip2_eq p s : strip2 p (map tolower s) = option_map (map tolower) (casestrip p s).
Proof. unfold strip2, casestrip, strcaseeq. rewrite firstn_map, skipn_map. destruct (beqs _ _); reflexivity. Qed.
Lemma scale2_eq t : ts_scale t = find2 units (map tolower t).
Proof. unfold ts_scale. destruct t as [|c t]; [reflexivity|]. cbn [timescale]. apply find2_eq. Qed.
Lemma token2_eq t : ts_token t = token2 (map tolower t).
Proof.
  unfold ts_token, token2. rewrite !strip2_eq. unfold ts_format. destruct (casestrip (bs "format:") t) as [r|]; cbn [option_map].
  - rewrite find2_eq. reflexivity.
  - destruct (casestrip (bs "precision:") t) as [r|]; cbn [option_map]; rewrite ?scale2_eq, ?find2_eq; reflexivity.
Qed.
Lemma find2_in t u v : find2 t u = Some v -> exists n, In (v, n) t /\ u = map tolower n.
Proof.
  induction t as [|[a n] t IH]; cbn [find2]; [discriminate|]. destruct (beqs (map tolower n) u) eqn:E.
  - intros [= ->]. apply beqs_eq in E. exists n. split; [left; reflexivity|symmetry; exact E].
  - intros H. destruct (IH H) as (m & I & Em). exists m. split; [right; exact I|exact Em].
Qed.
Lemma strip2_some p u r : strip2 p u = Some r -> u = map tolower p ++ r.
Proof. unfold strip2. destruct (beqs _ _) eqn:E; [|discriminate]. intros [= <-]. apply beqs_eq in E. rewrite <- E. symmetry. apply firstn_skipn. Qed.
Lemma token_format t f : ts_token t = Format f -> format_word t (Some f).
Proof.
  rewrite token2_eq. unfold token2, format_word, same. destruct (strip2 (bs "format:") (map tolower t)) as [r|] eqn:E.
  - destruct (find2 formats r) as [g|] eqn:G; [|discriminate]. intros [= ->]. apply strip2_some in E. apply find2_in in G. destruct G as (n & I & ->).
    exists f, n. split; [exact I|]. split; [right; rewrite map_app; exact E|reflexivity].
  - destruct (strip2 (bs "precision:") (map tolower t)) as [r|]; [destruct (find2 units r); discriminate|].
    destruct (find2 formats (map tolower t)) as [g|] eqn:G; [|destruct (find2 units (map tolower t)); discriminate]. intros [= ->]. apply find2_in in G. destruct G as (n & I & G).
    exists f, n. split; [exact I|]. split; [left; exact G|reflexivity].
Qed.
Lemma token_precision t d : ts_token t = Precision d -> precision_word t (Some d).
Proof.
  rewrite token2_eq. unfold token2, precision_word, same. destruct (strip2 (bs "format:") (map tolower t)) as [r|]; [destruct (find2 formats r); discriminate|].
  destruct (strip2 (bs "precision:") (map tolower t)) as [r|] eqn:E.
  - destruct (find2 units r) as [g|] eqn:G; [|discriminate]. intros [= ->]. apply strip2_some in E. apply find2_in in G. destruct G as (n & I & ->).
    exists d, n. split; [exact I|]. split; [right; rewrite map_app; exact E|reflexivity].
  - destruct (find2 formats (map tolower t)) as [g|]; [discriminate|]. destruct (find2 units (map tolower t)) as [g|] eqn:G; [|discriminate]. intros [= ->]. apply find2_in in G. destruct G as (n & I & G).
    exists d, n. split; [exact I|]. split; [left; exact G|reflexivity].
Qed.
Ltac each I := repeat match type of I with _ \/ _ => destruct I as [I|I]; [apply pair_equal_spec in I; destruct I as [<- <-]|] end; [..|destruct I].
Lemma format_token t v : format_word t v -> exists f, v = Some f /\ ts_token t = Format f.
Proof.
  intros (f & n & I & Sn & ->). exists f. split; [reflexivity|]. rewrite token2_eq. unfold formats in I. cbn [In] in I. unfold same in Sn.
  each I; destruct Sn as [-> | ->]; vm_compute; reflexivity.
Qed.
Lemma precision_token t v : precision_word t v -> exists f, v = Some f /\ ts_token t = Precision f.
Proof.
  intros (f & n & I & Sn & ->). exists f. split; [reflexivity|]. rewrite token2_eq. unfold units in I. cbn [In] in I. unfold same in Sn.
  each I; destruct Sn as [-> | ->]; vm_compute; reflexivity.
Qed.
Lemma ts_loop_ok l : forall f p f' p', ts_loop l f p = Some (f', p') -> latest format_word l f f' /\ latest precision_word l p p'.
Proof.
  induction l as [|t l IH]; intros f p f' p'; cbn [ts_loop].
  - intros [= <- <-]. split; apply latest_nil.
  - destruct (ts_token t) as [n|n|] eqn:T; [| |discriminate]; intros H; apply IH in H; destruct H as [Hf Hp].
    + split; [eapply latest_cons_yes; [apply token_format; exact T|exact Hf]|]. apply latest_cons_no; [|exact Hp]. intros w W. apply precision_token in W. destruct W as (d & _ & W). rewrite T in W. discriminate.
    + split; [|eapply latest_cons_yes; [apply token_precision; exact T|exact Hp]]. apply latest_cons_no; [|exact Hf]. intros w W. apply format_token in W. destruct W as (d & _ & W). rewrite T in W. discriminate.
Qed.
Lemma ts_loop_wf l f p : ts_loop l f p = None <-> ~ forall t, In t l -> exists v, format_word t v \/ precision_word t v.
Proof.
  revert f p. induction l as [|t l IH]; intros f p; cbn [ts_loop].
  - split; [discriminate|]. intros H. contradiction H. intros t [].
  - destruct (ts_token t) as [n|n|] eqn:T.
    + rewrite IH. split; intros H A; apply H; intros u I; [apply A; right; exact I|]. destruct I as [<-|I]; [exists (Some n); left; apply token_format; exact T|exact (A u I)].
    + rewrite IH. split; intros H A; apply H; intros u I; [apply A; right; exact I|]. destruct I as [<-|I]; [exists (Some n); right; apply token_precision; exact T|exact (A u I)].
    + split; [|reflexivity]. intros _ A. destruct (A t (or_introl eq_refl)) as (v & [W|W]); [apply format_token in W|apply precision_token in W]; destruct W as (d & _ & W); rewrite T in W; discriminate.
Qed.
Lemma format_fun a x y : format_word a x -> format_word a y -> x = y.
Proof. intros H H'. apply format_token in H. apply format_token in H'. destruct H as (f & -> & T), H' as (g & -> & T'). rewrite T in T'. injection T' as ->. reflexivity. Qed.
Lemma precision_fun a x y : precision_word a x -> precision_word a y -> x = y.
Proof. intros H H'. apply precision_token in H. apply precision_token in H'. destruct H as (f & -> & T), H' as (g & -> & T'). rewrite T in T'. injection T' as ->. reflexivity. Qed.

(** -e *)
Lemma strip_prefix_some p s v : strip_prefix p s = Some v <-> s = p ++ v.
Proof.
  revert s. induction p as [|a p IH]; intros s; cbn [strip_prefix app]; [split; [intros [= ->]; reflexivity|intros ->; reflexivity]|].
  destruct s as [|b s]; [split; discriminate|]. destruct (N.eqb_spec a b) as [->|Ne].
  - rewrite IH. split; [intros ->; reflexivity|intros [= ->]; reflexivity].
  - split; [discriminate|intros [= -> ->]; contradiction].
Qed.
Lemma loop_means o s : (exists n k v, In (n, k) o /\ s = n ++ 61 :: v /\ qualify_loop o s = (k, v)) \/ ((forall n k v, In (n, k) o -> s <> n ++ 61 :: v) /\ qualify_loop o s = (Trace, s)).
Proof.
  induction o as [|[n k] o IH]; cbn [qualify_loop]; [right; split; [intros n k v []|reflexivity]|].
  destruct (strip_prefix n s) as [w|] eqn:E.
  - pose proof (proj1 (strip_prefix_some _ _ _) E) as E'. destruct (list_eq_dec N.eq_dec (firstn 1 w) [61]) as [Q|Q].
    + destruct w as [|c w]; [discriminate|]. cbn [firstn] in Q. injection Q as ->. left. exists n, k, w. split; [left; reflexivity|]. split; [exact E'|reflexivity].
    + assert (R : (match Some w with Some (61 :: v) => (k, v) | _ => qualify_loop o s end) = qualify_loop o s).
      { destruct w as [|c w]; [reflexivity|]. cbn [firstn] in Q. assert (Nc : c <> 61) by (intros ->; apply Q; reflexivity). clear - Nc.
        destruct c as [|p]; [reflexivity|]. do 6 (destruct p as [p|p|]; try reflexivity). contradiction. }
      assert (U : forall v, s <> n ++ 61 :: v). { intros v Ev. rewrite E' in Ev. apply app_inv_head in Ev. subst w. apply Q. reflexivity. }
      rewrite R. destruct IH as [(n' & k' & v & I & Ev & L)|[N L]].
      * left. exists n', k', v. split; [right; exact I|]. split; assumption.
      * right. split; [|exact L]. intros n' k' v [I|I]; [injection I as <- <-; apply U|exact (N n' k' v I)].
  - assert (U : forall v, s <> n ++ 61 :: v). { intros v Ev. apply strip_prefix_some in Ev. congruence. }
    destruct IH as [(n' & k' & v & I & Ev & L)|[N L]].
    + left. exists n', k', v. split; [right; exact I|]. split; assumption.
    + right. split; [|exact L]. intros n' k' v [I|I]; [injection I as <- <-; apply U|exact (N n' k' v I)].
Qed.
Lemma table_names n k : In (n, k) qual_options <-> In n (names k).
Proof.
  split.
  - unfold qual_options. cbn [In]. intros I. repeat match type of I with _ \/ _ => destruct I as [I|I]; [apply pair_equal_spec in I; destruct I as [<- <-]; cbn [names In]; tauto|] end. destruct I.
  - destruct k; cbn [names In]; intros I; repeat match type of I with _ \/ _ => destruct I as [<-|I]; [unfold qual_options; cbn [In]; tauto|] end; destruct I.
Qed.
Definition no_eq (n : list N) : bool := negb (existsb (N.eqb 61) n).
Lemma names_no_eq k n : In n (names k) -> no_eq n = true.
Proof. destruct k; cbn [names In]; intros I; repeat match type of I with _ \/ _ => destruct I as [<-|I]; [vm_compute; reflexivity|] end; destruct I. Qed.
Lemma cut_unique n m v w : no_eq n = true -> no_eq m = true -> n ++ 61 :: v = m ++ 61 :: w -> n = m /\ v = w.
Proof.
  unfold no_eq. revert m. induction n as [|a n IH]; intros [|b m]; cbn [existsb app]; intros Hn Hm E.
  - injection E as ->. split; reflexivity.
  - injection E as <- _. discriminate.
  - injection E as -> _. discriminate.
  - injection E as -> E. rewrite negb_orb in Hn, Hm. apply andb_true_iff in Hn, Hm. destruct (IH m (proj2 Hn) (proj2 Hm) E) as [-> ->]. split; reflexivity.
Qed.
Lemma names_unique k k' n : In n (names k) -> In n (names k') -> k = k'.
Proof.
  intros I J. assert (T : forallb (fun p => forallb (fun q => negb (beqs (fst p) (fst q)) || (if kind_eq_dec (snd p) (snd q) then true else false)) qual_options) qual_options = true) by (vm_compute; reflexivity).
  rewrite forallb_forall in T. apply table_names in I. apply table_names in J. specialize (T _ I). rewrite forallb_forall in T. specialize (T _ J). cbn [fst snd] in T.
  rewrite (proj2 (beqs_eq n n) eq_refl) in T. cbn [negb orb] in T. destruct (kind_eq_dec k k') as [E|E]; [exact E|discriminate].
Qed.
Lemma qualify_means s : means s (fst (qualify s)) (snd (qualify s)).
Proof.
  unfold qualify, means. destruct (loop_means qual_options s) as [(n & k & v & I & E & L)|[N L]]; rewrite L; cbn [fst snd].
  - left. exists n. split; [apply table_names; exact I|exact E].
  - right. split; [reflexivity|]. split; [reflexivity|]. intros k' n w I. apply (N n k' w). apply table_names. exact I.
Qed.
Lemma means_fun s k v k' v' : means s k v -> means s k' v' -> k = k' /\ v = v'.
Proof.
  intros [(n & I & E)|(-> & -> & N)] [(m & J & E')|(-> & -> & N')].
  - subst s. change (bs "=" ++ v) with (61 :: v) in E'. change (bs "=" ++ v') with (61 :: v') in E'. destruct (cut_unique _ _ _ _ (names_no_eq _ _ I) (names_no_eq _ _ J) E') as [<- <-]. split; [exact (names_unique _ _ _ I J)|reflexivity].
  - contradiction (N' _ _ _ I E).
  - contradiction (N _ _ _ J E').
  - split; reflexivity.
Qed.
Lemma sets_fun o k v k' v' : sets o k v -> sets o k' v' -> k = k' /\ v = v'.
Proof.
  destruct o; cbn [sets]; try (intros []; fail); try (intros [-> ->] [-> ->]; split; reflexivity).
  - apply means_fun.
  - destruct s as [s|]; [intros [-> ->] [-> ->]; split; reflexivity|]. intros [-> H] [-> H']. split; [reflexivity|].
    destruct H as [[-> ->]|[[-> ->]|[[-> ->]|[-> ->]]]]; destruct H' as [[E ->]|[[E ->]|[[E ->]|[E ->]]]]; try discriminate E; reflexivity.
Qed.

(** ** The loop *)
Ltac proj := cbn [acolumn max_strlen cflag daemonized daemonized_long followfork_short followfork separately optF intr kill_on_exit outfname procs qflag_short rflag tflag_short tflag_long tfmt tdig Tflag columns_set wallclock xflag xflag_long xlat yflag_short seccomp syscall_limit argv0 show_pid detach quals injects quiet_updated decode_fd_updated pid_pfx set_acolumn set_max_strlen set_cflag set_daemonized set_daemonized_long set_followfork_short set_followfork set_separately set_optF set_intr set_kill_on_exit set_outfname set_procs set_qflag_short set_rflag set_tflag_short set_tflag_long set_tfmt set_tdig set_Tflag set_columns_set set_wallclock set_xflag set_xflag_long set_xlat set_yflag_short set_seccomp set_syscall_limit set_argv0 set_show_pid set_detach set_quals set_injects set_quiet_updated set_decode_fd_updated set_pid_pfx].
Ltac projin H := cbn [acolumn max_strlen cflag daemonized daemonized_long followfork_short followfork separately optF intr kill_on_exit outfname procs qflag_short rflag tflag_short tflag_long tfmt tdig Tflag columns_set wallclock xflag xflag_long xlat yflag_short seccomp syscall_limit argv0 show_pid detach quals injects quiet_updated decode_fd_updated pid_pfx set_acolumn set_max_strlen set_cflag set_daemonized set_daemonized_long set_followfork_short set_followfork set_separately set_optF set_intr set_kill_on_exit set_outfname set_procs set_qflag_short set_rflag set_tflag_short set_tflag_long set_tfmt set_tdig set_Tflag set_columns_set set_wallclock set_xflag set_xflag_long set_xlat set_yflag_short set_seccomp set_syscall_limit set_argv0 set_show_pid set_detach set_quals set_injects set_quiet_updated set_decode_fd_updated set_pid_pfx] in H.
Ltac isx := cbn [is_c is_C is_b is_D is_daemonize is_f is_follow_forks is_output_separately is_F is_kill is_o is_q is_t is_timestamps is_U is_w is_x is_hex is_y is_seccomp is_limit is_argv0 is_show_pid].
Definition some {A} (o : option A) : bool := match o with Some _ => true | None => false end.
Record raw1 (e : env) (l : list opt) (x : st) : Prop := {
  w_a : latest r_a l 40 (acolumn x);
  w_s : latest r_s l 32 (max_strlen x);
  w_c : cflag x = if has is_c l then 1 else if has is_C l then 2 else 0;
  w_both : ~ (has is_c l = true /\ has is_C l = true);
  w_D : daemonized x = times is_D l;
  w_Dl : latest r_daemonize l 0 (daemonized_long x);
  w_Dl2 : has is_daemonize l = negb (daemonized_long x =? 0);
  w_f : followfork_short x = times is_f l;
  w_ff : followfork x = has is_follow_forks l;
  w_sep : separately x = has is_output_separately l;
  w_F : optF x = has is_F l;
  w_I : latest r_I l 0 (intr x);
  w_kill : kill_on_exit x = has is_kill l;
  w_o : latest r_o l None (outfname x);
  w_o2 : has is_o l = some (outfname x);
  w_procs : collected (r_procs e) l (procs x);
  w_q : qflag_short x = times is_q l;
  w_r : latest r_r l None (rflag x);
  w_t : tflag_short x = times is_t l;
  w_tl : tflag_long x = has is_timestamps l;
  w_ts : exists g b, latest r_fmt l 0 g /\ latest r_unstated l false b /\ tfmt x = if (g =? 0) && b then 1 else g;
  w_dig : latest r_dig l 0 (tdig x);
  w_ts0 : has is_timestamps l = false -> tfmt x = 0 /\ tdig x = 0;
  w_T : latest r_T l None (Tflag x);
  w_U : columns_set x = has is_U l;
  w_w : wallclock x = has is_w l;
  w_x : xflag x = N.min 2 (times is_x l);
  w_xl : latest r_hex l None (xflag_long x);
  w_xl2 : has is_hex l = some (xflag_long x);
  w_X : latest r_X l 2 (xlat x);
  w_y : yflag_short x = times is_y l;
  w_sec : seccomp x = has is_seccomp l;
  w_lim : latest r_limit l None (syscall_limit x);
  w_lim2 : has is_limit l = some (syscall_limit x);
  w_argv0 : argv0 x = has is_argv0 l;
  w_pid : show_pid x = has is_show_pid l;
  w_b : detach x = has is_b l }.
Record raw2 (l : list opt) (x : st) : Prop := {
  w_set : forall k, k <> Fault -> k <> Inject -> latest (r_set k) l (initial k) (quals x k);
  w_inj : collected r_inject l (injects x);
  w_qu : quiet_updated x = true <-> changes Quiet l;
  w_du : decode_fd_updated x = true <-> changes DecodeFd l }.
Lemma raw1_0 e : raw1 e [] st0.
Proof. constructor; try apply latest_nil; try apply collected_nil; try reflexivity; [intros [H _]; discriminate|exists 0, false; repeat split; apply latest_nil|split; reflexivity]. Qed.
Lemma no_changes k : ~ changes k [].
Proof. intros (o & v & [] & _). Qed.
Lemma raw2_0 : raw2 [] st0.
Proof.
  constructor; [intros k _ _; apply latest_nil|apply collected_nil| |]; (split; [discriminate|intros H; contradiction (no_changes _ H)]).
Qed.
Ltac keep := first
  [ assumption
  | apply latest_no; [intros w []|assumption]
  | rewrite has_snoc; isx; rewrite orb_false_r; assumption
  | rewrite times_snoc; isx; rewrite N.add_0_r; assumption
  | match goal with |- collected _ _ ?p => rewrite <- (app_nil_r p); apply collected_snoc; [assumption|reflexivity] end
  | match goal with H : cflag _ = _ |- _ => rewrite !has_snoc; isx; rewrite !orb_false_r; exact H end
  | match goal with H : ~ (_ /\ _) |- _ => rewrite !has_snoc; isx; rewrite !orb_false_r; exact H end
  | match goal with H : exists g b, _ |- _ => destruct H as (g & b & Hg & Hb & Ht); exists g, b; repeat split; [apply latest_no; [intros w []|exact Hg]|apply latest_no; [intros w []|exact Hb]|exact Ht] end
  | idtac ].
(** options for sets do not change the other settings *)
Lemma do_qual_raw1 e l x k v x' : raw1 e l x -> do_qual e x k v = Ok x' -> raw1 e l x'.
Proof.
  intros R. unfold do_qual. destruct (negb (valid e k v)); [discriminate|]. destruct k; intros E; injection E as <-; destruct R; constructor; proj; assumption.
Qed.
Lemma raw1_qual e l x o : match o with o_e _ | o_v | o_Y | o_pidns | o_z | o_Z | o_qual _ _ => True | _ => False end -> raw1 e l x -> raw1 e (l ++ [o]) x.
Proof. intros H R. destruct o; try destruct H; destruct R; constructor; keep. Qed.
Lemma sets_snoc k l o : changes k (l ++ [o]) <-> changes k l \/ exists v, sets o k v.
Proof.
  split.
  - intros (a & v & I & Sa). apply in_app_or in I. destruct I as [I|[<-|[]]]; [left; exists a, v; split; assumption|right; exists v; exact Sa].
  - intros [(a & v & I & Sa)|(v & Sa)]; [exists a, v; split; [apply in_or_app; left; exact I|exact Sa]|exists o, v; split; [apply in_or_app; right; left; reflexivity|exact Sa]].
Qed.
Lemma do_qual_raw2 e l x o k v x' : raw2 l x -> sets o k v -> do_qual e x k v = Ok x' -> raw2 (l ++ [o]) x'.
Proof.
  intros R H. unfold do_qual. destruct (negb (valid e k v)); [discriminate|].
  assert (O : forall k', k' <> k -> forall w, ~ sets o k' w). { intros k' Nk w H'. destruct (sets_fun _ _ _ _ _ H H') as [E _]. congruence. }
  assert (Y : forall l d, latest (r_set k) (l ++ [o]) d (Some v)). { intros. apply latest_yes. exists v. split; [exact H|reflexivity]. }
  assert (Z : forall k' l d w, k' <> k -> latest (r_set k') l d w -> latest (r_set k') (l ++ [o]) d w). { intros k' m d w Nk L. apply latest_no; [|exact L]. intros w' (s & Ss & _). exact (O k' Nk s Ss). }
  assert (C : forall k', changes k' (l ++ [o]) <-> changes k' l \/ k' = k).
  { intros k'. rewrite sets_snoc. split; intros [A|A]; [left; exact A|right; destruct A as (w & A); exact (proj1 (sets_fun _ _ _ _ _ A H))|left; exact A|right; subst k'; exists v; exact H]. }
  intros E. destruct R as [Ws Wi Wq Wd].
  assert (G : k <> Fault -> k <> Inject ->
      (forall k', k' <> Fault -> k' <> Inject -> latest (r_set k') (l ++ [o]) (initial k') (if kind_eq_dec k' k then Some v else quals x k')) /\ collected r_inject (l ++ [o]) (injects x)).
  { intros Nf Ni. split.
    - intros k' Nf' Ni'. destruct (kind_eq_dec k' k) as [->|Ne]; [apply Y|apply Z; [exact Ne|apply Ws; assumption]].
    - rewrite <- (app_nil_r (injects x)). apply collected_snoc; [exact Wi|]. right. right. split; [|reflexivity]. intros s. split; apply O; congruence. }
  destruct k; injection E as <-; constructor; proj;
    try (apply G; discriminate);
    try (rewrite C; rewrite ?Wq, ?Wd; split; [intros A; left; exact A|intros [A|A]; [exact A|discriminate A]]);
    try (rewrite C; split; [intros _; right; reflexivity|reflexivity]);
    try (intros k' Nf Ni; apply Z; [congruence|apply Ws; assumption]).
  - apply collected_snoc; [exact Wi|]. left. exists v. split; [exact H|reflexivity].
  - apply collected_snoc; [exact Wi|]. right. left. exists v. split; [exact H|reflexivity].
Qed.
(** other options do not change the sets *)
Lemma raw2_other l x x' o : (forall k v, ~ sets o k v) -> quals x' = quals x -> injects x' = injects x -> quiet_updated x' = quiet_updated x -> decode_fd_updated x' = decode_fd_updated x ->
  raw2 l x -> raw2 (l ++ [o]) x'.
Proof.
  intros N Eq Ei Eu Ed [Ws Wi Wq Wd]. constructor.
  - intros k Nf Ni. rewrite Eq. apply latest_no; [|apply Ws; assumption]. intros w (s & Ss & _). exact (N k s Ss).
  - rewrite Ei, <- (app_nil_r (injects x)). apply collected_snoc; [exact Wi|]. right. right. split; [|reflexivity]. intros s. split; apply N.
  - rewrite Eu, Wq, sets_snoc. split; [intros A; left; exact A|intros [A|(v & A)]; [exact A|contradiction (N _ _ A)]].
  - rewrite Ed, Wd, sets_snoc. split; [intros A; left; exact A|intros [A|(v & A)]; [exact A|contradiction (N _ _ A)]].
Qed.
(** whether the arguments are well formed *)
Lemma wf_qual e o k v : sets o k v -> match o with o_z | o_Z => False | _ => True end -> wf e o <-> valid e k v = true.
Proof.
  intros H Nz. assert (G : (exists k v, sets o k v /\ valid e k v = true) <-> valid e k v = true).
  { split; [intros (k' & v' & H' & V); destruct (sets_fun _ _ _ _ _ H H') as [-> ->]; exact V|intros V; exists k, v; split; assumption]. }
  destruct o; try contradiction; cbn [wf]; exact G.
Qed.
Lemma do_qual_ok e x k v : (exists x', do_qual e x k v = Ok x') <-> valid e k v = true.
Proof. unfold do_qual. destruct (valid e k v); cbn [negb]; split; intros H; try reflexivity; [eexists; reflexivity|destruct H as (x' & H); discriminate|discriminate]. Qed.
Lemma ts_text s : comma_tokens (match s with Some s => s | None => bs "format:time" end) = ts_words s.
Proof. reflexivity. Qed.

Lemma parse_ts_ok x s x' : parse_ts_arg x s = Some x' -> exists f p, latest format_word (comma_tokens s) None f /\ latest precision_word (comma_tokens s) None p /\
  x' = (let y := set_tfmt x (match f with Some f => f | None => if tfmt x =? 0 then 1 else tfmt x end) in match p with Some d => set_tdig y d | None => y end).
Proof.
  unfold parse_ts_arg. rewrite strtok_all_spec. destruct (ts_loop (comma_tokens s) None None) as [[f p]|] eqn:E; [|discriminate]. intros H. assert (H2 : forall (A : Type) (a b : A), Some a = Some b -> a = b) by (intros A a b [= ->]; reflexivity). apply H2 in H. clear H2. destruct (ts_loop_ok _ _ _ _ _ E) as [Hf Hp]. exists f, p. split; [exact Hf|]. split; [exact Hp|]. symmetry. exact H.
Qed.
Lemma parse_ts_bad x s : parse_ts_arg x s = None -> ~ forall t, In t (comma_tokens s) -> exists v, format_word t v \/ precision_word t v.
Proof. unfold parse_ts_arg. rewrite strtok_all_spec. destruct (ts_loop (comma_tokens s) None None) as [[f p]|] eqn:E; [discriminate|]. intros _. apply ts_loop_wf in E. exact E. Qed.
Lemma parse_ts_wf x s x' : parse_ts_arg x s = Some x' -> forall t, In t (comma_tokens s) -> exists v, format_word t v \/ precision_word t v.
Proof.
  unfold parse_ts_arg. rewrite strtok_all_spec. destruct (ts_loop (comma_tokens s) None None) as [[f p]|] eqn:E; [|discriminate]. intros _. clear x'. revert E. generalize (@None N) at 2. generalize (@None N) at 1. generalize (comma_tokens s). clear.
  induction l as [|t l IH]; intros a b E u J; [destruct J|]. cbn [ts_loop] in E. destruct (ts_token t) as [n|n|] eqn:T; [| |discriminate].
  - destruct J as [<-|J]; [exists (Some n); left; apply token_format; exact T|exact (IH _ _ E u J)].
  - destruct J as [<-|J]; [exists (Some n); right; apply token_precision; exact T|exact (IH _ _ E u J)].
Qed.
