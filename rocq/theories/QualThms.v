(** C04, C05: qualifier expressions (src/basic_filters.c, src/filter_qualify.c). *)
From Verif Require Import Base NumSetModel StrtouModel ShuffleModel QualModel QualSpec QualProofs.
Local Open Scope N_scope.

(** every expression is some number of '!' followed by a body that does not start with '!' *)
Theorem C04_expression_shape : forall str,
  exists k body, str = repeat 33 k ++ body /\ no_leading 33 body.
Proof. exact bang_decompose. Qed.
Print Assumptions C04_expression_shape.

(** C04: whatever the set contained before, the expression is rejected exactly when its
    body is invalid, and otherwise the set left behind contains exactly the denoted
    numbers, complemented once per '!'. *)
Theorem C04_qualify_tokens : forall func k body s0, no_leading 33 body ->
  match body_denotes func body with
  | Some base => exists s, qualify_tokens (repeat 33 k ++ body) [s0] func = Ok [s] /\
      forall n, is_number_in_set n (Some s) = Some (xorb (Nat.odd k) (base n))
  | None => qualify_tokens (repeat 33 k ++ body) [s0] func = Die
  end.
Proof. exact qualify_tokens_spec. Qed.
Print Assumptions C04_qualify_tokens.

(** C05: same for system call sets, per personality. *)
Theorem C05_qualify_syscall_tokens : forall env k body a,
  env_ok env -> length a = length (tables env) -> no_leading 33 body ->
  match syscalls_denote env body with
  | Some base => exists a', qualify_syscall_tokens env (repeat 33 k ++ body) a = Ok a' /\
      forall p n, (p < length (tables env))%nat ->
         is_number_in_set_array n (Some a') p = Some (xorb (Nat.odd k) (base p n))
  | None => qualify_syscall_tokens env (repeat 33 k ++ body) a = Die
  end.
Proof. exact qualify_syscall_tokens_spec. Qed.
Print Assumptions C05_qualify_syscall_tokens.

(** C05: an optional token without personality suffix and that is not a regular
    expression is never rejected. *)
Theorem C05_optional_token_accepted : forall env tok a,
  env_ok env -> length a = length (tables env) ->
  ~ In 44 tok -> ~ In 64 tok -> no_leading 47 (drop_q tok) ->
  exists a', qualify_syscall_tokens env (63 :: tok) a = Ok a'.
Proof. exact optional_accepted. Qed.
Print Assumptions C05_optional_token_accepted.

(** ---- the names of what is qualified ---- *)
(** the same letters, in upper or in lower case *)
Definition same_letter (x y : N) : Prop := x = y \/ (65 <= x <= 90 /\ y = x + 32) \/ (65 <= y <= 90 /\ x = y + 32).
Definition same_word : list N -> list N -> Prop := Forall2 same_letter.
Lemma strcaseeq_word : forall a b, strcaseeq a b = true <-> same_word a b.
Proof.
  unfold strcaseeq. intros a b. rewrite beqs_eq. revert b. induction a as [|x a IH]; intros [|y b]; cbn [map].
  - split; [constructor|reflexivity].
  - split; [discriminate|intros H; inversion H].
  - split; [discriminate|intros H; inversion H].
  - assert (T : tolower x = tolower y <-> same_letter x y) by (unfold tolower, same_letter; destruct ((65 <=? x) && (x <=? 90)) eqn:X, ((65 <=? y) && (y <=? 90)) eqn:Y; lia).
    split.
    + intros E. injection E as E1 E2. constructor; [apply T, E1|apply IH, E2].
    + intros H. inversion H as [|? ? ? ? H1 H2]; subst. apply T in H1. apply IH in H2. rewrite H1, H2. reflexivity.
Qed.
Lemma word_sym a b : same_word a b -> same_word b a.
Proof. induction 1; constructor; auto. unfold same_letter in *. lia. Qed.
Lemma word_trans a b c : same_word a b -> same_word b c -> same_word a c.
Proof. rewrite <- !strcaseeq_word. unfold strcaseeq. rewrite !beqs_eq. congruence. Qed.
Lemma word_name t s v : (forall v w n m, In (v, n) t -> In (w, m) t -> same_word n m -> v = w) ->
  find_xlat_val_ex t s false = Some v <-> exists n, In (v, n) t /\ same_word n s.
Proof.
  intros U. split.
  - clear U. induction t as [|[w n] t IH]; cbn [find_xlat_val_ex]; [discriminate|]. destruct (strcaseeq n s) eqn:E.
    + intros [= <-]. exists n. split; [left; reflexivity|apply strcaseeq_word, E].
    + intros H. destruct (IH H) as (m & I & M). exists m. split; [right; exact I|exact M].
  - induction t as [|[w n] t IH]; intros (m & I & M); [destruct I|]. cbn [find_xlat_val_ex]. destruct (strcaseeq n s) eqn:E.
    + f_equal. apply (U w v n m); [left; reflexivity|exact I|]. apply strcaseeq_word in E. apply (word_trans _ _ _ E), word_sym, M.
    + destruct I as [I|I]; [injection I as -> ->; apply strcaseeq_word in M; congruence|]. apply IH; [|exists m; auto].
      intros v1 v2 n1 n2 I1 I2. apply U; right; assumption.
Qed.
Ltac distinct := intros v1 v2 n1 n2 I1 I2 E; cbn [In] in I1, I2; apply strcaseeq_word in E;
  repeat match type of I1 with _ \/ _ => destruct I1 as [I1|I1] end; try contradiction; repeat match type of I2 with _ \/ _ => destruct I2 as [I2|I2] end; try contradiction;
  injection I1 as <- <-; injection I2 as <- <-; (reflexivity || discriminate E).
(** status: exactly these words, in upper or lower case *)
Theorem C04_status_names : forall s v, statusstr_to_uint s = Some v <->
  exists n, In (v, n) [(0, bs "successful"); (1, bs "failed"); (2, bs "unfinished"); (3, bs "unavailable"); (4, bs "detached")] /\ same_word n s.
Proof. intros s v. apply word_name. distinct. Qed.
Print Assumptions C04_status_names.
Theorem C04_quiet_names : forall s v, quietstr_to_uint s = Some v <->
  exists n, In (v, n) [(0, bs "attach"); (1, bs "exit"); (1, bs "exits"); (2, bs "path-resolution"); (3, bs "personality"); (4, bs "superseded"); (4, bs "thread-execve")] /\ same_word n s.
Proof. intros s v. apply word_name. distinct. Qed.
Print Assumptions C04_quiet_names.
(** signal: a number, or the first signal that has that name, with or without SIG, in upper or lower case *)
Definition bare (s : list N) (b : list N) : Prop := (exists p, s = p ++ b /\ same_word p (bs "SIG")) \/ (s = b /\ ~ exists p r, s = p ++ r /\ same_word p (bs "SIG")).
Definition named_signal (signame : N -> option (list N)) (s : list N) (i : N) : Prop :=
  1 <= i <= 255 /\ exists p n b, signame i = Some (p ++ n) /\ same_word p (bs "SIG") /\ bare s b /\ same_word n b.
Lemma word_length a b : same_word a b -> length a = length b.
Proof. induction 1; cbn [length]; congruence. Qed.
Lemma sig_strip s : strcaseeq (firstn 3 s) (bs "SIG") = true <-> exists p r, s = p ++ r /\ same_word p (bs "SIG").
Proof.
  split.
  - intros H. exists (firstn 3 s), (skipn 3 s). split; [symmetry; apply firstn_skipn|apply strcaseeq_word, H].
  - intros (p & r & -> & H). pose proof (word_length _ _ H) as L. change (length (bs "SIG")) with 3%nat in L. rewrite firstn_app, L, Nat.sub_diag, firstn_O, app_nil_r, <- L, firstn_all. apply strcaseeq_word, H.
Qed.
Lemma sig_bare s : bare s (if strcaseeq (firstn 3 s) (bs "SIG") then skipn 3 s else s).
Proof.
  destruct (strcaseeq (firstn 3 s) (bs "SIG")) eqn:E.
  - left. exists (firstn 3 s). split; [symmetry; apply firstn_skipn|apply strcaseeq_word, E].
  - right. split; [reflexivity|]. rewrite <- sig_strip. congruence.
Qed.
Lemma split3 p b p' b' : p ++ b = p' ++ b' -> same_word p (bs "SIG") -> same_word p' (bs "SIG") -> p = p' /\ b = b'.
Proof.
  intros E P P'. apply word_length in P, P'. assert (L : length p = length p') by congruence. clear P P'. revert p' E L. induction p as [|x p IH]; intros [|x' p'] E L; try discriminate L; [auto|].
  cbn [app] in E. injection E as -> E. injection L as L. destruct (IH _ E L) as [-> ->]. auto.
Qed.
Lemma bare_fun s b b' : bare s b -> bare s b' -> b = b'.
Proof.
  intros [(p & E & P)|[-> P]] [(p' & E' & P')|[-> P']]; try reflexivity.
  - rewrite E in E'. exact (proj2 (split3 _ _ _ _ E' P P')).
  - elim P'. exists p, b. auto.
  - elim P. exists p', b'. auto.
Qed.
Lemma sig_one signame s b i : bare s b -> 1 <= i <= 255 ->
  named_signal signame s i <-> exists name, signame i = Some name /\ strcaseeq (firstn 3 name) (bs "SIG") && strcaseeq (skipn 3 name) b = true.
Proof.
  intros B I. split.
  - intros (_ & p & n & b' & E & P & B' & M). exists (p ++ n). split; [exact E|]. pose proof (bare_fun _ _ _ B B'). subst b'. apply andb_true_intro. split; [apply sig_strip; exists p, n; auto|].
    pose proof (word_length _ _ P) as L. change (length (bs "SIG")) with 3%nat in L. rewrite skipn_app, L, Nat.sub_diag, <- L, skipn_all. apply strcaseeq_word. exact M.
  - intros (name & E & H). apply andb_prop in H as [H1 H2]. split; [exact I|]. exists (firstn 3 name), (skipn 3 name), b. rewrite firstn_skipn. repeat split; try assumption; apply strcaseeq_word; assumption.
Qed.
Lemma sig_loop_ok signame s b : bare s b -> forall fuel i, 1 <= i -> i + N.of_nat fuel = 256 ->
  match sig_loop signame b i fuel with
  | Some n => i <= n /\ named_signal signame s n /\ forall j, i <= j < n -> ~ named_signal signame s j
  | None => forall j, i <= j -> ~ named_signal signame s j
  end.
Proof.
  intros B. induction fuel as [|f IH]; intros i I F; cbn [sig_loop].
  - intros j J (R & _). lia.
  - assert (NX : ~ named_signal signame s i -> match sig_loop signame b (i + 1) f with Some n => i <= n /\ named_signal signame s n /\ (forall j, i <= j < n -> ~ named_signal signame s j) | None => forall j, i <= j -> ~ named_signal signame s j end).
    { intros H. specialize (IH (i + 1) ltac:(lia) ltac:(lia)). destruct (sig_loop signame b (i + 1) f) as [n|].
      - destruct IH as (A & C & D). split; [lia|]. split; [exact C|]. intros j J. destruct (N.eq_dec j i) as [-> |]; [exact H|apply D; lia].
      - intros j J. destruct (N.eq_dec j i) as [-> |]; [exact H|apply IH; lia]. }
    pose proof (sig_one signame s b i B ltac:(lia)) as O. destruct (signame i) as [name|] eqn:E.
    + destruct (strcaseeq (firstn 3 name) (bs "SIG") && strcaseeq (skipn 3 name) b) eqn:T.
      * split; [lia|]. split; [apply O; exists name; auto|]. intros j J. lia.
      * apply NX. rewrite O. intros (nm & En & Tn). injection En as <-. congruence.
    + apply NX. rewrite O. intros (nm & En & _). discriminate.
Qed.
Theorem C04_signal_names : forall signame s, (forall c r, s = c :: r -> ~ 48 <= c <= 57) ->
  match sigstr_to_uint signame s with
  | Some n => named_signal signame s n /\ forall j, j < n -> ~ named_signal signame s j
  | None => forall j, ~ named_signal signame s j
  end.
Proof.
  intros signame s D. assert (E : sigstr_to_uint signame s = sig_loop signame (if strcaseeq (firstn 3 s) (bs "SIG") then skipn 3 s else s) 1 255).
  { unfold sigstr_to_uint. destruct s as [|c r]; [reflexivity|]. specialize (D c r eq_refl). replace (is_digit c) with false; [reflexivity|]. symmetry. unfold is_digit. lia. }
  rewrite E. pose proof (sig_loop_ok signame s _ (sig_bare s) 255 1 ltac:(lia) eq_refl) as H. destruct (sig_loop _ _ _ _) as [n|].
  - destruct H as (_ & A & B). split; [exact A|]. intros j J N1. apply (B j); [|exact N1]. destruct N1 as [R _]. lia.
  - intros j N1. apply (H j); [|exact N1]. destruct N1 as [R _]. lia.
Qed.
Print Assumptions C04_signal_names.
Example ex_signal : sigstr_to_uint (fun i => nth (N.to_nat i) [None; Some (bs "SIGHUP"); Some (bs "SIGINT")] None) (bs "sigHup") = Some 1 /\
  sigstr_to_uint (fun i => nth (N.to_nat i) [None; Some (bs "SIGHUP"); Some (bs "SIGINT")] None) (bs "int") = Some 2.
Proof. vm_compute. auto. Qed.

(** Non-vacuity: a two-personality environment with x86-64 style shuffling. *)
Definition ex_table0 : list sysent :=
  [ {| sys_flags := 32; sys_func := true; sys_name := Some (bs "read") |};
    {| sys_flags := 32; sys_func := true; sys_name := Some (bs "write") |};
    {| sys_flags := 33; sys_func := true; sys_name := Some (bs "open") |};
    {| sys_flags := 0; sys_func := false; sys_name := None |};
    {| sys_flags := 1; sys_func := true; sys_name := Some (bs "stat") |} ].
Definition ex_table1 : list sysent :=
  [ {| sys_flags := 0; sys_func := true; sys_name := Some (bs "exit") |};
    {| sys_flags := 32; sys_func := true; sys_name := Some (bs "read") |} ].
Definition ex_env : qenv := {|
  tables := [ex_table0; ex_table1; ex_table1];
  designators := [bs "64"; bs "32"; bs "x32"];
  shuffle := shuffle_x86_64;
  non_shuffled_check := true;
  regcomp := fun pat => if beqs pat (bs "[") then None
             else Some (fun name => if beqs (firstn (length pat) name) pat then RxMatch else RxNoMatch)
|}.
Example ex_env_ok : env_ok ex_env.
Proof.
  split; [reflexivity|]. intros [|[|[|p]]] t H; simpl in H; try (destruct p; discriminate);
    inversion H; subst; (split; [vm_compute; reflexivity|]); (split; [|vm_compute; discriminate]);
    intros v Hv; unfold ex_env, shuffle, shuffle_x86_64; cbn [Nat.eqb]; auto.
  change X32_SYSCALL_BIT with (2^30).
  destruct (N.eq_dec (N.lxor v (2^30)) 0) as [->|H0]; [lia|]. apply N.log2_lt_pow2; [lia|].
  pose proof (N.log2_lxor v (2^30)). rewrite N.log2_pow2 in H1 by lia.
  destruct (N.eq_dec v 0) as [->|]; [simpl in *; lia|]. apply N.log2_lt_pow2 in Hv; lia.
Qed.
Definition ask (expr : list N) : list (list (option bool)) :=
  match qualify_syscall_tokens ex_env expr (alloc_number_set_array 3) with
  | Ok a => map (fun p => map (fun n => is_number_in_set_array n (Some a) p) [0;1;2;3;4]) [0;1;2]%nat
  | _ => []
  end.
Example ex_trace : ask (bs "!read@64,/st,1@32,?nosuch,%file")
  = [[Some false; Some true; Some false; Some true; Some false];
     [Some true; Some false; Some true; Some true; Some true];
     [Some true; Some true; Some true; Some true; Some true]].
Proof. vm_compute. reflexivity. Qed.
Example ex_rejects :
  map (fun e => qualify_syscall_tokens ex_env e (alloc_number_set_array 3))
      [bs "nosuch"; bs ""; bs ","; bs "read,nosuch"; bs "read@9"; bs "?x@9"; bs "?/["; bs "77"]
  = [Die; Die; Die; Die; Die; Die; Die; Die].
Proof. vm_compute. reflexivity. Qed.
Example ex_status :
  qualify_tokens (bs "!Failed,,detached") [empty_nset] statusstr_to_uint
  = Ok [{| vec := [18]; nt := true |}].
Proof. vm_compute. reflexivity. Qed.
(** Which numbers may be given: those of the calls of the table that have a decoder and are not
    subcalls of socketcall or ipc (flag 02000, src/sysent.h:31). *)
Theorem C04_number_valid : forall t n, scno_pers_is_valid t n = true <->
  exists e, nth_error t (N.to_nat n) = Some e /\ sys_func e = true /\ N.testbit (sys_flags e) 10 = false.
Proof.
  intros t n. unfold scno_pers_is_valid.
  assert (A : forall f, (N.land f TRACE_INDIRECT_SUBCALL =? 0) = negb (N.testbit f 10)).
  { intros f. change TRACE_INDIRECT_SUBCALL with (2 ^ 10). destruct (N.eqb_spec (N.land f (2 ^ 10)) 0) as [Z|Z].
    - pose proof (N.land_spec f (2 ^ 10) 10) as L. rewrite Z, N.bits_0, N.pow2_bits_true, andb_true_r in L. rewrite <- L. reflexivity.
    - destruct (N.testbit f 10) eqn:T; [reflexivity|]. destruct Z. apply N.bits_inj. intros k. rewrite N.land_spec, N.pow2_bits_eqb, N.bits_0.
      destruct (N.eqb_spec 10 k) as [<-|]; [rewrite T; reflexivity|apply andb_false_r]. }
  destruct (N.ltb_spec n (N.of_nat (length t))) as [L|L].
  - destruct (nth_error t (N.to_nat n)) as [e|] eqn:E.
    + rewrite A, andb_true_iff, negb_true_iff. split; [intros [X Y]; exists e; auto|]. intros (e' & X & Y). injection X as <-. exact Y.
    + split; [discriminate|]. intros (e & X & _). discriminate X.
  - split; [discriminate|]. intros (e & X & _). exfalso. assert (nth_error t (N.to_nat n) <> None) as Q by congruence. apply nth_error_Some in Q. lia.
Qed.
Print Assumptions C04_number_valid.
