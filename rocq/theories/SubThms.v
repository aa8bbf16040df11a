(** C66: calls made through socketcall and ipc are shown as the calls they are. *)
From Verif Require Import Base SubModel SubSpec SubProofs.
Local Open Scope N_scope.

(** socketcall: with a number the kernel knows and readable arguments, the call is the one of that number and its
    arguments are the words at the given address; else it is shown as socketcall with the registers as they are. *)
Theorem C66_socketcall : forall c m t, word_ok c -> scno t = Socketcall ->
  let t' := decode_subcall c m t in let call := u32 (u_arg t 0) in
  match sock_args call with
  | Some n =>
      ((forall i, (i < n)%nat -> word c m (u_arg t 1 + N.of_nat (i * ws c)) <> None) ->
       scno t' = Socket call /\ forall i, (i < n)%nat -> word c m (u_arg t 1 + N.of_nat (i * ws c)) = Some (u_arg t' i)) /\
      ((exists i, (i < n)%nat /\ word c m (u_arg t 1 + N.of_nat (i * ws c)) = None) -> t' = t)
  | None => t' = t
  end.
Proof.
  intros c m t W E t' call. subst t'. unfold decode_subcall. rewrite E. unfold decode_socket_subcall. fold call. cbv zeta.
  destruct (sock_args call) as [n|] eqn:A.
  - pose proof (sock_args_range _ _ A) as R. replace ((call <? 1) || (21 <=? call)) with false by lia.
    destruct (sock_args_nth call R) as (n' & A' & ->). assert (n' = n) by congruence. subst n'.
    destruct (umoven m (u_arg t 1) (n * ws c)) as [buf|] eqn:U.
    + split.
      * intros _. cbn [scno u_arg]. split; [reflexivity|]. intros i Hi. rewrite (umoven_words c m _ n buf U i Hi). f_equal. rewrite fill_spec. replace ((0 <=? i)%nat && (i <? 0 + n)%nat) with true by lia. reflexivity.
      * intros (i & Hi & X). rewrite (umoven_words c m _ n buf U i Hi) in X. discriminate X.
    + split; [|reflexivity]. intros H. destruct (umoven_none c m _ n U) as (i & Hi & X). exfalso. eapply H; eauto.
  - destruct ((call <? 1) || (21 <=? call)) eqn:R; [reflexivity|]. destruct (sock_args_nth call ltac:(lia)) as (n & A' & _). congruence.
Qed.
Print Assumptions C66_socketcall.

(** ipc: the call and the arguments shown are those the kernel takes. *)
Theorem C66_ipc : forall c m t call first second third ptr fifth k args,
  word_ok c -> mem_ok m -> follows c call -> scno t = IpcCall -> u_arg t = regs [call; first; second; third; ptr; fifth] -> priv t = 0 ->
  kernel_ipc c m call first second third ptr fifth = Some (k, args) ->
  let t' := decode_subcall c m t in
  scno t' = Ipc k /\ decoder c m true k (u_arg t') (priv t') = prototype c k args.
Proof.
  intros c m t call first second third ptr fifth k args W M (Fs & F3) E A P K. cbv zeta. unfold decode_subcall. rewrite E. unfold decode_ipc_subcall. cbv zeta.
  rewrite A, P. change (regs [call; first; second; third; ptr; fifth] 0) with call.
  assert (S0 : sparc64 c && Nat.eqb (ws c) 8 = false).
  { destruct (sparc64 c); [|reflexivity]. rewrite Fs by reflexivity. reflexivity. }
  rewrite S0, orb_false_r.
  assert (G : negb (u32 call / 2^16 =? 0) && s390 c = false).
  { destruct (s390 c); [rewrite F3 by reflexivity; reflexivity|apply andb_false_r]. }
  rewrite G. unfold kernel_ipc in K. cbv zeta in K.
  assert (Hk : (if negb (u32 call / 2^16 =? 0) then u32 call mod 2^16 else u32 call) = u32 call mod 2^16).
  { destruct (u32 call / 2^16 =? 0) eqn:V; [|reflexivity]. cbn [negb]. symmetry. apply N.mod_small. apply N.eqb_eq in V. apply N.div_small_iff in V; [exact V|discriminate]. }
  rewrite Hk. set (p := if negb (u32 call / 2^16 =? 0) then u32 call / 2^16 else 0).
  assert (Hp : (p =? 0) = (u32 call / 2^16 =? 0)). { unfold p. destruct (u32 call / 2^16 =? 0) eqn:V; cbn [negb]; [reflexivity|exact V]. }
  clearbody p. clear Hk. destruct (u32 call mod 2^16) as [|q]; [discriminate K|].
  do 5 (try (destruct q as [q|q|]); try discriminate K); cbn [ipc_nargs].
  all: cbn [scno u_arg priv].
  (* all but semctl, msgrcv *)
  all: try (injection K as <- <-; split; [reflexivity|]; cbn; destruct (s390 c); reflexivity).
  - (* semctl, msgrcv, semtimedop: in the order of the binary digits *)
    destruct (word c m ptr) as [x|] eqn:Wx; [|discriminate K]. cbn [obind] in K. injection K as <- <-. split; [reflexivity|].
    cbn. unfold semctl. rewrite S0. cbn [andb negb]. cbn. unfold word in Wx. change (regs [call; first; second; third; ptr; fifth] 4) with ptr.
    destruct (umoven m ptr (ws c)) as [b|]; [|discriminate Wx]. cbn in Wx. injection Wx as <-. reflexivity.
  - destruct (u32 call / 2^16 =? 0) eqn:V.
    + destruct (word c m ptr) as [x|] eqn:Wx; [|discriminate K]. cbn [obind] in K. destruct (word c m (ptr + N.of_nat (ws c))) as [y|] eqn:Wy; [|discriminate K].
      cbn [obind] in K. injection K as <- <-. split; [reflexivity|]. cbn. unfold msgrcv. rewrite S0, Hp. cbn [orb negb]. cbn.
      change (regs [call; first; second; third; ptr; fifth] 4) with ptr. change (regs [call; first; second; third; ptr; fifth] 2) with second.
      unfold fetch_msgrcv_args. change (2 * ws c)%nat with (ws c + (ws c + 0))%nat. rewrite Nat.add_0_r, umoven_app. unfold word in Wx, Wy.
      destruct (umoven m ptr (ws c)) as [b|] eqn:Eb; [|discriminate Wx]. cbn in Wx. injection Wx as <-.
      destruct (umoven m (ptr + N.of_nat (ws c)) (ws c)) as [b'|] eqn:Eb'; [|discriminate Wy]. cbn in Wy. injection Wy as <-. cbn [obind].
      pose proof (umoven_length _ _ _ _ Eb) as Lb. pose proof (umoven_length _ _ _ _ Eb') as Lb'.
      rewrite firstn_app, Lb, Nat.sub_diag, firstn_all2 by lia. cbn [firstn]. rewrite app_nil_r.
      rewrite skipn_app, Lb, Nat.sub_diag, skipn_all2 by lia. cbn [skipn app].
      unfold msgrcv_. cbn [app]. do 3 f_equal. apply (f_equal2 cons); [|reflexivity]. unfold klong. destruct W as [W|W]; rewrite W; [|reflexivity].
      change (4 =? 8)%nat with false. cbv iota. apply (f_equal Long). pose proof (num_bound (be c) b' (umoven_bytes _ _ _ _ M Eb')) as Bd. rewrite Lb', W in Bd. change (256 ^ N.of_nat 4) with (2^32) in Bd.
      set (y := num (be c) b') in *. destruct (y <? 2^31); [reflexivity|]. unfold u32. rewrite (N.mod_small y) by exact Bd.
      replace (y + (2^64 - 2^32)) with (y + (2^32 - 1) * 2^32) by lia. rewrite N.mod_add by discriminate. apply N.mod_small. exact Bd.
    + injection K as <- <-. split; [reflexivity|]. cbn. unfold msgrcv. rewrite S0, Hp. reflexivity.
  - injection K as <- <-. split; [reflexivity|]. cbn. unfold semtimedop. destruct (s390 c); reflexivity.
Qed.
Print Assumptions C66_ipc.

(** The same calls made directly: the decoders show the arguments of the prototype. *)
Theorem C66_direct : forall c m k args prv, prototype c k args <> [] -> decoder c m false k (regs args) prv = prototype c k args.
Proof.
  intros c m k args prv H. destruct k as [|q]; [contradiction H; reflexivity|].
  do 5 (try (destruct q as [q|q|]); try (exfalso; apply H; reflexivity)).
  all: do 6 (try (destruct args as [|? args]); try (exfalso; apply H; reflexivity)); reflexivity.
Qed.
Print Assumptions C66_direct.

(** A number that is no ipc call leaves everything as it is; a call whose memory cannot be read keeps its name. *)
Theorem C66_ipc_otherwise : forall c m t, follows c (u_arg t 0) -> scno t = IpcCall ->
  let t' := decode_subcall c m t in
  (~ is_ipc (u_arg t 0) -> scno t' = IpcCall /\ u_arg t' = u_arg t) /\
  (is_ipc (u_arg t 0) -> scno t' = Ipc (u32 (u_arg t 0) mod 2^16)).
Proof.
  intros c m t (Fs & F3) E. cbv zeta. unfold decode_subcall. rewrite E. unfold decode_ipc_subcall, is_ipc. cbv zeta.
  set (call := u_arg t 0) in *.
  assert (S0 : sparc64 c && Nat.eqb (ws c) 8 = false) by (destruct (sparc64 c); [rewrite Fs by reflexivity; reflexivity|reflexivity]).
  rewrite S0, orb_false_r.
  assert (G : negb (u32 call / 2^16 =? 0) && s390 c = false).
  { destruct (s390 c); [rewrite F3 by reflexivity; reflexivity|apply andb_false_r]. }
  rewrite G.
  assert (Hk : (if negb (u32 call / 2^16 =? 0) then u32 call mod 2^16 else u32 call) = u32 call mod 2^16).
  { destruct (u32 call / 2^16 =? 0) eqn:V; [|reflexivity]. cbn [negb]. symmetry. apply N.mod_small. apply N.eqb_eq in V. apply N.div_small_iff in V; [exact V|discriminate]. }
  rewrite Hk. split; intros H.
  - destruct (ipc_nargs (u32 call mod 2^16)) as [n|] eqn:A; [exfalso; apply H, ipc_nargs_in; eauto|]. cbn. auto.
  - apply ipc_nargs_in in H as (n & ->). reflexivity.
Qed.
Print Assumptions C66_ipc_otherwise.

(** shmat by way of ipc returns the address at [third], and that is what is shown. *)
Theorem C66_shmat_result : forall c m t call first second third ptr fifth rval,
  follows c call -> scno t = IpcCall -> u_arg t = regs [call; first; second; third; ptr; fifth] -> u32 call mod 2^16 = 21 ->
  shmat_rval c m true (u_arg (decode_subcall c m t)) rval = word c m third.
Proof.
  intros c m t call first second third ptr fifth rval F E A K.
  assert (F' : follows c (u_arg t 0)) by (rewrite A; exact F).
  destruct F as (Fs & F3). unfold decode_subcall. rewrite E. unfold decode_ipc_subcall. cbv zeta.
  rewrite A. change (regs [call; first; second; third; ptr; fifth] 0) with call.
  assert (S0 : sparc64 c && Nat.eqb (ws c) 8 = false) by (destruct (sparc64 c); [rewrite Fs by reflexivity; reflexivity|reflexivity]).
  rewrite S0, orb_false_r.
  assert (G : negb (u32 call / 2^16 =? 0) && s390 c = false).
  { destruct (s390 c); [rewrite F3 by reflexivity; reflexivity|apply andb_false_r]. }
  rewrite G.
  assert (Hk : (if negb (u32 call / 2^16 =? 0) then u32 call mod 2^16 else u32 call) = 21).
  { destruct (u32 call / 2^16 =? 0) eqn:V; [|exact K]. cbn [negb]. rewrite <- K. symmetry. apply N.mod_small. apply N.eqb_eq in V. apply N.div_small_iff in V; [exact V|discriminate]. }
  rewrite Hk. reflexivity.
Qed.
Print Assumptions C66_shmat_result.

(** Concrete calls: sendto by way of socketcall on i386, msgrcv by way of ipc with both versions. *)
Definition ex_cfg := {| ws := 4; be := false; s390 := false; sparc64 := false |}.
Definition ex_mem : memory := fun a => if (4096 <=? a) && (a <? 4120) then Some (if (a - 4096) mod 4 =? 0 then (a - 4096) / 4 + 7 else 0) else None.
Example ex_mem_ok : mem_ok ex_mem.
Proof.
  intros a b. unfold ex_mem. destruct ((4096 <=? a) && (a <? 4120)) eqn:E; [|discriminate]. intros [= <-]. destruct ((a - 4096) mod 4 =? 0); [|lia].
  assert ((a - 4096) / 4 < 6) by (apply N.div_lt_upper_bound; lia). lia.
Qed.
Example ex_socketcall : let t := decode_subcall ex_cfg ex_mem {| scno := Socketcall; u_arg := regs [11; 4096]; priv := 0 |} in
  scno t = Socket 11 /\ map (u_arg t) (seq 0 6) = [7; 8; 9; 10; 11; 12].
Proof. split; vm_compute; reflexivity. Qed.
Example ex_msgrcv_old : kernel_ipc ex_cfg ex_mem 12 1 2 3 4096 5 = Some (12, [1; 7; 2; 8; 3]). Proof. vm_compute. reflexivity. Qed.
Example ex_msgrcv_new : kernel_ipc ex_cfg ex_mem 65548 1 2 3 4096 5 = Some (12, [1; 4096; 2; 5; 3]). Proof. vm_compute. reflexivity. Qed.
Example ex_ipc_ok : word_ok ex_cfg /\ follows ex_cfg 65548 /\ is_ipc 65548.
Proof. split; [left; reflexivity|]. split; [split; discriminate|cbn; auto 10]. Qed.

(** a long is a word of the tracee *)
Theorem C66_long : forall c v, word_ok c -> v < 2 ^ 64 -> klong c v = Long (v mod 256 ^ N.of_nat (ws c)).
Proof.
  intros c v W V. unfold klong. destruct W as [-> | ->]; [reflexivity|]. change (Nat.eqb 8 8) with true. cbv iota. change (256 ^ N.of_nat 8) with (2 ^ 64). rewrite N.mod_small by exact V. reflexivity.
Qed.
Print Assumptions C66_long.
