(** C113: how fcntl is shown. *)
From Verif Require Import Base Printf XlatModel InfoModel InfoSpec TvalSpec NumaSpec VmSpec FlagText FcntlModel AioSpec SeekSpec FcntlSpec.
From Verif Require BitsModel ExtModel TvalModel TvalThms NumaModel NumaThms DateThms InfoThms FhSpec FhThms AioModel AioThms SeekModel SeekThms.
Local Open Scope N_scope.

(** ---- names ---- *)
Lemma lookup_names l v : normal_lookup (names l) v = name_in l v.
Proof. unfold names, name_in. induction l as [|[n s] l IH]; [reflexivity|]. cbn [map normal_lookup find fst snd]. destruct (n =? v); [reflexivity|exact IH]. Qed.
Definition no_empty (l : list (N * list N)) : bool := forallb (fun p => match snd p with [] => false | _ => true end) l.
Lemma name_ok t l d e v : xlookup t v = name_in l v -> no_empty l = true -> d <> [] -> name_text (st e) l d v (xval t d e v).
Proof.
  intros L NE D. exists (pr_hex v). split; [apply NumaThms.hex_ok|]. unfold named, xval, printxvals_ex. cbn [xlookups]. rewrite L. change (sprint_xlat_val FMT_X v) with (pr_hex v).
  destruct (name_in l v) as [n|] eqn:E.
  - assert (N0 : n <> []).
    { unfold name_in in E. destruct (find _ l) as [[k s]|] eqn:F; [|discriminate E]. cbn in E. injection E as <-. apply find_some in F. destruct F as [I _]. unfold no_empty in NE. rewrite forallb_forall in NE. specialize (NE _ I). cbn in NE. intros ->. discriminate NE. }
    destruct n; [contradiction|]. destruct (st e); reflexivity.
  - destruct d; [contradiction|]. destruct (st e); reflexivity.
Qed.
Lemma cmd_ok e v : name_text (st e) commands (bs "F_???") v (xval fcntlcmds (bs "F_???") e v).
Proof. apply name_ok; [apply (lookup_names commands)|reflexivity|discriminate]. Qed.
Lemma lock_ok e v : name_text (st e) locks (bs "F_???") v (xval lockfcmds (bs "F_???") e v).
Proof. apply name_ok; [apply (lookup_names locks)|reflexivity|discriminate]. Qed.
Lemma owner_name v : xlookup f_owner_types v = name_in owners v.
Proof.
  destruct (N.ltb_spec v 3) as [L|L].
  - assert (v = 0 \/ v = 1 \/ v = 2) as C by lia. repeat destruct C as [-> |C]; try reflexivity. subst v. reflexivity.
  - unfold xlookup. cbn [ty f_owner_types data length]. replace (v <? N.of_nat 3) with false by (symmetry; apply N.ltb_ge; exact L). unfold name_in. cbn [find owners fst].
    repeat match goal with |- context [?a =? v] => replace (a =? v) with false by (symmetry; apply N.eqb_neq; lia) end. reflexivity.
Qed.
Lemma owner_ok e v : name_text (st e) owners (bs "F_OWNER_???") v (xval f_owner_types (bs "F_OWNER_???") e v).
Proof. apply name_ok; [apply owner_name|reflexivity|discriminate]. Qed.
Lemma fd_flags_ok s v : flags_text s [(0, bs "FD_CLOEXEC")] None (bs " /* FD_??? */") v (printflags_ex v (Some (bs "FD_???")) s FMT_X [fdflags]).
Proof.
  apply (flags_ok s fdflags None (bs "FD_???") [(0, bs "FD_CLOEXEC")] v); [| | |discriminate].
  - intros g. unfold fdflags. cbn [data]. apply (T_bit _ 0); apply T_nil.
  - unfold fdflags. cbn [data]. split; [reflexivity|]. intros g ->. split; [reflexivity|]. destruct s; reflexivity.
  - repeat constructor; cbn; intuition discriminate.
Qed.
Lemma notify_ok s v : flags_text s [(0, bs "DN_ACCESS"); (1, bs "DN_MODIFY"); (2, bs "DN_CREATE"); (3, bs "DN_DELETE"); (4, bs "DN_RENAME"); (5, bs "DN_ATTRIB"); (31, bs "DN_MULTISHOT")] None (bs " /* DN_??? */") v
  (printflags_ex v (Some (bs "DN_???")) s FMT_X [notifyflags]).
Proof.
  apply (flags_ok s notifyflags None (bs "DN_???") [(0, bs "DN_ACCESS"); (1, bs "DN_MODIFY"); (2, bs "DN_CREATE"); (3, bs "DN_DELETE"); (4, bs "DN_RENAME"); (5, bs "DN_ATTRIB"); (31, bs "DN_MULTISHOT")] v); [| | |discriminate].
  - intros g. unfold notifyflags. cbn [data]. apply (T_bit _ 0); apply (T_bit _ 1); apply (T_bit _ 2); apply (T_bit _ 3); apply (T_bit _ 4); apply (T_bit _ 5); apply (T_bit _ 31); apply T_nil.
  - unfold notifyflags. cbn [data]. split; [reflexivity|]. intros g ->. split; [reflexivity|]. destruct s; reflexivity.
  - repeat constructor; cbn; intuition discriminate.
Qed.
Lemma seals_ok s v : flags_text s [(0, bs "F_SEAL_SEAL"); (1, bs "F_SEAL_SHRINK"); (2, bs "F_SEAL_GROW"); (3, bs "F_SEAL_WRITE"); (4, bs "F_SEAL_FUTURE_WRITE"); (5, bs "F_SEAL_EXEC")] None (bs " /* F_SEAL_??? */") v
  (printflags_ex v (Some (bs "F_SEAL_???")) s FMT_X [f_seals]).
Proof.
  apply (flags_ok s f_seals None (bs "F_SEAL_???") [(0, bs "F_SEAL_SEAL"); (1, bs "F_SEAL_SHRINK"); (2, bs "F_SEAL_GROW"); (3, bs "F_SEAL_WRITE"); (4, bs "F_SEAL_FUTURE_WRITE"); (5, bs "F_SEAL_EXEC")] v); [| | |discriminate].
  - intros g. unfold f_seals. cbn [data]. apply (T_bit _ 0); apply (T_bit _ 1); apply (T_bit _ 2); apply (T_bit _ 3); apply (T_bit _ 4); apply (T_bit _ 5); apply T_nil.
  - unfold f_seals. cbn [data]. split; [reflexivity|]. intros g ->. split; [reflexivity|]. destruct s; reflexivity.
  - repeat constructor; cbn; intuition discriminate.
Qed.

(** ---- what is behind pointers ---- *)
Definition seen_at (e : env) := FhSpec.seen (ExtModel.verbose (NumaModel.o e)) (negb (ExtModel.failed (NumaModel.o e))) (NumaModel.m e).
Definition unseen_at (e : env) := FhSpec.unseen (ExtModel.verbose (NumaModel.o e)) (negb (ExtModel.failed (NumaModel.o e))) (NumaModel.m e).
Definition pointer_text (e : env) (n : nat) (rows : list N -> list row) (a : N) (t : list N) : Prop :=
  (unseen_at e a n -> address t a) /\ (forall c, length c = n -> seen_at e a c -> struct_text (rows c) t).
Definition the_layout (compat large : bool) : layout := if compat then (if large then flock64_compat else flock_compat) else flock64_native.
Lemma printflock_ok x e compat large written a : DateThms.byte_memory (NumaModel.m e) ->
  pointer_text e (lock_size compat large) (lock_rows (pid x PT_TGID) (st e) compat large written) a (printflock x e (the_layout compat large) written a).
Proof.
  intros BM. assert (SZ : size (the_layout compat large) = lock_size compat large) by (destruct compat, large; reflexivity). unfold printflock. rewrite SZ. split.
  - intros U. rewrite (AioThms.fetch_unseen e a _ U). apply TvalThms.printaddr_ok.
  - intros c L S. pose proof (AioThms.fetch_seen e a c S) as E. rewrite L in E. rewrite E. destruct S as (_ & _ & _ & S). pose proof (FhThms.seen_bytes _ _ _ BM S) as BC.
    apply AioThms.struct_ok. unfold lock_rows. rewrite !InfoThms.ld_number.
    assert (OW : ow (the_layout compat large) = offset_size compat large) by (destruct compat, large; reflexivity).
    assert (OS : o_start (the_layout compat large) = first_offset compat) by (destruct compat, large; reflexivity).
    assert (OL : o_len (the_layout compat large) = (first_offset compat + offset_size compat large)%nat) by (destruct compat, large; reflexivity).
    assert (OP : o_pid (the_layout compat large) = (first_offset compat + offset_size compat large + offset_size compat large)%nat) by (destruct compat, large; reflexivity).
    assert (W0 : (0 < offset_size compat large)%nat) by (destruct compat, large; cbn; lia).
    rewrite OW, OS, OL, OP. apply Forall2_app.
    + constructor; [apply AioThms.field_row, lock_ok|]. constructor; [apply AioThms.field_row, (SeekThms.whence_ok e)|].
      constructor; [apply AioThms.field_row, AioThms.signed_ok; assumption|]. constructor; [apply AioThms.field_row, AioThms.signed_ok; assumption|constructor].
    + destruct written; [|constructor]. apply AioThms.row1. eexists. split; [|reflexivity]. apply (AioThms.sx_signed 4); [lia|]. apply InfoThms.number_lt, BC.
Qed.
Lemma print_owner_ok x e a : DateThms.byte_memory (NumaModel.m e) ->
  pointer_text e 8 (owner_rows (pid x PT_TID) (pid x PT_TGID) (pid x PT_PGID) (pid x PT_NONE) (st e)) a (print_f_owner_ex x e a).
Proof.
  intros BM. unfold print_f_owner_ex. split.
  - intros U. rewrite (AioThms.fetch_unseen e a _ U). apply TvalThms.printaddr_ok.
  - intros c L S. pose proof (AioThms.fetch_seen e a c S) as E. rewrite L in E. rewrite E. destruct S as (_ & _ & _ & S). pose proof (FhThms.seen_bytes _ _ _ BM S) as BC.
    apply AioThms.struct_ok. unfold owner_rows. rewrite !InfoThms.ld_number. constructor; [apply AioThms.field_row, owner_ok|]. constructor; [|constructor]. apply AioThms.field_row.
    eexists. split; [apply (AioThms.sx_signed 4); [lia|apply InfoThms.number_lt, BC]|]. generalize (number_at c 0 4). intros k. unfold owner_kind.
    destruct (N.eqb_spec k 0) as [-> |]; [reflexivity|]. destruct (N.eqb_spec k 1) as [-> |]; [reflexivity|]. destruct (N.eqb_spec k 2) as [-> |]; [reflexivity|].
    destruct k as [|p]; [contradiction|]. do 2 (destruct p as [p|p|]; try reflexivity; try contradiction).
Qed.

(** ---- C113: the third argument is shown as what the command takes, if it takes one ---- *)
Definition shape_text (x : texts) (compat : bool) (e e' : env) (s : shape) (a : N) (l : list (list N)) : Prop :=
  match s with
  | Nothing => l = []
  | _ => exists t, l = [t] /\
      match s with
      | Nothing => False
      | Number => signed_text 8 (a mod 2 ^ 64) t
      | Word => hex_or_0 t a
      | Bits width names unknown => flags_text (st e) names None unknown (a mod 2 ^ width) t
      | Lease => name_text (st e) locks (bs "F_???") a t
      | Open => t = modes x (a mod 2 ^ 32)
      | Descriptor => exists z, signed 4 (a mod 2 ^ 32) z /\ t = fd x z
      | Signal => exists z, signed 4 (a mod 2 ^ 32) z /\ t = signal x z
      | Process => exists z, signed 4 (a mod 2 ^ 32) z /\ t = owner x z
      | Lock large written => let m := if written then e' else e in pointer_text m (lock_size compat large) (lock_rows (pid x PT_TGID) (st m) compat large written) a t
      | Owner written => let m := if written then e' else e in pointer_text m 8 (owner_rows (pid x PT_TID) (pid x PT_TGID) (pid x PT_PGID) (pid x PT_NONE) (st m)) a t
      end
  end.
(** the text of an argument of each shape *)
Definition render (x : texts) (compat : bool) (e e' : env) (cmd : N) (s : shape) (a2 : N) : list (list N) :=
  match s with
  | Nothing => []
  | Number => [TvalModel.sdec (TvalModel.sx 8 (u64 a2))]
  | Word => [pr_hex a2]
  | Bits _ _ _ => match cmd with
      | 2 => [printflags_ex (u32 a2) (Some (bs "FD_???")) (st e) FMT_X [fdflags]]
      | 1026 => [printflags_ex a2 (Some (bs "DN_???")) (st e) FMT_X [notifyflags]]
      | _ => [printflags_ex a2 (Some (bs "F_SEAL_???")) (st e) FMT_X [f_seals]]
      end
  | Lease => [xval lockfcmds (bs "F_???") e a2]
  | Open => [modes x (u32 a2)]
  | Descriptor => [fd x (int a2)]
  | Signal => [signal x (int a2)]
  | Process => [owner x (int a2)]
  | Lock large written => [printflock x (if written then e' else e) (the_layout compat large) written a2]
  | Owner written => [print_f_owner_ex x (if written then e' else e) a2]
  end.
Lemma rendered x compat e e' cmd a2 : print_fcntl x compat e e' cmd a2 = render x compat e e' cmd (argument cmd) a2.
Proof.
  assert (L : forall large, the_layout compat large = if large then (if compat then flock64_compat else flock64_native) else (if compat then flock_compat else flock64_native)) by (intros []; destruct compat; reflexivity).
  unfold render. destruct cmd as [|p]; [reflexivity|]. do 11 (destruct p as [p|p|]; try reflexivity; try (cbn [argument print_fcntl]; rewrite L; reflexivity)).
Qed.
Lemma signed_int a : signed 4 (a mod 2 ^ 32) (int a).
Proof. unfold int. apply (AioThms.sx_signed 4); [lia|]. apply N.mod_lt. discriminate. Qed.
Lemma is_bits cmd w names unknown : argument cmd = Bits w names unknown -> cmd = 2 \/ cmd = 1026 \/ cmd = 1033.
Proof. destruct cmd as [|p]; [discriminate|]. do 11 (destruct p as [p|p|]; try discriminate; try (intros _; lia)). Qed.
Lemma argument_ok x compat e e' cmd a2 : a2 < 2 ^ 64 -> DateThms.byte_memory (NumaModel.m e) -> DateThms.byte_memory (NumaModel.m e') -> shape_text x compat e e' (argument cmd) a2 (print_fcntl x compat e e' cmd a2).
Proof.
  intros R BM BM'. rewrite rendered. destruct (argument cmd) as [ | | |w names unknown| | | | | |large written|written] eqn:A; cbn [render shape_text].
  - reflexivity.
  - eexists. split; [reflexivity|]. eexists. split; [|apply DateThms.sdec_integer]. apply (AioThms.sx_signed 8); [lia|]. apply N.mod_lt. discriminate.
  - eexists. split; [reflexivity|]. apply NumaThms.hex_ok.
  - destruct (is_bits cmd w names unknown A) as [-> |[-> | ->]]; cbn [argument] in A; injection A as <- <- <-; eexists; (split; [reflexivity|]); [apply fd_flags_ok|rewrite N.mod_small by exact R; apply notify_ok|rewrite N.mod_small by exact R; apply seals_ok].
  - eexists. split; [reflexivity|]. apply lock_ok.
  - eexists. split; reflexivity.
  - eexists. split; [reflexivity|]. eexists. split; [apply signed_int|reflexivity].
  - eexists. split; [reflexivity|]. eexists. split; [apply signed_int|reflexivity].
  - eexists. split; [reflexivity|]. eexists. split; [apply signed_int|reflexivity].
  - eexists. split; [reflexivity|]. cbv zeta. destruct written; apply printflock_ok; assumption.
  - eexists. split; [reflexivity|]. cbv zeta. destruct written; apply print_owner_ok; assumption.
Qed.
Theorem C113_fcntl : forall x compat e e' a0 a1 a2, a2 < 2 ^ 64 -> DateThms.byte_memory (NumaModel.m e) -> DateThms.byte_memory (NumaModel.m e') ->
  exists z c l, signed 4 (a0 mod 2 ^ 32) z /\ name_text (st e) commands (bs "F_???") (a1 mod 2 ^ 32) c /\ shape_text x compat e e' (argument (a1 mod 2 ^ 32)) a2 l /\ fcntl x compat e e' a0 a1 a2 = commas ([fd x z; c] ++ l).
Proof.
  intros x compat e e' a0 a1 a2 R BM BM'. unfold fcntl. rewrite NumaThms.args_commas. exists (int a0). do 2 eexists. split; [apply signed_int|]. split; [apply cmd_ok|]. split; [|reflexivity]. apply argument_ok; assumption.
Qed.
Print Assumptions C113_fcntl.
Theorem C113_fcntl64 : forall x e e' a0 a1 a2, a2 < 2 ^ 64 -> DateThms.byte_memory (NumaModel.m e) -> DateThms.byte_memory (NumaModel.m e') -> let cmd := a1 mod 2 ^ 32 in
  exists z c l, signed 4 (a0 mod 2 ^ 32) z /\ name_text (st e) commands (bs "F_???") cmd c /\ shape_text x true e e' (argument64 cmd) a2 l /\ fcntl64 x e e' a0 a1 a2 = commas ([fd x z; c] ++ l).
Proof.
  intros x e e' a0 a1 a2 R BM BM' cmd. unfold fcntl64. change (u32 a1) with cmd. clearbody cmd. cbv zeta. rewrite NumaThms.args_commas. exists (int a0). do 2 eexists. split; [apply signed_int|]. split; [apply cmd_ok|]. split; [|reflexivity].
  assert (C : cmd = 12 \/ (cmd = 13 \/ cmd = 14) \/ cmd <> 12 /\ cmd <> 13 /\ cmd <> 14) by lia. destruct C as [-> |[[-> | ->]|(N1 & N2 & N3)]].
  - eexists. split; [reflexivity|]. apply (printflock_ok x e' true true true a2 BM').
  - eexists. split; [reflexivity|]. apply (printflock_ok x e true true false a2 BM).
  - eexists. split; [reflexivity|]. apply (printflock_ok x e true true false a2 BM).
  - pose proof (argument_ok x true e e' cmd a2 R BM BM') as H. destruct cmd as [|p]; [exact H|]. do 4 (destruct p as [p|p|]; try exact H; try lia).
Qed.
Print Assumptions C113_fcntl64.
(** F_GETOWN returns a process, or a group if the result is negative: which one is decided before the call, by the result of the call before it *)
Theorem C113_getown_refuted : ~ (forall before rval, getown_kind before rval = if 2 ^ 31 <=? rval mod 2 ^ 32 then PT_PGID else PT_TGID).
Proof. intros H. specialize (H 3 (2 ^ 64 - 100)). vm_compute in H. discriminate H. Qed.
Print Assumptions C113_getown_refuted.

Definition ex_texts : texts := {| fd := TvalModel.sdec; pid := fun _ => TvalModel.sdec; owner := TvalModel.sdec; modes := fun _ => bs "M"; signal := fun _ => bs "S" |}.
Definition ex_lock : list N := [1; 0; 2; 0; 0; 0; 0; 0] ++ [5; 0; 0; 0; 0; 0; 0; 0] ++ repeat 255 8 ++ [9; 0; 0; 0; 0; 0; 0; 0].
Example C113_example :
  let e := NumaThms.ex_env ex_lock in
  fcntl ex_texts false e e 3 6 4096 = bs "3, F_SETLK, {l_type=F_WRLCK, l_whence=SEEK_END, l_start=5, l_len=-1}" /\
  fcntl ex_texts false e e 3 5 4096 = bs "3, F_GETLK, {l_type=F_WRLCK, l_whence=SEEK_END, l_start=5, l_len=-1, l_pid=9}" /\
  fcntl ex_texts true e e 3 5 4096 = bs "3, F_GETLK, {l_type=F_WRLCK, l_whence=SEEK_END, l_start=0, l_len=5, l_pid=0}" /\
  fcntl ex_texts false e e 3 1 4096 = bs "3, F_GETFD" /\ fcntl ex_texts false e e 3 (2 ^ 32 + 2) 1 = bs "3, F_SETFD, FD_CLOEXEC" /\ fcntl ex_texts false e e 3 0 7 = bs "3, F_DUPFD, 7" /\
  fcntl ex_texts false e e 3 99 7 = bs "3, 0x63 /* F_??? */, 0x7" /\ fcntl64 ex_texts e e 3 13 64 = bs "3, F_SETLK64, 0x40" /\
  fcntl ex_texts false (NumaThms.ex_env [2; 0; 0; 0; 251; 255; 255; 255]) e 3 15 4096 = bs "3, F_SETOWN_EX, {type=F_OWNER_PGRP, pid=-5}" /\
  fcntl ex_texts false e e 3 1033 3 = bs "3, F_ADD_SEALS, F_SEAL_SEAL|F_SEAL_SHRINK".
Proof. repeat split; vm_compute; reflexivity. Qed.
