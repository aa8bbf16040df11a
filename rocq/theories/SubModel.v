(** Calls made through socketcall(2) and ipc(2): src/syscall.c:279-341, src/linux/generic/subcallent.h,
    src/ipc_sem.c, src/ipc_semctl.c, src/ipc_msg.c, src/ipc_msgctl.c, src/ipc_shm.c, src/ipc_shmctl.c.
    A decoder is modelled by the values it gives to the printers of the arguments. *)
From Verif Require Import Base.
Local Open Scope N_scope.

(** the memory of the tracee: the byte at an address, if it can be read; umoven reads all of a range or fails *)
Definition memory := N -> option N.
Fixpoint umoven (m : memory) (addr : N) (len : nat) : option (list N) :=
  match len with
  | O => Some []
  | S k => olet b := m addr in olet r := umoven m (addr + 1) k in Some (b :: r)
  end.
(** a number of the tracee in a buffer: little endian, or big endian if [be] *)
Fixpoint le_num (l : list N) : N := match l with [] => 0 | b :: r => b + 256 * le_num r end.
Definition num (be : bool) (l : list N) : N := le_num (if be then rev l else l).

(** What is traced: [Socket k], [Ipc k] are the entries SYS_socket_subcall + k and SYS_ipc_subcall + k of sysent *)
Inductive sc := Socketcall | IpcCall | Socket (k : N) | Ipc (k : N).
(** [ws]: current_wordsize (4 or 8); [s390]: S390 or S390X; [sparc64] *)
Record cfg := { ws : nat; be : bool; s390 : bool; sparc64 : bool }.
(** [scno], [u_arg], [priv]: the number set by set_tcb_priv_ulong *)
Record tcb := { scno : sc; u_arg : nat -> N; priv : N }.

(** src/linux/generic/subcallent.h:15-34, nargs *)
Definition socket_nargs : list nat := [0; 3; 3; 3; 2; 3; 3; 3; 4; 4; 4; 6; 6; 2; 5; 5; 3; 3; 4; 5; 4]%nat.
(** ... 39-50 *)
Definition ipc_nargs (k : N) : option nat :=
  match k with
  | 1 => Some 4%nat | 2 => Some 3%nat | 3 => Some 4%nat | 4 => Some 5%nat
  | 11 => Some 4%nat | 12 => Some 5%nat | 13 => Some 2%nat | 14 => Some 4%nat
  | 21 => Some 4%nat | 22 => Some 4%nat | 23 => Some 3%nat | 24 => Some 4%nat
  | _ => None
  end.

Definition set (f : nat -> N) (i : nat) (v : N) : nat -> N := fun j => if Nat.eqb j i then v else f j.
(** src/syscall.c:298-300 *)
Fixpoint fill (c : cfg) (buf : list N) (i n : nat) (f : nat -> N) : nat -> N :=
  match n with
  | O => f
  | S k => fill c buf (S i) k (set f i (num (be c) (firstn (ws c) (skipn (i * ws c) buf))))
  end.
(** src/syscall.c:279-301; [call] is an int, so that the comparison with 21 is one of the low 32 bits *)
Definition decode_socket_subcall (c : cfg) (m : memory) (t : tcb) : tcb :=
  let call := u32 (u_arg t 0) in
  if (call <? 1) || (21 <=? call) then t   (* a negative int is above 2^31 here *)
  else match nth_error socket_nargs (N.to_nat call) with
       | None => t
       | Some n => match umoven m (u_arg t 1) (n * ws c) with
                   | None => t
                   | Some buf => {| scno := Socket call; u_arg := fill c buf 0 n (u_arg t); priv := priv t |}
                   end
       end.
(** src/syscall.c:338-340 *)
Fixpoint shift (i n : nat) (f : nat -> N) : nat -> N :=
  match n with O => f | S k => shift (S i) k (set f i (f (S i))) end.
(** src/syscall.c:305-341 *)
Definition decode_ipc_subcall (c : cfg) (t : tcb) : tcb :=
  let call := u32 (u_arg t 0) in
  let version := call / 2^16 in
  if negb (version =? 0) && (s390 c || (sparc64 c && Nat.eqb (ws c) 8)) then t
  else let p := if negb (version =? 0) then version else priv t in
       let k := if negb (version =? 0) then call mod 2^16 else call in
       match ipc_nargs k with
       | None => {| scno := scno t; u_arg := u_arg t; priv := p |}
       | Some n => {| scno := Ipc k; u_arg := shift 0 n (u_arg t); priv := p |}
       end.
(** src/syscall.c:602-613 *)
Definition decode_subcall (c : cfg) (m : memory) (t : tcb) : tcb :=
  match scno t with
  | Socketcall => decode_socket_subcall c m t
  | IpcCall => decode_ipc_subcall c t
  | _ => t
  end.

(** The arguments as they are printed: an int, an unsigned number, a signed long, an address, flags, a key,
    a command, an array of struct sembuf, a time, a message of so many bytes, a structure *)
Inductive shown := Int (v : N) | Num (v : N) | Long (v : N) | Addr (a : N) | Flags (v : N) | Key (v : N) | Cmd (v : N)
  | Sembufs (a count : N) | Timespec (a : N) | Msg (a count : N) | Struct (a : N).
Definition int (v : N) : shown := Int (u32 v).
(** truncate_klong_to_current_klongsize of a 32-bit or 64-bit tracee *)
Definition klong (c : cfg) (v : N) : shown := Long (if Nat.eqb (ws c) 8 then v else u32 v).

Section Decoders.
Context (c : cfg) (m : memory) (ind : bool).  (* [ind]: indirect_ipccall *)
(** src/ipc_sem.c:38-63 *)
Definition sembuf_array (addr count : N) : list shown := [Sembufs addr (u32 count); Num (u32 count)].
Definition semop (a : nat -> N) : list shown :=
  int (a 0%nat) :: (if ind then sembuf_array (a 3%nat) (a 1%nat) else sembuf_array (a 1%nat) (a 2%nat)).
(** src/ipc_sem.c:65-92 *)
Definition semtimedop (a : nat -> N) : list shown :=
  int (a 0%nat) ::
  if ind then sembuf_array (a 3%nat) (a 1%nat) ++ [Timespec (if s390 c then a 2%nat else a 4%nat)]
  else sembuf_array (a 1%nat) (a 2%nat) ++ [Timespec (a 3%nat)].
(** src/ipc_sem.c:106-124; the flags in two parts, src/ipc_sem.c:118-122 *)
Definition semget (a : nat -> N) : list shown := [Key (u32 (a 0%nat)); int (a 1%nat); Flags (u32 (a 2%nat))].
(** src/ipc_semctl.c:120-195: on entering, and on exiting what is left.  A semun that cannot be read is shown by its address *)
Definition semctl (a : nat -> N) : list shown :=
  [int (a 0%nat); int (a 1%nat); Cmd (u32 (a 2%nat))] ++
  if ind && negb (sparc64 c && Nat.eqb (ws c) 8)
  then match umoven m (a 3%nat) (ws c) with
       | Some b => [Struct (num (be c) b)]
       | None => [Addr (a 3%nat)]
       end
  else [Struct (a 3%nat)].
(** src/ipc_msg.c:37-68 *)
Definition msgsnd_ (addr count flags : N) : list shown := [Msg addr count; Num count; Flags (u32 flags)].
Definition msgsnd (a : nat -> N) : list shown :=
  int (a 0%nat) :: (if ind then msgsnd_ (a 3%nat) (a 1%nat) (a 2%nat) else msgsnd_ (a 1%nat) (a 2%nat) (a 3%nat)).
(** src/ipc_msg.c:70-84 *)
Definition msgrcv_ (addr count msgtyp : N) : list shown := [Msg addr count; Num count; klong c msgtyp].
(** src/ipc_msg.c:86-102; (int) tmp[1] is sign-extended *)
Definition fetch_msgrcv_args (addr : N) : option (N * N) :=
  olet b := umoven m addr (2 * ws c) in
  let x := num (be c) (firstn (ws c) b) in let y := num (be c) (skipn (ws c) b) in
  Some (x, if Nat.eqb (ws c) 8 then y else if y <? 2^31 then y else y + (2^64 - 2^32)).
(** src/ipc_msg.c:104-150 *)
Definition msgrcv (a : nat -> N) (prv : N) : list shown :=
  int (a 0%nat) ::
  if ind then
    (if (sparc64 c && Nat.eqb (ws c) 8) || negb (prv =? 0) then msgrcv_ (a 3%nat) (a 1%nat) (a 4%nat)
     else match fetch_msgrcv_args (a 3%nat) with
          | None => [Addr (a 3%nat); Num (a 1%nat)]
          | Some (x, y) => msgrcv_ x (a 1%nat) y
          end) ++ [Flags (u32 (a 2%nat))]
  else msgrcv_ (a 1%nat) (a 2%nat) (a 3%nat) ++ [Flags (u32 (a 4%nat))].
(** src/ipc_msg.c:22-35 *)
Definition msgget (a : nat -> N) : list shown := [Key (u32 (a 0%nat)); Flags (u32 (a 1%nat))].
(** src/ipc_msgctl.c:110-168, src/ipc_shmctl.c:130-190 *)
Definition ctl (a : nat -> N) : list shown := [int (a 0%nat); Cmd (u32 (a 1%nat)); Struct (if ind then a 3%nat else a 2%nat)].
(** src/ipc_shm.c:78-92 on entering *)
Definition shmat (a : nat -> N) : list shown :=
  int (a 0%nat) :: if ind then [Addr (a 3%nat); Flags (u32 (a 1%nat))] else [Addr (a 1%nat); Flags (u32 (a 2%nat))].
(** src/ipc_shm.c:93-106 on exiting: the value shown for [rval], [None] for RVAL_NONE *)
Definition shmat_rval (a : nat -> N) (rval : N) : option N :=
  if ind then olet b := umoven m (a 2%nat) (ws c) in Some (num (be c) b) else Some rval.
(** src/ipc_shm.c:108-113 *)
Definition shmdt (a : nat -> N) : list shown := [Addr (a (if ind then 3 else 0)%nat)].
(** src/ipc_shm.c:30-67 *)
Definition shmget (a : nat -> N) : list shown := [Key (u32 (a 0%nat)); Num (a 1%nat); Flags (u32 (a 2%nat))].

(** the decoder of an entry of subcallent.h *)
Definition decoder (k : N) (a : nat -> N) (prv : N) : list shown :=
  match k with
  | 1 => semop a | 2 => semget a | 3 => semctl a | 4 => semtimedop a
  | 11 => msgsnd a | 12 => msgrcv a prv | 13 => msgget a | 14 => ctl a
  | 21 => shmat a | 22 => shmdt a | 23 => shmget a | 24 => ctl a
  | _ => []
  end.
End Decoders.
