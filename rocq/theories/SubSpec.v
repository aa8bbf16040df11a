(** The calls behind socketcall(2) and ipc(2), as the kernel makes them (net/socket.c, ipc/syscall.c). *)
From Verif Require Import Base SubModel.
Local Open Scope N_scope.

(** the word of the tracee at an address *)
Definition word (c : cfg) (m : memory) (a : N) : option N := olet b := umoven m a (ws c) in Some (num (be c) b).

(** socketcall(call, args): the number of words at [args], for each call from 1 to 20 *)
Definition sock_args (call : N) : option nat :=
  match call with
  | 1 | 2 | 3 | 5 | 6 | 7 | 16 | 17 => Some 3%nat   (* socket bind connect accept getsockname getpeername sendmsg recvmsg *)
  | 4 | 13 => Some 2%nat                             (* listen shutdown *)
  | 8 | 9 | 10 | 18 | 20 => Some 4%nat               (* socketpair send recv accept4 sendmmsg *)
  | 11 | 12 => Some 6%nat                            (* sendto recvfrom *)
  | 14 | 15 | 19 => Some 5%nat                       (* setsockopt getsockopt recvmmsg *)
  | _ => None
  end.

(** ipc(call, first, second, third, ptr, fifth), with the version in the upper half of [call]: the call the kernel
    makes, its arguments; [None] if there is no such call or the kernel cannot read the memory it needs.
    The calls are the numbers of ipc(2). *)
Definition kernel_ipc (c : cfg) (m : memory) (call first second third ptr fifth : N) : option (N * list N) :=
  let version := u32 call / 2^16 in
  match u32 call mod 2^16 with
  | 1 => Some (1, [first; ptr; second])                                  (* semop(semid, sops, nsops) *)
  | 2 => Some (2, [first; second; third])                                (* semget(key, nsems, semflg) *)
  | 3 => olet arg := word c m ptr in Some (3, [first; second; third; arg])   (* semctl(semid, semnum, cmd, arg) *)
  | 4 => Some (4, [first; ptr; second; if s390 c then third else fifth]) (* semtimedop(semid, sops, nsops, timeout) *)
  | 11 => Some (11, [first; ptr; second; third])                         (* msgsnd(msqid, msgp, msgsz, msgflg) *)
  | 12 => if version =? 0
          then olet p := word c m ptr in olet t := word c m (ptr + N.of_nat (ws c)) in
               Some (12, [first; p; second; t; third])                   (* msgrcv(msqid, msgp, msgsz, msgtyp, msgflg) *)
          else Some (12, [first; ptr; second; fifth; third])
  | 13 => Some (13, [first; second])                                     (* msgget(key, msgflg) *)
  | 14 => Some (14, [first; second; ptr])                                (* msgctl(msqid, cmd, buf) *)
  | 21 => Some (21, [first; ptr; second])                                (* shmat(shmid, shmaddr, shmflg) *)
  | 22 => Some (22, [ptr])                                               (* shmdt(shmaddr) *)
  | 23 => Some (23, [first; second; third])                              (* shmget(key, size, shmflg) *)
  | 24 => Some (24, [first; second; ptr])                                (* shmctl(shmid, cmd, buf) *)
  | _ => None
  end.
Definition is_ipc (call : N) : Prop := In (u32 call mod 2^16) [1; 2; 3; 4; 11; 12; 13; 14; 21; 22; 23; 24].
(** What is to be shown of each call: its arguments in the order of the prototypes above. *)
Definition prototype (c : cfg) (k : N) (args : list N) : list shown :=
  match k, args with
  | 1, [semid; sops; nsops] => [int semid; Sembufs sops (u32 nsops); Num (u32 nsops)]
  | 2, [key; nsems; semflg] => [Key (u32 key); int nsems; Flags (u32 semflg)]
  | 3, [semid; semnum; cmd; arg] => [int semid; int semnum; Cmd (u32 cmd); Struct arg]
  | 4, [semid; sops; nsops; timeout] => [int semid; Sembufs sops (u32 nsops); Num (u32 nsops); Timespec timeout]
  | 11, [msqid; msgp; msgsz; msgflg] => [int msqid; Msg msgp msgsz; Num msgsz; Flags (u32 msgflg)]
  | 12, [msqid; msgp; msgsz; msgtyp; msgflg] => [int msqid; Msg msgp msgsz; Num msgsz; klong c msgtyp; Flags (u32 msgflg)]
  | 13, [key; msgflg] => [Key (u32 key); Flags (u32 msgflg)]
  | 14, [id; cmd; buf] | 24, [id; cmd; buf] => [int id; Cmd (u32 cmd); Struct buf]
  | 21, [shmid; shmaddr; shmflg] => [int shmid; Addr shmaddr; Flags (u32 shmflg)]
  | 22, [shmaddr] => [Addr shmaddr]
  | 23, [key; size; shmflg] => [Key (u32 key); Num size; Flags (u32 shmflg)]
  | _, _ => []
  end.
(** registers *)
Definition regs (l : list N) : nat -> N := fun i => nth i l 0.
(** Where strace follows the kernel: no version with s390 (there the call has no such thing), and not with
    64-bit sparc, where semctl and msgrcv differ too. *)
Definition follows (c : cfg) (call : N) : Prop :=
  (sparc64 c = true -> ws c = 4%nat) /\ (s390 c = true -> u32 call / 2^16 = 0).
Definition word_ok (c : cfg) : Prop := ws c = 4%nat \/ ws c = 8%nat.
Definition mem_ok (m : memory) : Prop := forall a b, m a = Some b -> b < 256.
