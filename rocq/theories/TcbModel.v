(** Model of the table of tracees: src/strace.c:980-1001 (expand_tcbtab), 1048-1074 (alloctcb),
    1107-1167 (droptcb), 3176-3201 (pid2tcb).
    A tcb is identified by its position in tcbtab (the tcbs are never moved or freed, only
    zeroed); here only their pid field is kept, 0 meaning free.  The other fields are in
    LogModel and LoopModel.  Simplified: pids and counts are unbounded (they fit int); memory
    for the table can always be had. *)
From Verif Require Import Base AllocModel.
Local Open Scope N_scope.

(** src/strace.c:146-149 (tcbtab, nprocs, tcbtabsize), 3185 (pid2tcb_cache) *)
Record tab := { pids : list N; nprocs : N; cache : N -> option nat }.
Definition tab0 : tab := {| pids := []; nprocs := 0; cache := fun _ => None |}.
Definition pidof (t : tab) (i : nat) : N := nth i (pids t) 0.
Definition set_pid (l : list N) (i : nat) (p : N) : list N := firstn i l ++ p :: skipn (S i) l.

(** src/strace.c:980-1001: new tcbs are zeroed *)
Definition expand_tcbtab (t : tab) : res tab :=
  let n := N.of_nat (length (pids t)) in
  rlet r := xgrowarray 32 (fun _ => true) (n =? 0) n 8 in
  Ok {| pids := pids t ++ repeat 0 (N.to_nat (fst r - n)); nprocs := nprocs t; cache := cache t |}.

(** position of the first entry with the given pid *)
Fixpoint find_pid (l : list N) (p : N) : option nat :=
  match l with
  | [] => None
  | x :: r => if x =? p then Some O else option_map S (find_pid r p)
  end.

(** src/strace.c:1048-1074 *)
Definition alloctcb (t : tab) (pid : N) : res (tab * nat) :=
  rlet t := (if nprocs t =? N.of_nat (length (pids t)) then expand_tcbtab t else Ok t) in
  match find_pid (pids t) 0 with
  | Some i => Ok ({| pids := set_pid (pids t) i pid; nprocs := nprocs t + 1; cache := cache t |}, i)
  | None => Die   (* "bug in alloctcb" *)
  end.

(** src/strace.c:1107-1112, 1137, 1166, as far as the table goes *)
Definition drop_slot (t : tab) (i : nat) : tab :=
  if pidof t i =? 0 then t
  else {| pids := set_pid (pids t) i 0; nprocs := nprocs t - 1; cache := cache t |}.

(** src/strace.c:3176-3201.  [pid] is the int argument, negative values included. *)
Definition pid2tcb (t : tab) (pid : Z) : tab * option nat :=
  if (pid <=? 0)%Z then (t, None)
  else
    let p := Z.to_N pid in
    let slot := N.land p 1023 in
    match cache t slot with
    | Some i => if pidof t i =? p then (t, Some i)
                else match find_pid (pids t) p with
                     | Some j => ({| pids := pids t; nprocs := nprocs t; cache := fun k => if k =? slot then Some j else cache t k |}, Some j)
                     | None => (t, None)
                     end
    | None => match find_pid (pids t) p with
              | Some j => ({| pids := pids t; nprocs := nprocs t; cache := fun k => if k =? slot then Some j else cache t k |}, Some j)
              | None => (t, None)
              end
    end.

(** src/strace.c:3427: "tcp->pid = pid" *)
Definition rename (t : tab) (i : nat) (pid : N) : tab :=
  {| pids := set_pid (pids t) i pid; nprocs := nprocs t; cache := cache t |}.
