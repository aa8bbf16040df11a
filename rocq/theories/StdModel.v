(** Model of the standard descriptors: src/strace.c:630-650, 1651-1705; and of the kernel's table of descriptors. *)
From Verif Require Import Base.
Local Open Scope nat_scope.

(** ** The kernel: descriptors are numbered from 0, a new one gets the lowest free number below the limit (fs/file.c alloc_fd) *)
Inductive desc := Old (k : N) | PipeRead | PipeWrite.
(** an open descriptor: what it is, FD_CLOEXEC *)
Definition slot := option (desc * bool).
Definition table := list slot.
Definition lookup (t : table) (i : nat) : slot := nth i t None.
Fixpoint lowest (t : table) : nat := match t with Some _ :: t => S (lowest t) | _ => 0 end.
Fixpoint put (t : table) (i : nat) (x : slot) : table :=
  match i, t with
  | 0, _ :: t => x :: t
  | 0, [] => [x]
  | S i, y :: t => y :: put t i x
  | S i, [] => None :: put [] i x
  end.
Definition close (t : table) (i : nat) : table := put t i None.
Definition k_pipe (limit : nat) (t : table) : option (nat * nat * table) :=
  let a := lowest t in
  let t := put t a (Some (PipeRead, false)) in
  let b := lowest t in
  let t := put t b (Some (PipeWrite, false)) in
  if limit <=? b then None else Some (a, b, t).
(** F_SETFD FD_CLOEXEC, strace.c:630-650 *)
Definition set_cloexec_flag (t : table) (i : nat) : table := match lookup t i with Some (d, _) => put t i (Some (d, true)) | None => t end.
(** execve closes the descriptors marked so *)
Definition after_exec (t : table) (i : nat) : slot := match lookup t i with Some (_, true) => None | x => x end.

(** ** strace *)
(** open_dummy_desc, strace.c:1651-1660 *)
Definition open_dummy_desc (limit : nat) (t : table) : res (nat * table) :=
  match k_pipe limit t with
  | None => Die
  | Some (a, b, t) => let t := close t b in Ok (a, set_cloexec_flag t a)
  end.
(** ensure_standard_fds_opened, strace.c:1672-1685; fd_is_placeholder[0], [1] *)
Fixpoint ensure_loop (fuel : nat) (limit : nat) (t : table) (p : bool * bool) : res (table * (bool * bool)) :=
  match fuel with
  | 0 => Undef
  | S fuel =>
      rlet (fd, t) := open_dummy_desc limit t in
      if fd <=? 2 then
        (if fd =? 2 then Ok (t, p) else ensure_loop fuel limit t (if fd =? 0 then (true, snd p) else (fst p, true)))
      else Ok (close t fd, p)
  end.
Definition ensure_standard_fds_opened (limit : nat) (t : table) : res (table * (bool * bool)) := ensure_loop 4 limit t (false, false).
(** redirect_standard_fds, strace.c:1691-1705 *)
Definition redirect_standard_fds (limit : nat) (p : bool * bool) (t : table) : res table :=
  rlet t := (if fst p then Ok t else rlet (_, t) := open_dummy_desc limit (close t 0) in Ok t) in
  if snd p then Ok t else rlet (_, t) := open_dummy_desc limit (close t 1) in Ok t.
