(** Model of -u: src/strace.c:1528-1553, 1559-1642, 1768-1769, 2992-3018, and of the kernel's setgroups, setregid and setreuid.
    Not modelled: descriptors, signals and ptrace calls of exec_or_die; what execve does to the credentials of set-ID files; security modules, user namespaces. *)
From Verif Require Import Base StrtouModel.
Local Open Scope N_scope.

(** ** The kernel: kernel/groups.c set_groups, kernel/sys.c __sys_setregid, __sys_setreuid; effective user 0 has all capabilities *)
Record cred := { ruid : N; euid : N; suid : N; rgid : N; egid : N; sgid : N; groups : list N }.
Definition nobody : N := 2^32 - 1.
Definition capable (c : cred) : bool := euid c =? 0.
Definition k_setgroups (g : list N) (c : cred) : option cred :=
  if capable c then Some {| ruid := ruid c; euid := euid c; suid := suid c; rgid := rgid c; egid := egid c; sgid := sgid c; groups := g |} else None.
Definition k_setregid (r e : N) (c : cred) : option cred :=
  if negb (r =? nobody) && negb ((r =? rgid c) || (r =? egid c) || capable c) then None else
  if negb (e =? nobody) && negb ((e =? rgid c) || (e =? egid c) || (e =? sgid c) || capable c) then None else
  let e' := if e =? nobody then egid c else e in
  Some {| ruid := ruid c; euid := euid c; suid := suid c; rgid := if r =? nobody then rgid c else r; egid := e';
          sgid := if negb (r =? nobody) || (negb (e =? nobody) && negb (e =? rgid c)) then e' else sgid c; groups := groups c |}.
Definition k_setreuid (r e : N) (c : cred) : option cred :=
  if negb (r =? nobody) && negb ((r =? ruid c) || (r =? euid c) || capable c) then None else
  if negb (e =? nobody) && negb ((e =? ruid c) || (e =? euid c) || (e =? suid c) || capable c) then None else
  let e' := if e =? nobody then euid c else e in
  Some {| ruid := if r =? nobody then ruid c else r; euid := e';
          suid := if negb (r =? nobody) || (negb (e =? nobody) && negb (e =? ruid c)) then e' else suid c;
          rgid := rgid c; egid := egid c; sgid := sgid c; groups := groups c |}.

(** ** strace *)
(** after strchr(s, ':') *)
Fixpoint after_colon (s : list N) : option (list N) := match s with [] => None | c :: s => if c =? 58 then Some s else after_colon s end.
(** (uid_t) string_to_uint_ex(...), strace.c:1537-1545 *)
Definition id (s : list N) : N := match string_to_uint_ex s (2^32 - 2) (Some [58]) with Some (v, _) => u32 (Z.to_N v) | None => nobody end.
(** is_uid_gid_pair, strace.c:1528-1548 *)
Definition is_uid_gid_pair (s : list N) : option (N * N) := match after_colon s with None => None | Some t => Some (id s, id t) end.
(** the users: getpwnam, and the groups initgroups finds *)
Record users := { getpwnam : list N -> option (N * N); groups_of : list N -> N -> list N }.
(** strace.c:2992-3018: run_uid and run_gid *)
Definition run_ids (db : users) (c : cred) (username : option (list N)) : res (N * N) :=
  match username with
  | None => Ok (ruid c, rgid c)
  | Some s =>
      if negb (ruid c =? 0) || negb (euid c =? 0) then Die else
      match is_uid_gid_pair s with
      | Some (u, g) => if (u =? nobody) || (g =? nobody) then Die else Ok (u, g)
      | None => match getpwnam db s with None => Die | Some p => Ok p end
      end
  end.
(** the program: strace.c:1768-1769 *)
Record file := { set_uid : bool; set_gid : bool; owner : N; group : N }.
Definition run_euid (f : file) (u : N) : N := if set_uid f then owner f else u.
Definition run_egid (f : file) (g : N) : N := if set_gid f then group f else g.
(** exec_or_die, strace.c:1573-1642: the credentials execve is called with, and those the filter was installed with.  [fails]: calls that fail for other reasons *)
Inductive call := Setgroups | Initgroups | Setregid | Setreuid.
Inductive outcome := Exec (c : cred) (filter : option cred) | Exit.
Definition try (fails : call -> bool) (k : call) (o : option cred) : option cred := if fails k then None else o.
Definition exec_or_die (db : users) (fails : call -> bool) (f : file) (seccomp : bool) (username : option (list N)) (u g : N) (c : cred) : outcome :=
  let filter c := if seccomp then Some c else None in
  match username with
  | None => Exec c (filter c)
  | Some s =>
      let o := match is_uid_gid_pair s with
               | Some _ => try fails Setgroups (k_setgroups [] c)
               | None => try fails Initgroups (k_setgroups (groups_of db s g) c)
               end in
      match o with
      | None => Exit
      | Some c =>
      match try fails Setregid (k_setregid g (run_egid f g) c) with
      | None => Exit
      | Some c =>
      let fc := filter c in
      match try fails Setreuid (k_setreuid u (run_euid f u) c) with
      | None => Exit
      | Some c => Exec c fc
      end end end
  end.
Definition run (db : users) (fails : call -> bool) (f : file) (seccomp : bool) (username : option (list N)) (c : cred) : outcome :=
  match run_ids db c username with
  | Ok (u, g) => exec_or_die db fails f seccomp username u g c
  | _ => Exit
  end.
