(** The new namespaces that are shown with -e namespace=new: src/clone.c.
    xappendstr is that of BitsModel.  Symbolic links are a parameter, and so is the translation of a pid (translate_pid, see C78). *)
From Verif Require Import Base Printf.
From Verif Require BitsModel TvalModel.
Local Open Scope N_scope.

(** readlink(2) as it is used in src/clone.c:74-78: what the link at a path refers to *)
Definition links := list N -> option (list N).
(** read_namespace_id, src/clone.c:65-80; PATH_MAX is 4096; xsprintf dies if the path does not fit (src/xstring.h:16-30) *)
Definition read_namespace_id (l : links) (pid : Z) (ns_type : list N) : res (option (list N)) :=
  let path := bs "/proc/" ++ TvalModel.sdec pid ++ bs "/ns/" ++ ns_type in
  if 15 + 4 * 3 + 7 <=? N.of_nat (length path) then Die
  else Ok (match l path with
           | Some t => if 4097 <=? N.of_nat (length t) then None else Some t
           | None => None
           end).

(** src/clone.c:86-93: sizeof(str) *)
Definition str_size : N :=
  N.of_nat (length (bs "cgroup:[4026531835], ipc:[4026531839], mnt:[4026531841], net:[4026531840], pid:[4026531836], time:[4026531834], user:[4026531837], uts:[4026531838]")) + 1.
(** src/clone.c:96-108; CLONE_NEWCGROUP 0x2000000, CLONE_INTO_CGROUP 0x200000000, CLONE_NEWIPC 0x8000000, CLONE_NEWNS 0x20000, CLONE_NEWNET
    0x40000000, CLONE_NEWPID 0x20000000, CLONE_NEWTIME 0x80, CLONE_NEWUTS 0x4000000, CLONE_NEWUSER 0x10000000 *)
Definition ns : list (N * list N) :=
  [(N.lor 0x2000000 0x200000000, bs "cgroup"); (0x8000000, bs "ipc"); (0x20000, bs "mnt"); (0x40000000, bs "net"); (0x20000000, bs "pid");
   (0x80, bs "time"); (0x4000000, bs "uts"); (0x10000000, bs "user")].
(** src/clone.c:118-127 *)
Fixpoint ns_loop (l : links) (pid : Z) (flags : N) (tab : list (N * list N)) (p : list N) : res (list N) :=
  match tab with
  | [] => Ok p
  | (f, s) :: r =>
      if negb (N.land flags f =? 0) then
        rlet name := read_namespace_id l pid s in
        match name with
        | None => ns_loop l pid flags r p
        | Some t =>
            rlet p := (match p with [] => Ok p | _ => BitsModel.xappendstr str_size p (bs ", ") end) in
            rlet p := BitsModel.xappendstr str_size p t in
            ns_loop l pid flags r p
        end
      else ns_loop l pid flags r p
  end.
(** get_namespace_auxstr, src/clone.c:82-130 *)
Definition auxstr_of (l : links) (pid : Z) (flags : N) : res (option (list N)) :=
  rlet p := ns_loop l pid flags ns [] in
  Ok (match p with [] => None | _ => Some p end).
(** [tr]: translate_pid(tcp, pid, PT_TID, &proc_pid): the pid in /proc *)
Definition get_namespace_auxstr (l : links) (pid : Z) (flags : N) (tr : option (Z -> option Z)) : res (option (list N)) :=
  match tr with
  | None => auxstr_of l pid flags
  | Some f => match f pid with None => Ok None | Some p => auxstr_of l p flags end
  end.

(** What is known when a call ends: show_namespace, syserror(tcp), tcp->pid, tcp->u_rval, translate_pid for this process, the links *)
Record env := { show : bool; failed : bool; pid : Z; rval : Z; tr : Z -> option Z; l : links }.
(** The auxstr that a call leaves.  setns, src/clone.c:406-422 *)
Definition setns (e : env) (u_arg1 : N) : res (option (list N)) :=
  if show e && negb (failed e) then get_namespace_auxstr (l e) (pid e) u_arg1 None else Ok None.
(** unshare, src/clone.c:426-440 *)
Definition unshare (e : env) (u_arg0 : N) : res (option (list N)) :=
  if show e && negb (failed e) then get_namespace_auxstr (l e) (pid e) u_arg0 None else Ok None.
(** src/clone.c:150-153 *)
Definition clone_nsflags (show : bool) : N := if show then 0x7e020080 else 0.
(** clone, src/clone.c:147-232: on exiting, unless RVAL_DECODED was returned on entering (lines 197-200: CLONE_PARENT_SETTID, CLONE_PIDFD,
    CLONE_CHILD_SETTID, CLONE_CHILD_CLEARTID, CLONE_SETTLS) *)
Definition clone (e : env) (arg_flags : N) : res (option (list N)) :=
  let flags := N.ldiff arg_flags 0xff in
  let nsflags := clone_nsflags (show e) in
  if N.land flags (N.lor 0x1381000 nsflags) =? 0 then Ok None
  else if negb (N.land flags nsflags =? 0) && negb (failed e) then get_namespace_auxstr (l e) (rval e) flags (Some (tr e))
  else Ok None.
(** src/clone.c:253-256 *)
Definition clone3_nsflags (show : bool) : N := if show then 0x27e020080 else 0.
(** clone3, src/clone.c:241-402; [before], [after]: the flags of the structure on entering and on exiting, if it can be read then;
    [larger]: size > sizeof(struct clone_args).  On exiting (lines 349-402), unless RVAL_DECODED was returned on entering
    (lines 259-264, 338-342: CLONE_PIDFD, CLONE_PARENT_SETTID) *)
Definition clone3 (e : env) (before after : option N) (larger : bool) : res (option (list N)) :=
  match before with
  | None => Ok None
  | Some f =>
      if (N.land f (N.lor 0x101000 (clone3_nsflags (show e))) =? 0) && negb larger then Ok None
      else if failed e then Ok None
      else match after with
           | None => Ok None
           | Some f => if negb (N.land f (clone3_nsflags (show e)) =? 0) && negb (failed e) then get_namespace_auxstr (l e) (rval e) f (Some (tr e)) else Ok None
           end
  end.
