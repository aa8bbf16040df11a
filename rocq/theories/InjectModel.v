(** Model of syscall tampering: `when=' parsing and rule tables of
    src/filter_qualify.c, and the tampering code of src/syscall.c. *)
From Verif Require Import Base NumSetModel StrtouModel.
Local Open Scope N_scope.

(** src/defs.h:262 *)
Definition INJECT_LAST_INF : N := 65535.

(** src/filter_qualify.c:304-330, the step part of a when= value; [e] is what `end'
    points at, the first character of which was accepted by the caller. *)
Definition parse_when_step (first last : N) (e : list N) : option (N * N * N) :=
  match e with
  | [] => Some (first, last, if last =? INJECT_LAST_INF then 0 else 1)
  | _ :: [] => Some (first, last, 1)
  | _ :: val => match string_to_uint_upto val 65535 with
                | Some s => if s <? 1 then None else Some (first, last, s)
                | None => None
                end
  end.
(** src/filter_qualify.c:267-330, parse_inject_token, the when= case: resulting
    (first, last, step), [None] = return false.  (On rejection the partially
    written options are discarded: the caller dies.) *)
Definition parse_when (val : list N) : option (N * N * N) :=
  match string_to_uint_ex val 65535 (Some (bs "+.")) with
  | None => None
  | Some (v, e) =>
      if (v <? 1)%Z then None
      else let first := Z.to_N v in
      match e with
      | c :: e1 =>
          if c =? 46 then
            match e1 with
            | c2 :: val2 =>
                if c2 =? 46 then
                  match string_to_uint_ex val2 65535 (Some (bs "+")) with
                  | None => None
                  | Some (l, e2) =>
                      if (Z.to_N l <? first) || (Z.to_N l =? INJECT_LAST_INF) then None
                      else parse_when_step first (Z.to_N l) e2
                  end
                else None
            | [] => None
            end
          else parse_when_step first INJECT_LAST_INF e
      | [] => parse_when_step first INJECT_LAST_INF e
      end
  end.

(** src/defs.h:255-260, struct inject_opts; [data] is struct inject_data. *)
Record opts (data : Type) := { first : N; last : N; step : N; odata : data }.
Arguments first {_}. Arguments last {_}. Arguments step {_}. Arguments odata {_}.
Arguments Build_opts {_}.

(** src/syscall.c:488-499, the countdown of tamper_with_syscall_entering; the
    boolean tells whether execution reaches the actions at line 501. *)
Definition countdown {D} (o : opts D) : opts D * bool :=
  if (first o =? 0) || (last o =? 0) then (o, false)
  else
    let l := if last o =? INJECT_LAST_INF then last o else last o - 1 in
    let f := first o - 1 in
    if f =? 0 then ({| first := step o; last := l; step := step o; odata := odata o |}, true)
    else ({| first := f; last := l; step := step o; odata := odata o |}, false).

(** The tables: [gvec p] is the global inject_vec[p]; the state maps a tracee and
    a personality to tcp->inject_vec[p] ([None] = NULL). *)
Definition istate (D : Type) := N -> nat -> option (list (opts D)).
Definition iset {D} (st : istate D) (pid : N) (p : nat) (v : option (list (opts D))) : istate D :=
  fun pid' p' => if (pid' =? pid) && Nat.eqb p' p then v else st pid' p'.
(** alloctcb and droptcb (src/strace.c:1057, 1121-1122, 1166): the new or recycled
    tcb has no inject_vec of its own. *)
Definition iclear {D} (st : istate D) (pid : N) : istate D :=
  fun pid' p' => if pid' =? pid then None else st pid' p'.

(** src/syscall.c:478-537, tamper_with_syscall_entering on the tables: copies the
    global vector on first use, then counts.  The result is the data of the
    injection when it fires (recovering(tcp) suppresses the actions). *)
Definition tamper_entering {D} (gvec : nat -> option (list (opts D))) (st : istate D)
    (pid : N) (p : nat) (scno : nat) (recovering : bool) : istate D * option D :=
  let vec := match st pid p with Some v => Some v | None => gvec p end in
  match vec with
  | None => (iset st pid p None, None)
  | Some v =>
      match nth_error v scno with
      | None => (iset st pid p (Some v), None)
      | Some o =>
          let '(o', fire) := countdown o in
          let v' := match upd v scno o' with Some v' => v' | None => v end in
          (iset st pid p (Some v'), if fire && negb recovering then Some (odata o) else None)
      end
  end.

(** What happens to tracees, as far as the tables are concerned: a syscall entry
    for which inject(tcp) holds and which is not filtered, or the tcb being
    dropped and possibly reallocated to a new tracee with the same pid. *)
Inductive iev := Enter (pid : N) (p : nat) (scno : nat) (recovering : bool) | Drop (pid : N).
Definition istep {D} gvec (st : istate D) (e : iev) : istate D * option D :=
  match e with
  | Enter pid p scno rec => tamper_entering gvec st pid p scno rec
  | Drop pid => (iclear st pid, None)
  end.
Fixpoint irun {D} gvec (st : istate D) (h : list iev) : istate D :=
  match h with [] => st | e :: r => irun gvec (fst (istep gvec st e)) r end.
Definition iinit {D} : istate D := fun _ _ => None.

(** src/filter_qualify.c:590-599, the inner loop of qualify_inject_common for one
    personality: [i] counts table slots. *)
Fixpoint merge_loop {D} (tmp : list nset) (p : nat) (o : opts D) (i : N) (vec : list (opts D))
    (iset : list nset) : option (list (opts D) * list nset) :=
  match vec with
  | [] => Some ([], iset)
  | x :: r =>
      match is_number_in_set_array i (Some tmp) p with
      | None => None
      | Some true =>
          match add_number_to_set_array i iset p with
          | None => None
          | Some iset' => match merge_loop tmp p o (i + 1) r iset' with
                          | Some (r', s') => Some (o :: r', s')
                          | None => None
                          end
          end
      | Some false => match merge_loop tmp p o (i + 1) r iset with
                      | Some (r', s') => Some (x :: r', s')
                      | None => None
                      end
      end
  end.
(** An all-zero slot of a freshly xcalloc-ed vector. *)
Definition zero_opts {D} (zd : D) : opts D := {| first := 0; last := 0; step := 0; odata := zd |}.
(** src/filter_qualify.c:577-600, the outer loop over the personalities from [p]
    on.  [nsys] are the remaining elements of nsyscall_vec, [gv] of inject_vec,
    [os] the options with pdata[p].scno filled in, one per personality. *)
Fixpoint merge_pers {D} (zd : D) (tmp : list nset) (p : nat) (nsys : list nat) (os : list (opts D))
    (gv : list (option (list (opts D)))) (iset : list nset)
  : option (list (option (list (opts D))) * list nset) :=
  match nsys, os, gv with
  | [], [], [] => Some ([], iset)
  | n :: nsys', o :: os', g :: gv' =>
      match number_set_array_is_empty (Some tmp) p with
      | None => None
      | Some true => match merge_pers zd tmp (S p) nsys' os' gv' iset with
                     | Some (r, s) => Some (g :: r, s)
                     | None => None
                     end
      | Some false =>
          let vec := match g with Some v => v | None => repeat (zero_opts zd) n end in
          match merge_loop tmp p o 0 vec iset with
          | None => None
          | Some (vec', iset') =>
              match merge_pers zd tmp (S p) nsys' os' gv' iset' with
              | Some (r, s) => Some (Some vec' :: r, s)
              | None => None
              end
          end
      end
  | _, _, _ => None
  end.

(** One -e inject=/fault= expression after parsing: the set of system calls, and
    the options for each personality. *)
Record rule (D : Type) := { r_set : list nset; r_opts : list (opts D) }.
Arguments r_set {_}. Arguments r_opts {_}.
(** src/filter_qualify.c:534-603, the effect of the expressions given on the
    command line on the tables inject_vec and inject_set (the latter is allocated
    lazily in C; an absent set behaves as an empty one). *)
Definition qualify_injections {D} (zd : D) (nsys : list nat) (rules : list (rule D)) :=
  fold_left (fun acc r => match acc with
                          | Some (gv, s) => merge_pers zd (r_set r) 0 nsys (r_opts r) gv s
                          | None => None
                          end) rules
    (Some (repeat None (length nsys), alloc_number_set_array (length nsys))).

(** ---- tampering with results (src/syscall.c:501-570, 1031-1036, 1524-1603) ----
    One tracee on an architecture that returns errors as negated errno values;
    registers are unsigned 64-bit numbers. *)

(** the flags of src/defs.h:346-372 involved *)
Record tflags := { tampered : bool; nofail : bool }.
(** what an injection demands: INJECT_F_RETVAL or INJECT_F_ERROR with the value of
    retval_get(rval_idx), and whether INJECT_F_SYSCALL is set *)
Record tinj := { is_retval : bool; value : N; with_syscall : bool }.

(** src/syscall.c:504-525: flags after entry; [set_ok] = arch_set_scno succeeded
    (and ARCH_NEEDS_SET_ERROR_FOR_SCNO_TAMPERING is 0). *)
Definition tamper_entering_flags (f : tflags) (i : tinj) (set_ok : bool) : tflags :=
  if set_ok then {| tampered := true; nofail := if with_syscall i then true else nofail f |} else f.

(** src/negated_errno.h:17-32 for 8-byte words *)
Definition MAX_ERRNO_VALUE : N := 4095.
Definition is_negated_errno64 (v : N) : bool := 2^64 - MAX_ERRNO_VALUE <=? v.
Definition neg64 (v : N) : N := u64 (2^64 - u64 v).

(** u_error and u_rval as numbers modulo 2^64 *)
Record tres := { u_error : N; u_rval : N }.
(** src/syscall.c:1537-1552, get_error: [sci] tells whether
    PTRACE_GET_SYSCALL_INFO works; [reg] is the result register; with [sci] the
    kernel's is_error is whether reg is a negated errno. *)
Definition get_error (sci : bool) (check_errno : bool) (reg : N) : tres :=
  if (sci || check_errno) && is_negated_errno64 reg
  then {| u_error := neg64 reg; u_rval := 2^64 - 1 |}
  else {| u_error := 0; u_rval := reg |}.
(** src/syscall.c:1524-1535, get_syscall_result (registers readable). *)
Definition get_syscall_result (sci never_fails : bool) (f : tflags) (reg : N) : tres :=
  get_error sci ((negb never_fails || tampered f) && negb (nofail f)) reg.

(** src/syscall.c:1554-1579, set_error, and src/linux/x86_64/set_error.c; register
    access succeeds.  Result: register and u_error/u_rval. *)
Definition set_error (sci never_fails : bool) (new : N) (reg : N) (r : tres) : N * tres :=
  if (new =? u_error r) || (MAX_ERRNO_VALUE <? new) then (reg, r)
  else let reg' := neg64 new in
       (reg', if sci then {| u_error := new; u_rval := 2^64 - 1 |}
              else get_error false (negb never_fails) reg').
(** src/syscall.c:1581-1603, set_success *)
Definition set_success (sci never_fails : bool) (new : N) (reg : N) (r : tres) : N * tres :=
  let reg' := new in
  (reg', if sci then {| u_error := 0; u_rval := new |}
         else get_error false (negb never_fails) reg').

(** src/syscall.c:552-569, the end of tamper_with_syscall_exiting; the boolean is
    false when it complains "Failed to tamper". *)
Definition tamper_exiting (sci never_fails : bool) (f : tflags) (i : tinj) (reg : N) (r : tres)
  : N * tres * bool :=
  if negb (tampered f) then (reg, r, true)
  else if xorb (u_error r =? 0) (nofail f) then (reg, r, false)
  else if is_retval i then (set_success sci never_fails (value i) reg r, true)
  else (set_error sci never_fails (value i) reg r, true).
(** src/syscall.c:1034-1035, syscall_exiting_finish *)
Definition exiting_finish (f : tflags) : tflags := {| tampered := false; nofail := nofail f |}.

(** One syscall of the tracee: either none of the tampering fires or [i] does.
    [kernel] gives the register after the kernel executed the call (None = number
    -1, Some false = the original number, Some true = the injected number). *)
Record tcall := { inj : option tinj; set_ok : bool; never_fails : bool;
                  kernel : option bool -> N }.
Definition tstep (sci : bool) (f : tflags) (c : tcall) : tflags * (N * tres * bool) :=
  match inj c with
  | None =>
      let reg := kernel c (Some false) in
      let r := get_syscall_result sci (never_fails c) f reg in
      (exiting_finish f, (reg, r, true))
  | Some i =>
      let f1 := tamper_entering_flags f i (set_ok c) in
      let reg := if set_ok c then (if with_syscall i then kernel c (Some true) else kernel c None)
                 else kernel c (Some false) in
      let r := get_syscall_result sci (never_fails c) f1 reg in
      (exiting_finish f1, tamper_exiting sci (never_fails c) f1 i reg r)
  end.
Fixpoint trun (sci : bool) (f : tflags) (h : list tcall) : tflags :=
  match h with [] => f | c :: r => trun sci (fst (tstep sci f c)) r end.
Definition tinit : tflags := {| tampered := false; nofail := false |}.
