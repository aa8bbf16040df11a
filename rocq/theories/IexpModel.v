(** The expressions of -e inject= and -e fault=: src/filter_qualify.c:128-236, 259-430, 534-616. *)
From Verif Require Import Base TimeModel NumSetModel StrtouModel QualModel InjectModel FtsModel.
Local Open Scope N_scope.

(** what the parser depends on: the tables of system calls, signal and error names, the processor's floating
    point, and ENOSYS of the architecture *)
Record ienv := { qe : qenv; signames : N -> option (list N); errnames : list (option (list N)); fpunit : fpu; enosys : N }.

(** src/defs.h:246-253 struct inject_data.  Simplified: an index into the tables of results, delays and pokes is
    the entry it leads to (C52), and the flags word is which of the fields are present.  The number of the call to
    run instead differs between personalities and is kept in a list (struct inject_personality_data). *)
Record idata := {
  signal : option N;
  rval : option (bool * N);           (* true: error=, false: retval= *)
  delay_enter : option ts; delay_exit : option ts;
  poke_enter : option (list (N * list N)); poke_exit : option (list (N * list N));
  scnos : option (list N)
}.
Definition idata0 : idata := {| signal := None; rval := None; delay_enter := None; delay_exit := None; poke_enter := None; poke_exit := None; scnos := None |}.
Definition iopts := opts idata.
Definition with_data (o : iopts) (d : idata) : iopts := {| first := first o; last := last o; step := step o; odata := d |}.
Definition set_signal (d : idata) v := {| signal := Some v; rval := rval d; delay_enter := delay_enter d; delay_exit := delay_exit d; poke_enter := poke_enter d; poke_exit := poke_exit d; scnos := scnos d |}.
Definition set_rval (d : idata) v := {| signal := signal d; rval := Some v; delay_enter := delay_enter d; delay_exit := delay_exit d; poke_enter := poke_enter d; poke_exit := poke_exit d; scnos := scnos d |}.
Definition set_delay (d : idata) (enter : bool) v := {| signal := signal d; rval := rval d; delay_enter := if enter then Some v else delay_enter d; delay_exit := if enter then delay_exit d else Some v; poke_enter := poke_enter d; poke_exit := poke_exit d; scnos := scnos d |}.
Definition set_poke (d : idata) (enter : bool) v := {| signal := signal d; rval := rval d; delay_enter := delay_enter d; delay_exit := delay_exit d; poke_enter := if enter then Some v else poke_enter d; poke_exit := if enter then poke_exit d else Some v; scnos := scnos d |}.
Definition set_scnos (d : idata) v := {| signal := signal d; rval := rval d; delay_enter := delay_enter d; delay_exit := delay_exit d; poke_enter := poke_enter d; poke_exit := poke_exit d; scnos := Some v |}.
Definition present {A} (x : option A) : bool := match x with Some _ => true | None => false end.

(** src/defs.h:880-890 STR_STRIP_PREFIX(token, p) != token *)
Definition strip (p s : list N) : option (list N) := if beqs p (firstn (length p) s) then Some (skipn (length p) s) else None.

(** src/filter_qualify.c:127-136 find_errno_by_name; [i] is the index of the first entry of [l] *)
Fixpoint errno_loop (name : list N) (l : list (option (list N))) (i : N) : option N :=
  match l with
  | [] => None
  | Some e :: r => if strcaseeq name e then Some i else errno_loop name r (i + 1)
  | None :: r => errno_loop name r (i + 1)
  end.
Definition find_errno_by_name (E : ienv) (name : list N) : option N := errno_loop name (skipn 1 (errnames E)) 1.

(** strtoull(val, &endp, 0) in the C locale: [None] where the caller at src/filter_qualify.c:365-367 rejects *)
Definition strtoull0 (s : list N) : option N :=
  let s1 := skip_space s in
  let (neg, s2) := match s1 with c :: r => if c =? 45 then (true, r) else if c =? 43 then (false, r) else (false, s1) | [] => (false, s1) end in
  let (base, s3) := match s2 with
                    | c :: r =>
                        if c =? 48 then
                          match r with
                          | x :: y :: r2 => if (tolower x =? 120) && (match digit_of 16 y with Some _ => true | None => false end) then (16, y :: r2) else (8, s2)
                          | _ => (8, s2)
                          end
                        else (10, s2)
                    | [] => (10, s2)
                    end in
  match digs base s3 with
  | ([], _) => None
  | (a, []) => let m := dnum base 0 a in if m <? 2^64 then Some (if neg then (2^64 - m) mod 2^64 else m) else None
  | (_, _ :: _) => None
  end.

(** sscanf(s, "%2hhx", &byte) == 1 as glibc has it: blanks are skipped and do not count, a sign does *)
Definition scan2 (s : list N) : option N :=
  let s1 := skip_space s in
  let '(neg, w, s2) := match s1 with c :: r => if c =? 45 then (true, 1%nat, r) else if c =? 43 then (false, 1%nat, r) else (false, 2%nat, s1) | [] => (false, 2%nat, s1) end in
  match fst (digs 16 (firstn w s2)) with
  | [] => None
  | a => let m := dnum 16 0 a in Some (if neg then (256 - m) mod 256 else m)
  end.
(** src/filter_qualify.c:203-205: [n] bytes *)
Fixpoint scan_bytes (val : list N) (n : nat) : option (list N) :=
  match n with
  | O => Some []
  | S n' => olet b := scan2 val in olet r := scan_bytes (skipn 2 val) n' in Some (b :: r)
  end.
(** src/filter_qualify.c:182-208: one token; [l] are the pokes so far (src/poke.c:44-56 poke_add) *)
Definition poke_one (l : list (N * list N)) (tok : list N) : option (list (N * list N)) :=
  olet val := strip (bs "@arg") tok in
  match val with
  | a :: e :: data =>
      if negb ((49 <=? a) && (a <=? 55)) then None
      else if negb (e =? 61) then None
      else let n := length data in
           if (n =? 0)%nat || negb (Nat.even n) || (2048 <? n)%nat then None
           else olet d := scan_bytes data (n / 2) in
                if existsb (fun p => fst p =? a - 48) l then None
                else Some ((a - 48, d) :: l)
  | _ => None
  end.
Fixpoint poke_loop (l : list (N * list N)) (toks : list (list N)) : option (list (N * list N)) :=
  match toks with [] => Some l | t :: r => olet l' := poke_one l t in poke_loop l' r end.
(** src/filter_qualify.c:159-219 parse_poke_token *)
Definition parse_poke_token (input : list N) (o : iopts) (enter : bool) : option iopts :=
  let d := odata o in
  if present (if enter then poke_enter d else poke_exit d) then None
  else match input with
       | [] => None
       | _ => olet l := poke_loop [] (strtok_all 44 input) in Some (with_data o (set_poke d enter l))
       end.
(** src/filter_qualify.c:138-157 parse_delay_token *)
Definition parse_delay_token (E : ienv) (input : list N) (o : iopts) (enter : bool) : res (option iopts) :=
  let d := odata o in
  if present (if enter then delay_enter d else delay_exit d) then Ok None
  else rlet r := parse_ts_full (fpunit E) input in
       match r with None => Ok None | Some t => Ok (Some (with_data o (set_delay d enter t))) end.

(** src/sysent.h:40 TRACE_PURE *)
Definition TRACE_PURE : N := 524288. (* 002000000 *)
(** src/filter_qualify.c:335-351: the numbers of the call in all personalities *)
Fixpoint pure_numbers (name : list N) (l : list (list sysent)) : option (list N) :=
  match l with
  | [] => Some []
  | t :: r =>
      olet scno := scno_by_name name t 0 in
      olet e := nth_error t (N.to_nat scno) in
      if N.land (sys_flags e) TRACE_PURE =? 0 then None
      else olet k := pure_numbers name r in Some (u16 scno :: k)
  end.

(** src/filter_qualify.c:259-408 parse_inject_token; [Ok None] is false *)
Definition parse_inject_token (E : ienv) (fault : bool) (tok : list N) (o : iopts) : res (option iopts) :=
  let d := odata o in
  match strip (bs "when=") tok with
  | Some val => Ok (olet w := parse_when val in let '(f, l, s) := w in Some {| first := f; last := l; step := s; odata := d |})
  | None =>
  match strip (bs "syscall=") tok with
  | Some val => if present (scnos d) then Ok None
                else Ok (olet l := pure_numbers val (tables (qe E)) in Some (with_data o (set_scnos d l)))
  | None =>
  match strip (bs "error=") tok with
  | Some val =>
      if present (rval d) then Ok None
      else match (match string_to_uint_upto val MAX_ERRNO_VALUE with Some v => Some v | None => find_errno_by_name E val end) with
           | Some v => if v <? 1 then Ok None else Ok (Some (with_data o (set_rval d (true, v))))
           | None => Ok None
           end
  | None =>
  if fault then Ok None else
  match strip (bs "retval=") tok with
  | Some val => if present (rval d) then Ok None
                else match strtoull0 val with Some v => Ok (Some (with_data o (set_rval d (false, v)))) | None => Ok None end
  | None =>
  match strip (bs "signal=") tok with
  | Some val => if present (signal d) then Ok None
                else match sigstr_to_uint (signames E) val with
                     | Some v => if (v <? 1) || (64 <? v) then Ok None else Ok (Some (with_data o (set_signal d v)))
                     | None => Ok None
                     end
  | None =>
  match strip (bs "poke_enter=") tok with Some val => Ok (parse_poke_token val o true) | None =>
  match strip (bs "poke_exit=") tok with Some val => Ok (parse_poke_token val o false) | None =>
  match strip (bs "delay_enter=") tok with Some val => parse_delay_token E val o true | None =>
  match strip (bs "delay_exit=") tok with Some val => parse_delay_token E val o false | None => Ok None
  end end end end end end end end end.
(** src/filter_qualify.c:422-426 *)
Fixpoint token_fold (E : ienv) (fault : bool) (toks : list (list N)) (o : iopts) : res (option iopts) :=
  match toks with
  | [] => Ok (Some o)
  | t :: r => rlet x := parse_inject_token E fault t o in match x with Some o' => token_fold E fault r o' | None => Ok None end
  end.
(** src/filter_qualify.c:410-429 parse_inject_expression *)
Definition parse_inject_expression (E : ienv) (fault : bool) (str : list N) (o : iopts) : res (option (list N * iopts)) :=
  match str with
  | [] => Ok (Some ([], o))
  | c :: _ =>
      if c =? 58 then Ok (Some ([], o))
      else match strtok_all 58 str with
           | name :: toks => rlet x := token_fold E fault toks o in Ok (olet o' := x in Some (name, o'))
           | [] => Ok None
           end
  end.
(** src/defs.h:236-244 INJECT_ACTION_FLAGS: syscall= is none of them *)
Definition has_action (d : idata) : bool :=
  present (signal d) || present (rval d) || present (delay_enter d) || present (delay_exit d) || present (poke_enter d) || present (poke_exit d).
(** the rule for each personality: src/filter_qualify.c:590-597 *)
Definition per_personality (np : nat) (o : iopts) : list (opts (idata * N)) :=
  map (fun p => {| first := first o; last := last o; step := step o;
                   odata := (odata o, match scnos (odata o) with Some l => nth p l 0 | None => 0 end) |}) (seq 0 np).
(** src/filter_qualify.c:534-571 qualify_inject_common up to the merge, which is qualify_injections *)
Definition inject_rule (E : ienv) (fault : bool) (str : list N) : res (rule (idata * N)) :=
  rlet x := parse_inject_expression E fault str {| first := 1; last := INJECT_LAST_INF; step := 1; odata := idata0 |} in
  match x with
  | None => Die
  | Some (name, o) =>
      let np := length (tables (qe E)) in
      rlet set := qualify_syscall_tokens (qe E) name (alloc_number_set_array np) in
      if has_action (odata o) then Ok {| r_set := set; r_opts := per_personality np o |}
      else if fault then Ok {| r_set := set; r_opts := per_personality np (with_data o (set_rval (odata o) (true, enosys E))) |}
      else Die
  end.
