(** Model of tampering with the memory of a tracee: src/poke.c, and where src/filter_qualify.c and src/syscall.c use it. *)
From Verif Require Import Base UcopyModel.
Local Open Scope N_scope.

(** src/poke.h:13-19 struct poke_payload *)
Record payload := { is_enter : bool; arg_no : N; pdata : list N }.
(** src/poke.c:12-14: the table of lists; a list in the order in which list_foreach goes over it *)
Definition pvec := list (list payload).
(** src/poke.c:27-42 alloc_poke_data (the array grows as needed: C53) *)
Definition alloc_poke_data (v : pvec) : res (pvec * N) :=
  let rval := u16 (N.of_nat (length v)) in
  if rval <? N.of_nat (length v) then Die else Ok (v ++ [[]], rval).
(** src/list.h:175-182 list_insert puts it first *)
Fixpoint insert_at (v : pvec) (i : nat) (p : payload) : pvec :=
  match v, i with
  | [], _ => []
  | l :: r, O => (p :: l) :: r
  | l :: r, S i' => l :: insert_at r i' p
  end.
(** src/poke.c:44-56 poke_add; None: a duplicate *)
Definition poke_add (v : pvec) (idx : N) (p : payload) : res (option pvec) :=
  match nth_error v (N.to_nat idx) with
  | None => Undef
  | Some l => if existsb (fun i => Bool.eqb (is_enter i) (is_enter p) && (arg_no i =? arg_no p)) l then Ok None else Ok (Some (insert_at v (N.to_nat idx) p))
  end.
(** src/filter_qualify.c:178-212: the loop of parse_poke_token over the tokens, each of which is parsed as C67 says *)
Fixpoint poke_tokens (v : pvec) (idx : N) (ps : list payload) : res (option pvec) :=
  match ps with
  | [] => Ok (Some v)
  | p :: r => rlet o := poke_add v idx p in match o with None => Ok None | Some v => poke_tokens v idx r end
  end.
(** poke_idx before anything has been allocated (src/filter_qualify.c:543) *)
Definition NO_IDX : N := 65535.
(** src/filter_qualify.c:159-219 parse_poke_token: [toks] are what the tokens say, argument and data *)
Definition parse_poke (v : pvec) (idx : N) (enter : bool) (toks : list (N * list N)) : res (option (pvec * N)) :=
  rlet (v, idx) := (if idx =? NO_IDX then alloc_poke_data v else Ok (v, idx)) in
  rlet o := poke_tokens v idx (map (fun t => {| is_enter := enter; arg_no := fst t; pdata := snd t |}) toks) in
  Ok (match o with None => None | Some v => Some (v, idx) end).
(** The poke_enter= and poke_exit= of one expression, in the order given *)
Fixpoint parse_pokes (v : pvec) (idx : N) (ts : list (bool * list (N * list N))) : res (option (pvec * N)) :=
  match ts with
  | [] => Ok (Some (v, idx))
  | (e, toks) :: r => rlet o := parse_poke v idx e toks in match o with None => Ok None | Some (v, idx) => parse_pokes v idx r end
  end.
(** The expressions of the command line (src/filter_qualify.c:534-603): the table and the index each one got.
    An expression that is refused ends strace (line 553). *)
Fixpoint parse_exprs (v : pvec) (es : list (list (bool * list (N * list N)))) : res (pvec * list N) :=
  match es with
  | [] => Ok (v, [])
  | e :: r =>
      rlet o := parse_pokes v NO_IDX e in
      match o with
      | None => Die
      | Some (v, i) => rlet (v, is) := parse_exprs v r in Ok (v, i :: is)
      end
  end.

(** ** What happens at a stop *)
(** What the kernel allows the writes of a stop: see UcopyModel.upoken *)
Record world := { w_pe : N -> option N; w_wr : N -> bool; w_vwr : N -> bool; w_we : option N }.
(** The call: n_args(tcp), tcp->u_arg; whether addresses are short *)
Record call := { n_args : N; u_arg : list N; short : bool }.
(** src/poke.c:67-89: the loop of poke_tcb.  [nowsup] is process_vm_writev_not_supported *)
Fixpoint poke_loop (M : mach) (W : world) (c : call) (enter : bool) (l : list payload) (m : mem) (nowsup poked : bool) : mem * bool * bool :=
  match l with
  | [] => (m, nowsup, poked)
  | i :: r =>
      if negb (Bool.eqb (is_enter i) enter) then poke_loop M W c enter r m nowsup poked
      else if n_args c <? arg_no i then poke_loop M W c enter r m nowsup poked
      else
        match upoken M (short c) nowsup m (w_pe W) (w_wr W) (w_vwr W) (w_we W) (nth (N.to_nat (arg_no i - 1)) (u_arg c) 0) (pdata i) with
        | (m, nowsup, n) => poke_loop M W c enter r m nowsup (if n =? 0 then poked else true)
        end
  end.
(** src/poke.c:58-93 poke_tcb: the memory, whether process_vm_writev turned out not to be there, and whether
    TCB_TAMPERED_POKED is set *)
Definition poke_tcb (M : mach) (W : world) (c : call) (v : pvec) (idx : N) (enter : bool) (m : mem) (nowsup : bool) : res (mem * bool * bool) :=
  if N.of_nat (length v) <=? idx then Die
  else match nth_error v (N.to_nat idx) with
       | None => Undef
       | Some l => Ok (poke_loop M W c enter l m nowsup false)
       end.

(** ** The life of a system call (src/syscall.c) *)
(** struct inject_data of a rule whose time has come (C09-C11): it asks for a result, for pokes, for delays *)
Record inj := { i_result : bool; i_penter : bool; i_pexit : bool; i_denter : bool; i_dexit : bool; i_idx : N }.
(** flags of the tcb: src/defs.h:354-368 *)
Record flags := { f_tampered : bool; f_poked : bool; f_delayed : bool; f_pexit : bool; f_dexit : bool }.
Definition no_flags : flags := {| f_tampered := false; f_poked := false; f_delayed := false; f_pexit := false; f_dexit := false |}.
(** One system call of a tracee: its arguments, the rule that fires if any and the call is not filtered, whether
    the number of the call could be changed, the memory and what can be written at the two stops, and whether the
    exit gets as far as syscall_exiting_trace *)
Record event := {
  e_call : call; e_inj : option inj; e_set : bool;
  e_mem : mem; e_world : world; x_mem : mem; x_world : world; x_traced : bool }.
(** src/syscall.c:501-535 tamper_with_syscall_entering *)
Definition entering (M : mach) (v : pvec) (f : flags) (nowsup : bool) (e : event) : res (flags * mem * bool) :=
  match e_inj e with
  | None => Ok (f, e_mem e, nowsup)
  | Some i =>
      rlet (m, nowsup, p) := (if i_penter i then poke_tcb M (e_world e) (e_call e) v (i_idx i) true (e_mem e) nowsup else Ok (e_mem e, nowsup, false)) in
      Ok ({| f_tampered := f_tampered f || (i_result i && e_set e);
             f_poked := f_poked f || p;
             f_delayed := f_delayed f || i_denter i;
             f_pexit := f_pexit f || i_pexit i;
             f_dexit := f_dexit f || i_dexit i |}, m, nowsup)
  end.
(** src/syscall.c:789-793 and 539-550: what tamper_with_syscall_exiting does to memory and flags.  The rule is found
    again in the table of the tracee: it is the one of the entry. *)
Definition exiting (M : mach) (v : pvec) (f : flags) (nowsup : bool) (e : event) : res (flags * mem * bool) :=
  if negb (x_traced e) then Ok (f, x_mem e, nowsup)
  else
    match e_inj e with
    | None => Ok (f, x_mem e, nowsup)
    | Some i =>
        rlet (m, nowsup, p) := (if f_pexit f then poke_tcb M (x_world e) (e_call e) v (i_idx i) false (x_mem e) nowsup else Ok (x_mem e, nowsup, false)) in
        Ok ({| f_tampered := f_tampered f; f_poked := f_poked f || p; f_delayed := f_delayed f || f_dexit f; f_pexit := f_pexit f; f_dexit := f_dexit f |}, m, nowsup)
    end.
(** src/syscall.c:1031-1036 syscall_exiting_finish *)
Definition exiting_finish (f : flags) : flags := {| f_tampered := false; f_poked := false; f_delayed := false; f_pexit := false; f_dexit := false |}.
(** What can be seen of one call: the memory after each stop, and the flags print_injected_note sees (lines 764-775,
    RetModel.injected_note) *)
Record seen := { s_enter : mem; s_exit : mem; s_flags : flags }.
Definition one_call (M : mach) (v : pvec) (s : flags * bool) (e : event) : res (flags * bool * seen) :=
  let '(f, nowsup) := s in
  rlet (f, m1, nowsup) := entering M v f nowsup e in
  rlet (f, m2, nowsup) := exiting M v f nowsup e in
  Ok (exiting_finish f, nowsup, {| s_enter := m1; s_exit := m2; s_flags := f |}).
(** The calls of a tracee, one after the other *)
Fixpoint calls (M : mach) (v : pvec) (s : flags * bool) (es : list event) : res (list seen) :=
  match es with
  | [] => Ok []
  | e :: r => rlet (f, n, x) := one_call M v s e in rlet xs := calls M v (f, n) r in Ok (x :: xs)
  end.
