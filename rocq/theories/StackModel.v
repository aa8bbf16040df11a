(** Model of stack traces (-k): src/unwind.c, the caller's side in src/syscall.c and src/strace.c, and the walker of
    src/unwind-libdw.c.  Not modelled: -c, with which stacks are not shown; demangling; failure of asprintf. *)
From Verif Require Import Base Printf.
Local Open Scope N_scope.

(** ** What an unwinder reports *)
(** unwind.h:23-36: a call (binary_filename, symbol_name, function_offset, true_offset, source_filename and source_line) or an
    error; pointers are options.  Lines of sources are not negative. *)
Inductive frame :=
| Call (bin sym : option (list N)) (off true_off : N) (src : option (list N * N))
| Error (msg : list N) (ip : N).
Definition hex (n : N) : list N := bs "0x" ++ pr_num 16 n.
(** the formats, unwind.c:82-105, without the newline *)
Definition fmt_symbol (b s : list N) (off t : N) (src : option (list N * N)) : list N :=
  bs " > " ++ b ++ bs "(" ++ s ++ bs "+" ++ hex off ++ bs ") [" ++ hex t ++ bs "]" ++
  match src with Some (f, l) => bs " " ++ f ++ bs ":" ++ pr_num 10 l | None => [] end.
Definition fmt_nosymbol (b : list N) (t : N) : list N := bs " > " ++ b ++ bs "() [" ++ hex t ++ bs "]".
(** %s of a null pointer *)
Definition cstr (s : option (list N)) : list N := match s with Some s => s | None => bs "(null)" end.
(** print_call_cb, unwind.c:107-141; print_error_cb, 143-154 *)
Definition print_cb (f : frame) : list N :=
  match f with
  | Call b (Some (c :: s)) off t src => fmt_symbol (cstr b) (c :: s) off t src
  | Call (Some b) _ _ t _ => fmt_nosymbol b t
  | Call None _ _ _ _ => bs " > BUG IN print_call_cb"
  | Error m 0 => bs " > " ++ m
  | Error m ip => bs " > " ++ m ++ bs " [" ++ hex ip ++ bs "]"
  end.
(** sprint_call_or_error, unwind.c:156-206, called from queue_put_call and queue_put_error *)
Definition sprint_call_or_error (f : frame) : list N :=
  match f with
  | Call b (Some s) off t src => fmt_symbol (cstr b) s off t src
  | Call (Some b) None _ t _ => fmt_nosymbol b t
  | Call None None _ _ _ => bs " > BUG IN sprint_call_or_error"
  | Error m 0 => bs " > " ++ m
  | Error m ip => bs " > " ++ m ++ bs " [" ++ hex ip ++ bs "]"
  end.

(** ** When stacks are taken and shown *)
(** libunwind: USE_LIBUNWIND, otherwise libdw; quiet_personality: QUIET_PERSONALITY in quiet_set; the others: status_set *)
Record config := { libunwind : bool; quiet_personality : bool; successful : bool; failed : bool; unfinished : bool; unavailable : bool; detached : bool }.
Definition complete (c : config) : bool := successful c && failed c && unfinished c && unavailable c && detached c.
(** what is written for a process: the beginning of the line of a call; its end with the return value, with <unavailable>, or with
    the ? of a call that does not return; signals; the message about the mode of the process; its end; a line of a stack *)
Inductive item := Begin (id : N) | Result (id : N) | Unavailable (id : N) | NoReturn (id : N) | Signal (id : N) | Mode | Death | Frame (t : list N).
(** what happens to a process.  [w] is what the walker would report at that time.
    Enter: a call is entered; se: STACKTRACE_CAPTURE_ON_ENTER is in its flags; check: TCB_CHECK_EXEC_SYSCALL is set; filt: TCB_FILTERED is set;
    Leave: it returns; ok: the registers could be read; err: it failed; p: the personality afterwards;
    ExitStop: PTRACE_EVENT_EXIT; Stop: a signal, shown: not hidden and in signal_set; Die: end of the process. *)
Inductive event :=
| Enter (id : N) (se check filt : bool) (w : list frame)
| Leave (ok err : bool) (p : N) (w : list frame)
| ExitStop
| Stop (id : N) (shown : bool) (w : list frame)
| Die_ (shown : bool).
(** tcp->unwind_queue, the current call and whether it is filtered, tcp->currpers, staged output, output *)
Record tcb := { queue : list (list N); cur : option (N * bool); pers : N; staged : option (list item); out : list item }.
Definition init : tcb := {| queue := []; cur := None; pers := 0; staged := None; out := [] |}.
Definition set_queue (s : tcb) q := {| queue := q; cur := cur s; pers := pers s; staged := staged s; out := out s |}.
Definition set_cur (s : tcb) c := {| queue := queue s; cur := c; pers := pers s; staged := staged s; out := out s |}.
Definition set_pers (s : tcb) p := {| queue := queue s; cur := cur s; pers := p; staged := staged s; out := out s |}.
Definition emit (s : tcb) (l : list item) : tcb :=
  match staged s with
  | Some m => {| queue := queue s; cur := cur s; pers := pers s; staged := Some (m ++ l); out := out s |}
  | None => {| queue := queue s; cur := cur s; pers := pers s; staged := None; out := out s ++ l |}
  end.
(** src/stage_output.c:24-46, 49-92 *)
Definition open_memstream (s : tcb) : tcb := {| queue := queue s; cur := cur s; pers := pers s; staged := Some []; out := out s |}.
Definition close_memstream (s : tcb) (publish : bool) : tcb :=
  match staged s with
  | Some m => {| queue := queue s; cur := cur s; pers := pers s; staged := None; out := out s ++ (if publish then m else []) |}
  | None => s
  end.
(** queue_print, unwind.c:266-289 *)
Definition queue_print (s : tcb) : tcb := set_queue (emit s (map Frame (queue s))) [].
(** DEFAULT_PERSONALITY is 0 *)
Definition disabled (c : config) (s : tcb) : bool := libunwind c && negb (pers s =? 0).
(** unwind_tcb_print, unwind.c:294-309 *)
Definition unwind_tcb_print (c : config) (s : tcb) (w : list frame) : tcb :=
  if disabled c s then s else
  match queue s with
  | _ :: _ => queue_print s
  | [] => emit s (map (fun f => Frame (print_cb f)) w)
  end.
(** unwind_tcb_capture, unwind.c:314-331 *)
Definition unwind_tcb_capture (c : config) (s : tcb) (w : list frame) : res tcb :=
  if disabled c s then Ok s else
  match queue s with
  | _ :: _ => Die
  | [] => Ok (set_queue s (map sprint_call_or_error w))
  end.
(** update_personality, src/syscall.c:244-276 *)
Definition update_personality (c : config) (s : tcb) (p : N) : tcb :=
  if p =? pers s then s else
  let s := set_pers s p in
  let s := if quiet_personality c then s else emit s [Mode] in
  if libunwind c then s else queue_print s.
(** syscall_entering_trace, src/syscall.c:620-676 *)
Definition entering_trace (c : config) (s : tcb) (id : N) (se check filt : bool) (w : list frame) : res tcb :=
  if filt then Ok (set_cur s (Some (id, true))) else
  rlet s := (if negb check && se then unwind_tcb_capture c s w else Ok s) in
  let s := if complete c then s else open_memstream s in
  Ok (set_cur (emit s [Begin id]) (Some (id, false))).
(** syscall_exiting_decode and syscall_exiting_trace, src/syscall.c:712-742, 787-1028 *)
Definition exiting_trace (c : config) (s : tcb) (ok err : bool) (p : N) (w : list frame) : tcb :=
  match cur s with
  | None => s
  | Some (id, filt) =>
      let s := set_cur s None in
      if filt then s else
      let s := update_personality c s p in
      if negb ok then
        let s := emit s [Unavailable id] in
        if complete c then s else close_memstream s (unavailable c)
      else
        let publish := if complete c then true else (err && failed c) || (negb err && successful c) in
        let s := if complete c then s else close_memstream s publish in
        if negb publish then s else unwind_tcb_print c (emit s [Result id]) w
  end.
(** print_event_exit, src/strace.c:3552-3593 *)
Definition print_event_exit (c : config) (s : tcb) : tcb :=
  match cur s with
  | Some (id, false) =>
      let s := emit s [NoReturn id] in
      if complete c then s else close_memstream s (unfinished c)
  | _ => s
  end.
(** print_stopped, src/strace.c:3492-3515 *)
Definition print_stopped (c : config) (s : tcb) (id : N) (shown : bool) (w : list frame) : tcb :=
  if shown then unwind_tcb_print c (emit s [Signal id]) w else s.
(** print_exited and print_signalled, src/strace.c:3459-3490, then droptcb, 1108-1160, with unwind_tcb_fin, unwind.c:57-69 *)
Definition died (c : config) (s : tcb) (shown : bool) : tcb :=
  let s := queue_print (emit s (if shown then [Death] else [])) in
  if complete c then s else close_memstream s (detached c).
Definition step (c : config) (s : tcb) (e : event) : res tcb :=
  match e with
  | Enter id se check filt w => entering_trace c s id se check filt w
  | Leave ok err p w => Ok (exiting_trace c s ok err p w)
  | ExitStop => Ok (print_event_exit c s)
  | Stop id shown w => Ok (print_stopped c s id shown w)
  | Die_ shown => Ok (died c s shown)
  end.
Fixpoint run (c : config) (s : tcb) (l : list event) : res tcb :=
  match l with [] => Ok s | e :: l => rlet s := step c s e in run c s l end.

(** ** The walker of libdw *)
(** what is known of an address: modname, symname, off, true_offset, source *)
Definition info := (option (list N) * option (list N) * N * N * option (list N * N))%type.
(** struct cache_entry, unwind-libdw.c:28-43 *)
Record centry := { pc : N; gen : N; val : info; last_use : N }.
Definition empty_entry : centry := {| pc := 0; gen := 0; val := (None, None, 0, 0, None); last_use := 0 |}.
(** the cache of a process, mapping_generation, uwcache_clock (unsigned long long; they do not wrap in practice and are not wrapped here) *)
Record ctx := { cache : N -> centry; generation : N; clock : N }.
Definition ctx0 : ctx := {| cache := fun _ => empty_entry; generation := 1; clock := 0 |}.
Definition put (f : N -> centry) (i : N) (e : centry) : N -> centry := fun j => if j =? i then e else f j.
(** find_bucket, unwind-libdw.c:147-172: the loop over i; true: found *)
Fixpoint find_loop (x : ctx) (a idx : N) (n : nat) (i : N) (unused : option N) (lru : N) : bool * N :=
  match n with
  | O => (false, match unused with Some u => u | None => lru end)
  | S n =>
      let ce := cache x (idx + i) in
      if (gen ce =? generation x) && (pc ce =? a) then (true, idx + i)
      else if negb (gen ce =? generation x) then find_loop x a idx n (i + 1) (Some (idx + i)) lru
      else find_loop x a idx n (i + 1) unused (if last_use ce <? last_use (cache x lru) then idx + i else lru)
  end.
Definition bucket (a : N) : N := N.land a (N.land 2047 (N.lnot 31 64)).
Definition find_bucket (x : ctx) (a : N) : bool * N := find_loop x a (bucket a) 32 0 None (bucket a).
Definition touch (x : ctx) (i : N) : ctx :=
  let ce := cache x i in
  {| cache := put (cache x) i {| pc := pc ce; gen := gen ce; val := val ce; last_use := clock x |}; generation := generation x; clock := clock x + 1 |}.
Definition store (x : ctx) (i a : N) (v : info) : ctx :=
  {| cache := put (cache x) i {| pc := a; gen := generation x; val := v; last_use := clock x |}; generation := generation x; clock := clock x + 1 |}.
Definition call_of (v : info) : frame := let '(m, s, o, t, l) := v in Call m s o t l.
(** frame_callback, unwind-libdw.c:174-236, for a frame with the address [a] after the correction of line 187;
    [look] is what libdw tells of an address with the mappings of this generation, None: no module *)
Definition callback (look : N -> option info) (x : ctx) (a : N) : ctx * list frame :=
  match find_bucket x a with
  | (true, i) => (touch x i, [call_of (val (cache x i))])
  | (false, i) => match look a with Some v => (store x i a v, [call_of v]) | None => (x, []) end
  end.
(** a frame as dwfl_frame_pc tells it: the address, isactivation; None: failure *)
Definition dframe := option (N * bool)%type.
(** tcb_walk, unwind-libdw.c:238-266, with dwfl_getthread_frames calling the callback for each frame until it does not return
    DWARF_CB_OK; [e]: the message of libdw, [bad]: it fails after the last frame *)
Fixpoint walk (look : N -> option info) (e : list N) (bad : bool) (depth : N) (x : ctx) (l : list dframe) : ctx * list frame :=
  match l with
  | [] => (x, if bad then [Error e 0] else [])
  | None :: _ => (x, [Error e 0])
  | Some (a, act) :: l =>
      let (x, f) := callback look x (if act then a else u64 (a + 2^64 - 1)) in
      if depth =? 1 then (x, f ++ [Error (bs "too many stack frames") 0])
      else let (x, g) := walk look e bad (depth - 1) x l in (x, f ++ g)
  end.
(** update_mapping_generation, unwind-libdw.c:57-61 *)
Definition remap (x : ctx) : ctx := {| cache := cache x; generation := generation x + 1; clock := clock x |}.
(** a history: the mappings change, or a stack is walked *)
Inductive wevent := Remap | Walk (e : list N) (bad : bool) (l : list dframe).
Fixpoint walks (look : N -> N -> option info) (limit : N) (x : ctx) (h : list wevent) : list (list frame) :=
  match h with
  | [] => []
  | Remap :: h => walks look limit (remap x) h
  | Walk e bad l :: h => let (x', f) := walk (look (generation x)) e bad limit x l in f :: walks look limit x' h
  end.
