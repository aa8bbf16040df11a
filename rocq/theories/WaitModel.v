(** Model of the printing of wait statuses: src/wait.c:24-88 and src/signal.c:105-139.  The
    status is the 32-bit pattern of the int; the W* macros are those of the C library. *)
From Verif Require Import Base Printf BitsModel XlatModel.
Local Open Scope N_scope.

(** signame, src/signal.c:105-124 *)
Definition signame (g : sigcfg) (sig : N) : option (list N) :=
  if sig =? 0 then None
  else if sig <? N.of_nat (length (signalent g)) then nth_error (signalent g) (N.to_nat sig)
  else match rtmax g with
       | Some m => if (rtmin g <=? sig) && (sig <=? m) then Some (bs "SIGRT_" ++ pr_num 10 (sig - rtmin g)) else None
       | None => None
       end.
(** sprintsigname, src/signal.c:126-139; sig >= 0 *)
Definition sprintsigname (g : sigcfg) (sig : N) : list N :=
  match signame g sig with Some s => s | None => pr_num 10 sig end.

Definition WTERMSIG (s : N) : N := N.land s 0x7f.
Definition WEXITSTATUS (s : N) : N := N.shiftr (N.land s 0xff00) 8.
Definition WSTOPSIG (s : N) : N := WEXITSTATUS s.
Definition WIFSTOPPED (s : N) : bool := N.land s 0xff =? 0x7f.
(** ((signed char) ((status & 0x7f) + 1) >> 1) > 0 *)
Definition WIFSIGNALED (s : N) : bool := let t := WTERMSIG s + 1 in if t <? 128 then 1 <=? N.shiftr t 1 else false.
Definition WIFEXITED (s : N) : bool := WTERMSIG s =? 0.
Definition WIFCONTINUED (s : N) : bool := s =? 0xffff.
Definition WCOREDUMP (s : N) : bool := negb (N.land s 0x80 =? 0).
Definition W_STOPCODE (sig : N) : N := N.lor (N.shiftl sig 8) 0x7f.
Definition W_EXITCODE (ret sig : N) : N := N.lor (N.shiftl ret 8) sig.

(** src/wait.c:68-85: what follows the first part.  [events] is the table of ptrace events,
    src/xlat/ptrace_events.in; [st] is the style of -X. *)
Definition status_tail (events : xlat) (st : xstyle_t) (status : N) : list N :=
  if status =? 0 then []
  else
    let event := N.shiftr status 16 in
    let '(out, status) :=
      if event =? 0 then ([], status)
      else (bs "|" ++ printxvals_ex event (Some (bs "PTRACE_EVENT_???")) st FMT_X [events] ++ bs "<<" ++ bs "16", N.land status 0xffff) in
    if status =? 0 then out else out ++ bs "|" ++ pr_hex status.
(** src/wait.c:24-88: text and result *)
Definition printstatus (g : sigcfg) (events : xlat) (st : xstyle_t) (status : N) : list N * bool :=
  if WIFSTOPPED status then
    let sig := WSTOPSIG status in
    (bs "[" ++ bs "{WIFSTOPPED(s) && WSTOPSIG(s) == " ++ sprintsigname g (N.land sig 0x7f) ++
      (if N.land sig 0x80 =? 0 then [] else bs " | 0x80") ++ bs "}" ++
      status_tail events st (N.ldiff status (W_STOPCODE sig)) ++ bs "]", false)
  else if WIFSIGNALED status then
    (bs "[" ++ bs "{WIFSIGNALED(s) && WTERMSIG(s) == " ++ sprintsigname g (WTERMSIG status) ++
      (if WCOREDUMP status then bs " && WCOREDUMP(s)" else []) ++ bs "}" ++
      status_tail events st (N.ldiff status (N.lor (W_EXITCODE 0 (WTERMSIG status)) 0x80)) ++ bs "]", false)
  else if WIFEXITED status then
    (bs "[" ++ bs "{WIFEXITED(s) && WEXITSTATUS(s) == " ++ pr_num 10 (WEXITSTATUS status) ++ bs "}" ++
      status_tail events st (N.ldiff status (W_EXITCODE (WEXITSTATUS status) 0)) ++ bs "]", true)
  else if WIFCONTINUED status then
    (bs "[" ++ bs "{WIFCONTINUED(s)}" ++ status_tail events st (N.ldiff status 0xffff) ++ bs "]", false)
  else (bs "[" ++ pr_hex status ++ bs "]", false).
