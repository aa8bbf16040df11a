(** What is said of the result of poll and ppoll: src/poll.c:51-135.
    [rd a]: the struct pollfd (fd and the 16 bits of revents) umove reads at [a] (see C32); [flags]: what sprintflags makes of pollflags (see C36);
    [ts]: what sprint_timespec makes of the object at an address. *)
From Verif Require Import Base Printf.
Local Open Scope N_scope.

Record env := { rd : N -> option (Z * N); flags : N -> list N; ts : N -> list N; verbose : bool; abbrev : bool; max_strlen : N }.
(** %d *)
Definition dec (z : Z) : list N := if (z <? 0)%Z then bs "-" ++ pr_num 10 (Z.to_N (- z)) else pr_num 10 (Z.to_N z).
(** %#llx *)
Definition hex (a : N) : list N := if a =? 0 then bs "0" else bs "0x" ++ pr_num 16 a.
(** src/util.c:2082-2086 *)
Definition sequence_truncation_needed (e : env) (len : N) : bool := abbrev e && (max_strlen e <? u32 len).
Definition len (o : list N) : N := N.of_nat (length o).
(** sizeof(outstr), and 2 + 2 * sizeof(long) + sizeof(", ], ...") with a long of 8 bytes *)
Definition size_outstr : N := 1024.
Definition reserve : N := 2 + 2 * 8 + 9.
(** src/poll.c:79-82, 88-91: what precedes an item *)
Definition begin (o : list N) : list N := match o with [] => bs "[" | _ => o ++ bs ", " end.
(** the loop, src/poll.c:77-116; [o]: what is in outstr so far; [fuel]: the elements left *)
Fixpoint poll_loop (fuel : nat) (e : env) (cur printed : N) (o : list N) : list N :=
  match fuel with
  | O => o
  | S fuel =>
      match rd e cur with
      | None => begin o ++ hex cur
      | Some (fd, ev) =>
          if ev =? 0 then poll_loop fuel e (u64 (cur + 8)) printed o else
          let o := begin o in
          if sequence_truncation_needed e (printed + 1) then o ++ bs "..." else
          let fdstr := bs "{fd=" ++ dec fd ++ bs ", revents=" in
          let flagstr := flags e ev in
          if size_outstr - reserve <=? len o + len fdstr + len flagstr + 1 then o ++ bs "..." else
          poll_loop fuel e (u64 (cur + 8)) (u32 (printed + 1)) (o ++ fdstr ++ flagstr ++ bs "}")
      end
  end.
(** src/poll.c:51-135: the text after the result, if any.  [failed]: syserror; [nfds]: an unsigned int; [pts]: 0 for poll. *)
Definition decode_poll_exiting (e : env) (failed : bool) (rval start nfds pts : N) : option (list N) :=
  if failed then None else
  if rval =? 0 then Some (bs "Timeout") else
  let size := u64 (8 * nfds) in
  let end_ := u64 (start + size) in
  if negb (verbose e) || (start =? 0) || (nfds =? 0) || negb (size / 8 =? nfds) || (end_ <? start) then None else
  let o := poll_loop (N.to_nat nfds) e start 0 [] in
  let o := match o with [] => [] | _ => o ++ bs "]" end in
  let o :=
    if pts =? 0 then o else
    let str := ts e pts in
    if len o + 8 + len str <? size_outstr then o ++ (match o with [] => bs "left " | _ => bs ", left " end) ++ str
    else o ++ bs ", ..." in
  match o with [] => None | _ => Some o end.
