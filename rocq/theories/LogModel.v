(** Model of the writing of the log: src/strace.c:745-838, 850-951 (printleader), 1138-1166,
    3404-3448, src/syscall.c:743-762 (print_syscall_resume), src/stage_output.c.
    What is written is a sequence of pieces, each with its author, see [tok]; [render] gives the
    text.  Streams: the log shared by all tracees, one file per tracee with -ff, and the memory
    streams of stage_output.c.  Simplified: writing never fails; columns are unbounded; the
    parts of the line prefix other than the pid (time stamps, -n, -i, -Y, SELinux contexts) are
    left out; messages on stderr are not part of the log. *)
From Verif Require Import Base Printf.
Local Open Scope N_scope.

(** Who writes: the number of the tcb's life (a ghost, numbering the calls of alloctcb from 1 on) and its pid. *)
Record who := { w_gen : nat; w_pid : N }.
Inductive tok :=
| Lead (shown : bool)        (* line prefix, with the pid or without *)
| Entry (name : list N)      (* "name(" *)
| Resumed (name : list N)    (* "<... name resumed>" *)
| Txt (s : list N)           (* text of a decoder *)
| Unfin                      (* " <unfinished ...>" *)
| Ret (s : list N)           (* ") = ..." *)
| RetUnknown                 (* ") = ?", call of a tracee that is exiting *)
| Msg (s : list N)           (* a message that takes a whole line: "+++ ... +++", "--- ... ---" *)
| PidChanged (pid : N)       (* " <pid changed to ... ...>" *)
| Detached                   (* " <detached ...>" *)
| NoRestart (s : list N)     (* " <Cannot restart pid ...>" *)
| Nl (extra : list N).       (* end of line, then dumps and stack traces if any *)
Notation item := (who * tok)%type.

Definition render_tok (w : who) (x : tok) : list N :=
  match x with
  | Lead true => pr_num 10 (w_pid w) ++ bs " "
  | Lead false => []
  | Entry n => n ++ bs "("
  | Resumed n => bs "<... " ++ n ++ bs " resumed>"
  | Txt s => s
  | Unfin => bs " <unfinished ...>"
  | Ret s => bs ") = " ++ s
  | RetUnknown => bs ") = ?"
  | Msg s => s
  | PidChanged p => bs " <pid changed to " ++ pr_num 10 p ++ bs " ...>"
  | Detached => bs " <detached ...>"
  | NoRestart s => bs " <" ++ s ++ bs ">"
  | Nl e => 10 :: e
  end.
Definition render (l : list item) : list N := concat (map (fun x => render_tok (fst x) (snd x)) l).

Inductive dest := Shared | Own (pid : N).
Inductive fd := FReal (d : dest) | FMem (m : nat).
Definition dest_eqb (a b : dest) : bool :=
  match a, b with Shared, Shared => true | Own p, Own q => p =? q | _, _ => false end.

(** printing_tcp and current_tcp (src/strace.c:135, 152); per tcb: curcol, outf,
    staged_output_data (memory stream and real_outf).  [gen], [ngen] are ghosts. *)
Record log := {
  printing : option nat; current : option nat;
  col : nat -> N; outf : nat -> option fd; staged : nat -> option (nat * option fd);
  mems : list (list item); files : dest -> list item;
  gen : nat -> nat; ngen : nat }.
Definition log0 : log := {| printing := None; current := None; col := fun _ => 0; outf := fun _ => None; staged := fun _ => None;
  mems := []; files := fun _ => []; gen := fun _ => O; ngen := 1 |}.

(** the options that matter *)
Record lcfg := {
  c_ff : bool;         (* output_separately *)
  c_named : bool;      (* outfname != NULL *)
  c_pfx : bool;        (* print_pid_pfx *)
  c_all : bool;        (* is_complete_set(status_set, NUMBER_OF_STATUSES) *)
  c_succ : bool; c_failed : bool; c_unfin : bool; c_unavail : bool; c_det : bool  (* members of status_set *)
}.

Definition set_printing (l : log) (x : option nat) : log :=
  {| printing := x; current := current l; col := col l; outf := outf l; staged := staged l; mems := mems l; files := files l; gen := gen l; ngen := ngen l |}.
(** src/strace.c:829-837 *)
Definition set_current (l : log) (x : option nat) : log :=
  {| printing := printing l; current := x; col := col l; outf := outf l; staged := staged l; mems := mems l; files := files l; gen := gen l; ngen := ngen l |}.
Definition set_col (l : log) (i : nat) (c : N) : log :=
  {| printing := printing l; current := current l; col := fun j => if Nat.eqb j i then c else col l j; outf := outf l; staged := staged l; mems := mems l; files := files l; gen := gen l; ngen := ngen l |}.
Definition set_out (l : log) (i : nat) (o : option fd) (s : option (nat * option fd)) : log :=
  {| printing := printing l; current := current l; col := col l; outf := fun j => if Nat.eqb j i then o else outf l j;
     staged := fun j => if Nat.eqb j i then s else staged l j; mems := mems l; files := files l; gen := gen l; ngen := ngen l |}.
Definition set_gen (l : log) (i : nat) : log :=
  {| printing := printing l; current := current l; col := col l; outf := outf l; staged := staged l; mems := mems l; files := files l;
     gen := fun j => if Nat.eqb j i then ngen l else gen l j; ngen := S (ngen l) |}.
Definition set_mems (l : log) (m : list (list item)) : log :=
  {| printing := printing l; current := current l; col := col l; outf := outf l; staged := staged l; mems := m; files := files l; gen := gen l; ngen := ngen l |}.

Definition write (l : log) (f : fd) (xs : list item) : log :=
  match f with
  | FReal d => {| printing := printing l; current := current l; col := col l; outf := outf l; staged := staged l; mems := mems l;
                  files := fun d' => if dest_eqb d' d then files l d' ++ xs else files l d'; gen := gen l; ngen := ngen l |}
  | FMem m => set_mems l (firstn m (mems l) ++ (nth m (mems l) [] ++ xs) :: skipn (S m) (mems l))
  end.

Section WithTable.
Variable P : nat -> N.     (* pid of a tcb *)

Definition author (l : log) (i : nat) : who := {| w_gen := gen l i; w_pid := P i |}.
(** fprintf(tcp->outf, ...) *)
Definition put (l : log) (i : nat) (x : tok) : res log :=
  match outf l i with None => Undef | Some f => Ok (write l f [(author l i, x)]) end.
(** src/strace.c:745-784: printing to current_tcp counts columns *)
Definition tprint (l : log) (x : tok) : res log :=
  match current l with
  | None => Ok l
  | Some i => rlet l := put l i x in Ok (set_col l i (col l i + N.of_nat (length (render_tok (author l i) x))))
  end.
Fixpoint tprints (l : log) (xs : list tok) : res log :=
  match xs with [] => Ok l | x :: r => rlet l := tprint l x in tprints l r end.

(** src/strace.c:816-827 *)
Definition line_ended (l : log) : log :=
  let l := match current l with Some i => set_col l i 0 | None => l end in
  match printing l with Some j => set_printing (set_col l j 0) None | None => l end.

(** src/strace.c:850-951, [np] being nprocs *)
Definition printleader (c : lcfg) (np : N) (l : log) (i : nat) : res log :=
  let l := if c_ff c then set_printing l (Some i) else l in
  rlet l := match printing l with
            | Some j =>
                if negb (col l j =? 0) && (Nat.eqb j i || (negb (c_ff c) && match staged l j with None => true | Some _ => false end))
                then rlet l := tprints (set_current l (Some j)) [Unfin; Nl []] in Ok (set_col l j 0)
                else Ok l
            | None => Ok l
            end in
  let l := set_col (set_current (set_printing l (Some i)) (Some i)) i 0 in
  tprint l (Lead (c_pfx c || ((1 <? np) && negb (c_named c)))).

(** a line of its own: printleader, text, newline, line_ended, as in src/strace.c:3418-3421,
    3469-3474, 3488-3491, 3502-3510 *)
Definition msg_line (c : lcfg) (np : N) (l : log) (i : nat) (s extra : list N) : res log :=
  rlet l := printleader c np l i in
  rlet l := tprints l [Msg s; Nl extra] in
  Ok (line_ended l).

(** src/stage_output.c:25-50 *)
Definition open_memstream (l : log) (i : nat) : log :=
  let m := length (mems l) in
  set_out (set_mems l (mems l ++ [[]])) i (Some (FMem m)) (Some (m, outf l i)).
(** src/stage_output.c:52-80 *)
Definition close_memstream (l : log) (i : nat) (publish : bool) : res log :=
  match staged l i with
  | None => Ok l
  | Some (m, real) =>
      let text := nth m (mems l) [] in
      let l := set_out l i real None in
      if publish then match real with None => Undef | Some f => Ok (write l f text) end else Ok l
  end.

(** src/syscall.c:743-762; [reprint]: TCB_REPRINT, to be cleared if the first result is true *)
Definition print_syscall_resume (c : lcfg) (np : N) (l : log) (i : nat) (reprint : bool) (name : list N) : res (bool * log) :=
  let resume := (negb (c_ff c) && negb (match printing l with Some j => Nat.eqb j i | None => false end)
                 && match staged l i with None => true | Some _ => false end) || reprint in
  rlet l := (if resume then rlet l := printleader c np l i in tprint l (Resumed name) else Ok l) in
  Ok (resume, set_printing l (Some i)).

(** src/strace.c:3551-3593, past the checks of lines 3554-3557.  [decoded]: RVAL_DECODED *)
Definition print_event_exit (c : lcfg) (np : N) (l : log) (i : nat) (reprint decoded : bool) (name : list N) : res (bool * log) :=
  rlet l := match printing l with
            | Some j =>
                if negb (c_ff c) && negb (Nat.eqb j i) && negb (col l j =? 0) && match staged l j with None => true | Some _ => false end
                then rlet l := tprints (set_current l (Some j)) [Unfin; Nl []] in Ok (set_current (set_col l j 0) (Some i))
                else Ok l
            | None => Ok l
            end in
  rlet (r, l) := print_syscall_resume c np l i reprint name in
  rlet l := (if decoded then Ok l else tprint l Unfin) in
  rlet l := tprints l [RetUnknown; Nl []] in
  rlet l := (if c_all c then Ok l else close_memstream l i (c_unfin c)) in
  Ok (r, line_ended l).

(** src/strace.c:1141-1166, the part of droptcb that writes; the caller checked that the pid is not 0 *)
Definition drop_log (c : lcfg) (l : log) (i : nat) : res log :=
  rlet l := match outf l i with
            | None => Ok l
            | Some _ =>
                let publish := if c_all c then true else c_det c in
                rlet l := (if c_all c then Ok l else close_memstream l i publish) in
                if publish && negb (col l i =? 0) && (c_ff c || match printing l with Some j => Nat.eqb j i | None => false end)
                then rlet l := put l i Detached in put l i (Nl [])
                else Ok l
            end in
  let l := match current l with Some j => if Nat.eqb j i then set_current l None else l | None => l end in
  let l := match printing l with Some j => if Nat.eqb j i then set_printing l None else l | None => l end in
  Ok (set_out (set_col l i 0) i None None).

(** src/strace.c:3404-3425: the files of the leader [i] and of the thread [j] that called execve
    are swapped; the pid of the leader is still [pid].  droptcb of the leader follows. *)
Definition switch_files (l : log) (i j : nat) (pid : N) : res log :=
  rlet l := (if col l j =? 0 then Ok l else rlet l := put l j (PidChanged pid) in put l j (Nl [])) in
  let l' := set_out (set_out l j (outf l i) (staged l i)) i (outf l j) (staged l j) in
  Ok (set_col (set_col l' j (col l i)) i 0).

(** src/strace.c:963-978 (after_successful_attach) *)
Definition attach_log (c : lcfg) (l : log) (i : nat) : log :=
  set_out l i (Some (FReal (if c_ff c then Own (P i) else Shared))) (staged l i).
(** src/strace.c:1056 (memset in alloctcb) *)
Definition alloc_log (l : log) (i : nat) : log := set_gen (set_out (set_col l i 0) i None None) i.
End WithTable.
