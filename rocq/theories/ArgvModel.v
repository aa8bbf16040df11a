(** Model of the vectors of execve: src/execve.c:19-110, src/util.c:399-406, 2082-2086.
    [rd a]: the word of [wsz] bytes umoven reads at [a] (see C32); [str w]: what printstr prints of the string at [w] (see C12). *)
From Verif Require Import Base Printf.
Local Open Scope N_scope.

Record env := { rd : N -> option N; str : N -> list N; wsz : N; verbose : bool; abbrev : bool; max_strlen : N }.
(** src/util.c:399-406 printaddr64 *)
Definition printaddr (a : N) : list N := if a =? 0 then bs "NULL" else bs "0x" ++ pr_num 16 a.
(** src/defs.h:1767-1771: %#llx *)
Definition printaddr_comment (a : N) : list N := bs " /* " ++ (if a =? 0 then bs "0" else bs "0x" ++ pr_num 16 a) ++ bs " */".
(** src/util.c:2082-2086 *)
Definition sequence_truncation_needed (e : env) (len : N) : bool := abbrev e && (max_strlen e <? len).
(** the loop of printargv, src/execve.c:28-66, what follows it included; [None]: out of fuel *)
Fixpoint argv_loop (fuel : nat) (e : env) (prev addr n : N) : option (list N) :=
  match fuel with
  | O => None
  | S fuel =>
      match (if addr <? prev then None else rd e addr) with
      | None => Some (if n =? 0 then printaddr addr else bs ", " ++ bs "..." ++ printaddr_comment addr ++ bs "]")
      | Some w =>
          let o := if n =? 0 then bs "[" else [] in
          if w =? 0 then Some (o ++ bs "]") else
          let o := o ++ (if negb (n =? 0) then bs ", " else []) in
          if sequence_truncation_needed e (u32 (n + 1)) then Some (o ++ bs "..." ++ bs "]") else
          match argv_loop fuel e addr (u64 (addr + wsz e)) (u32 (n + 1)) with
          | None => None
          | Some t => Some (o ++ str e w ++ t)
          end
      end
  end.
(** src/execve.c:20-26 *)
Definition printargv (fuel : nat) (e : env) (addr : N) : option (list N) :=
  if (addr =? 0) || negb (verbose e) then Some (printaddr addr) else argv_loop fuel e 0 addr 0.
(** the loop of printargc, src/execve.c:77-94: the count and whether addr < prev_addr; [Some None]: return in the loop *)
Fixpoint argc_loop (fuel : nat) (e : env) (prev addr n : N) : option (option (N * bool)) :=
  match fuel with
  | O => None
  | S fuel =>
      if addr <=? prev then Some (Some (n, addr <? prev)) else
      match rd e addr with
      | None => if n =? 0 then Some None else Some (Some (n, 0 <? prev))
      | Some w => if w =? 0 then Some (Some (n, addr <? prev)) else argc_loop fuel e addr (u64 (addr + wsz e)) (u32 (n + 1))
      end
  end.
(** src/execve.c:68-95 *)
Definition printargc (fuel : nat) (e : env) (addr : N) : option (list N) :=
  if (addr =? 0) || negb (verbose e) then Some (printaddr addr) else
  match argc_loop fuel e 0 addr 0 with
  | None => None
  | Some None => Some (printaddr addr)
  | Some (Some (n, u)) => Some (printaddr addr ++ bs " /* " ++ pr_num 10 n ++ bs " var" ++ (if n =? 1 then [] else bs "s") ++ (if u then bs ", unterminated" else []) ++ bs " */")
  end.
(** decode_execve, src/execve.c:97-110; [path]: what printpath prints *)
Definition decode_execve (fuel : nat) (e : env) (path : list N) (argv envp : N) : option (list N) :=
  match printargv fuel e argv, (if abbrev e then printargc else printargv) fuel e envp with
  | Some a, Some b => Some (path ++ bs ", " ++ a ++ bs ", " ++ b)
  | _, _ => None
  end.
