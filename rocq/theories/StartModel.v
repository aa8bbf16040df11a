(** Model of how the program to run is looked for: startup_child, src/strace.c:1707-1770. *)
From Verif Require Import Base.
Local Open Scope N_scope.

(** what stat says of a path: regular file, permission bits, owner and group; None: it fails *)
Record info := { regular : bool; mode : N; uid : N; gid : N }.
(** the environment strace is started in: PATH (None: not set), getcwd (None: it fails; otherwise at
    most PATH_MAX - 1 bytes), stat, and the user and group of -u, or those of strace *)
Record env := { path : option (list N); cwd : option (list N); stat : list N -> option info; run_uid : N; run_gid : N }.
Definition PATH_MAX : N := 4096.
Definition len {A} (l : list A) : N := N.of_nat (length l).
Definition slash : N := ch "/".
Definition colon : N := ch ":".
Definition has (c : N) (l : list N) : bool := existsb (N.eqb c) l.

(** What becomes of the start *)
Inductive outcome := Exec (pathname : list N) (euid egid : N) | Cannot_find | Cannot_stat | Too_long.

(** strchr(path, ':'): what is before the colon, and what is left after [path += m]; src/strace.c:1729-1734 *)
Fixpoint piece (p : list N) : list N * list N :=
  match p with
  | [] => ([], [])
  | c :: r => if c =? colon then ([], r) else let '(a, b) := piece r in (c :: a, b)
  end.
(** the array pathname: what has been written of it; writing beyond its end is undefined behaviour *)
Definition written (l : list N) : res (list N) := if len l <=? PATH_MAX then Ok l else Undef.
(** src/strace.c:1735-1750: pathname for one element of PATH; [Ok None]: continue *)
Definition build (e : env) (d filename : list N) : res (option (list N)) :=
  rlet dir := (if len d =? 0 then match cwd e with None => Ok None | Some w => rlet b := written (w ++ [0]) in Ok (Some w) end
               else if PATH_MAX - 1 <? len d then Ok None
               else rlet b := written d in Ok (Some b)) in
  match dir with
  | None => Ok None
  | Some b =>
      rlet b := (if negb (len b =? 0) && negb (last b 0 =? slash) then written (b ++ [slash]) else Ok b) in
      if PATH_MAX - 1 <? len filename + len b then Ok None
      else rlet w := written (b ++ filename ++ [0]) in Ok (Some (b ++ filename))
  end.
(** src/strace.c:1751-1757 *)
Definition runnable (e : env) (p : list N) : bool :=
  match stat e p with Some i => regular i && negb (N.land (mode i) 73 =? 0) | None => false end.
(** the loop of src/strace.c:1728-1758; [fuel]: at least the length of PATH *)
Fixpoint search (fuel : nat) (e : env) (filename p : list N) : res (option (list N)) :=
  match fuel, p with
  | _, [] => Ok None
  | O, _ => Undef
  | S fuel, _ =>
      let '(d, rest) := piece p in
      rlet c := build e d filename in
      match c with
      | Some x => if runnable e x then Ok (Some x) else search fuel e filename rest
      | None => search fuel e filename rest
      end
  end.
(** startup_child, src/strace.c:1716-1770, up to the parameters of the tracee *)
Definition startup_child (e : env) (filename : list N) : res outcome :=
  if PATH_MAX - 1 <? len filename then Ok Too_long
  else
    rlet p := (if has slash filename then rlet w := written (filename ++ [0]) in Ok (Some filename)
               else match path e with None => Ok None | Some l => search (length l) e filename l end) in
    match p with
    | None | Some [] => Ok Cannot_find
    | Some p =>
        match stat e p with
        | None => Ok Cannot_stat
        | Some i => Ok (Exec p (if N.testbit (mode i) 11 then uid i else run_uid e) (if N.testbit (mode i) 10 then gid i else run_gid e))
        end
    end.
