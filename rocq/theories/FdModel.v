(** What follows a descriptor: src/util.c:600-1040, src/pathtrace.c:91-164. *)
From Verif Require Import Base StrtouModel QuoteModel Printf BitsModel RetModel TimeModel QualModel InjectModel FtsModel IexpModel.
Local Open Scope N_scope.

(** ---- src/pathtrace.c:91-147 get_proc_pid_fd_path ----
    [link]: what readlink gives (the buffer holds it); [id], [lookup]: stat of the link and lstat of a path give an
    inode with its device, or fail. *)
Definition del_sfx : list N := bs " (deleted)".
Definition same_file (a b : option (N * N)) : bool :=
  match a, b with Some (i, d), Some (j, e) => (i =? j) && (d =? e) | _, _ => false end.
Definition fd_path (link : list N) (id : option (N * N)) (lookup : list N -> option (N * N)) : list N * bool :=
  let n := length link in
  (* sizeof(del_sfx) counts the NUL *)
  if (n <=? 11)%nat then (link, false)
  else if negb (beqs (skipn (n - 10) link) del_sfx) then (link, false)
  else match id with
       | None => (link, false)
       | Some _ => if same_file id (lookup link) then (link, false) else (firstn (n - 10) link, true)
       end.

(** ---- src/util.c:658-700 scan_fdinfo_lines ----
    A search is a prefix and which values are accepted.  The result: the value accepted for each.  A line is a string:
    what getline(3) gives up to a NUL. *)
Record search := { pfx : list N; accept : list N -> bool }.
(** src/util.c:679-694: the first search that takes the line; [Some] when one does *)
Fixpoint scan_line (ss : list search) (found : list (option (list N))) (line : list N) : option (list (option (list N))) :=
  match ss, found with
  | s :: ss', f :: found' =>
      match f with
      | Some _ => olet r := scan_line ss' found' line in Some (f :: r)
      | None => match strip (pfx s) line with
                | Some v => if accept s v then Some (Some v :: found') else olet r := scan_line ss' found' line in Some (f :: r)
                | None => olet r := scan_line ss' found' line in Some (f :: r)
                end
      end
  | _, _ => None
  end.
(** src/util.c:678-695; [left]: searches without a match *)
Fixpoint scan_lines (ss : list search) (left : nat) (found : list (option (list N))) (lines : list (list N)) : list (option (list N)) :=
  match left, lines with
  | O, _ => found
  | _, [] => found
  | S k, l :: r => match scan_line ss found l with
                   | Some found' => scan_lines ss k found' r
                   | None => scan_lines ss left found r
                   end
  end.
(** [info]: the lines of /proc/pid/fdinfo/fd, if it can be opened *)
Definition scan_fdinfo_lines (ss : list search) (info : option (list (list N))) : list (option (list N)) :=
  let none := map (fun _ => None) ss in
  match info with Some lines => scan_lines ss (length ss) none lines | None => none end.
Definition any (v : list N) : bool := true.
(** string_to_uint_ex(value, NULL, INT_MAX, "\n"), -1 for none *)
Definition uint_line (v : list N) : Z := match string_to_uint_ex v (2^31 - 1) (Some [10]) with Some (z, _) => z | None => (-1)%Z end.
(** src/util.c:704-719 *)
Definition scan_fdinfo (p : list N) (acc : list N -> bool) (info : option (list (list N))) : option (list N) :=
  match scan_fdinfo_lines [{| pfx := p; accept := acc |}] info with [r] => r | _ => None end.

(** ---- what is known of the descriptor ---- *)
Inductive devkind := Block | Char.
Record fdworld := {
  w_path : list N; w_deleted : bool;              (* fd_path *)
  w_dev : list N -> option (devkind * N * N);     (* stat(2) of a path: a device, its major and minor number *)
  w_info : option (list (list N));                (* fdinfo *)
  w_sock : option (list N)                        (* get_sockaddr_by_inode, src/socketutils.c; not modelled here *)
}.
(** src/defs.h:640-650 the kinds of -e decode-fds *)
Record kinds := { k_socket : bool; k_dev : bool; k_eventfd : bool; k_pidfd : bool; k_signalfd : bool; k_path : bool }.
Definition no_kinds (k : kinds) : bool := negb (k_socket k || k_dev k || k_eventfd k || k_pidfd k || k_signalfd k || k_path k).

Definition angle (s : list N) : list N := bs "<" ++ s ++ bs ">".
(** QUOTE_OMIT_LEADING_TRAILING_QUOTES, with "<>" escaped: src/util.c:785, 997 *)
Definition path_style (x : xflag_opts) : qstyle := {| q0term := false; omit_quotes := true; omit0 := false; expect0 := false; comment := false; xstyle := x |}.
Definition path_quoted (x : xflag_opts) (p : list N) : res (list N) :=
  rlet (r, _) := print_quoted_string_ex p (N.of_nat (length p)) (path_style x) (Some (bs "<>")) in
  match r with PText t _ => Ok t | _ => Ok (bs "???") end.

(** src/util.c:599-615 get_inode_of_socket_path; strtoul(3) with base 10: a sign and blanks are accepted, and a
    number too large gives ULONG_MAX *)
Definition strtoul10 (s : list N) : N * list N :=
  let s1 := skip_space s in
  let (neg, s2) := match s1 with c :: r => if c =? 45 then (true, r) else if c =? 43 then (false, r) else (false, s1) | [] => (false, s1) end in
  match digs 10 s2 with
  | ([], _) => (0, s)
  | (a, rest) => let m := dnum 10 0 a in ((if 2^64 <=? m then 2^64 - 1 else if neg then (2^64 - m) mod 2^64 else m), rest)
  end.
Definition socket_inode (path : list N) : N :=
  match strip (bs "socket:[") path with
  | Some str =>
      match rev str with
      | c :: _ => if c =? 93 then let (r, e) := strtoul10 str in if negb (r =? 0) && (length e =? 1)%nat then r else 0 else 0
      | [] => 0
      end
  | None => 0
  end.
(** src/util.c:635-646; [None]: false *)
Definition printsocket (w : fdworld) : option (list N) :=
  if socket_inode (w_path w) =? 0 then None
  else Some (angle (match w_sock w with Some d => d | None => w_path w end)).

(** src/util.c:721-727, 735-742, 772-774 *)
Definition is_ptmx (d : devkind * N * N) : bool := match d with (Char, 5, 2) => true | _ => false end.
Definition tty_index (w : fdworld) : Z := match scan_fdinfo (bs "tty-index:" ++ [9]) any (w_info w) with Some v => uint_line v | None => (-1)%Z end.
(** src/util.c:744-806 without a finfo *)
Definition printdev (x : xflag_opts) (w : fdworld) : res (option (list N)) :=
  match (match w_path w with c :: _ => if c =? 47 then w_dev w (w_path w) else None | [] => None end) with
  | None => Ok None
  | Some (k, ma, mi) =>
      rlet q := path_quoted x (w_path w) in
      Ok (Some (angle (q ++ angle ((match k with Block => bs "block" | Char => bs "char" end) ++ bs " " ++ pr_num 10 ma ++ bs ":" ++ pr_num 10 mi
                 ++ (if is_ptmx (k, ma, mi) && (0 <=? tty_index w)%Z then bs " @/dev/pts/" ++ pr_z (tty_index w) else [])))))
  end.

(** src/util.c:914-990 *)
Fixpoint skip_blank (s : list N) : list N := match s with c :: r => if (c =? 32) || (c =? 9) then skip_blank r else s | [] => [] end.
Fixpoint upto_nl (s : list N) : list N := match s with c :: r => if c =? 10 then [] else c :: upto_nl r | [] => [] end.
Definition printeventfd (w : fdworld) : option (list N) :=
  if negb (beqs (w_path w) (bs "anon_inode:[eventfd]")) then None
  else match scan_fdinfo_lines [{| pfx := bs "eventfd-count:"; accept := any |}; {| pfx := bs "eventfd-id:"; accept := any |};
                                {| pfx := bs "eventfd-semaphore:"; accept := any |}] (w_info w) with
       | [c; i; s] =>
           let efd_id := match i with Some v => uint_line v | None => (-1)%Z end in
           let efd_semaphore := match s with Some v => uint_line v | None => (-1)%Z end in
           match (match c with Some v => upto_nl (skip_blank v) | None => [] end) with
           | [] => Some (angle (w_path w))
           | (d :: _) as counter =>
               Some (angle (bs "{eventfd-count=" ++ (if d =? 48 then [] else bs "0x") ++ counter ++
                 (if (efd_id =? -1)%Z then [] else bs ", eventfd-id=" ++ pr_z efd_id ++
                    (if (efd_semaphore =? -1)%Z then [] else bs ", eventfd-semaphore=" ++ pr_z efd_semaphore)) ++ bs "}"))
           end
       | _ => None
       end.

(** src/util.c:807-852; translation of the PID by -Y or --pidns-translation is not modelled *)
Definition printpidfd (w : fdworld) : option (list N) :=
  if (match strip (bs "pidfd:") (w_path w) with Some _ => false | None => true end) && negb (beqs (w_path w) (bs "anon_inode:[pidfd]")) then None
  else let pid := match scan_fdinfo (bs "Pid:" ++ [9]) any (w_info w) with Some v => uint_line v | None => (-1)%Z end in
       if (0 <? pid)%Z then Some (angle (bs "pid:" ++ pr_z pid)) else Some (angle (w_path w)).

(** src/util.c:863-876: the bytes of the mask; [xm] is pos_xor_mask.  [None]: not hexadecimal *)
Definition sigmask_bytes (xm : N) (v : list N) : option (list N) :=
  let n := (length v / 2)%nat in
  olet bytes := scan_bytes v n in
  Some (map (fun j => nth (n - 1 - N.to_nat (N.lxor (N.of_nat j) xm)) bytes 0) (seq 0 n)).
(** src/util.c:854-896 *)
Definition printsignalfd (g : sigcfg) (st : xstyle_t) (xm : N) (w : fdworld) : res (option (list N)) :=
  if negb (beqs (w_path w) (bs "anon_inode:[signalfd]")) then Ok None
  else match scan_fdinfo (bs "sigmask:" ++ [9]) (fun v => match sigmask_bytes xm v with Some _ => true | None => false end) (w_info w) with
       | Some v => match sigmask_bytes xm v with
                   | Some m => rlet t := sprintsigmask_n g st xm (bs "signalfd:") m (N.of_nat (length m)) in Ok (Some (angle t))
                   | None => Ok None
                   end
       | None => Ok None
       end.

(** src/util.c:996-1040 printfd_pid_with_finfo without a finfo: [w] is [None] if the path is not found, as when fd < 0.
    The context of SELinux is not modelled. *)
Definition printfd (x : xflag_opts) (g : sigcfg) (st : xstyle_t) (xm : N) (k : kinds) (pid : Z) (fd : Z) (w : option fdworld) : res (list N) :=
  let num := pr_z fd in
  if negb (0 <? pid)%Z || no_kinds k then Ok num
  else match w with
  | None => Ok num
  | Some w =>
      match (if k_socket k then printsocket w else None) with
      | Some t => Ok (num ++ t)
      | None =>
      rlet d := (if k_dev k then printdev x w else Ok None) in
      match d with
      | Some t => Ok (num ++ t)
      | None =>
      match (if k_eventfd k then printeventfd w else None) with
      | Some t => Ok (num ++ t)
      | None =>
      match (if k_pidfd k then printpidfd w else None) with
      | Some t => Ok (num ++ t)
      | None =>
      rlet s := (if k_signalfd k then printsignalfd g st xm w else Ok None) in
      match s with
      | Some t => Ok (num ++ t)
      | None =>
          if k_path k then rlet q := path_quoted x (w_path w) in Ok (num ++ angle q ++ (if w_deleted w then bs "(deleted)" else []))
          else Ok num
      end end end end end
  end.
