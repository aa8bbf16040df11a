(** Security contexts (--secontext): src/secontext.c:25-262. *)
From Verif Require Import Base QuoteModel Printf.
Local Open Scope N_scope.

(** What secontext_set (src/qualify / src/filter_qualify.c) answers: whether it is not empty, and whether it has
    SECONTEXT_FULL and SECONTEXT_MISMATCH. *)
Record secopts := { sec_on : bool; sec_full : bool; sec_mismatch : bool }.

(** strchr(s, ':'): what is before the first colon and what is after it *)
Fixpoint find_colon (s : list N) : option (list N * list N) :=
  match s with
  | [] => None
  | c :: r => if c =? 58 then Some ([], r)
              else match find_colon r with Some (a, b) => Some (c :: a, b) | None => None end
  end.
(** src/secontext.c:57-58: while (len && secontext[len - 1] == '\n') len--; [r] is the string backwards *)
Fixpoint drop_nl (r : list N) : list N :=
  match r with [] => [] | c :: r' => if c =? 10 then drop_nl r' else r end.
Definition strip_nl (s : list N) : list N := rev (drop_nl (rev s)).
(** src/secontext.c:29-61 parse_secontext: the part to print.  [s]: the string before its NUL. *)
Definition parse_secontext (full : bool) (s : list N) : list N :=
  if full then strip_nl s
  else match find_colon s with
       | None => strip_nl s                       (* i = 0: !end_pos *)
       | Some (_, r1) =>
           match find_colon r1 with
           | None => strip_nl s                   (* i = 1: !end_pos *)
           | Some (_, r2) =>                      (* i = 2: secontext = start_pos *)
               match find_colon r2 with
               | Some (t, _) => strip_nl t
               | None => strip_nl r2
               end
           end
       end.

(** src/secontext.c:208-212: QUOTE_OMIT_LEADING_TRAILING_QUOTES with the hex style overridden *)
Definition con_style (x : xflag_opts) : qstyle :=
  {| q0term := false; omit_quotes := true; omit0 := false; expect0 := false; comment := false;
     xstyle := match x with HEXSTR_NONE => HEXSTR_NONE | _ => HEXSTR_NON_ASCII_CHARS end |}.
(** src/secontext.c:217, 227: print_quoted_string_ex(.., "[]!"); [None] of the text is tprint_unavailable *)
Definition print_con (x : xflag_opts) (s : list N) : res (list N) :=
  rlet (p, _) := print_quoted_string_ex s (N.of_nat (length s)) (con_style x) (Some (bs "[]!")) in
  Ok (match p with PText t _ => t | _ => bs "???" end).
(** src/secontext.c:202-233 print_context; strncmp over equal lengths of strings without NULs is equality *)
Definition print_context (o : secopts) (x : xflag_opts) (secontext expected : option (list N)) : res (list N) :=
  match secontext with
  | None => Ok []
  | Some ctx =>
      let c := parse_secontext (sec_full o) ctx in
      rlet t := print_con x c in
      match expected with
      | None => Ok t
      | Some exp =>
          let e := parse_secontext (sec_full o) exp in
          if negb (length c =? length e)%nat || negb (beqs c e)
          then rlet u := print_con x e in Ok (t ++ bs "!!" ++ u)
          else Ok t
      end
  end.

(** What the system answers.  [s_proc]: get_proc_pid (0 for none); [s_getpidcon], [s_getfilecon]: the contexts of a
    process and of the file a name leads to; [s_link]: where a descriptor's link leads, as get_proc_pid_fd_path puts
    it (src/pathtrace.c:91-147; C69); [s_mode]: stat(2); [s_realpath]; [s_label]: selabel_lookup(3) for a path and a
    mode -- [None] also without a database (src/secontext.c:63-83). *)
Record sys := { s_proc : N -> N; s_getpidcon : N -> option (list N); s_getfilecon : list N -> option (list N);
                s_link : N -> N -> option (list N); s_mode : list N -> option N; s_realpath : list N -> option (list N);
                s_label : list N -> N -> option (list N) }.
Definition dec (n : N) : list N := pr_num 10 n.

(** src/secontext.c:90-101 selinux_getpidcon *)
Definition selinux_getpidcon (o : secopts) (y : sys) (pid : N) : option (list N) :=
  if negb (sec_on o) then None
  else let p := s_proc y pid in
       if p =? 0 then None else s_getpidcon y p.

(** src/secontext.c:103-145 selinux_getfdcon: the context and the one expected.  [pid], [fd] signed. *)
Definition selinux_getfdcon (o : secopts) (y : sys) (pid fd : Z) : option (list N * option (list N)) :=
  if negb (sec_on o) || (pid <=? 0)%Z || (fd <? 0)%Z then None
  else let p := s_proc y (Z.to_N pid) in
       if p =? 0 then None
       else
         let linkpath := bs "/proc/" ++ dec p ++ bs "/fd/" ++ dec (Z.to_N fd) in
         match s_getfilecon y linkpath with
         | None => None
         | Some ctx =>
             if negb (sec_mismatch o) then Some (ctx, None)
             else match s_link y p (Z.to_N fd) with
                  | None => Some (ctx, None)
                  | Some buf =>
                      if 4096 <=? N.of_nat (length buf) then Some (ctx, None)
                      else match s_mode y linkpath with
                           | None => Some (ctx, None)
                           | Some m => Some (ctx, s_label y buf m)
                           end
                  end
         end.

(** src/secontext.c:147-200 selinux_getfilecon; [dirfd] is tcp->last_dirfd; PATH_MAX is 4096 *)
Definition AT_FDCWD : Z := (-100)%Z.
Definition con_name (p : N) (dirfd : Z) (path : list N) : option (list N) :=
  match path with
  | 47 :: _ => Some (bs "/proc/" ++ dec p ++ bs "/root" ++ path)
  | _ => if (dirfd =? AT_FDCWD)%Z then Some (bs "/proc/" ++ dec p ++ bs "/cwd/" ++ path)
         else if (0 <=? dirfd)%Z then Some (bs "/proc/" ++ dec p ++ bs "/fd/" ++ dec (Z.to_N dirfd) ++ bs "/" ++ path)
         else None                                                          (* rc stays -1 *)
  end.
Definition selinux_getfilecon (o : secopts) (y : sys) (pid : N) (dirfd : Z) (path : list N) : option (list N * option (list N)) :=
  if negb (sec_on o) then None
  else let p := s_proc y pid in
       if p =? 0 then None
       else match con_name p dirfd path with
            | None => None
            | Some fname =>
                if 4096 <=? N.of_nat (length fname) then None
                else match s_getfilecon y fname with
                     | None => None
                     | Some ctx =>
                         if negb (sec_mismatch o) then Some (ctx, None)
                         else match s_realpath y fname with
                              | None => Some (ctx, None)
                              | Some r => match s_mode y r with
                                          | None => Some (ctx, None)
                                          | Some m => Some (ctx, s_label y r m)
                                          end
                              end
                     end
            end.

(** src/secontext.c:235-262 *)
Definition printfdcon (o : secopts) (x : xflag_opts) (y : sys) (pid fd : Z) : res (list N) :=
  match selinux_getfdcon o y pid fd with
  | None => Ok []
  | Some (ctx, exp) => rlet t := print_context o x (Some ctx) exp in Ok (bs " [" ++ t ++ bs "]")
  end.
Definition printfilecon (o : secopts) (x : xflag_opts) (y : sys) (pid : N) (dirfd : Z) (path : list N) : res (list N) :=
  match selinux_getfilecon o y pid dirfd path with
  | None => Ok []
  | Some (ctx, exp) => rlet t := print_context o x (Some ctx) exp in Ok (bs " [" ++ t ++ bs "]")
  end.
Definition printpidcon (o : secopts) (x : xflag_opts) (y : sys) (pid : N) : res (list N) :=
  match selinux_getpidcon o y pid with
  | None => Ok []
  | Some ctx => rlet t := print_context o x (Some ctx) None in Ok (bs "[" ++ t ++ bs "] ")
  end.

(** ---- tcp->last_dirfd ----
    While a call is decoded, print_dirfd (src/open.c:31-64; also src/dirent.c:110 and src/xgetdents.c:127) sets it and printpathn
    (src/util.c:1400) uses it; syscall_exiting_finish (src/syscall.c:1039-1041) and alloc_tcb (src/strace.c:1064-1066)
    reset it.  An item is what a decoder prints: a directory descriptor (as an int) or a path. *)
Inductive item := ItDir (fd : Z) | ItPath (path : list N).
(** the descriptors used for the paths of a call, and last_dirfd after it *)
Fixpoint decode_items (last : Z) (its : list item) : list (Z * list N) :=
  match its with
  | [] => []
  | ItDir fd :: r => decode_items fd r
  | ItPath p :: r => (last, p) :: decode_items last r
  end.
(** Calls with paths. *)
Inductive pcall :=
| CPath (p : list N)                                  (* open(path), ... *)
| CPaths (p q : list N)                               (* rename(old, new), link(old, new) *)
| CAt (d : Z) (p : list N)                            (* openat(dirfd, path), ... *)
| CAt2 (d : Z) (p : list N) (e : Z) (q : list N)      (* renameat, linkat, move_mount *)
| CSymlinkAt (target : list N) (d : Z) (p : list N)   (* symlinkat(target, dirfd, path) *)
| CFsconfigPath (p : list N) (aux : Z).               (* fsconfig(fd, FSCONFIG_SET_PATH, key, path, dirfd) *)
(** In the order of printing: src/open.c:169-190 and the like; src/renameat.c:12-30, src/link.c:30-47, 55-66 (linkat, unlinkat),
    src/link.c:70-82 (symlinkat); src/fsconfig.c:48-73. *)
Definition items_of (c : pcall) : list item :=
  match c with
  | CPath p => [ItPath p]
  | CPaths p q => [ItPath p; ItPath q]
  | CAt d p => [ItDir d; ItPath p]
  | CAt2 d p e q => [ItDir d; ItPath p; ItDir e; ItPath q]
  | CSymlinkAt t d p => [ItPath t; ItDir d; ItPath p]
  | CFsconfigPath p aux => [ItPath p; ItDir aux]
  end.
(** the calls of a thread one after the other *)
Definition decode_calls (cs : list pcall) : list (list (Z * list N)) := map (fun c => decode_items AT_FDCWD (items_of c)) cs.
