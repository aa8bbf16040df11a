(** File modes, open flags, device numbers: src/printmode.c, src/open.c, src/mknod.c, src/print_dev_t.c.
    The constants are those of asm-generic (src/kernel_fcntl.h and the kernel's fcntl.h and stat.h). *)
From Verif Require Import Base Printf BitsModel XlatModel RetModel.
Local Open Scope N_scope.

Definition tab (l : list (N * list N)) : list entry := map (fun e => (fst e, Some (snd e))) l.
(** src/xlat/modetypes.in *)
Definition modetypes_l : list (N * list N) :=
  [(32768, bs "S_IFREG"); (49152, bs "S_IFSOCK"); (4096, bs "S_IFIFO"); (40960, bs "S_IFLNK");
   (16384, bs "S_IFDIR"); (24576, bs "S_IFBLK"); (8192, bs "S_IFCHR")].
Definition modetypes : xlat := {| ty := XT_NORMAL; data := tab modetypes_l |}.
Definition S_IFMT : N := 61440.
Definition S_ISUID : N := 2048.
Definition S_ISGID : N := 1024.
Definition S_ISVTX : N := 512.

(** src/printmode.c:20-43 print_symbolic_mode_t; the mode is an unsigned int *)
Definition print_symbolic_mode_t (st : xstyle_t) (mode : N) : list N :=
  let ifmt := if negb (N.land mode S_IFMT =? 0) then xlookup modetypes (N.land mode S_IFMT) else Some [] in
  match ifmt with
  | None => print_val_03o mode
  | Some ifmt =>
      let text := ifmt ++ (match ifmt with [] => [] | _ => bs "|" end) ++
                  (if negb (N.land mode S_ISUID =? 0) then bs "S_ISUID|" else []) ++
                  (if negb (N.land mode S_ISGID =? 0) then bs "S_ISGID|" else []) ++
                  (if negb (N.land mode S_ISVTX =? 0) then bs "S_ISVTX|" else []) ++
                  print_val_03o (N.ldiff mode (N.lor S_IFMT (N.lor S_ISUID (N.lor S_ISGID S_ISVTX)))) in
      match st with
      | XABBREV => text
      | XRAW => print_val_03o mode
      | XVERBOSE => print_val_03o mode ++ bs " /* " ++ text ++ bs " */"
      end
  end.
(** src/printmode.c:45-49 print_numeric_umode_t: an unsigned short *)
Definition print_numeric_umode_t (mode : N) : list N := print_val_03o (mode mod 2^16).

(** src/xlat/open_access_modes.in, src/xlat/open_mode_flags.in *)
Definition open_access_modes_l : list (N * list N) := [(0, bs "O_RDONLY"); (1, bs "O_WRONLY"); (2, bs "O_RDWR"); (3, bs "O_ACCMODE")].
Definition open_access_modes : xlat := {| ty := XT_INDEXED; data := tab open_access_modes_l |}.
Definition O_CREAT : N := 64.
Definition O_TMPFILE_ : N := 4194304.
Definition open_mode_flags_l : list (N * list N) :=
  [(O_CREAT, bs "O_CREAT"); (128, bs "O_EXCL"); (256, bs "O_NOCTTY"); (512, bs "O_TRUNC"); (1024, bs "O_APPEND"); (2048, bs "O_NONBLOCK");
   (1052672, bs "O_SYNC"); (1048576, bs "__O_SYNC"); (4096, bs "O_DSYNC"); (16384, bs "O_DIRECT"); (32768, bs "O_LARGEFILE");
   (131072, bs "O_NOFOLLOW"); (262144, bs "O_NOATIME"); (524288, bs "O_CLOEXEC"); (2097152, bs "O_PATH");
   (4259840, bs "O_TMPFILE"); (O_TMPFILE_, bs "__O_TMPFILE"); (65536, bs "O_DIRECTORY"); (8192, bs "FASYNC")].
Definition open_mode_flags : xlat := {| ty := XT_NORMAL; data := tab open_mode_flags_l |}.

(** src/open.c:68-93 sprint_open_modes64; the buffer outstr has sizeof("flags O_ACCMODE") = 16 bytes *)
Definition sprint_open_modes64 (flags : N) : res (list N) :=
  rlet p := stpcpy 16 [] (bs "flags") in
  match xlookup open_access_modes (N.land flags 3) with
  | Some str =>
      rlet p := put 16 p 32 in
      rlet p := stpcpy 16 p str in
      let flags := N.ldiff flags 3 in
      if flags =? 0 then Ok p
      else rlet r := sprintflags_ex p open_mode_flags flags 124 XABBREV false FMT_X in
           Ok (match r with Some t => t | None => p end)
  | None =>
      rlet r := sprintflags_ex p open_mode_flags flags 32 XABBREV false FMT_X in
      Ok (match r with Some t => t | None => p end)
  end.
(** src/open.c:101-111 tprint_open_modes64: sizeof("flags") is 6; src/xlat.c:489-522 print_xlat_ex with a string *)
Definition print_xlat_ex (st : xstyle_t) (val : N) (str : list N) : list N :=
  match st with
  | XABBREV => str
  | XRAW => sprint_xlat_val FMT_X val
  | XVERBOSE => sprint_xlat_val FMT_X val ++ comment (Some str)
  end.
Definition tprint_open_modes64 (st : xstyle_t) (flags : N) : res (list N) :=
  rlet t := sprint_open_modes64 flags in Ok (print_xlat_ex st flags (skipn 6 t)).
(** src/open.c:113-132 decode_open: the arguments behind the path *)
Definition decode_open (st : xstyle_t) (flags mode : N) : res (list N) :=
  rlet t := tprint_open_modes64 st (u32 flags) in
  Ok (t ++ if negb (N.land flags (N.lor O_CREAT O_TMPFILE_) =? 0) then bs ", " ++ print_numeric_umode_t mode else []).

(** major() and minor() of the C library (bits/sysmacros.h) *)
Definition dev_major (dev : N) : N := u32 (N.lor (N.shiftr (N.land dev 0xfff00) 8) (N.shiftr (N.land dev 0xfffff00000000000) 32)).
Definition dev_minor (dev : N) : N := u32 (N.lor (N.land dev 0xff) (N.shiftr (N.land dev 0xffffff00000) 12)).
(** src/print_dev_t.c:13-39 print_dev_t *)
Definition print_dev_t (st : xstyle_t) (dev : N) : list N :=
  let text := bs "makedev(" ++ print_val_x (dev_major dev) ++ bs ", " ++ print_val_x (dev_minor dev) ++ bs ")" in
  match st with
  | XRAW => print_val_x dev
  | XABBREV => text
  | XVERBOSE => print_val_x dev ++ bs " /* " ++ text ++ bs " */"
  end.
(** src/mknod.c:20-44 decode_mknod: the arguments behind the path *)
Definition decode_mknod (st : xstyle_t) (mode_arg dev_arg : N) : list N :=
  let mode := mode_arg mod 2^16 in
  print_symbolic_mode_t st mode ++
  if (N.land mode S_IFMT =? 8192) || (N.land mode S_IFMT =? 24576) then bs ", " ++ print_dev_t st (u32 dev_arg) else [].
