(** Reading modes, flags and device numbers as a C compiler would. *)
From Verif Require Import Base Printf BitsModel ModeModel RetSpec.
Local Open Scope N_scope.

(** A constant: one of the names, or a number. *)
Definition value_of (names : list (N * list N)) (w : list N) : option N :=
  match find (fun e => beqs (snd e) w) names with
  | Some e => Some (fst e)
  | None => option_map Z.to_N (c_number w)
  end.
(** The words between the bars. *)
Fixpoint split_bar (s : list N) : list (list N) :=
  match s with
  | [] => [[]]
  | c :: r => if c =? 124 then [] :: split_bar r
              else match split_bar r with w :: l => (c :: w) :: l | [] => [[c]] end
  end.
(** a|b|c *)
Definition read_or (names : list (N * list N)) (s : list N) : option N :=
  fold_right (fun w a => olet v := value_of names w in olet x := a in Some (N.lor v x)) (Some 0) (split_bar s).

(** With -X abbrev the expression has the value [v]; with -X raw it is a number; with -X verbose it is a
    number followed by the expression in a comment, if there is a name for it. *)
Definition shows (names : list (N * list N)) (st : xstyle_t) (text : list N) (v : N) : Prop :=
  match st with
  | XABBREV => read_or names text = Some v
  | XRAW => c_number text = Some (Z.of_N v)
  | XVERBOSE => c_number text = Some (Z.of_N v) \/
      exists n t, text = n ++ bs " /* " ++ t ++ bs " */" /\ c_number n = Some (Z.of_N v) /\ read_or names t = Some v
  end.
(** inode(7), with the octal numbers there as hexadecimal ones; open(2) *)
Definition mode_names : list (N * list N) :=
  [(0xc000, bs "S_IFSOCK"); (0xa000, bs "S_IFLNK"); (0x8000, bs "S_IFREG"); (0x6000, bs "S_IFBLK"); (0x4000, bs "S_IFDIR");
   (0x2000, bs "S_IFCHR"); (0x1000, bs "S_IFIFO"); (0x800, bs "S_ISUID"); (0x400, bs "S_ISGID"); (0x200, bs "S_ISVTX")].
Definition open_names : list (N * list N) :=
  [(0x0, bs "O_RDONLY"); (0x1, bs "O_WRONLY"); (0x2, bs "O_RDWR"); (0x3, bs "O_ACCMODE"); (0x400, bs "O_APPEND"); (0x80000, bs "O_CLOEXEC");
   (0x40, bs "O_CREAT"); (0x4000, bs "O_DIRECT"); (0x10000, bs "O_DIRECTORY"); (0x1000, bs "O_DSYNC"); (0x80, bs "O_EXCL"); (0x8000, bs "O_LARGEFILE");
   (0x40000, bs "O_NOATIME"); (0x100, bs "O_NOCTTY"); (0x20000, bs "O_NOFOLLOW"); (0x800, bs "O_NONBLOCK"); (0x200000, bs "O_PATH"); (0x101000, bs "O_SYNC");
   (0x410000, bs "O_TMPFILE"); (0x200, bs "O_TRUNC"); (0x100000, bs "__O_SYNC"); (0x400000, bs "__O_TMPFILE"); (0x2000, bs "FASYNC")].

(** makedev(3) *)
Definition makedev (maj min : N) : N :=
  N.lor (N.lor (N.shiftl (N.land maj 0xfff) 8) (N.shiftl (N.land maj 0xfffff000) 32))
        (N.lor (N.land min 0xff) (N.shiftl (N.land min 0xffffff00) 12)).
Definition shows_dev (st : xstyle_t) (text : list N) (dev : N) : Prop :=
  let makes t := exists a b x y, t = bs "makedev(" ++ a ++ bs ", " ++ b ++ bs ")" /\
    c_number a = Some (Z.of_N x) /\ c_number b = Some (Z.of_N y) /\ x < 2^32 /\ y < 2^32 /\ makedev x y = dev in
  match st with
  | XABBREV => makes text
  | XRAW => c_number text = Some (Z.of_N dev)
  | XVERBOSE => exists n t, text = n ++ bs " /* " ++ t ++ bs " */" /\ c_number n = Some (Z.of_N dev) /\ makes t
  end.
