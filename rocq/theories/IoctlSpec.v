(** What the names of ioctl commands mean: <linux/input.h>, <linux/hiddev.h>, <linux/hidraw.h>, <linux/soundcard.h>,
    <linux/uinput.h>, <linux/joystick.h>, <linux/spi/spidev.h>, <linux/seccomp.h>. *)
From Coq Require Import Sorted.
From Verif Require Import Base Printf BitsModel XlatModel XlatSpec IoctlModel.
Local Open Scope N_scope.

(** a name of the table, or a number with or without a comment *)
Definition value_text (x : xlat) (t : list N) (v : N) : Prop := XlatSpec.named x v t \/ exists c, t = pr_hex v ++ comment c.
(** constants of the direction joined by bars, or 0 *)
Definition dir_text (A : arch) (t : list N) (d : N) : Prop :=
  (t = bs "0" /\ d = 0) \/
  exists l, t = join_bar (map snd l) /\ l <> [] /\ d = ors l /\
    Forall (fun e => In e [(IOC_NONE A, bs "_IOC_NONE"); (IOC_READ A, bs "_IOC_READ"); (IOC_WRITE A, bs "_IOC_WRITE")]) l.
(** macros of one argument, the size *)
Definition sized (A : arch) : list (list N * N * N * N) :=
  let R := IOC_READ A in let RW := N.lor (IOC_READ A) (IOC_WRITE A) in
  [ (bs "EVIOCGNAME", R, 69, 6); (bs "EVIOCGPHYS", R, 69, 7); (bs "EVIOCGUNIQ", R, 69, 8); (bs "EVIOCGPROP", R, 69, 9);
    (bs "EVIOCGMTSLOTS", R, 69, 10); (bs "EVIOCGKEY", R, 69, 24); (bs "EVIOCGLED", R, 69, 25); (bs "EVIOCGSND", R, 69, 26); (bs "EVIOCGSW", R, 69, 27);
    (bs "HIDIOCGRAWNAME", R, 72, 4); (bs "HIDIOCGRAWPHYS", R, 72, 5); (bs "HIDIOCGNAME", R, 72, 6); (bs "HIDIOCGRAWUNIQ", R, 72, 8); (bs "HIDIOCGPHYS", R, 72, 18);
    (bs "HIDIOCSFEATURE", RW, 72, 6); (bs "HIDIOCGFEATURE", RW, 72, 7); (bs "UI_GET_SYSNAME", R, 85, 44); (bs "JSIOCGNAME", R, 106, 19) ].
Inductive denotes (A : arch) (T : itabs) : list N -> N -> Prop :=
| DName s c : In (c, s) (ents T) -> denotes A T s c
| DCode d t n z dt : dir_text A dt d ->
    denotes A T (bs "_IOC(" ++ dt ++ bs ", " ++ pr_hex t ++ bs ", " ++ pr_hex n ++ bs ", " ++ pr_hex z ++ bs ")") (IOC A d t n z)
| DSized s d t n z : In (s, d, t, n) (sized A) -> denotes A T (s ++ bs "(" ++ pr_num 10 z ++ bs ")") (IOC A d t n z)
| DGBit v x z : value_text (ev_names T) x v \/ (v = 0 /\ x = bs "0") ->
    denotes A T (bs "EVIOCGBIT(" ++ x ++ bs ", " ++ pr_num 10 z ++ bs ")") (IOC A (IOC_READ A) 69 (32 + v) z)
| DGAbs v x : value_text (abs_names T) x v -> denotes A T (bs "EVIOCGABS(" ++ x ++ bs ")") (IOC A (IOC_READ A) 69 (64 + v) 24)
| DSAbs v x : value_text (abs_names T) x v -> denotes A T (bs "EVIOCSABS(" ++ x ++ bs ")") (IOC A (IOC_WRITE A) 69 (192 + v) 24)
| DMixR n : denotes A T (bs "MIXER_READ(" ++ pr_num 10 n ++ bs ")") (IOC A (IOC_READ A) 77 n 4)
| DMixW n : denotes A T (bs "MIXER_WRITE(" ++ pr_num 10 n ++ bs ")") (IOC A (IOC_WRITE A) 77 n 4)
| DSpi n : denotes A T (bs "SPI_IOC_MESSAGE(" ++ pr_num 10 n ++ bs ")") (IOC A (IOC_WRITE A) 107 0 (32 * n))
| DSecc : denotes A T (bs "SECCOMP_IOCTL_NOTIF_ID_VALID_WRONG_DIR") (IOC A (IOC_READ A) 33 2 8).
(** the same for terminals, whose commands have their own table *)
Definition tty_denotes (T : itabs) (s : list N) (c : N) : Prop := XlatSpec.named (term_names T) c s.

Fixpoint join_or (l : list (list N)) : list N :=
  match l with [] => [] | [a] => a | a :: r => a ++ bs " or " ++ join_or r end.
(** the table in the order the generator gives it *)
Definition by_code (d : list (N * list N)) : Prop := StronglySorted (fun a b => fst a <= fst b) d.
Definition tables_ok (T : itabs) : Prop :=
  by_code (ents T) /\ table_ok (abs_names T) /\ table_ok (ev_names T) /\ table_ok (term_names T).
(** the names of [c] in the table *)
Definition names_of (d : list (N * list N)) (c : N) : list (list N) := map snd (filter (fun e => fst e =? c) d).

(** commands shown by a macro that loses or mistakes something *)
Definition misnamed (A : arch) (c : N) : Prop :=
  (IOC_TYPE c = 72 /\ IOC_DIR A c = IOC_READ A /\ IOC_NR c = 6) \/
  (IOC_TYPE c = 107 /\ IOC_DIR A c = IOC_WRITE A /\ IOC_NR c = 0 /\ IOC_SIZE A c <> 0) \/
  (IOC_TYPE c = 77 /\ (IOC_DIR A c = IOC_READ A \/ IOC_DIR A c = IOC_WRITE A) /\ IOC_SIZE A c <> 4) \/
  (IOC_TYPE c = 69 /\ IOC_SIZE A c <> 24 /\ ((IOC_DIR A c = IOC_READ A /\ 64 <= IOC_NR c < 128) \/ (IOC_DIR A c = IOC_WRITE A /\ 192 <= IOC_NR c))).
