(** ioctl commands: src/ioctl.c. *)
From Verif Require Import Base Printf BitsModel XlatModel.
Local Open Scope N_scope.

(** <asm/ioctl.h>: most architectures; alpha, mips and powerpc; sparc, where the size takes the lowest bit of the
    direction if there is one *)
Inductive arch := Generic | Thirteen | Sparc.
Definition dirshift (A : arch) : N := match A with Generic => 30 | _ => 29 end.
Definition IOC_NONE (A : arch) : N := match A with Generic => 0 | _ => 1 end.
Definition IOC_READ (A : arch) : N := 2.
Definition IOC_WRITE (A : arch) : N := match A with Generic => 1 | _ => 4 end.
Definition IOC_NR (c : N) : N := N.land c 255.
Definition IOC_TYPE (c : N) : N := N.land (N.shiftr c 8) 255.
Definition IOC_DIR (A : arch) (c : N) : N :=
  match A with
  | Generic => N.land (N.shiftr c 30) 3
  | Thirteen => N.land (N.shiftr c 29) 7
  | Sparc => if N.land (N.land (N.shiftr c 29) 7) 6 =? 0 then N.land (N.shiftr c 29) 7 else N.land (N.shiftr c 29) 6
  end.
(** src/ioctl.c:16-37 for sparc *)
Definition IOC_SIZE (A : arch) (c : N) : N :=
  match A with
  | Generic => N.land (N.shiftr c 16) 16383
  | Thirteen => N.land (N.shiftr c 16) 8191
  | Sparc => if N.land (IOC_DIR A c) 6 =? 0 then N.land (N.shiftr c 16) 8191 else N.land (N.shiftr c 16) 16383
  end.

(** the tables: ioctlent, evdev_abs, evdev_ev, term_cmds_overlapping *)
Record itabs := { ents : list (N * list N); abs_names : xlat; ev_names : xlat; term_names : xlat }.

(** bsearch of the C library with the comparison of src/ioctl.c:39-45: the index *)
Fixpoint isearch (fuel : nat) (d : list (N * list N)) (code : N) (l u : nat) : option nat :=
  match fuel with
  | O => None
  | S f =>
      if Nat.ltb l u then
        let idx := Nat.div2 (l + u) in
        match nth_error d idx with
        | None => None
        | Some e => if code <? fst e then isearch f d code l idx
                    else if fst e <? code then isearch f d code (S idx) u else Some idx
        end
      else None
  end.
Definition code_at (d : list (N * list N)) (i : nat) : N := match nth_error d i with Some e => fst e | None => 0 end.
(** src/ioctl.c:54-60: back to the first of equal ones *)
Fixpoint back (d : list (N * list N)) (code : N) (i : nat) : nat :=
  match i with O => O | S j => if code_at d j =? code then back d code j else i end.
(** src/ioctl.c:47-62 *)
Definition ioctl_lookup (d : list (N * list N)) (code : N) : option nat :=
  olet i := isearch (S (length d)) d code 0 (length d) in Some (back d code i).
(** src/ioctl.c:64-72 *)
Definition ioctl_next_match (d : list (N * list N)) (i : nat) : option nat :=
  if Nat.ltb (S i) (length d) && (code_at d (S i) =? code_at d i) then Some (S i) else None.
(** src/ioctl.c:527-531; the loop moves on in the table, so that its length is enough fuel *)
Fixpoint more_names (fuel : nat) (d : list (N * list N)) (i : nat) : list N :=
  match fuel with
  | O => []
  | S f => match ioctl_next_match d i with
           | Some j => bs " or " ++ snd (nth j d (0, [])) ++ more_names f d j
           | None => []
           end
  end.

Definition call1 (name a : list N) : list N := name ++ bs "(" ++ a ++ bs ")".
Definition call2 (name a b : list N) : list N := name ++ bs "(" ++ a ++ bs ", " ++ b ++ bs ")".
Definition dec (n : N) : list N := pr_num 10 n.
(** src/ioctl.c:79,101: the style and the comment for unknown values *)
Definition dflt (verb : xstyle_t) (s : list N) : option (list N) := Some (match verb with XVERBOSE => [] | _ => s end).
(** src/xlat/ioctl_dirs.in *)
Definition ioctl_dirs (A : arch) : xlat :=
  {| ty := XT_NORMAL; data := [(IOC_NONE A, Some (bs "_IOC_NONE")); (IOC_READ A, Some (bs "_IOC_READ")); (IOC_WRITE A, Some (bs "_IOC_WRITE"))] |}.
(** src/ioctl.c:74-96 *)
Definition ioctl_print_code (A : arch) (verb : xstyle_t) (code : N) : list N :=
  bs "_IOC(" ++ printflags_ex (IOC_DIR A code) (dflt verb (bs "_IOC_???")) XABBREV FMT_X [ioctl_dirs A] ++ bs ", " ++
  pr_hex (IOC_TYPE code) ++ bs ", " ++ pr_hex (IOC_NR code) ++ bs ", " ++ pr_hex (IOC_SIZE A code) ++ bs ")".
(** printxval_ex with the style of the callers below, which are not reached in raw style *)
Definition pxval (verb : xstyle_t) (x : xlat) (v : N) (d : list N) : list N := printxvals_ex v (dflt verb d) XABBREV FMT_X [x].
(** src/ioctl.c:98-189 *)
Definition evdev_decode_number (A : arch) (T : itabs) (verb : xstyle_t) (code : N) : option (list N) :=
  let nr := IOC_NR code in
  let sz := dec (IOC_SIZE A code) in
  if (IOC_DIR A code =? IOC_WRITE A) && ((192 <=? nr) && (nr <=? 255)) then Some (call1 (bs "EVIOCSABS") (pxval verb (abs_names T) (nr - 192) (bs "ABS_???")))
  else if negb (IOC_DIR A code =? IOC_READ A) then None
  else if (32 <=? nr) && (nr <=? 63) then
    Some (call2 (bs "EVIOCGBIT") (if nr =? 32 then bs "0" else pxval verb (ev_names T) (nr - 32) (bs "EV_???")) sz)
  else if (64 <=? nr) && (nr <=? 127) then Some (call1 (bs "EVIOCGABS") (pxval verb (abs_names T) (nr - 64) (bs "ABS_???")))
  else if nr =? 6 then Some (call1 (bs "EVIOCGNAME") sz)
  else if nr =? 7 then Some (call1 (bs "EVIOCGPHYS") sz)
  else if nr =? 8 then Some (call1 (bs "EVIOCGUNIQ") sz)
  else if nr =? 9 then Some (call1 (bs "EVIOCGPROP") sz)
  else if nr =? 10 then Some (call1 (bs "EVIOCGMTSLOTS") sz)
  else if nr =? 24 then Some (call1 (bs "EVIOCGKEY") sz)
  else if nr =? 25 then Some (call1 (bs "EVIOCGLED") sz)
  else if nr =? 26 then Some (call1 (bs "EVIOCGSND") sz)
  else if nr =? 27 then Some (call1 (bs "EVIOCGSW") sz)
  else None.
(** src/ioctl.c:191-243 *)
Definition hiddev_decode_number (A : arch) (code : N) : option (list N) :=
  let nr := IOC_NR code in
  let sz := dec (IOC_SIZE A code) in
  if IOC_DIR A code =? IOC_READ A then
    if nr =? 4 then Some (call1 (bs "HIDIOCGRAWNAME") sz)
    else if nr =? 5 then Some (call1 (bs "HIDIOCGRAWPHYS") sz)
    else if nr =? 6 then Some (call1 (bs "HIDIOCSFEATURE") sz)
    else if nr =? 8 then Some (call1 (bs "HIDIOCGRAWUNIQ") sz)
    else if nr =? 18 then Some (call1 (bs "HIDIOCGPHYS") sz)
    else None
  else if IOC_DIR A code =? N.lor (IOC_READ A) (IOC_WRITE A) then
    if nr =? 6 then Some (call1 (bs "HIDIOCSFEATURE") sz)
    else if nr =? 7 then Some (call1 (bs "HIDIOCGFEATURE") sz)
    else None
  else None.
(** the number of a command: src/linux/32/.. _IOC(dir, type, nr, size) of <asm-generic/ioctl.h>; the fields do not overlap *)
Definition IOC (A : arch) (d t n s : N) : N := d * 2 ^ dirshift A + s * 65536 + t * 256 + n.
(** src/ioctl.c:245-308 with src/term.c:471-490; [tty]: the descriptor is a terminal as defined there.  The result:
    no more lookup, and what is printed. *)
Definition ioctl_decode_command_number (A : arch) (T : itabs) (verb : xstyle_t) (tty : bool) (code : N) : bool * option (list N) :=
  let t := IOC_TYPE code in
  let d := IOC_DIR A code in
  let nr := IOC_NR code in
  if t =? 33 then (false, if code =? IOC A (IOC_READ A) 33 2 8 then Some (bs "SECCOMP_IOCTL_NOTIF_ID_VALID_WRONG_DIR") else None)
  else if t =? 69 then (false, evdev_decode_number A T verb code)
  else if t =? 72 then (false, hiddev_decode_number A code)
  else if t =? 77 then (false, if d =? IOC_WRITE A then Some (call1 (bs "MIXER_WRITE") (dec nr))
                               else if d =? IOC_READ A then Some (call1 (bs "MIXER_READ") (dec nr)) else None)
  else if t =? 84 then (if tty then match xlookup (term_names T) code with Some s => (true, Some s) | None => (false, None) end else (false, None))
  else if t =? 85 then (false, if (d =? IOC_READ A) && (nr =? 44) then Some (call1 (bs "UI_GET_SYSNAME") (dec (IOC_SIZE A code))) else None)
  else if t =? 106 then (false, if (d =? IOC_READ A) && (nr =? 19) then Some (call1 (bs "JSIOCGNAME") (dec (IOC_SIZE A code))) else None)
  else if t =? 107 then (false, if (d =? IOC_WRITE A) && (nr =? 0) then Some (call1 (bs "SPI_IOC_MESSAGE") (dec (IOC_SIZE A code))) else None)
  else (false, None).
(** src/ioctl.c:519-538, not in raw style *)
Definition command_name (A : arch) (T : itabs) (verb : xstyle_t) (tty : bool) (code : N) : list N :=
  let (stop, r) := ioctl_decode_command_number A T verb tty code in
  let first := match r with Some s => s | None => [] end in
  if stop then first
  else match ioctl_lookup (ents T) code with
       | Some i => first ++ (match r with Some _ => bs " or " | None => [] end) ++ snd (nth i (ents T) (0, [])) ++ more_names (length (ents T)) (ents T) i
       | None => match r with Some _ => first | None => ioctl_print_code A verb code end
       end.
(** src/ioctl.c:514-540: the second argument; [arg] has 64 bits *)
Definition command_text (A : arch) (T : itabs) (verb : xstyle_t) (tty : bool) (arg : N) : list N :=
  let code := u32 arg in
  match verb with
  | XRAW => pr_hex code
  | XVERBOSE => pr_hex code ++ bs " /* " ++ command_name A T verb tty code ++ bs " */"
  | XABBREV => command_name A T verb tty code
  end.

(** The argument of commands of an unknown type: src/ioctl.c:330-380 and src/ioctl.c:542-557.  A piece is the bytes at
    the argument as printstr_ex shows them, before or after the call, "=>", or the number. *)
Inductive piece := PNext | PData | PArrow | PNum.
Definition RVAL_IOCTL_DECODED : N := 128.
Definition RVAL_DECODED : N := 64.
(** the result and what is printed; [ok]: the bytes can be read *)
Definition unknown_type (A : arch) (abbrev entering : bool) (code arg : N) (ok : bool) : N * list piece :=
  if abbrev || (IOC_SIZE A code =? 0) || (arg =? 0) then (0, [])
  else
    let before := negb (IOC_DIR A code =? IOC_READ A) in
    let after := negb (IOC_DIR A code =? IOC_WRITE A) in
    if entering then
      let p := PNext :: (if before then [PData] else []) in
      let ret := before && negb ok in
      ((if negb after || ret then RVAL_IOCTL_DECODED else 0), p)
    else (RVAL_IOCTL_DECODED, (if before && after then [PArrow] else []) ++ (if after then [PData] else [])).
Definition finish (r : N * list piece) : N * list piece :=
  let (ret, p) := r in
  if negb (N.land ret RVAL_IOCTL_DECODED =? 0) then (N.lor (N.ldiff ret RVAL_IOCTL_DECODED) RVAL_DECODED, p)
  else if negb (N.land ret RVAL_DECODED =? 0) then (ret, p ++ [PNext; PNum])
  else (ret, p).
Definition argument (A : arch) (abbrev : bool) (code arg : N) (ok1 ok2 : bool) : list piece :=
  let (ret, p) := finish (unknown_type A abbrev true code arg ok1) in
  if negb (N.land ret RVAL_DECODED =? 0) then p
  else p ++ snd (finish (let (r, q) := unknown_type A abbrev false code arg ok2 in (N.lor r RVAL_DECODED, q))).
