(** What is claimed of mount, without the model: mount(2), <linux/mount.h>. *)
From Verif Require Import Base Printf TvalSpec NumaSpec VmSpec.
From Verif Require BitsModel.
Local Open Scope N_scope.

Definition mount_bits : list (N * list N) :=
  [(0, bs "MS_RDONLY"); (1, bs "MS_NOSUID"); (2, bs "MS_NODEV"); (3, bs "MS_NOEXEC"); (4, bs "MS_SYNCHRONOUS"); (5, bs "MS_REMOUNT"); (6, bs "MS_MANDLOCK"); (7, bs "MS_DIRSYNC"); (8, bs "MS_NOSYMFOLLOW");
   (10, bs "MS_NOATIME"); (11, bs "MS_NODIRATIME"); (12, bs "MS_BIND"); (13, bs "MS_MOVE"); (14, bs "MS_REC"); (15, bs "MS_SILENT"); (16, bs "MS_POSIXACL"); (17, bs "MS_UNBINDABLE"); (18, bs "MS_PRIVATE");
   (19, bs "MS_SLAVE"); (20, bs "MS_SHARED"); (21, bs "MS_RELATIME"); (22, bs "MS_KERNMOUNT"); (23, bs "MS_I_VERSION"); (24, bs "MS_STRICTATIME"); (25, bs "MS_LAZYTIME"); (26, bs "MS_SUBMOUNT");
   (27, bs "MS_NOREMOTELOCK"); (28, bs "MS_NOSEC"); (29, bs "MS_BORN"); (30, bs "MS_ACTIVE"); (31, bs "MS_NOUSER")].
Definition names_text st := flags_text st mount_bits None (bs " /* MS_??? */").
(** Once the upper half of the 32 bits had to be a magic number, 0xc0ed; the flags are then the lower half. *)
Definition magic (v : N) : Prop := v / 2 ^ 16 mod 2 ^ 16 = 0xc0ed.
Definition magic_text (st : BitsModel.xstyle_t) (t : list N) : Prop :=
  exists x, hex_or_0 x (0xc0ed * 2 ^ 16) /\ t = match st with BitsModel.XRAW => x | BitsModel.XABBREV => bs "MS_MGC_VAL" | BitsModel.XVERBOSE => x ++ bs " /* MS_MGC_VAL */" end.
Definition used (v f : N) : Prop := magic v /\ f = v mod 2 ^ 16 \/ ~ magic v /\ f = v.
Definition mountflags_text st (v : N) (t : list N) : Prop :=
  (~ magic v -> names_text st v t) /\
  (magic v -> exists m, magic_text st m /\ (v mod 2 ^ 16 = 0 -> t = m) /\ (v mod 2 ^ 16 <> 0 -> exists n, names_text st (v mod 2 ^ 16) n /\ t = m ++ bs "|" ++ n)).
(** The kernel does not look at the type of the file system if it remounts, binds, moves or changes the propagation, and at the data in these cases but the first. *)
Definition is_remount (f : N) : bool := N.testbit f 5.
Definition is_change (f : N) : bool := existsb (N.testbit f) [12; 13; 17; 18; 19; 20].
