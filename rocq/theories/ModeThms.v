(** C65: file modes, open flags and device numbers are shown as they are. *)
From Verif Require Import Base Printf QuoteModel BitsModel XlatModel XlatSpec XlatText XlatThms ModeModel RetModel RetSpec RetProofs ModeSpec ModeProofs.
Local Open Scope N_scope.

(** The text of a mode has the value of the mode, for every unsigned int. *)
Theorem C65_mode : forall st m, m < 2^32 -> shows mode_names st (print_symbolic_mode_t st m) m.
Proof. intros st m _. apply mode_shows. Qed.
Print Assumptions C65_mode.

(** The text of the flags of open has the value of the flags, and no buffer overflows. *)
Theorem C65_open_flags : forall st f, f < 2^64 -> exists text, tprint_open_modes64 st f = Ok text /\ shows open_names st text f.
Proof. exact open_shows. Qed.
Print Assumptions C65_open_flags.

(** The mode of open is shown if and only if a file can be created, and then it is the umode_t the kernel takes. *)
Theorem C65_open_args : forall st f m, f < 2^64 -> exists text rest,
  decode_open st f m = Ok (text ++ rest) /\ shows open_names st text (u32 f) /\
  ((N.testbit f 6 || N.testbit f 22 = false /\ rest = []) \/
   (N.testbit f 6 || N.testbit f 22 = true /\ exists n, rest = bs ", " ++ n /\ c_number n = Some (Z.of_N (m mod 2^16)))).
Proof.
  intros st f m H. destruct (open_shows st (u32 f)) as (text & E & S0); [unfold u32; pose proof (N.mod_lt f (2^32) ltac:(discriminate)); lia|].
  unfold decode_open. rewrite E. cbn [rbind]. exists text. eexists. split; [reflexivity|]. split; [exact S0|].
  assert (B : negb (N.land f (N.lor O_CREAT O_TMPFILE_) =? 0) = N.testbit f 6 || N.testbit f 22).
  { change (N.lor O_CREAT O_TMPFILE_) with (N.lor (2^6) (2^22)). rewrite N.land_lor_distr_r, !land_bit. destruct (N.testbit f 6), (N.testbit f 22); reflexivity. }
  rewrite B. destruct (N.testbit f 6 || N.testbit f 22); [right; split; [reflexivity|]|left; split; reflexivity].
  eexists. split; [reflexivity|]. apply vtext_c, vtext_o.
Qed.
Print Assumptions C65_open_args.

(** makedev(major, minor) is the device number. *)
Theorem C65_device : forall st dev, dev < 2^64 -> shows_dev st (print_dev_t st dev) dev.
Proof.
  intros st dev H.
  assert (M : exists a b x y, bs "makedev(" ++ print_val_x (dev_major dev) ++ bs ", " ++ print_val_x (dev_minor dev) ++ bs ")" = bs "makedev(" ++ a ++ bs ", " ++ b ++ bs ")" /\
    c_number a = Some (Z.of_N x) /\ c_number b = Some (Z.of_N y) /\ x < 2^32 /\ y < 2^32 /\ makedev x y = dev).
  { exists (print_val_x (dev_major dev)), (print_val_x (dev_minor dev)), (dev_major dev), (dev_minor dev). split; [reflexivity|].
    split; [apply vtext_c, vtext_x|]. split; [apply vtext_c, vtext_x|]. split; [apply N.mod_lt; discriminate|]. split; [apply N.mod_lt; discriminate|]. apply makedev_eq, H. }
  assert (C : c_number (print_val_x dev) = Some (Z.of_N dev)) by apply vtext_c, vtext_x.
  unfold print_dev_t, shows_dev. destruct st; [exact M|exact C|]. eexists; eexists. split; [reflexivity|]. split; [exact C|exact M].
Qed.
Print Assumptions C65_device.

(** mknod: the mode, and the device of a device file only. *)
Theorem C65_mknod : forall st m d, exists text rest, decode_mknod st m d = text ++ rest /\ shows mode_names st text (m mod 2^16) /\
  let type := N.land (m mod 2^16) 0xf000 in
  ((type <> 0x2000 /\ type <> 0x6000 /\ rest = []) \/
   ((type = 0x2000 \/ type = 0x6000) /\ exists n, rest = bs ", " ++ n /\ shows_dev st n (d mod 2^32))).
Proof.
  intros st m d. unfold decode_mknod. eexists; eexists. split; [reflexivity|]. split; [apply mode_shows|]. cbv zeta. change S_IFMT with 0xf000.
  destruct ((N.land (m mod 2^16) 0xf000 =? 8192) || (N.land (m mod 2^16) 0xf000 =? 24576)) eqn:E.
  - right. split; [lia|]. eexists. split; [reflexivity|]. apply C65_device. unfold u32. pose proof (N.mod_lt d (2^32) ltac:(discriminate)). lia.
  - left. split; [lia|]. split; [lia|]. reflexivity.
Qed.
Print Assumptions C65_mknod.

Example ex_mode : print_symbolic_mode_t XABBREV 0x89ed = bs "S_IFREG|S_ISUID|0755". Proof. vm_compute. reflexivity. Qed.
Example ex_mode_unknown : print_symbolic_mode_t XVERBOSE 0xf1a4 = bs "0170644". Proof. vm_compute. reflexivity. Qed.
Example ex_mode_verbose : print_symbolic_mode_t XVERBOSE 0x43ff = bs "041777 /* S_IFDIR|S_ISVTX|0777 */". Proof. vm_compute. reflexivity. Qed.
Example ex_open : decode_open XABBREV 0x80241 0x1b6 = Ok (bs "O_WRONLY|O_CREAT|O_TRUNC|O_CLOEXEC, 0666"). Proof. vm_compute. reflexivity. Qed.
Example ex_open_sync : decode_open XABBREV 0x80101002 5 = Ok (bs "O_RDWR|O_SYNC|0x80000000"). Proof. vm_compute. reflexivity. Qed.
Example ex_dev : decode_mknod XABBREV 0x21b6 0x00100803 = bs "S_IFCHR|0666, makedev(0x8, 0x103)". Proof. vm_compute. reflexivity. Qed.
