(** C69: descriptors as the kernel describes them in /proc, and how they should be shown. *)
From Verif Require Import Base QuoteSpec Printf BitsModel BitsSpec FdModel.
Local Open Scope N_scope.

Definition starts_with (p l : list N) : Prop := exists v, l = p ++ v.
(** the link of a file, whose name may have been removed *)
Definition kernel_link (path : list N) (unlinked : bool) : list N := path ++ (if unlinked then bs " (deleted)" else []).

(** the first line that begins with [p] goes on with [v] *)
Definition first_with (p v : list N) (lines : list (list N)) : Prop :=
  exists pre post, lines = pre ++ (p ++ v) :: post /\ Forall (fun l => ~ starts_with p l) pre.
Definition none_with (p : list N) (lines : list (list N)) : Prop := Forall (fun l => ~ starts_with p l) lines.
(** numbers in fdinfo: decimal, and hexadecimal padded with blanks or zeros *)
Definition dec (n : N) : list N := pr_num 10 n.
Definition hex16 (pad n : N) : list N := let d := pr_num 16 n in repeat pad (16 - length d) ++ d.
Definition sdec (z : Z) : list N := if (z <? 0)%Z then bs "-" ++ dec (Z.to_N (- z)) else dec (Z.to_N z).
Definition maybe (p pad : list N) (o : option N) (lines : list (list N)) : Prop :=
  match o with Some n => n < 2^31 /\ first_with p (pad ++ dec n ++ [10]) lines | None => none_with p lines end.

Inductive object :=
| File (path : list N) (unlinked : bool)
| Device (path : list N) (k : devkind) (major minor : N) (pts : option N)   (* pts: the other end of a pseudoterminal *)
| Socket (inode : N)
| Eventfd (count : N) (id semaphore : option N)
| Pidfd (path : list N) (pid : Z)                                           (* 0 or -1: not visible, gone *)
| Signalfd (mask : N)
| Other (path : list N).                                                    (* pipes, other anonymous inodes *)
Definition ptmx (k : devkind) (major minor : N) : Prop := k = Char /\ major = 5 /\ minor = 2.
(** what strace sees of it *)
Definition seen (o : object) (w : fdworld) : Prop :=
  bytes_ok (w_path w) /\ N.of_nat (length (w_path w)) < 2^30 /\
  match o with
  | File p u => w_path w = p /\ w_deleted w = u /\ starts_with (bs "/") p /\ w_dev w p = None
  | Device p k ma mi t => w_path w = p /\ w_deleted w = false /\ starts_with (bs "/") p /\ w_dev w p = Some (k, ma, mi) /\
      (t = None \/ ptmx k ma mi) /\
      (ptmx k ma mi -> match w_info w with Some l => maybe (bs "tty-index:" ++ [9]) [] t l | None => t = None end)
  | Socket i => w_path w = bs "socket:[" ++ dec i ++ bs "]" /\ 0 < i < 2^64 /\ w_deleted w = false
  | Eventfd c i s => w_path w = bs "anon_inode:[eventfd]" /\ w_deleted w = false /\
      exists l, w_info w = Some l /\ first_with (bs "eventfd-count:") (bs " " ++ hex16 32 c ++ [10]) l /\
        maybe (bs "eventfd-id:") (bs " ") i l /\ maybe (bs "eventfd-semaphore:") (bs " ") s l
  | Pidfd p n => w_path w = p /\ w_deleted w = false /\ (p = bs "anon_inode:[pidfd]" \/ exists i, p = bs "pidfd:[" ++ dec i ++ bs "]") /\
      (-1 <= n < 2^31)%Z /\ exists l, w_info w = Some l /\ first_with (bs "Pid:" ++ [9]) (sdec n ++ [10]) l
  | Signalfd m => w_path w = bs "anon_inode:[signalfd]" /\ w_deleted w = false /\ m < 2^64 /\
      exists l, w_info w = Some l /\ first_with (bs "sigmask:" ++ [9]) (hex16 48 m ++ [10]) l
  | Other p => w_path w = p /\ w_deleted w = false /\ ~ starts_with (bs "/") p /\ ~ starts_with (bs "socket:[") p /\ ~ starts_with (bs "pidfd:") p /\
      ~ In p [bs "anon_inode:[eventfd]"; bs "anon_inode:[pidfd]"; bs "anon_inode:[signalfd]"]
  end.

(** [body] shows the path [p] as a C string does, with the angle brackets escaped as well *)
Definition escaped (h : hexrule) (p body : list N) : Prop := unquote h Plain body = Some p /\ ~ In 60 body /\ ~ In 62 body.
Definition opt_text {A} (f : A -> list N) (o : option A) : list N := match o with Some x => f x | None => [] end.

(** as a path *)
Definition path_text (h : hexrule) (w : fdworld) (t : list N) : Prop :=
  exists body, escaped h (w_path w) body /\ t = bs "<" ++ body ++ bs ">" ++ (if w_deleted w then bs "(deleted)" else []).
(** the wanted text behind the number *)
Definition wanted (h : hexrule) (g : sigcfg) (st : xstyle_t) (xm : N) (k : kinds) (o : object) (w : fdworld) (t : list N) : Prop :=
  match o with
  | Device p d ma mi pts => k_dev k = true /\ exists body, escaped h p body /\
      t = bs "<" ++ body ++ bs "<" ++ (match d with Block => bs "block " | Char => bs "char " end) ++ dec ma ++ bs ":" ++ dec mi
          ++ opt_text (fun n => bs " @/dev/pts/" ++ dec n) pts ++ bs ">>"
  | Socket i => k_socket k = true /\ t = bs "<" ++ (match w_sock w with Some d => d | None => w_path w end) ++ bs ">"
  | Eventfd c i s => k_eventfd k = true /\
      t = bs "<{eventfd-count=" ++ (if c =? 0 then bs "0" else bs "0x" ++ pr_num 16 c) ++
          match i with
          | Some n => bs ", eventfd-id=" ++ dec n ++ opt_text (fun n => bs ", eventfd-semaphore=" ++ dec n) s
          | None => []
          end ++ bs "}>"
  | Pidfd p n => k_pidfd k = true /\ t = bs "<" ++ (if (0 <? n)%Z then bs "pid:" ++ dec (Z.to_N n) else p) ++ bs ">"
  | Signalfd m => k_signalfd k = true /\ exists mask text, length mask = 8%nat /\ bytes_ok mask /\
      (forall b, b < 64 -> (bit_set mask xm b <-> N.testbit m b = true)) /\
      sprintsigmask_n g st xm (bs "signalfd:") mask 8 = Ok text /\ t = bs "<" ++ text ++ bs ">"
  | File _ _ | Other _ => False
  end.
Definition its_kind (k : kinds) (o : object) : bool :=
  match o with
  | Device _ _ _ _ _ => k_dev k | Socket _ => k_socket k | Eventfd _ _ _ => k_eventfd k
  | Pidfd _ _ => k_pidfd k | Signalfd _ => k_signalfd k | File _ _ | Other _ => false
  end.
