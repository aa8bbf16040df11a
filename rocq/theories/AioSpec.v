(** What is claimed of asynchronous I/O, without the model: io_submit(2), <linux/aio_abi.h>, ioprio_set(2). *)
From Verif Require Import Base Printf InfoSpec TvalSpec NumaSpec VmSpec.
From Verif Require BitsModel.
Local Open Scope N_scope.

(** [z] is the signed number of [w] bytes whose bits are those of [v] *)
Definition signed (w : Z) (v : N) (z : Z) : Prop := (- 2 ^ (8 * w - 1) <= z < 2 ^ (8 * w - 1) /\ z mod 2 ^ (8 * w) = Z.of_N v)%Z.
Definition signed_text (w : Z) (v : N) (t : list N) : Prop := exists z, signed w v z /\ integer t z.
(** A number [x] that may have a name *)
Definition named (st : BitsModel.xstyle_t) (name : option (list N)) (unknown x t : list N) : Prop :=
  t = match st, name with
      | BitsModel.XRAW, _ => x
      | _, None => x ++ bs " /* " ++ unknown ++ bs " */"
      | BitsModel.XABBREV, Some s => s
      | BitsModel.XVERBOSE, Some s => x ++ bs " /* " ++ s ++ bs " */"
      end.
Definition commands : list (list N) :=
  [bs "IOCB_CMD_PREAD"; bs "IOCB_CMD_PWRITE"; bs "IOCB_CMD_FSYNC"; bs "IOCB_CMD_FDSYNC"; bs "IOCB_CMD_PREADX"; bs "IOCB_CMD_POLL"; bs "IOCB_CMD_NOOP"; bs "IOCB_CMD_PREADV"; bs "IOCB_CMD_PWRITEV"].
Definition command_text st (v : N) t : Prop := exists x, number x v /\ named st (nth_error commands (N.to_nat v)) (bs "IOCB_CMD_???") x t.
(** A priority: a class, and a level of 13 bits *)
Definition classes : list (list N) := [bs "IOPRIO_CLASS_NONE"; bs "IOPRIO_CLASS_RT"; bs "IOPRIO_CLASS_BE"; bs "IOPRIO_CLASS_IDLE"].
Definition prio_text (st : BitsModel.xstyle_t) (v : N) (t : list N) : Prop :=
  exists x k c d, hex_or_0 x v /\ hex_or_0 k (v / 2 ^ 13) /\ named st (nth_error classes (N.to_nat (v / 2 ^ 13))) (bs "IOPRIO_CLASS_???") k c /\ number d (v mod 2 ^ 13) /\
  let p := bs "IOPRIO_PRIO_VALUE(" ++ c ++ bs ", " ++ d ++ bs ")" in
  t = match st with BitsModel.XRAW => x | BitsModel.XABBREV => p | BitsModel.XVERBOSE => x ++ bs " /* " ++ p ++ bs " */" end.
Definition iocb_bits : list (N * list N) := [(0, bs "IOCB_FLAG_RESFD"); (1, bs "IOCB_FLAG_IOPRIO")].
Definition rwf_bits : list (N * list N) :=
  [(0, bs "RWF_HIPRI"); (1, bs "RWF_DSYNC"); (2, bs "RWF_SYNC"); (3, bs "RWF_NOWAIT"); (4, bs "RWF_APPEND"); (5, bs "RWF_NOAPPEND"); (6, bs "RWF_ATOMIC"); (7, bs "RWF_DONTCACHE")].
Definition poll_bits : list (N * list N) :=
  [(0, bs "POLLIN"); (1, bs "POLLPRI"); (2, bs "POLLOUT"); (3, bs "POLLERR"); (4, bs "POLLHUP"); (5, bs "POLLNVAL"); (6, bs "POLLRDNORM"); (7, bs "POLLRDBAND"); (8, bs "POLLWRNORM");
   (9, bs "POLLWRBAND"); (10, bs "POLLMSG"); (12, bs "POLLREMOVE"); (13, bs "POLLRDHUP"); (15, bs "POLL_BUSY_LOOP")].

(** A member: its name and what its text has to satisfy *)
Definition row := (list N * (list N -> Prop))%type.
Definition is_row (r : row) (t : list N) : Prop := exists v, snd r v /\ t = fst r ++ bs "=" ++ v.
Definition struct_text (l : list row) (t : list N) : Prop := exists ts, Forall2 is_row l ts /\ t = bs "{" ++ commas ts ++ bs "}".
Definition only (b : bool) (l : list row) : list row := if b then l else [].

Section S.
  Variables (fd : Z -> list N) (str : N -> N -> list N) (iov : N -> N -> bool -> list N) (st : BitsModel.xstyle_t).
  Definition fd_text (v : N) (t : list N) : Prop := exists z, signed 4 v z /\ t = fd z.
  (** The members of struct iocb, where they are: every member that the kernel uses and that is not 0 *)
  Variable c : list N.
  Let at_ off n := number_at c off n.
  Let resfd := N.testbit (at_ 56 4) 0. Let ioprio := N.testbit (at_ 56 4) 1.
  Definition first_rows : list row :=
    [(bs "aio_data", fun t => hex_or_0 t (at_ 0 8))] ++
    only (0 <? at_ 8 4) [(bs "aio_key", fun t => number t (at_ 8 4))] ++
    only (0 <? at_ 12 4) [(bs "aio_rw_flags", flags_text st rwf_bits None (bs " /* RWF_??? */") (at_ 12 4))] ++
    [(bs "aio_lio_opcode", command_text st (at_ 16 2))] ++
    only ioprio [(bs "aio_reqprio", prio_text st (at_ 18 2))] ++
    only (negb ioprio && (0 <? at_ 18 2)) [(bs "aio_reqprio", signed_text 2 (at_ 18 2))] ++
    [(bs "aio_fildes", fd_text (at_ 20 4))].
  Definition last_rows : list row :=
    only (0 <? at_ 56 4) [(bs "aio_flags", flags_text st iocb_bits None (bs " /* IOCB_FLAG_??? */") (at_ 56 4))] ++
    only resfd [(bs "aio_resfd", fd_text (at_ 60 4))] ++
    only (negb resfd && (0 <? at_ 60 4)) [(bs "aio_resfd", fun t => hex_or_0 t (at_ 60 4))].
  Definition size_row : row := (bs "aio_nbytes", fun t => number t (at_ 32 8)).
  Definition offset_row : row := (bs "aio_offset", signed_text 8 (at_ 40 8)).
  (** by the command; a size of 2^63 or more is none *)
  Definition middle_rows : list row :=
    let buf := at_ 24 8 in let n := at_ 32 8 in let ok := n <? 2 ^ 63 in
    let address := (bs "aio_buf", fun t => hex_or_0 t buf) in
    match at_ 16 2 with
    | 0 => [address; size_row; offset_row]
    | 1 => [if ok then (bs "aio_buf", fun t => t = str buf n) else address; size_row; offset_row]
    | 5 => [(bs "aio_buf", flags_text st poll_bits None (bs " /* POLL??? */") buf)]
    | 7 => (if ok then [(bs "aio_buf", fun t => t = iov buf n false)] else [address; size_row]) ++ [offset_row]
    | 8 => (if ok then [(bs "aio_buf", fun t => t = iov buf n true)] else [address; size_row]) ++ [offset_row]
    | _ => []
    end.
  (** the commands that have no more than the first members *)
  Definition plain : bool := match at_ 16 2 with 0 | 1 | 5 | 7 | 8 => false | _ => true end.
  Definition all_rows : list row := first_rows ++ middle_rows ++ last_rows.
  Definition shown_rows : list row := if plain then first_rows else all_rows.
  (** struct io_event *)
  Definition event_rows : list row :=
    [(bs "data", fun t => hex_or_0 t (at_ 0 8)); (bs "obj", fun t => hex_or_0 t (at_ 8 8)); (bs "res", signed_text 8 (at_ 16 8)); (bs "res2", signed_text 8 (at_ 24 8))].
End S.
