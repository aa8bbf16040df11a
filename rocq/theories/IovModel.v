(** Model of vector I/O data limits: src/io.c:67-90, 124-170 and src/util.c:1540-1596. *)
From Verif Require Import Base.
Local Open Scope N_scope.

(** an iovec: base address and length *)
Definition iovec := (N * N)%type.
Definition NOLIMIT : N := 2^64 - 1.

(** src/io.c:67-90, print_iovec_klong: the length handed to the printer and the remaining data_size *)
Definition print_iovec_klong (data_size iov_len : N) : N * N :=
  let len := if data_size <? iov_len then data_size else iov_len in
  (len, if negb (data_size =? NOLIMIT) then data_size - len else data_size).
(** src/io.c:124-170: tprint_iov_upto calls it for every element (through print_array) *)
Fixpoint tprint_iov_upto (data_size : N) (v : list iovec) : list iovec :=
  match v with
  | [] => []
  | (base, l) :: r => let '(len, ds) := print_iovec_klong data_size l in (base, len) :: tprint_iov_upto ds r
  end.

(** src/util.c:1575-1589: buffers dumped, with their index *)
Fixpoint dump_iov_loop (i : nat) (data_size : N) (v : list iovec) : list (nat * iovec) :=
  match v with
  | [] => []
  | (base, l) :: r =>
      let len := if data_size <? l then data_size else l in
      if len =? 0 then [] else (i, (base, len)) :: dump_iov_loop (S i) (data_size - len) r
  end.
(** src/util.c:1562-1567, element size 8 or 16, [len] as unsigned int; malloc assumed to succeed *)
Definition dumpiov_size (sizeof_iov len : N) : option N :=
  let size := u32 (sizeof_iov * len) in if size / sizeof_iov =? len then Some size else None.
