(** Decoding of the buffers of getdents and getdents64. *)
From Verif Require Import Base.
Import ListNotations.
Local Open Scope N_scope.

(** What is printed, with the parts of the tracee's memory that are read for
    it. *)
Inductive dtok :=
| DAddr (a : N) | DAddrComment (a : N) | DMore | DBegin | DNext | DEnd
| DHex (a n : N)               (* printstr_ex of [n] bytes at [a] *)
| DHead (h : list N)           (* the fixed part of an entry *)
| DName (a n : N)              (* printpathn of at most [n] bytes at [a] *)
| DType (a : N)                (* the byte at [a] *)
| DHeadType                    (* d_type from the fixed part *)
| DOver (n : N) | DUnder (n : N) | DAddrOver
| DEntries (n : N) (more : bool).

(** The layout of an entry: the offset of the 16-bit d_reclen, the size of the
    fixed part, and whether d_type is in the fixed part (getdents64) or in the
    last byte (getdents).  src/kernel_dirent.h:13-25, src/dirent.c:24-26,
    src/dirent64.c:62-63.  For x86_64: getdents (16, 18, false), getdents64
    (16, 19, true); for the 32-bit personality getdents is (8, 10, false). *)
Record layout := mk_lay { l_reclen : nat; l_head : N; l_64 : bool }.

(** The tracee's memory: [fetch a n] is tfetch_mem, [path_rc a n] is the
    sign of what umovestr returns (false: an error), [byte_ok a] is whether
    the byte can be read. *)
Record dmem := mk_dmem { fetch : N -> N -> option (list N); path_ok : N -> N -> bool; byte_ok : N -> bool }.

(** src/dirent.c:39-48, src/dirent64.c:24-33 decode_dentry_head: prints the
    fixed part unless abbreviating and returns d_reclen, a little-endian
    unsigned short. *)
Definition d_reclen (y : layout) (h : list N) : N :=
  nth (l_reclen y) h 0 + 256 * nth (S (l_reclen y)) h 0.

Definition D_NAME_LEN_MAX : N := 256.

(** src/dirent.c:50-78 and src/dirent64.c:35-57 decode_dentry_tail: what is
    printed, and whether the value returned is negative.  printpathn
    (src/util.c:1374-1404) returns -1 for a null address. *)
Definition name_rc (m : dmem) (a n : N) : bool := (a =? 0) || negb (path_ok m a n).
Definition decode_dentry_tail (y : layout) (m : dmem) (a n : N) : list dtok * bool :=
  if l_64 y then
    if n =? 0 then ([DHeadType], false)
    else let n' := if D_NAME_LEN_MAX <? n then D_NAME_LEN_MAX else n in
         ([DHeadType; DName a n'], name_rc m a n')
  else
    if n =? 0 then ([], false)
    else
      let l := n - 1 in
      let l' := if D_NAME_LEN_MAX <? l then D_NAME_LEN_MAX else l in
      let '(o, rc) := if l =? 0 then ([], false) else ([DName a l'], name_rc m a l') in
      let ta := u64 (a + (n - 1)) in
      (o ++ [DType ta], rc || negb (byte_ok m ta)).

(** src/xgetdents.c:11-117 decode_dents, the loop (lines 26-110): len is an
    unsigned int.  [None] stands for running out of fuel.  The result is what
    is printed, count and len at the end.  The addresses and sizes of the
    fixed parts fetched are also given. *)
Fixpoint dents_loop (fuel : nat) (y : layout) (ab : bool) (m : dmem) (addr len count : N)
  : option (list dtok * list (N * N) * N * N) :=
  match fuel with
  | O => None
  | S fuel' =>
      if len <? l_head y then
        if ab then Some ([], [], count, len)
        else if len =? 0 then Some ([DBegin], [], count + 1, len)
        else Some ([DHex addr len], [], count, len)
      else
        match fetch m addr (l_head y) with
        | None =>
            Some (if ab then []
                  else if count =? 0 then [DAddr addr] else [DMore; DAddrComment addr],
                  [(addr, l_head y)], count, len)
        | Some h =>
            let o1 := if ab then [] else (if count =? 0 then [DBegin] else []) ++ [DHead h] in
            let count := u32 (count + 1) in
            let r := d_reclen y h in
            let '(o2, r', next_addr, next_len) :=
              if len <? r then ([DOver (r - len)], len, 0, 0)
              else if r <? l_head y then
                ([DUnder (l_head y - r)], l_head y, 0, len - l_head y)
              else
                let next_len := len - r in
                if next_len =? 0 then ([], r, 0, next_len)
                else if addr <? u64 (addr + r) then ([], r, u64 (addr + r), next_len)
                else ([DAddrOver], r, 0, next_len) in
            let '(o3, brk) :=
              if ab then ([], false)
              else
                let '(t, rc) := decode_dentry_tail y m (u64 (addr + l_head y)) (r' - l_head y) in
                if next_addr =? 0 then (t, false)
                else if rc then (t ++ [DNext; DMore], true) else (t ++ [DNext], false) in
            if (brk : bool) || (next_addr =? 0) then
              Some (o1 ++ o2 ++ o3, [(addr, l_head y)], count, next_len)
            else
              match dents_loop fuel' y ab m next_addr next_len count with
              | Some (o, f, c, l) => Some (o1 ++ o2 ++ o3 ++ o, (addr, l_head y) :: f, c, l)
              | None => None
              end
        end
  end.

(** src/xgetdents.c:11-117 *)
Definition decode_dents (y : layout) (ab : bool) (m : dmem) (addr len : N)
  : option (list dtok * list (N * N)) :=
  match dents_loop (S (N.to_nat len)) y ab m addr len 0 with
  | Some (o, f, count, len') =>
      Some (if ab then [DAddr addr] ++ o ++ [DEntries count (negb (len' =? 0))]
            else o ++ (if count =? 0 then [] else [DEnd]), f)
  | None => None
  end.
