(** Model of hex dumps: src/util.c:1540-1730. *)
From Verif Require Import Base QuoteModel TimeModel Printf.
Local Open Scope N_scope.

(** Tracee memory: readable bytes by address.  umoven (src/ucopy.c) is an oracle here:
    it succeeds iff every byte of the range is readable. *)
Definition memory := N -> option N.
Fixpoint umoven (m : memory) (addr : N) (n : nat) : option (list N) :=
  match n with
  | O => Some []
  | S k => olet b := m addr in olet r := umoven m (addr + 1) k in Some (b :: r)
  end.

(** src/util.c:1616-1617, DUMPSTR_WIDTH_CHARS *)
Definition WIDTH_CHARS : nat := 66.
(** two stores through *dst++ *)
Definition put2 (ob : list N) (dst : nat) (a b : N) : res (list N) :=
  rlet o1 := oob (upd ob dst a) in oob (upd o1 (S dst) b).

(** src/util.c:1697-1709, the do-while loop of the hex columns.  [buf] is what the last
    fetch filled in; anything beyond it is stale, so reading it counts as undefined. *)
Fixpoint hex_cols (fuel : nat) (buf : list N) (len i : N) (src dst : nat) (ob : list N)
  : res (N * nat * nat * list N) :=
  match fuel with
  | O => Undef
  | S f =>
      rlet ob1 := (if i <? len
                   then rlet c := oob (nth_error buf src) in
                        put2 ob dst (hex_char (c / 16)) (hex_char (c mod 16))
                   else put2 ob dst 32 32) in
      let i1 := u64 (i + 1) in
      let dst1 := if N.land i1 7 =? 0 then (dst + 4)%nat else (dst + 3)%nat in
      if N.land i1 15 =? 0 then Ok (i1, S src, dst1, ob1)
      else hex_cols f buf len i1 (S src) dst1 ob1
  end.
(** src/util.c:1712-1724, the do-while loop of the ASCII column *)
Fixpoint ascii_cols (fuel : nat) (buf : list N) (len i : N) (src dst : nat) (ob : list N)
  : res (N * nat * nat * list N) :=
  match fuel with
  | O => Undef
  | S f =>
      rlet ob1 := (if i <? len
                   then rlet c := oob (nth_error buf src) in oob (upd ob dst (if is_print c then c else 46))
                   else oob (upd ob dst 32)) in
      let i1 := u64 (i + 1) in
      if N.land i1 15 =? 0 then Ok (i1, S src, S dst, ob1)
      else ascii_cols f buf len i1 (S src) (S dst) ob1
  end.

(** one line of output: text, or the "Cannot fetch" notice (its wording is not modelled) *)
Inductive dline := DLine (text : list N) | DCannotFetch (size at_ : N).

(** src/util.c:1726-1727 *)
Definition fmt_line (w : nat) (offs : N) (ob : list N) : list N :=
  bs " | " ++ pr_pad 16 w offs ++ bs "  " ++ firstn WIDTH_CHARS ob ++ bs " |" ++ [10].

(** src/util.c:1663-1728, the while loop.  [src] is the offset of the pointer in [str];
    it is (re)set by each fetch. *)
Fixpoint dump_loop (fuel : nat) (m : memory) (addr len alloc : N) (w : nat)
    (i : N) (buf : list N) (src : nat) (ob : list N) : res (list dline * list N) :=
  if negb (i <? len) then Ok ([], ob) else
  match fuel with
  | O => Undef
  | S f =>
      let fetch_size := N.min (len - i) alloc in
      let st := if (i =? 0) || (i mod 65536 =? 0)
                then match umoven m (u64 (addr + i)) (N.to_nat fetch_size) with
                     | Some b => Some (b, 0%nat)
                     | None => None
                     end
                else Some (buf, src) in
      match st with
      | None => Ok (if i =? 0 then [] else [DCannotFetch fetch_size (u64 (addr + i))], ob)
      | Some (buf1, src1) =>
          rlet h := hex_cols 16 buf1 len i src1 0%nat ob in
          let '(i2, src2, dst2, ob2) := h in
          rlet a := ascii_cols 16 buf1 len (u64 (i2 + 2^64 - 16)) (src2 - 16)%nat dst2 ob2 in
          let '(i3, src3, _, ob3) := a in
          rlet r := dump_loop f m addr len alloc w i3 buf1 src3 ob3 in
          let '(rest, obr) := r in
          Ok (DLine (fmt_line w (u64 (i3 + 2^64 - 16)) ob3) :: rest, obr)
      end
  end.

(** src/util.c:1655-1656 *)
Definition offs_chars (len : N) : nat :=
  if 1048576 <? len then N.to_nat (1 + ilog2_64 (len - 1) / 4) else 5%nat.
(** src/util.c:1634-1636, 1642-1643; malloc is assumed to succeed.  outbuf keeps its
    content from one call to the next: [ob] is what it held, and its new content is returned. *)
Definition dumpstr (m : memory) (ob : list N) (addr len : N) : res (list dline * list N) :=
  if (u64 (len + 16) <? len) || (u64 (addr + len) <? addr) then Ok ([], ob)
  else dump_loop (N.to_nat ((len + 15) / 16)) m addr len (N.min (u64 (len + 15) / 16 * 16) 65536) (offs_chars len) 0 [] 0 ob.
