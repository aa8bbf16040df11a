(** What a hex dump line shows. *)
From Verif Require Import Base QuoteModel QuoteSpec Printf DumpModel.
Local Open Scope nat_scope.

(** column of the first digit of byte [k]: two digits and a space each, one more
    space between the two groups of eight *)
Definition hexcol (k : nat) : nat := if k <? 8 then 3 * k else 3 * k + 1.
(** column of byte [k] in the ASCII part *)
Definition asccol (k : nat) : nat := 50 + k.
(** byte [b], if any, is shown at index [k] of the line *)
Definition cell (body : list N) (k : nat) (b : option N) : Prop :=
  match b with
  | Some c =>
      (exists h l vh vl, nth_error body (hexcol k) = Some h /\ nth_error body (hexcol k + 1) = Some l /\
         hex_val h = Some vh /\ hex_val l = Some vl /\ c = 16 * vh + vl)%N /\
      nth_error body (asccol k) = Some (if (32 <=? c) && (c <=? 126) then c else 46)%N
  | None => nth_error body (hexcol k) = Some 32%N /\ nth_error body (hexcol k + 1) = Some 32%N /\
            nth_error body (asccol k) = Some 32%N
  end.
(** a blank outside the cells: after each byte, after each group *)
Definition gap (p : nat) : Prop := p = 24 \/ p = 49 \/ exists k, k < 16 /\ p = hexcol k + 2.
(** text of a line: " | OFFSET  BODY |\n" with an offset of [w] digits *)
Definition line_shows (w : nat) (text : list N) (off : N) (chunk : list N) : Prop :=
  exists offs body, text = bs " | " ++ offs ++ bs "  " ++ body ++ bs " |" ++ [10%N] /\
    length offs = w /\ rd_num 16 0 offs = Some off /\ length body = 66 /\
    (forall k, k < 16 -> cell body k (nth_error chunk k)) /\
    (forall p, gap p -> nth_error body p = Some 32%N).
(** the [n] bytes at [addr] *)
Definition bytes_at (m : memory) (addr : N) (bytes : list N) : Prop :=
  (forall i b, nth_error bytes i = Some b -> m (addr + N.of_nat i)%N = Some b).
(** the j-th group of sixteen *)
Definition chunk (j : nat) (bytes : list N) : list N := firstn 16 (skipn (16 * j) bytes).
(** the initial contents of the static line buffer: 66 spaces and a NUL; every call leaves it
    in a state where all gaps are blank *)
Definition outbuf_ok (ob : list N) : Prop := length ob = 67 /\ forall p, gap p -> nth_error ob p = Some 32%N.
