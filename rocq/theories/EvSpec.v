(** What is claimed of the sets of event codes, without the model. *)
From Coq Require Import Sorted.
From Verif Require Import Base Printf BitsSpec.
Local Open Scope N_scope.

(** [l]: the codes of the set stored in [arr], the bit b of which is in the byte b / 8, that are less than [n] *)
Definition codes (arr : list N) (n : N) (l : list N) : Prop :=
  StronglySorted N.lt l /\ forall b, In b l <-> b < n /\ N.testbit (nth (N.to_nat (b / 8)) arr 0) (b mod 8) = true.
(** At most four are shown when abbreviating. *)
Definition shown (abbreviate : bool) (name : N -> list N) (l : list N) : list (list N) :=
  if abbreviate && (4 <? N.of_nat (length l)) then map name (firstn 4 l) ++ [bs "..."] else map name l.
Definition set_text (l : list (list N)) : list N := bs "[" ++ join l ++ bs "]".
(** The codes that are shown: those in the bytes that the system call returned, but less than the greatest code. *)
Definition limit (rval max : N) : N := N.min (8 * rval) max.
(** how many bytes are read: whole words of [ws] bytes *)
Definition whole_words (ws n : N) (bytes : N) : Prop := bytes mod ws = 0 /\ n <= 8 * bytes < n + 8 * ws.
(** the types of events that have sets of codes, the greatest code of each (linux/input-event-codes.h, linux/input.h) and what names an unknown code *)
Definition event_types : list (N * N * list N) :=
  [(0x00, 31, bs "EV_???"); (0x01, 767, bs "KEY_???"); (0x02, 15, bs "REL_???"); (0x03, 63, bs "ABS_???"); (0x04, 7, bs "MSC_???"); (0x05, 16, bs "SW_???");
   (0x11, 15, bs "LED_???"); (0x12, 7, bs "SND_???"); (0x14, 1, bs "REP_???"); (0x15, 127, bs "FF_???"); (0x17, 1, bs "FF_STATUS_???")].
