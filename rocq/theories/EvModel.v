(** The sets of event codes of an input device, as ioctl(EVIOCGBIT) and its like return them: decode_bitset and
    bit_ioctl, src/evdev.c:146-214, 250-296.  The host is little-endian.  The tables of names are parameters;
    next_set_bit is that of BitsModel (C47), printxval that of XlatModel (C37), the memory that of ExtModel (C32). *)
From Verif Require Import Base Printf InfoModel XlatModel BitsModel.
From Verif Require SelModel ExtModel TvalModel.
Local Open Scope N_scope.

Record env := { o : ExtModel.opts; abbrev : bool; style : xstyle_t; ws : N (* current_wordsize *) }.

(** printxval, with the style of constants *)
Definition code_text (st : xstyle_t) (tab : xlat) (dflt : list N) (i : N) : list N := printxvals_ex i (Some dflt) st FMT_X [tab].
(** src/evdev.c:155-158; [rval]: as kernel_ulong_t; size_bits is an unsigned int *)
Definition size_bits (rval max_nr : N) : N := if max_nr / 8 <? rval then max_nr else u32 (rval * 8).
(** src/evdev.c:160 *)
Definition nbytes (e : env) (rval max_nr : N) : N := SelModel.roundup ((size_bits rval max_nr + 7) / 8) (ws e).
(** src/evdev.c:182-192: the bits after [i]; [fuel] bounds the loop, as next_set_bit goes forward.
    The loop also ends with a result of 0, which next_set_bit cannot have after a bit. *)
Fixpoint more_bits (fuel : nat) (e : env) (name : N -> list N) (arr : list N) (bits i displayed : N) : res (list N) :=
  match fuel with
  | O => Undef
  | S f =>
      rlet r := next_set_bit arr 0 (i + 1) bits in
      match r with
      | None => Ok []
      | Some b =>
          if abbrev e && (3 <=? displayed) then Ok (bs " " ++ bs "...")
          else rlet t := more_bits f e name arr bits b (displayed + 1) in Ok (bs " " ++ name b ++ t)
      end
  end.
(** src/evdev.c:174-196 *)
Definition bits_text (e : env) (name : N -> list N) (arr : list N) (bits : N) : res (list N) :=
  rlet r := next_set_bit arr 0 0 bits in
  match r with
  | None => Ok (bs "[]")
  | Some i => rlet t := more_bits (N.to_nat bits) e name arr bits i 0 in Ok (bs "[" ++ name i ++ t ++ bs "]")
  end.
(** print_local_array_ex with print_xint_array_member (src/util.c:1825-1839), see C49: at most max_strlen words if abbreviating *)
Definition word_at (e : env) (arr : list N) (i : nat) : list N := TvalModel.hexa (ld arr (i * N.to_nat (ws e)) (N.to_nat (ws e))).
Fixpoint commas (l : list (list N)) : list N := match l with [] => [] | [x] => x | x :: r => x ++ bs ", " ++ commas r end.
Definition words_text (e : env) (arr : list N) (n : N) : list N :=
  let all := map (word_at e arr) (seq 0 (N.to_nat n)) in
  bs "[" ++ commas (if abbrev e && (ExtModel.max_strlen (o e) <? n) then firstn (N.to_nat (ExtModel.max_strlen (o e))) all ++ [bs "..."] else all) ++ bs "]".
(** src/evdev.c:146-214; [rval]: of the ioctl, as unsigned; ExtModel.failed: syserror *)
Definition decode_bitset (e : env) (m : ExtModel.memory) (rval arg : N) (tab : xlat) (max_nr : N) (dflt : list N) : res (list N) :=
  let bits := size_bits rval max_nr in
  let size := nbytes e rval max_nr in
  if ExtModel.failed (o e) || (size =? 0) then Ok (TvalModel.printaddr arg)
  else match ExtModel.umoven_or_printaddr (o e) m arg (N.to_nat size) with
       | None => Ok (TvalModel.printaddr arg)
       | Some arr =>
           rlet t := (match style e with XRAW => Ok [] | st => bits_text e (code_text st tab dflt) arr bits end) in
           let w := words_text e arr (size / ws e) in
           Ok (t ++ match style e with XABBREV => [] | XRAW => w | XVERBOSE => bs " /* " ++ w ++ bs " */" end)
       end.
(** bundled/linux/include/uapi/linux/input-event-codes.h:39-50 and the ..._MAX of input-event-codes.h and input.h;
    src/evdev.c:250-296: the greatest code and the comment of each type of events; None: not a set *)
Definition bit_kind (ev_nr : N) : option (N * list N) :=
  if ev_nr =? 0 then Some (0x1f, bs "EV_???")
  else if ev_nr =? 0x01 then Some (0x2ff, bs "KEY_???")
  else if ev_nr =? 0x02 then Some (0x0f, bs "REL_???")
  else if ev_nr =? 0x03 then Some (0x3f, bs "ABS_???")
  else if ev_nr =? 0x04 then Some (0x07, bs "MSC_???")
  else if ev_nr =? 0x05 then Some (0x10, bs "SW_???")
  else if ev_nr =? 0x11 then Some (0x0f, bs "LED_???")
  else if ev_nr =? 0x12 then Some (0x07, bs "SND_???")
  else if ev_nr =? 0x14 then Some (0x01, bs "REP_???")
  else if ev_nr =? 0x15 then Some (0x7f, bs "FF_???")
  else if ev_nr =? 0x17 then Some (0x01, bs "FF_STATUS_???")
  else None.
(** printnum_int(tcp, arg, "%d") of EV_PWR (0x16) *)
Definition bit_ioctl (e : env) (m : ExtModel.memory) (rval ev_nr arg : N) (tabs : N -> xlat) : res (list N) :=
  match bit_kind ev_nr with
  | Some (max_nr, dflt) => decode_bitset e m rval arg (tabs ev_nr) max_nr dflt
  | None =>
      if ev_nr =? 0x16 then
        match ExtModel.umoven_or_printaddr (o e) m arg 4 with
        | None => Ok (TvalModel.printaddr arg)
        | Some b => Ok (bs "[" ++ TvalModel.sdec (TvalModel.sx 4 (ld b 0 4)) ++ bs "]")
        end
      else Ok (TvalModel.printaddr arg)
  end.
