(** Model of bit scanning and signal masks: src/util.c:271-322, src/signal.c:141-206. *)
From Verif Require Import Base Printf.
Local Open Scope N_scope.

Inductive scan := Found (b : N) | Stop | Break (cur : N) | ScanFuel.
(** src/util.c:308-318, the inner loop: [bitmask] moves through the current byte *)
Fixpoint nsb_inner (fuel : nat) (byte bitmask cur size : N) : scan :=
  match fuel with
  | O => ScanFuel
  | S f =>
      if negb (N.land byte bitmask =? 0) then Found cur
      else let cur1 := u32 (cur + 1) in
           if size <=? cur1 then Stop
           else let bm := u8 (bitmask * 2) in
                if bm =? 0 then Break cur1 else nsb_inner f byte bm cur1 size
  end.
(** src/util.c:296-320, the outer loop.  [xm] is pos_xor_mask: 0 on little-endian hosts,
    current_wordsize - 1 otherwise.  -1 is [None]. *)
Fixpoint nsb_outer (fuel : nat) (arr : list N) (xm pos cur size : N) : res (option N) :=
  match fuel with
  | O => Undef
  | S f =>
      if size <=? cur then Ok None
      else match nth_error arr (N.to_nat (N.lxor pos xm)) with
           | None => Undef
           | Some byte =>
               if byte =? 0 then nsb_outer f arr xm (pos + 1) (N.land (u32 (cur + 8)) (2^32 - 8)) size
               else match nsb_inner 8 byte (u8 (2 ^ N.land cur 7)) cur size with
                    | Found b => Ok (Some b)
                    | Stop => Ok None
                    | Break c => nsb_outer f arr xm (pos + 1) c size
                    | ScanFuel => Undef
                    end
           end
  end.
(** src/util.c:286-322 *)
Definition next_set_bit (arr : list N) (xm cur size : N) : res (option N) :=
  nsb_outer (N.to_nat (size / 8) + 2) arr xm (cur / 8) cur size.

(** signal tables: src/linux/*/signalent.h, ASM_SIGRTMIN, ASM_SIGRTMAX, NSIG_BYTES *)
Record sigcfg := { signalent : list (list N); rtmin : N; rtmax : option N; nsig_bytes : N }.
Inductive xstyle_t := XABBREV | XRAW | XVERBOSE.

(** sizeof(outstr), src/signal.c:151 *)
Definition out_cap (g : sigcfg) : N := 128 + 8 * (nsig_bytes g * 8 * 2 / 3).
(** `*s++ = c' *)
Definition put (cap : N) (out : list N) (c : N) : res (list N) :=
  if N.of_nat (length out) <? cap then Ok (out ++ [c]) else Undef.
(** stpcpy, which also stores a NUL *)
Definition stpcpy (cap : N) (out s : list N) : res (list N) :=
  if N.of_nat (length out) + N.of_nat (length s) <? cap then Ok (out ++ s) else Undef.
(** xappendstr, src/xstring.h:32-112: dies when the text does not fit *)
Definition xappendstr (cap : N) (out s : list N) : res (list N) :=
  if cap <? N.of_nat (length out) then Die
  else if cap - N.of_nat (length out) <=? N.of_nat (length s) then Die else Ok (out ++ s).

(** src/signal.c:176-199, one element *)
Definition sig_elem (g : sigcfg) (st : xstyle_t) (sep : N) (i : N) (out : list N) : res (list N) :=
  let cap := out_cap g in
  rlet o1 := put cap out sep in
  rlet o2 := (match st with XABBREV => Ok o1 | _ => xappendstr cap o1 (pr_num 10 i) end) in
  rlet o3 := (match st with XVERBOSE => xappendstr cap o2 (bs " /* ") | _ => Ok o2 end) in
  rlet o4 := (match st with
              | XRAW => Ok o3
              | _ => match nth_error (signalent g) (N.to_nat i) with
                     | Some name => stpcpy cap o3 (skipn 3 name)
                     | None =>
                         match rtmax g with
                         | Some mx => if (rtmin g <=? i) && (i <=? mx) then xappendstr cap o3 (bs "RT_" ++ pr_num 10 (i - rtmin g))
                                      else match st with XABBREV => Ok o3 | _ => xappendstr cap o3 (pr_num 10 i) end
                         | None => match st with XABBREV => Ok o3 | _ => xappendstr cap o3 (pr_num 10 i) end
                         end
                     end
              end) in
  match st with XVERBOSE => xappendstr cap o4 (bs " */") | _ => Ok o4 end.
(** src/signal.c:175-200 *)
Fixpoint sig_loop (fuel : nat) (g : sigcfg) (st : xstyle_t) (xm : N) (mask : list N) (nbits i sep : N) (out : list N)
  : res (list N * N) :=
  match fuel with
  | O => Undef
  | S f => rlet r := next_set_bit mask xm i nbits in
           match r with
           | None => Ok (out, sep)
           | Some b => rlet o := sig_elem g st sep (b + 1) out in sig_loop f g st xm mask nbits (b + 1) 32 o
           end
  end.
(** number of one bits of a byte, as counted by popcount32 (src/util.c) *)
Fixpoint popcount_pos (p : positive) : N :=
  match p with xH => 1 | xO q => popcount_pos q | xI q => 1 + popcount_pos q end.
Definition popcount_byte (b : N) : N := match b with 0 => 0 | Npos p => popcount_pos p end.
Definition popcount (mask : list N) : N := fold_right (fun b a => popcount_byte b + a) 0 mask.
(** src/signal.c:141-206.  The mask is given as the bytes of its words, so that `~' and the
    population count of words are done bytewise; [xm] is next_set_bit's byte-order mask.
    Reading fewer than 4 * size bytes is undefined. *)
Definition sprintsigmask_n (g : sigcfg) (st : xstyle_t) (xm : N) (prefix mask : list N) (bytes : N) : res (list N) :=
  let cap := out_cap g in
  rlet o1 := stpcpy cap [] prefix in
  let size := (N.min bytes (nsig_bytes g) + 3) / 4 in
  if N.of_nat (length mask) <? 4 * size then Undef
  else let m := firstn (N.to_nat (4 * size)) mask in
  let inv := size * 32 * 2 / 3 <=? popcount m in
  rlet o2 := (if inv then put cap o1 126 else Ok o1) in
  let m2 := if inv then map (fun b => 255 - b) m else m in
  rlet r := sig_loop (N.to_nat (size * 32) + 1) g st xm m2 (size * 32) 0 91 o2 in
  let '(o3, sep) := r in
  rlet o4 := (if sep =? 91 then put cap o3 91 else Ok o3) in
  rlet o5 := put cap o4 93 in
  if N.of_nat (length o5) <? cap then Ok o5 else Undef.
