(** The tables of -e inject: src/retval.c, src/delay.c:15-63, src/poke.c:13-62 and how
    src/filter_qualify.c:138-158 uses them.  size_t has [2 * k] bits, [mal] is the allocator. *)
From Verif Require Import Base AllocModel ListModel TimeModel.
Local Open Scope N_scope.

(** A growing array: what is allocated (which is NULL at first), and how much of it is used
    (src/retval.c:11-13, src/delay.c:16-18) *)
Record vec (A : Type) := { arr : option (list A); used : N }.
Arguments arr {A}. Arguments used {A}.
Definition vec0 {A} : vec A := {| arr := None; used := 0 |}.
Definition cells {A} (v : vec A) : list A := match arr v with Some l => l | None => [] end.
Definition capacity {A} (v : vec A) : N := N.of_nat (length (cells v)).
(** src/retval.c:15-24, src/delay.c:23-32, src/poke.c:16-25: [sz] is the size of an element; the new ones are zero *)
Definition expand {A} (k : N) (mal : N -> bool) (sz : N) (zero : A) (v : vec A) : res (vec A) :=
  rlet (n, _) := xgrowarray k mal (match arr v with None => true | _ => false end) (capacity v) sz in
  Ok {| arr := Some (cells v ++ repeat zero (N.to_nat (n - capacity v))); used := used v |}.
Fixpoint set_nth {A} (l : list A) (i : nat) (x : A) : list A := match l, i with [], _ => [] | _ :: r, O => x :: r | y :: r, S i => y :: set_nth r i x end.

(** src/retval.c:26-41 *)
Definition retval_new (k : N) (mal : N -> bool) (v : vec Z) (rval : Z) : res (vec Z * N) :=
  let idx := u16 (used v) in
  if idx <? used v then Die
  else
    rlet v := (if used v =? capacity v then expand k mal 8 0%Z v else Ok v) in
    if idx <? capacity v then Ok ({| arr := Some (set_nth (cells v) (N.to_nat idx) rval); used := used v + 1 |}, idx) else Undef.
(** src/retval.c:43-50 *)
Definition retval_get (v : vec Z) (idx : N) : res Z := if used v <=? idx then Die else match nth_error (cells v) (N.to_nat idx) with Some x => Ok x | None => Undef end.

(** src/delay.c:11-14 *)
Record delay_data := { ts_enter : ts; ts_exit : ts }.
Definition ts0 : ts := {| sec := 0; nsec := 0 |}.
Definition delay0 : delay_data := {| ts_enter := ts0; ts_exit := ts0 |}.
(** src/delay.c:34-47 *)
Definition alloc_delay_data (k : N) (mal : N -> bool) (v : vec delay_data) : res (vec delay_data * N) :=
  let rval := u16 (used v) in
  if rval <? used v then Die
  else
    rlet v := (if used v =? capacity v then expand k mal 32 delay0 v else Ok v) in
    Ok ({| arr := arr v; used := used v + 1 |}, rval).
(** src/delay.c:49-63 *)
Definition fill_delay_data (v : vec delay_data) (idx : N) (t : ts) (isenter : bool) : res (vec delay_data) :=
  if used v <=? idx then Die
  else match nth_error (cells v) (N.to_nat idx) with
       | None => Undef
       | Some d => Ok {| arr := Some (set_nth (cells v) (N.to_nat idx) (if isenter then {| ts_enter := t; ts_exit := ts_exit d |} else {| ts_enter := ts_enter d; ts_exit := t |})); used := used v |}
       end.
(** src/delay.c:106-120: the time that delay_tcb takes *)
Definition delay_get (v : vec delay_data) (idx : N) (isenter : bool) : res ts :=
  if used v <=? idx then Die else match nth_error (cells v) (N.to_nat idx) with Some d => Ok (if isenter then ts_enter d else ts_exit d) | None => Undef end.
(** struct inject_opts, the part of it that is about delays: flags and index *)
Record dopts := { f_enter : bool; f_exit : bool; didx : N }.
(** src/filter_qualify.c:540-547 *)
Definition dopts0 : dopts := {| f_enter := false; f_exit := false; didx := 65535 |}.
(** src/filter_qualify.c:138-158, with the time parsed; None: the token is rejected, which ends strace *)
Definition parse_delay_token (k : N) (mal : N -> bool) (v : vec delay_data) (o : dopts) (t : ts) (isenter : bool) : res (option (vec delay_data * dopts)) :=
  if (if isenter then f_enter o else f_exit o) then Ok None
  else
    rlet (v, idx) := (if didx o =? 65535 then alloc_delay_data k mal v else Ok (v, didx o)) in
    rlet v := fill_delay_data v idx t isenter in
    Ok (Some (v, {| f_enter := f_enter o || isenter; f_exit := f_exit o || negb isenter; didx := idx |})).

(** ** Pokes *)
(** src/poke.c:12-14 and src/poke.h:11-17: the array of heads is at [base], 0 if there is none; [room]: its capacity;
    [pay]: the payloads at their addresses: is_enter and arg_no *)
Record ptab := { base : N; room : N; pused : N; hp : heap; pay : list (N * (bool * N)) }.
Definition ptab0 (h : heap) : ptab := {| base := 0; room := 0; pused := 0; hp := h; pay := [] |}.
(** &poke_data_vec[idx] *)
Definition head_at (s : ptab) (idx : N) : N := base s + 16 * idx.
(** src/poke.c:16-25: [b] is where realloc puts the array: what was in it is copied *)
Definition expand_poke (k : N) (mal : N -> bool) (s : ptab) (b : N) : res ptab :=
  rlet (n, _) := xgrowarray k mal (base s =? 0) (room s) 16 in
  let copy (f : N -> N) := fun p => if (b <=? p) && (p <? b + 16 * n) && ((p - b) mod 16 =? 0) then (if (p - b) / 16 <? room s then f (base s + (p - b)) else 0) else f p in
  Ok {| base := b; room := n; pused := pused s; hp := {| prev := copy (prev (hp s)); next := copy (next (hp s)) |}; pay := pay s |}.
(** src/poke.c:27-42 *)
Definition alloc_poke_data (k : N) (mal : N -> bool) (s : ptab) (b : N) : res (ptab * N) :=
  let rval := u16 (pused s) in
  if rval <? pused s then Die
  else
    rlet s := (if pused s =? room s then expand_poke k mal s b else Ok s) in
    rlet h := list_init (hp s) (head_at s rval) in
    Ok ({| base := base s; room := room s; pused := pused s + 1; hp := h; pay := pay s |}, rval).
(** the payload at an address *)
Definition payload (s : ptab) (p : N) : res (bool * N) := match find (fun q => fst q =? p) (pay s) with Some q => Ok (snd q) | None => Undef end.
(** the loop of src/poke.c:47-52 over the items *)
Fixpoint is_dup (s : ptab) (l : list N) (e : bool) (a : N) : res bool :=
  match l with [] => Ok false | p :: r => rlet (e', a') := payload s p in if eqb e' e && (a' =? a) then Ok true else is_dup s r e a end.
(** src/poke.c:44-56: whether it is a duplicate; [p]: where the payload is *)
Definition poke_add (s : ptab) (idx p : N) (e : bool) (a : N) : res (ptab * bool) :=
  rlet l := list_foreach (length (pay s)) (hp s) (head_at s idx) in
  rlet d := is_dup s l e a in
  if d then Ok (s, true)
  else rlet h := list_insert (hp s) (head_at s idx) p in Ok ({| base := base s; room := room s; pused := pused s; hp := h; pay := (p, (e, a)) :: pay s |}, false).
(** src/poke.c:58-71: what poke_tcb goes through: the payloads of this kind *)
Fixpoint of_kind (s : ptab) (l : list N) (e : bool) : res (list (N * N)) :=
  match l with [] => Ok [] | p :: r => rlet (e', a) := payload s p in rlet q := of_kind s r e in Ok (if eqb e' e then (p, a) :: q else q) end.
Definition poke_tcb (s : ptab) (idx : N) (e : bool) : res (list (N * N)) :=
  if pused s <=? idx then Die
  else rlet l := list_foreach (length (pay s)) (hp s) (head_at s idx) in of_kind s l e.
