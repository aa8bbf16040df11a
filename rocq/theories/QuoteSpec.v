(** Reading C string literals back, and what a printer ought to show. *)
From Verif Require Import Base QuoteModel.
Local Open Scope N_scope.

Definition is_oct (c : N) : bool := (48 <=? c) && (c <=? 55).
Definition hex_val (c : N) : option N :=
  if (48 <=? c) && (c <=? 57) then Some (c - 48)
  else if (97 <=? c) && (c <=? 102) then Some (c - 87)
  else if (65 <=? c) && (c <=? 70) then Some (c - 55)
  else None.
(** simple escape sequences of C *)
Definition simple_escape (c : N) : option N :=
  if (c =? 34) || (c =? 92) || (c =? 39) || (c =? 63) then Some c
  else if c =? 97 then Some 7 else if c =? 98 then Some 8 else if c =? 102 then Some 12
  else if c =? 110 then Some 10 else if c =? 114 then Some 13 else if c =? 116 then Some 9
  else if c =? 118 then Some 11 else None.

(** How many digits \x takes: in C all that follow; [Two] is the reading where it
    takes exactly two. *)
Inductive hexrule := AllDigits | Two.

(** The part of a C string literal between the quotes, read character by character.
    State: outside an escape, after a backslash, after [n] octal digits worth [v],
    after \x and [n] digits worth [v]. *)
Inductive dst := Plain | Esc | Oct (n : nat) (v : N) | Hex (n : nat) (v : N).
Definition emit (v : N) (r : option (list N)) : option (list N) :=
  match r with Some l => if v <? 256 then Some (v :: l) else None | None => None end.
Fixpoint unquote (h : hexrule) (st : dst) (s : list N) {struct s} : option (list N) :=
  match s with
  | [] => match st with
          | Plain => Some []
          | Esc => None
          | Oct _ v => emit v (Some [])
          | Hex O _ => None
          | Hex _ v => emit v (Some [])
          end
  | c :: r =>
      let plain := if c =? 92 then unquote h Esc r
                   else if c =? 34 then None
                   else emit c (unquote h Plain r) in
      match st with
      | Plain => plain
      | Esc => if is_oct c then unquote h (Oct 1 (c - 48)) r
               else if c =? 120 then unquote h (Hex 0 0) r
               else match simple_escape c with
                    | Some b => emit b (unquote h Plain r)
                    | None => None
                    end
      | Oct n v => if is_oct c && Nat.ltb n 3 then unquote h (Oct (S n) (8 * v + (c - 48))) r
                   else emit v plain
      | Hex n v =>
          match hex_val c with
          | Some d => match h, n with
                      | Two, S (S _) => emit v plain
                      | _, _ => unquote h (Hex (S n) (16 * v + d)) r
                      end
          | None => match n with O => None | _ => emit v plain end
          end
      end
  end.

(** The text around the literal's body for a style. *)
Definition wrap (st : qstyle) (body : list N) : list N :=
  (if comment st then bs " /* " else []) ++ (if omit_quotes st then [] else bs """") ++ body
  ++ (if omit_quotes st then [] else bs """") ++ (if comment st then bs " */" else []).

(** bytes before the first NUL *)
Fixpoint before_nul (s : list N) : list N :=
  match s with [] => [] | c :: r => if c =? 0 then [] else c :: before_nul r end.
(** the bytes a call to quote [size] bytes of [s] is about *)
Definition subject (st : qstyle) (size : nat) (s : list N) : list N :=
  if q0term st then before_nul (firstn size s) else firstn size s.

Definition printable_ascii (c : N) : Prop := 32 <= c <= 126.

(** Enough bytes are there to be read: all [size] of them, or -- for NUL-terminated
    strings -- all up to a NUL or one more than [size]. *)
Definition readable (st : qstyle) (size : nat) (s : list N) : Prop :=
  if q0term st then In 0 (firstn size s) \/ (size < length s)%nat else (size <= length s)%nat.

(** The tracee's object is shown completely: [shown] is all of the [len] bytes, or, for a
    NUL-terminated string, all bytes before the NUL found within [len] bytes. *)
Definition shown_completely (st : qstyle) (m : list N) (len : N) (shown : list N) : Prop :=
  if q0term st then len = 0 \/ exists rest, m = shown ++ 0 :: rest /\ N.of_nat (length shown) < len
  else N.of_nat (length shown) = len.

(** C's reading of \x... is unambiguous except for the style that mixes \xHH with
    plain characters; there the two-digit reading is meant. *)
Definition rule_ok (h : hexrule) (st : qstyle) : Prop := h = Two \/ xstyle st <> HEXSTR_NON_ASCII_CHARS.

(** What a string printer with limit [max] may print for [len] bytes at [m]: text that reads back as an initial
    part of the object, with an ellipsis exactly when something is missing, and then
    only because the limit was reached (or the string is not terminated). *)
Definition shows (h : hexrule) (max : N) (st : qstyle) (m : list N) (len : N) (p : printed) : Prop :=
  match p with
  | PText out e => exists body b rest,
      out = wrap st body /\ unquote h Plain body = Some b /\ m = b ++ rest /\
      N.of_nat (length b) <= max /\ N.of_nat (length b) <= len /\
      (e = false <-> shown_completely st m len b) /\
      (e = true -> N.of_nat (length b) = max \/ (q0term st = true /\ len <= N.of_nat (length b) + 1))
  | PAddr => N.of_nat (length m) < len /\ N.of_nat (length m) < max + 1 /\ (q0term st = true -> ~ In 0 m)
  | PNull | PUnavailable => False
  end.

(** The same for paths, in a buffer of [n] bytes. *)
Definition shows_path (h : hexrule) (n : N) (m : list N) (p : printed) : Prop :=
  match p with
  | PText out e => exists body b rest,
      out = bs """" ++ body ++ bs """" /\ unquote h Plain body = Some b /\ m = b ++ rest /\
      N.of_nat (length b) < n /\
      (e = false <-> exists rest, m = b ++ 0 :: rest) /\
      (e = true -> N.of_nat (length b) + 1 = n)
  | PAddr => N.of_nat (length m) < n /\ ~ In 0 m
  | PNull | PUnavailable => False
  end.


(** A character constant, with or without its single quotes: one plain character
    other than a backslash, a simple escape, or \x and two hex digits. *)
Definition unquote_char (t : list N) : option N :=
  let u := match t with
           | 39 :: r => match rev r with 39 :: r' => if Nat.leb 1 (length r') then rev r' else t | _ => t end
           | _ => t
           end in
  match u with
  | [c] => if c =? 92 then None else Some c
  | [92; e] => simple_escape e
  | [92; 120; a; b] => match hex_val a, hex_val b with Some x, Some y => Some (16 * x + y) | _, _ => None end
  | _ => None
  end.
