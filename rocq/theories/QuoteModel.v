(** Model of the string printers of src/util.c and src/print_utils.h.
    A C buffer is the list of the bytes that may be read; reading past it is
    [Undef].  Output is the list of characters written, without the final NUL. *)
From Verif Require Import Base.
Local Open Scope N_scope.

(** src/print_utils.h:15-21 *)
Definition hex_char (d : N) : N := if d <? 10 then 48 + d else 87 + d.
(** src/print_utils.h:62-69 *)
Definition sprint_byte_hex (v : N) : list N := [hex_char (v / 16); hex_char (v mod 16)].
(** src/print_utils.h:33-37 *)
Definition is_print (c : N) : bool := (32 <=? c) && (c <? 127).
(** src/print_utils.h:41-60 *)
Definition sprint_byte_oct (c : N) (unabbrev : bool) : list N :=
  (if unabbrev then [48 + c / 64; 48 + (c / 8) mod 8]
   else if negb (c / 8 =? 0)
        then (if negb (c / 64 =? 0) then [48 + c / 64] else []) ++ [48 + (c / 8) mod 8]
        else []) ++ [48 + c mod 8].

(** src/print_utils.h:74-114, sprint_char; the flags SCF_QUOTES and SCF_ESC_WS (the
    NUL of SCF_NUL is not part of the output list). *)
Definition sprint_char (quotes esc_ws : bool) (c : N) : list N :=
  (if quotes then [39] else []) ++
  (if is_print c then (if (c =? 39) || (c =? 92) then [92; c] else [c])
   else if esc_ws && (9 <=? c) && (c <=? 13)
        then 92 :: match c - 9 with 0 => [116] | 1 => [110] | 2 => [118] | 3 => [102] | _ => [114] end
        else [92; 120] ++ sprint_byte_hex c) ++
  (if quotes then [39] else []).

(** enum xflag_opts, src/defs.h:878-886 *)
Inductive xflag_opts := HEXSTR_NONE | HEXSTR_NON_ASCII | HEXSTR_ALL | HEXSTR_NON_ASCII_CHARS.
(** The bits of `style', src/defs.h:892-923.  [xstyle] is what src/util.c:1134-1137
    selects: the QUOTE_HEXSTR_* override or the global xflag. *)
Record qstyle := { q0term : bool; omit_quotes : bool; omit0 : bool; expect0 : bool;
                   comment : bool; xstyle : xflag_opts }.

(** src/util.c:1150-1168, the scan of HEXSTR_NON_ASCII over the remaining [n] bytes;
    [eol0] tells whether eol is NUL. *)
Fixpoint scan_hex (eol0 : bool) (n : nat) (s : list N) : res bool :=
  match n with
  | O => Ok false
  | S n' => match s with
            | [] => Undef
            | c :: s' =>
                if eol0 && (c =? 0) then Ok false
                else if 126 <? c then Ok true
                else if (c <? 32) && (5 <=? u32 (c + 2^32 - 9)) then Ok true
                else scan_hex eol0 n' s'
            end
  end.
(** src/util.c:1144-1169 *)
Definition usehex (st : qstyle) (n : nat) (s : list N) : res bool :=
  match xstyle st with
  | HEXSTR_ALL => Ok true
  | HEXSTR_NON_ASCII => scan_hex (q0term st) n s
  | _ => Ok false
  end.

(** How a copying loop ends: at a NUL (goto asciz_ended) or, with `ustr + i' left,
    at string_ended. *)
Inductive qend := asciz_ended | string_ended (rest : list N).

(** src/util.c:1178-1188 *)
Fixpoint hex_loop (eol0 : bool) (n : nat) (s : list N) : res (list N * qend) :=
  match n with
  | O => Ok ([], string_ended s)
  | S n' => match s with
            | [] => Undef
            | c :: s' =>
                if eol0 && (c =? 0) then Ok ([], asciz_ended)
                else rlet (o, e) := hex_loop eol0 n' s' in
                     Ok ([92; 120] ++ sprint_byte_hex c ++ o, e)
            end
  end.

(** src/util.c:1199-1247, one character; [next_oct] is the value of the lookahead
    condition of lines 1242-1244; [esc] is escape_chars ([None] = NULL). *)
Definition quote_char (st : qstyle) (esc : option (list N)) (c : N) (next_oct : bool) : list N :=
  if (c =? 34) || (c =? 92) then [92; c]
  else if c =? 12 then [92; 102]
  else if c =? 10 then [92; 110]
  else if c =? 13 then [92; 114]
  else if c =? 9 then [92; 116]
  else if c =? 11 then [92; 118]
  else if is_print c && negb (match esc with Some l => existsb (N.eqb c) l | None => false end)
  then [c]
  else match xstyle st with
       | HEXSTR_NON_ASCII_CHARS => [92; 120] ++ sprint_byte_hex c
       | _ => 92 :: sprint_byte_oct c next_oct
       end.
(** src/util.c:1242-1244: i + 1 < size && ustr[i + 1] is an octal digit *)
Definition next_is_octal (n' : nat) (s' : list N) : res bool :=
  match n' with
  | O => Ok false
  | S _ => match s' with [] => Undef | d :: _ => Ok ((48 <=? d) && (d <=? 55)) end
  end.
(** src/util.c:1191-1248 *)
Fixpoint quote_loop (st : qstyle) (esc : option (list N)) (n : nat) (s : list N)
  : res (list N * qend) :=
  match n with
  | O => Ok ([], string_ended s)
  | S n' => match s with
            | [] => Undef
            | c :: s' =>
                if q0term st && (c =? 0) then Ok ([], asciz_ended)
                else if Nat.eqb n' 0 && omit0 st && (c =? 0) then Ok ([], asciz_ended)
                else rlet nx := next_is_octal n' s' in
                     rlet (o, e) := quote_loop st esc n' s' in
                     Ok (quote_char st esc c nx ++ o, e)
            end
  end.

(** src/util.c:1125-1275, string_quote: output text and return value (true = 1). *)
Definition string_quote (s : list N) (size : nat) (st : qstyle) (esc : option (list N))
  : res (list N * bool) :=
  rlet hx := usehex st size s in
  rlet (o, e) := (if hx then hex_loop (q0term st) size s else quote_loop st esc size s) in
  let out := (if comment st then bs " /* " else []) ++ (if omit_quotes st then [] else [34]) ++ o
             ++ (if omit_quotes st then [] else [34]) ++ (if comment st then bs " */" else []) in
  match e with
  | asciz_ended => Ok (out, false)
  | string_ended rest =>
      if q0term st then match rest with [] => Undef | c :: _ => Ok (out, negb (c =? 0)) end
      else Ok (out, true)
  end.

(** src/util.c:1304-1315: the size of the buffer print_quoted_string_ex allocates
    for quoting [size] bytes (after the decrement of line 1305), or [None] when it
    gives up. *)
Definition quote_alloc_size (size : N) (st : qstyle) : option N :=
  let a := u32 (4 * size) in
  if negb (a / 4 =? size) then None
  else Some (u32 (a + 1 + (if omit_quotes st then 0 else 2) + (if comment st then 7 else 0))).

(** Result of a printer: text, whether "..." follows; or the buffer was not printed. *)
Inductive printed := PText (t : list N) (ellipsis : bool) | PAddr | PNull | PUnavailable.

(** src/util.c:1295-1340, print_quoted_string_ex (allocation succeeds); also its
    return code (true = nonzero).  *)
Definition print_quoted_string_ex (s : list N) (size : N) (st : qstyle) (esc : option (list N))
  : res (printed * bool) :=
  let size := if negb (size =? 0) && q0term st then size - 1 else size in
  match quote_alloc_size size st with
  | None => Ok (PUnavailable, true)
  | Some _ =>
      rlet (o, rc) := string_quote s (N.to_nat size) st esc in
      Ok (PText o (q0term st && expect0 st && rc), rc)
  end.
(** src/util.c:1355-1365, print_quoted_cstring; [xf] is xflag. *)
Definition print_quoted_cstring (xf : xflag_opts) (s : list N) (size : N) : res printed :=
  rlet (p, rc) := print_quoted_string_ex s size
     {| q0term := true; omit_quotes := false; omit0 := false; expect0 := false;
        comment := false; xstyle := xf |} None in
  Ok (match p with PText t e => PText t (e || rc) | _ => p end).

(** What umoven and umovestr do for their callers, src/ucopy.c:189-254, 334-401.  [m] are the readable
    bytes of the tracee from the given address on; the result is the contents of
    the local buffer, initially [old]; [None] = -1.  umovestr may also fill the
    buffer beyond the NUL: as [old] is arbitrary this is covered. *)
Definition fetch (m : list N) (size : nat) (old : list N) : option (list N) :=
  if Nat.leb size (length m) then Some (firstn size m ++ skipn size old) else None.
Fixpoint fetch_str (m : list N) (size : nat) (old : list N) {struct size} : option (list N * nat) :=
  match size with
  | O => Some (old, O)
  | S size' =>
      match m with
      | [] => None
      | c :: m' =>
          if c =? 0 then Some (c :: tl old, 1%nat)
          else match fetch_str m' size' (tl old) with
               | Some (b, r) => Some (c :: b, if Nat.eqb r 0 then O else S r)
               | None => None
               end
      end
  end.

(** src/util.c:1425-1492, printstr_ex; [max] is max_strlen, [null] tells that addr is
    0, [old] the previous contents of the max_strlen + 1 bytes of the static buffer. *)
Definition printstr_ex (max : N) (null : bool) (m : list N) (len : N) (st : qstyle) (old : list N)
  : res printed :=
  if null then Ok PNull
  else
    let size := if len <? max + 1 then len else max + 1 in
    match (if q0term st then option_map fst (fetch_str m (N.to_nat size) old)
           else fetch m (N.to_nat size) old) with
    | None => Ok PAddr
    | Some str =>
        rlet (size, str) :=
          (if max <? size then Ok (max, str)
           else rlet str' := oob (upd str (N.to_nat size) 255) in Ok (size, str')) in
        let size := if q0term st && expect0 st && (size =? len) && negb (size =? 0)
                    then size - 1 else size in
        rlet (o, rc) := string_quote str (N.to_nat size) st None in
        Ok (PText o (rc && negb (len =? 0) && ((q0term st || expect0 st) || (max <? len))))
    end.

(** src/util.c:1374-1404, printpathn, without the SELinux context. *)
Definition PATH_MAX : N := 4096.
Definition printpathn (xf : xflag_opts) (null : bool) (m : list N) (n : N) (old : list N) : res printed :=
  if null then Ok PNull
  else
    let n := if PATH_MAX <? n then PATH_MAX else n in
    match fetch_str m (N.to_nat n) old with
    | None => Ok PAddr
    | Some (path, r) => print_quoted_cstring xf path (if Nat.eqb r 0 then n else N.of_nat r)
    end.
