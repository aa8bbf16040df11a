(** Printing of arrays: print_array_ex. *)
From Verif Require Import Base.
Import ListNotations.
Local Open Scope N_scope.

(** What is printed. *)
Inductive tok :=
| Null | Unavail
| Addr (a : N)                (* printaddr *)
| AddrComment (a : N)         (* printaddr_comment *)
| Begin | Next | More | End
| IxBegin | IxVal (i : N) | IxEqual | IxEnd
| Elem (v : list N).          (* what print_func prints of the bytes [v] *)

(** The arguments of print_array_ex and what it depends on.  [fetch] is the
    outcome of tfetch_mem_func at an address, or for a local array
    ([local], tfetch_mem_func == NULL) the bytes there; [cont] is what
    print_func returns; the translation of indices is left out. *)
Record arr := mk_arr {
  start : N; nmemb : N; esize : N;
  local : bool;
  fetch : N -> option (list N);
  cont : list N -> bool;
  paf_indices : bool; paf_truncated : bool;
  abbrev : bool; max_strlen : N }.

(** src/util.c:2082-2086 sequence_truncation_needed: the parameter len is an
    unsigned int. *)
Definition sequence_truncation_needed (a : arr) (len : N) : bool :=
  abbrev a && (max_strlen a <? u32 len).

(** src/util.c:1906-1907 *)
Definition size (a : arr) : N := u64 (nmemb a * esize a).
Definition end_addr (a : arr) : N := u64 (start a + size a).

(** src/util.c:1917-1919 *)
Definition abbrev_end (a : arr) : N :=
  if sequence_truncation_needed a (nmemb a)
  then u64 (start a + u64 (esize a * max_strlen a)) else end_addr a.

(** The state of the loop: cur, idx, truncated, and what it has done: the
    addresses fetched and the tokens printed. *)
Record st := mk_st { cur : N; idx : N; truncated : bool; fetched : list N; out : list tok }.

Definition say (s : st) (l : list tok) : st :=
  mk_st (cur s) (idx s) (truncated s) (fetched s) (out s ++ l).

(** src/util.c:1926-1927 *)
Definition sep (a : arr) (s : st) : st :=
  if cur s =? start a then s else say s [Next].
(** src/util.c:1929-1930: the address fetched, if there is a function for it *)
Definition note (a : arr) (s : st) : st :=
  if local a then s
  else mk_st (cur s) (idx s) (truncated s) (fetched s ++ [cur s]) (out s).
(** src/util.c:1931-1938 *)
Definition failed (a : arr) (s : st) : st :=
  if cur s =? start a then say s [Addr (cur s)]
  else mk_st (cur s) (idx s) true (fetched s) (out s ++ [More; AddrComment (cur s)]).
(** src/util.c:1944-1945 *)
Definition open (a : arr) (s : st) : st :=
  if cur s =? start a then say s [Begin] else s.
(** src/util.c:1954-1971 *)
Definition element (a : arr) (s : st) (v : list N) : st :=
  if paf_indices a then say s [IxBegin; IxVal (idx s); IxEqual; Elem v; IxEnd]
  else say s [Elem v].

(** src/util.c:1944-1976: what is done with an element fetched, and whether
    the loop goes on. *)
Definition with_element (a : arr) (s : st) (v : list N) : st * bool :=
  if abbrev_end a <=? cur s then
    (mk_st (end_addr a) (idx s) true (fetched s) (out s ++ [More]), false)
  else
    let s := element a s v in
    if negb (cont a v) then
      (mk_st (end_addr a) (idx s) (truncated s) (fetched s) (out s), false)
    else (mk_st (u64 (cur s + esize a)) (u64 (idx s + 1)) (truncated s) (fetched s) (out s), true).

(** src/util.c:1926-1976: one iteration. *)
Definition iter (a : arr) (s : st) : st * bool :=
  let s := note a (sep a s) in
  match fetch a (cur s) with
  | None => (failed a s, false)
  | Some v => with_element a (open a s) v
  end.

(** src/util.c:1925-1977: [fuel] bounds the number of iterations; it is
    nmemb, which is how many there are. *)
Fixpoint loop (fuel : nat) (a : arr) (s : st) : st :=
  match fuel with
  | O => s
  | S fuel' =>
      if negb (cur s <? end_addr a) then s
      else let '(s', go) := iter a s in
           if go then loop fuel' a s' else s'
  end.

(** src/util.c:1880-1991 print_array_ex: the value returned, the addresses
    fetched and what is printed. *)
Definition print_array_ex (a : arr) : bool * list N * list tok :=
  if start a =? 0 then (false, [], [Null])
  else if nmemb a =? 0 then
    (false, [], [Begin] ++ (if paf_truncated a then [More] else []) ++ [End])
  else if (end_addr a <=? start a) || negb (size a / esize a =? nmemb a) then
    (false, [], [if local a then Unavail else Addr (start a)])
  else
    let s := loop (N.to_nat (nmemb a)) a (mk_st (start a) 0 false [] []) in
    let s :=
      if negb (cur s =? start a) || local a then
        let s := if paf_truncated a && negb (truncated s) then
                   say s ((if cur s =? start a then [] else [Next]) ++ [More])
                 else s in
        say s [End]
      else s in
    (end_addr a <=? cur s, fetched s, out s).
