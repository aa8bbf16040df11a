(** Model of symbolic constants: src/xlat.c, src/xlat.h, src/dyxlat.c.
    Table values are 64-bit numbers, strings are byte lists without NUL, a NULL string is
    [None].  The style argument is given after get_xlat_style (src/xlat.c:15-22) has resolved
    the default, split into verbosity and format. *)
From Verif Require Import Base Printf BitsModel AllocModel.
Local Open Scope N_scope.

Inductive xtype := XT_NORMAL | XT_SORTED | XT_INDEXED.
Notation entry := (N * option (list N))%type.
(** struct xlat, src/xlat.h:55-61; size is the length of the list *)
Record xlat := { ty : xtype; data : list entry }.
Inductive fmt := FMT_X | FMT_U | FMT_D.

(** %#llx *)
Definition pr_hex (v : N) : list N := if v =? 0 then bs "0" else bs "0x" ++ pr_num 16 v.
(** src/xlat.c:24-44 *)
Definition sprint_xlat_val (f : fmt) (v : N) : list N :=
  match f with
  | FMT_X => pr_hex v
  | FMT_U => pr_num 10 v
  | FMT_D => if v <? 2^63 then pr_num 10 v else bs "-" ++ pr_num 10 (2^64 - v)
  end.
(** tprints_comment, src/strace.c:785-793 *)
Definition comment (s : option (list N)) : list N :=
  match s with Some (c :: r) => bs " /* " ++ (c :: r) ++ bs " */" | _ => [] end.

(** ** Lookup *)
(** bsearch of the C library (glibc's stdlib-bsearch.h) with the comparison of
    src/xlat.c:51-58 *)
Fixpoint bsearch (fuel : nat) (d : list entry) (val : N) (l u : nat) : option entry :=
  match fuel with
  | O => None
  | S f =>
      if Nat.ltb l u then
        let idx := Nat.div2 (l + u) in
        match nth_error d idx with
        | None => None
        | Some e => if val <? fst e then bsearch f d val l idx
                    else if fst e <? val then bsearch f d val (S idx) u else Some e
        end
      else None
  end.
(** src/xlat.c:68-71 *)
Fixpoint normal_lookup (d : list entry) (val : N) : option (list N) :=
  match d with
  | [] => None
  | (v, s) :: r => if v =? val then s else normal_lookup r val
  end.
(** src/xlat.c:60-99; the messages about a malformed indexed table are not modelled *)
Definition xlookup (x : xlat) (val : N) : option (list N) :=
  match ty x with
  | XT_NORMAL => normal_lookup (data x) val
  | XT_SORTED => match bsearch (S (length (data x))) (data x) val 0 (length (data x)) with Some e => snd e | None => None end
  | XT_INDEXED => if val <? N.of_nat (length (data x))
                  then match nth_error (data x) (N.to_nat val) with
                       | Some (v, s) => if v =? val then s else None
                       | None => None
                       end
                  else None
  end.
(** src/xlat.c:101-112 *)
Fixpoint xrlookup_in (d : list entry) (str : list N) (unknown : N) : N :=
  match d with
  | [] => unknown
  | (v, Some s) :: r => if beqs str s then v else xrlookup_in r str unknown
  | (_, None) :: r => xrlookup_in r str unknown
  end.
Definition xrlookup (x : xlat) (str : list N) (unknown : N) : N := xrlookup_in (data x) str unknown.

(** src/xlat.c:121-131, the search loop: base index, number of members, current index *)
Inductive lestep := LeFound (e : entry) | LeEnd (cur : nat) | LeUndef.
Fixpoint le_loop (fuel : nat) (d : list entry) (val : N) (base nmemb cur : nat) : lestep :=
  match fuel with
  | O => LeUndef
  | S f =>
      if Nat.ltb 0 nmemb then
        let cur := (base + Nat.div2 nmemb)%nat in
        match nth_error d cur with
        | None => LeUndef
        | Some e => if val =? fst e then LeFound e
                    else if fst e <? val then le_loop f d val (S cur) (Nat.div2 (nmemb - 1)) cur
                    else le_loop f d val base (Nat.div2 nmemb) cur
        end
      else LeEnd cur
  end.
(** src/xlat.c:114-144: returned string and new *val; NULL is [None], leaving *val alone *)
Definition xlat_search_eq_or_less (d : list entry) (val : N) : res (option (option (list N) * N)) :=
  match le_loop (S (length d)) d val 0 (length d) 0 with
  | LeUndef => Undef
  | LeFound e => Ok (Some (snd e, val))
  | LeEnd cur =>
      match nth_error d cur with
      | None => Undef
      | Some e =>
          if val <? fst e
          then match cur with
               | O => Ok None
               | S c => match nth_error d c with Some e' => Ok (Some (snd e', fst e')) | None => Undef end
               end
          else Ok (Some (snd e, fst e))
      end
  end.

(** ** Printing *)
(** src/xlat.c:214-252, printxvals_ex *)
Fixpoint xlookups (xs : list xlat) (val : N) : option (list N) :=
  match xs with [] => None | x :: r => match xlookup x val with Some s => Some s | None => xlookups r val end end.
Definition printxvals_ex (val : N) (dflt : option (list N)) (st : xstyle_t) (f : fmt) (xs : list xlat) : list N :=
  match st with
  | XRAW => sprint_xlat_val f val
  | _ => match xlookups xs val with
         | Some s => match st with XVERBOSE => sprint_xlat_val f val ++ comment (Some s) | _ => s end
         | None => sprint_xlat_val f val ++ comment dflt
         end
  end.
(** src/xlat.c:254-279, sprintxval_ex; the caller's buffer is large enough *)
Definition sprintxval_ex (x : xlat) (val : N) (dflt : option (list N)) (st : xstyle_t) (f : fmt) : list N :=
  match st with
  | XRAW => sprint_xlat_val f val
  | _ => match xlookup x val with
         | Some s => match st with XVERBOSE => sprint_xlat_val f val ++ bs " /* " ++ s ++ bs " */" | _ => s end
         | None => match dflt with
                   | Some d => sprint_xlat_val f val ++ bs " /* " ++ d ++ bs " */"
                   | None => sprint_xlat_val f val
                   end
         end
  end.

(** src/xlat.c:453-470, the inner loop of printflags_ex: remaining flags, count, output *)
Fixpoint pf_table (st : xstyle_t) (d : list entry) (flags n : N) (out : list N) : N * N * list N :=
  match d with
  | [] => (flags, n, out)
  | (v, s) :: r =>
      if negb (flags =? 0) || (n =? 0) then
        let '(flags, n, out) :=
          match s with
          | Some name =>
              if (flags =? v) || (negb (v =? 0) && (N.land flags v =? v)) then
                let out := out ++ (match st with XVERBOSE => if flags =? 0 then bs "0" else [] | _ => [] end) in
                let out := out ++ (if negb (n =? 0) then bs "|"
                                   else match st with XVERBOSE => bs " /* " | _ => [] end) in
                (N.ldiff flags v, n + 1, out ++ name)
              else (flags, n, out)
          | None => (flags, n, out)
          end in
        if flags =? 0 then (flags, n, out) else pf_table st r flags n out
      else (flags, n, out)
  end.
(** src/xlat.c:452-471, the outer loop *)
Fixpoint pf_tables (st : xstyle_t) (xs : list xlat) (flags n : N) (out : list N) : N * N * list N :=
  match xs with
  | [] => (flags, n, out)
  | x :: r => let '(flags, n, out) := pf_table st (data x) flags n out in pf_tables st r flags n out
  end.
(** src/xlat.c:427-496, printflags_ex: the text *)
Definition printflags_ex (flags : N) (dflt : option (list N)) (st : xstyle_t) (f : fmt) (xs : list xlat) : list N :=
  match st with
  | XRAW => if negb (flags =? 0) || match dflt with Some _ => true | None => false end then sprint_xlat_val f flags else []
  | _ =>
      let out := match st with XVERBOSE => if flags =? 0 then [] else sprint_xlat_val f flags | _ => [] end in
      let '(flags, n, out) := pf_tables st xs flags 0 out in
      if negb (n =? 0) then
        let out := if flags =? 0 then out else out ++ bs "|" ++ sprint_xlat_val f flags in
        match st with XVERBOSE => out ++ bs " */" | _ => out end
      else if flags =? 0 then (match dflt with Some _ => out ++ bs "0" | None => out end)
      else (match st with XVERBOSE => out | _ => out ++ sprint_xlat_val f flags end) ++ comment dflt
  end.

(** src/xlat.c:360-376, the loop of sprintflags_ex; [sep] 0 is none.  The result is remaining
    flags, separator, found, output. *)
Definition OUTCAP : N := 1024.
Fixpoint sf_loop (st : xstyle_t) (aux : bool) (d : list entry) (flags sep : N) (found : bool) (out : list N)
  : res (N * N * bool * list N) :=
  match d with
  | [] => Ok (flags, sep, found, out)
  | (v, s) :: r =>
      if flags =? 0 then Ok (flags, sep, found, out)
      else match s with
           | Some name =>
               if negb (v =? 0) && (N.land flags v =? v) then
                 rlet o1 := (if negb (sep =? 0) then put OUTCAP out sep
                             else match st, aux with XVERBOSE, false => stpcpy OUTCAP out (bs " /* ") | _, _ => Ok out end) in
                 rlet o2 := stpcpy OUTCAP o1 name in
                 sf_loop st aux r (N.ldiff flags v) 124 true o2
               else sf_loop st aux r flags sep found out
           | None => sf_loop st aux r flags sep found out
           end
  end.
(** src/xlat.c:311-395, sprintflags_ex; [None] is NULL.  The final NUL of the buffer is
    accounted for by stpcpy and xappendstr. *)
Definition sprintflags_ex (prefix : list N) (x : xlat) (flags sep : N) (st : xstyle_t) (aux : bool) (f : fmt)
  : res (option (list N)) :=
  let putsep o := if negb (sep =? 0) then put OUTCAP o sep else Ok o in
  rlet o0 := stpcpy OUTCAP [] prefix in
  match st with
  | XRAW => if (flags =? 0) || (aux && (sep =? 0)) then Ok None
            else rlet o1 := putsep o0 in
                 rlet o2 := xappendstr OUTCAP o1 (sprint_xlat_val f flags) in Ok (Some o2)
  | _ =>
      match (match data x with (0, Some z) :: _ => if flags =? 0 then Some (Some z) else Some None
                             | [] => if flags =? 0 then None else Some None
                             | _ => Some None end) with
      | None => Undef
      | Some (Some z) =>
          rlet o1 := putsep o0 in
          rlet o2 := (match st, aux with
                      | XVERBOSE, false => xappendstr OUTCAP o1 (bs "0 /* " ++ z ++ bs " */")
                      | _, _ => stpcpy OUTCAP o1 z end) in Ok (Some o2)
      | Some None =>
          rlet r1 := (match st, aux with
                      | XVERBOSE, false =>
                          if flags =? 0 then Ok (sep, o0)
                          else rlet o1 := putsep o0 in
                               rlet o2 := xappendstr OUTCAP o1 (sprint_xlat_val f flags) in Ok (0, o2)
                      | _, _ => Ok (sep, o0) end) in
          let '(sep1, o1) := r1 in
          rlet r2 := sf_loop st aux (data x) flags sep1 false o1 in
          let '(flags2, sep2, found, o2) := r2 in
          if flags2 =? 0 then
            if negb found then Ok None
            else rlet o3 := (match st, aux with XVERBOSE, false => stpcpy OUTCAP o2 (bs " */") | _, _ => Ok o2 end) in
                 Ok (match o3 with [] => None | _ => Some o3 end)
          else
            rlet o3 := (if negb (sep2 =? 0) then put OUTCAP o2 sep2 else Ok o2) in
            rlet o4 := (if found || (match st with XVERBOSE => false | _ => negb aux || negb (sep2 =? 0) end)
                        then xappendstr OUTCAP o3 (sprint_xlat_val f flags2) else Ok o3) in
            rlet o5 := (match st, aux with
                        | XVERBOSE, false => if found then stpcpy OUTCAP o4 (bs " */") else Ok o4
                        | _, _ => Ok o4 end) in
            Ok (match o5 with [] => None | _ => Some o5 end)
      end
  end.

(** ** Dynamic tables: src/dyxlat.c *)
(** the C string in the first [len] bytes of [s] *)
Fixpoint cstr (s : list N) (len : nat) : list N :=
  match s, len with
  | _, O => []
  | [], _ => []
  | c :: r, S k => if c =? 0 then [] else c :: cstr r k
  end.
(** struct dyxlat, src/dyxlat.c:10-14: allocated members and the table *)
Record dyxlat := { allocated : N; pairs : list (N * list N) }.
Definition SIZEOF_XLAT_DATA : N := 16.
(** src/dyxlat.c:16-28 *)
Definition dyxlat_alloc (mal : N -> bool) (nmemb : N) : res dyxlat :=
  rlet r := xgrowarray 32 mal true nmemb SIZEOF_XLAT_DATA in
  Ok {| allocated := fst r; pairs := [] |}.
(** src/dyxlat.c:53-62, the search; [None]: not found.  strncmp(stored, str, len) == 0 is
    equality of the C strings in the first len bytes; reading stored[len] past its
    terminator is undefined. *)
Fixpoint dy_update (d : list (N * list N)) (val : N) (str : list N) (len : nat) : res (option (list (N * list N))) :=
  match d with
  | [] => Ok None
  | (v, s) :: r =>
      if v =? val then
        if beqs (cstr s len) (cstr str len) then
          if Nat.ltb (length s) len then Undef
          else if Nat.eqb (length s) len then Ok (Some d) else Ok (Some ((v, cstr str len) :: r))
        else Ok (Some ((v, cstr str len) :: r))
      else rlet o := dy_update r val str len in
           Ok (match o with Some r' => Some ((v, s) :: r') | None => None end)
  end.
(** src/dyxlat.c:49-73.  Writing at index size >= allocated is undefined. *)
Definition dyxlat_add_pair (mal : N -> bool) (d : dyxlat) (val : N) (str : list N) (len : nat) : res dyxlat :=
  rlet o := dy_update (pairs d) val str len in
  match o with
  | Some p => Ok {| allocated := allocated d; pairs := p |}
  | None =>
      rlet a := (if allocated d <=? N.of_nat (length (pairs d))
                 then rlet r := xgrowarray 32 mal false (allocated d) SIZEOF_XLAT_DATA in Ok (fst r)
                 else Ok (allocated d)) in
      if N.of_nat (length (pairs d)) <? a
      then Ok {| allocated := a; pairs := pairs d ++ [(val, cstr str len)] |} else Undef
  end.
(** dyxlat_get, src/dyxlat.c:43-47, for the table type given to dyxlat_alloc *)
Definition dyxlat_get (t : xtype) (d : dyxlat) : xlat :=
  {| ty := t; data := map (fun p => (fst p, Some (snd p))) (pairs d) |}.
