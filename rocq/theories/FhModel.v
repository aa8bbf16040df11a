(** How file handles are shown: src/file_handle.c.
    print_quoted_string is that of QuoteModel (C12, C60), printflags that of XlatModel (C36), the memory of the tracee that of ExtModel (C32).
    The texts of the directory, the path, the descriptor and the open flags are parameters. *)
From Verif Require Import Base Printf InfoModel XlatModel QuoteModel.
From Verif Require BitsModel ExtModel TvalModel NumaModel XattrModel.
Local Open Scope N_scope.

(** What the printers depend on: verbose(tcp), the memory, xlat_verbosity, u_error (0: no error, or entering) *)
Record env := { verb : bool; m : ExtModel.memory; st : BitsModel.xstyle_t; err : N }.
Definition failed (e : env) : bool := negb (err e =? 0).
Definition fetch (e : env) (a : N) (n : nat) : option (list N) :=
  ExtModel.umoven_or_printaddr {| ExtModel.verbose := verb e; ExtModel.failed := failed e; ExtModel.max_strlen := 0; ExtModel.pagesize := 0 |} (m e) a n.

(** QUOTE_FORCE_HEX, src/defs.h:901 *)
Definition force_hex : qstyle := {| q0term := false; omit_quotes := false; omit0 := false; expect0 := false; QuoteModel.comment := false; xstyle := HEXSTR_ALL |}.
(** file_handle_header, src/file_handle.c:17-20 *)
Definition handle_bytes (h : list N) : N := ld h 0 4.
Definition handle_type (h : list N) : Z := TvalModel.sx 4 (ld h 4 4).
(** src/file_handle.c:22-37 *)
Definition print_f_handle (mem : ExtModel.memory) (addr n : N) : res (list N) :=
  let len := N.min n 128 in
  let a := u64 (addr + 8) in
  if 8 <? a
  then match ExtModel.umoven mem a (N.to_nat len) with
       | Some b =>
           rlet (p, _) := print_quoted_string_ex b len force_hex None in
           Ok (XattrModel.text a p ++ if len <? n then bs "..." else [])
       | None => Ok (bs "???")
       end
  else Ok (bs "???").
(** src/xlat/name_to_handle_at_flags.in *)
Definition name_to_handle_at_flags : xlat := {| ty := XT_NORMAL; data :=
  [(1, Some (bs "AT_HANDLE_MNT_ID_UNIQUE")); (2, Some (bs "AT_HANDLE_CONNECTABLE")); (0x200, Some (bs "AT_HANDLE_FID"));
   (0x400, Some (bs "AT_SYMLINK_FOLLOW")); (0x1000, Some (bs "AT_EMPTY_PATH"))] |}.
Definition flags (e : env) (a : N) : list N := printflags_ex (u32 a) (Some (bs "AT_???")) (st e) FMT_X [name_to_handle_at_flags].
(** printnum_int(..., "%d"), src/util.c:408-421 *)
Definition printnum_int (e : env) (a : N) : list N :=
  match fetch e a 4 with Some b => bs "[" ++ TvalModel.sdec (TvalModel.sx 4 (ld b 0 4)) ++ bs "]" | None => TvalModel.printaddr a end.

Definition args := NumaModel.args.
(** name_to_handle_at on entering, src/file_handle.c:44-73; the second result: what is kept for exiting, None if all has been printed *)
Definition name_entering (e : env) (dir path : list N) (a2 a3 a4 : N) : list N * option N :=
  match fetch e a2 8 with
  | None => (args [dir; path; TvalModel.printaddr a2; TvalModel.printaddr a3; flags e a4], None)
  | Some h => (dir ++ bs ", " ++ path ++ bs ", " ++ bs "{" ++ bs "handle_bytes=" ++ TvalModel.udec (handle_bytes h), Some (handle_bytes h))
  end.
(** ... and on exiting, src/file_handle.c:74-98; EOVERFLOW is 75; umove reads also if the call failed *)
Definition name_exiting (e : env) (kept a2 a3 a4 : N) : res (list N) :=
  rlet x := (match (if negb (failed e) || (err e =? 75) then ExtModel.umoven (m e) a2 8 else None) with
             | Some h =>
                 let c := if handle_bytes h =? kept then [] else bs " => " ++ TvalModel.udec (handle_bytes h) in
                 if failed e then Ok c
                 else rlet f := print_f_handle (m e) a2 (handle_bytes h) in
                      Ok (c ++ bs ", " ++ bs "handle_type=" ++ TvalModel.sdec (handle_type h) ++ bs ", " ++ bs "f_handle=" ++ f)
             | None => Ok []
             end) in
  Ok (x ++ bs "}" ++ bs ", " ++ printnum_int e a3 ++ bs ", " ++ flags e a4).
(** both, as the line is printed *)
Definition name_to_handle_at (e e' : env) (dir path : list N) (a2 a3 a4 : N) : res (list N) :=
  match name_entering e dir path a2 a3 a4 with
  | (t, None) => Ok t
  | (t, Some k) => rlet u := name_exiting e' k a2 a3 a4 in Ok (t ++ u)
  end.
(** src/file_handle.c:101-128 *)
Definition open_by_handle_at (e : env) (fd modes : list N) (a1 : N) : res (list N) :=
  rlet h := (match fetch e a1 8 with
             | None => Ok (TvalModel.printaddr a1)
             | Some h =>
                 rlet f := print_f_handle (m e) a1 (handle_bytes h) in
                 Ok (bs "{" ++ bs "handle_bytes=" ++ TvalModel.udec (handle_bytes h) ++ bs ", " ++ bs "handle_type=" ++ TvalModel.sdec (handle_type h) ++
                     bs ", " ++ bs "f_handle=" ++ f ++ bs "}")
             end) in
  Ok (args [fd; h; modes]).
