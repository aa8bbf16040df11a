(** How offsets are shown: src/lseek.c, src/sendfile.c; a little-endian host with 64-bit long.
    printxval is that of XlatModel (C37).  Parameter: the text of a descriptor (printfd, C69). *)
From Verif Require Import Base Printf InfoModel XlatModel.
From Verif Require BitsModel ExtModel TvalModel NumaModel.
Local Open Scope N_scope.

Definition env := NumaModel.env.
Definition st (e : env) := NumaModel.st e.
(** src/xlat/whence_codes.in *)
Definition whence_codes : xlat := {| ty := XT_NORMAL; data :=
  [(0, Some (bs "SEEK_SET")); (1, Some (bs "SEEK_CUR")); (2, Some (bs "SEEK_END")); (3, Some (bs "SEEK_DATA")); (4, Some (bs "SEEK_HOLE"))] |}.
(** printxval takes an unsigned int, src/defs.h:1637: its callers below convert *)
Definition whence (e : env) (a : N) : list N := printxvals_ex a (Some (bs "SEEK_???")) (st e) FMT_X [whence_codes].
Definition int (a : N) : Z := TvalModel.sx 4 (u32 a).
(** printnum_int64 and printnum_int with "%" PRIu64 and "%u", src/util.c:408-421; with the result *)
Definition printnum (e : env) (w : nat) (a : N) : list N * bool :=
  match ExtModel.umoven_or_printaddr (NumaModel.o e) (NumaModel.m e) a w with
  | Some b => (bs "[" ++ TvalModel.udec (ld b 0 w) ++ bs "]", true)
  | None => (TvalModel.printaddr a, false)
  end.
(** src/lseek.c:27-52; [klong]: current_klongsize *)
Definition lseek (fd : Z -> list N) (e : env) (klong : nat) (a0 a1 a2 : N) : list N :=
  NumaModel.args [fd (int a0); TvalModel.sdec (if (klong <? 8)%nat then int a1 else TvalModel.sx 8 (u64 a1)); whence e (u32 a2)].
(** src/lseek.c:66-88; [e']: on exiting *)
Definition llseek (fd : Z -> list N) (e' : env) (a0 a1 a2 a3 a4 : N) : list N :=
  NumaModel.args [fd (int a0); TvalModel.sdec (TvalModel.sx 8 (N.lor (u64 (N.shiftl a1 32)) a2)); fst (printnum e' 8 a3); whence e' (u32 a4)].
(** the second half of both sendfile functions, src/sendfile.c:30-41, 66-77; [rval]: u_rval *)
Definition sendfile_exiting (e' : env) (w : nat) (rval a2 a3 : N) : list N :=
  (if negb (ExtModel.failed (NumaModel.o e')) && negb (rval =? 0) then bs " => " ++ fst (printnum e' w a2) else []) ++ bs ", " ++ TvalModel.udec a3.
(** src/sendfile.c:11-44; [e], [e']: on entering and on exiting *)
Definition sendfile64 (fd : Z -> list N) (e e' : env) (rval a0 a1 a2 a3 : N) : list N :=
  let '(t, ok) := printnum e 8 a2 in
  NumaModel.args [fd (int a0); fd (int a1); t ++ if ok then sendfile_exiting e' 8 rval a2 a3 else bs ", " ++ TvalModel.udec a3].
(** src/sendfile.c:46-80 *)
Definition sendfile (fd : Z -> list N) (e e' : env) (rval a0 a1 a2 a3 : N) : list N :=
  let w := if NumaModel.ws e =? 4 then 4%nat else 8%nat in
  let '(t, ok) := printnum e w a2 in
  NumaModel.args [fd (int a0); fd (int a1); t ++ if negb ok || (a3 =? 0) then bs ", " ++ TvalModel.udec a3 else sendfile_exiting e' w rval a2 a3].
