(** What is claimed of the decoding of directory entries. *)
From Verif Require Import Base DentsModel.
Import ListNotations.
Local Open Scope N_scope.

(** The part of the memory that printing a token reads. *)
Definition region (t : dtok) : list (N * N) :=
  match t with
  | DHex a n | DName a n => [(a, n)]
  | DType a => [(a, 1)]
  | _ => []
  end.

Definition inside (addr len : N) (r : N * N) : Prop :=
  addr <= fst r /\ fst r + snd r <= addr + len.

(** A well-formed record: its d_reclen is its length, which covers the fixed
    part. *)
Definition record (y : layout) (r : list N) : Prop :=
  l_head y <= N.of_nat (List.length r) < 2 ^ 16 /\
  d_reclen y (firstn (N.to_nat (l_head y)) r) = N.of_nat (List.length r).

(** The buffer at [addr] consists of the records [rs], and it can be read,
    with the names. *)
Fixpoint buffer (y : layout) (m : dmem) (addr : N) (rs : list (list N)) : Prop :=
  match rs with
  | [] => True
  | r :: rest =>
      record y r /\
      fetch m addr (l_head y) = Some (firstn (N.to_nat (l_head y)) r) /\
      (forall a n, addr + l_head y <= a -> a + n <= addr + N.of_nat (List.length r) ->
         path_ok m a n = true /\ (n = 1 -> byte_ok m a = true)) /\
      buffer y m (addr + N.of_nat (List.length r)) rest
  end.

Definition total (rs : list (list N)) : N := N.of_nat (List.length (concat rs)).

(** How the record at [addr] is shown: its fixed part, and its own name and
    type. *)
Definition shown (y : layout) (addr : N) (r : list N) : list dtok :=
  let n := N.of_nat (List.length r) - l_head y in   (* behind the fixed part *)
  let a := addr + l_head y in
  DHead (firstn (N.to_nat (l_head y)) r) ::
  (if l_64 y then DHeadType :: (if n =? 0 then [] else [DName a (N.min n 256)])
   else if n =? 0 then []
   else (if n =? 1 then [] else [DName a (N.min (n - 1) 256)]) ++
        [DType (addr + N.of_nat (List.length r) - 1)]).

Fixpoint shown_all (y : layout) (addr : N) (rs : list (list N)) : list dtok :=
  match rs with
  | [] => []
  | [r] => shown y addr r
  | r :: rest => shown y addr r ++ DNext :: shown_all y (addr + N.of_nat (List.length r)) rest
  end.

(** The layouts that exist. *)
Definition good_layout (y : layout) : Prop := 0 < l_head y < 2 ^ 16.

(** The brackets of the array. *)
Definition is_begin (t : dtok) : bool := match t with DBegin => true | _ => false end.
Definition is_end (t : dtok) : bool := match t with DEnd => true | _ => false end.
