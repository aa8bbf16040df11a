(** Intrusive lists (C51): what the operations do to sequences. *)
From Verif Require Import Base ListModel.
Local Open Scope N_scope.

(** The items form rings: a list with a designated head is the ring [head :: items], an item that is in
    no list, and the head of an empty list, is a ring of its own. *)
(** from [a] along [l] to [b], and back *)
Fixpoint chain (h : heap) (a : N) (l : list N) (b : N) : Prop :=
  match l with
  | [] => next h a = b /\ prev h b = a
  | x :: r => next h a = x /\ prev h x = a /\ chain h x r b
  end.
Definition ring (h : heap) (l : list N) : Prop := match l with [] => False | x :: r => chain h x r x end.
Definition rings (h : heap) (R : list (list N)) : Prop := NoDup (concat R) /\ ~ In 0 (concat R) /\ Forall (ring h) R.

(** what follows [x] in its ring, all the way round, and the other rings *)
Fixpoint around (x : N) (l before : list N) : option (list N) :=
  match l with [] => None | y :: r => if y =? x then Some (r ++ rev before) else around x r (y :: before) end.
Fixpoint take (x : N) (R : list (list N)) : option (list N * list (list N)) :=
  match R with
  | [] => None
  | r :: R => match around x r [] with
              | Some t => Some (t, R)
              | None => match take x R with Some (t, R) => Some (t, r :: R) | None => None end
              end
  end.
(** the rings without [x], which is not in a list *)
Definition free (x : N) (R : list (list N)) : option (list (list N)) :=
  match take x R with None => Some R | Some ([], R) => Some R | Some _ => None end.

Inductive lop := LInit (x : N) | LInsert (head x : N) | LAppend (head x : N) | LRemove (x : N) | LRemoveHead (head : N) | LRemoveTail (head : N) | LReplace (old new : N).
(** The operations on sequences.  None: used against the rules: a NULL pointer, a head that was not
    initialised, an item to insert that is in a list already. *)
Definition abstract_op (R : list (list N)) (o : lop) : option (list (list N) * N) :=
  match o with
  | LInit x => if x =? 0 then None else match free x R with Some R => Some ([x] :: R, 0) | None => None end
  | LInsert a x => if (x =? 0) || (x =? a) then None else
      match free x R with Some R => match take a R with Some (t, R) => Some ((a :: x :: t) :: R, 0) | None => None end | None => None end
  | LAppend a x => if (x =? 0) || (x =? a) then None else
      match free x R with Some R => match take a R with Some (t, R) => Some ((a :: t ++ [x]) :: R, 0) | None => None end | None => None end
  | LRemove x => match take x R with Some ([], R) => Some ([x] :: R, 0) | Some (t, R) => Some (t :: [x] :: R, 1) | None => None end
  | LRemoveHead a => match take a R with Some ([], R) => Some ([a] :: R, 0) | Some (x :: t, R) => Some ((a :: t) :: [x] :: R, x) | None => None end
  | LRemoveTail a => match take a R with Some ([], R) => Some ([a] :: R, 0) | Some (t, R) => Some ((a :: removelast t) :: [last t 0] :: R, last t 0) | None => None end
  | LReplace a x => if (x =? 0) || (x =? a) then None else
      match take a R with
      | Some ([], R) => Some ([a] :: R, 0)
      | Some _ => match free x R with Some R => match take a R with Some (t, R) => Some ((x :: t) :: [a] :: R, 1) | None => None end | None => None end
      | None => None
      end
  end.
Fixpoint abstract_run (R : list (list N)) (os : list lop) : option (list (list N) * list N) :=
  match os with
  | [] => Some (R, [])
  | o :: os => match abstract_op R o with Some (R, v) => match abstract_run R os with Some (R, vs) => Some (R, v :: vs) | None => None end | None => None end
  end.
(** the operations on the heap; the value returned is 0 for false, NULL and no value, 1 for true *)
Definition b2n (b : bool) : N := if b then 1 else 0.
Definition heap_op (h : heap) (o : lop) : res (heap * N) :=
  match o with
  | LInit x => rlet h := list_init h x in Ok (h, 0)
  | LInsert a x => rlet h := list_insert h a x in Ok (h, 0)
  | LAppend a x => rlet h := list_append h a x in Ok (h, 0)
  | LRemove x => rlet (h, b) := list_remove h x in Ok (h, b2n b)
  | LRemoveHead a => list_remove_head h a
  | LRemoveTail a => list_remove_tail h a
  | LReplace a x => rlet (h, b) := list_replace h a x in Ok (h, b2n b)
  end.
Fixpoint heap_run (h : heap) (os : list lop) : res (heap * list N) :=
  match os with
  | [] => Ok (h, [])
  | o :: os => rlet (h, v) := heap_op h o in rlet (h, vs) := heap_run h os in Ok (h, v :: vs)
  end.
