(** Intrusive lists: src/list.h.
    A struct list_item is its address; 0 is NULL, and following it is undefined.  Reading an item that
    was never written gives anything (whatever the heap has there). *)
From Verif Require Import Base.
Local Open Scope N_scope.

(** src/list.h:92-95 *)
Record heap := { prev : N -> N; next : N -> N }.
Definition put (f : N -> N) (p v : N) : N -> N := fun q => if q =? p then v else f q.
(** p->next = v and p->prev = v *)
Definition set_next (h : heap) (p v : N) : res heap := if p =? 0 then Undef else Ok {| prev := prev h; next := put (next h) p v |}.
Definition set_prev (h : heap) (p v : N) : res heap := if p =? 0 then Undef else Ok {| prev := put (prev h) p v; next := next h |}.
Definition get_next (h : heap) (p : N) : res N := if p =? 0 then Undef else Ok (next h p).
Definition get_prev (h : heap) (p : N) : res N := if p =? 0 then Undef else Ok (prev h p).

(** src/list.h:104-110 *)
Definition list_init (h : heap) (l : N) : res heap := rlet h := set_prev h l l in set_next h l l.
(** src/list.h:112-124 *)
Definition list_is_empty (h : heap) (l : N) : res bool :=
  rlet n := get_next h l in
  rlet p := get_prev h l in
  Ok (((n =? l) && (p =? l)) || ((n =? 0) && (p =? 0))).
(** src/list.h:142-152: list_head and list_tail, without the conversion to the structure around it *)
Definition list_head (h : heap) (head : N) : res N := rlet e := list_is_empty h head in if e then Ok 0 else get_next h head.
Definition list_tail (h : heap) (head : N) : res N := rlet e := list_is_empty h head in if e then Ok 0 else get_prev h head.
(** src/list.h:171-182 *)
Definition list_insert (h : heap) (head item : N) : res heap :=
  rlet n := get_next h head in
  rlet h := set_next h item n in
  rlet h := set_prev h item head in
  rlet n := get_next h head in
  rlet h := set_prev h n item in
  set_next h head item.
(** src/list.h:184-195 *)
Definition list_append (h : heap) (head item : N) : res heap :=
  rlet h := set_next h item head in
  rlet p := get_prev h head in
  rlet h := set_prev h item p in
  rlet p := get_prev h head in
  rlet h := set_next h p item in
  set_prev h head item.
(** src/list.h:197-214 *)
Definition list_remove (h : heap) (item : N) : res (heap * bool) :=
  rlet n := get_next h item in
  rlet p := get_prev h item in
  rlet e := list_is_empty h item in
  if (n =? 0) || (p =? 0) || e then Ok (h, false)
  else
    rlet h := set_next h p n in
    rlet n := get_next h item in
    rlet p := get_prev h item in
    rlet h := set_prev h n p in
    rlet h := set_prev h item item in
    rlet h := set_next h item item in
    Ok (h, true).
(** src/list.h:216-232: NULL, which is 0, if there is none *)
Definition list_remove_tail (h : heap) (head : N) : res (heap * N) :=
  rlet e := list_is_empty h head in
  rlet t := if e then Ok 0 else get_prev h head in
  if t =? 0 then Ok (h, t) else rlet (h, _) := list_remove h t in Ok (h, t).
(** src/list.h:234-250 *)
Definition list_remove_head (h : heap) (head : N) : res (heap * N) :=
  rlet e := list_is_empty h head in
  rlet t := if e then Ok 0 else get_next h head in
  if t =? 0 then Ok (h, t) else rlet (h, _) := list_remove h t in Ok (h, t).
(** src/list.h:252-272 *)
Definition list_replace (h : heap) (old new : N) : res (heap * bool) :=
  rlet n := get_next h old in
  rlet p := get_prev h old in
  rlet e := list_is_empty h old in
  if (n =? 0) || (p =? 0) || e then Ok (h, false)
  else
    rlet h := set_next h new n in
    rlet p := get_prev h old in
    rlet h := set_prev h new p in
    rlet p := get_prev h old in
    rlet h := set_next h p new in
    rlet n := get_next h old in
    rlet h := set_prev h n new in
    rlet h := set_prev h old old in
    rlet h := set_next h old old in
    Ok (h, true).
(** src/list.h:274-284: the items that the body is run for; it changes nothing *)
Fixpoint foreach_from (fuel : nat) (h : heap) (head v : N) (acc : list N) : res (list N) :=
  if v =? head then Ok acc
  else match fuel with
       | O => Undef
       | S fuel' => rlet n := get_next h v in foreach_from fuel' h head n (acc ++ [v])
       end.
Definition list_foreach (fuel : nat) (h : heap) (head : N) : res (list N) := rlet n := get_next h head in foreach_from fuel h head n [].
(** src/list.h:286-298, with a body that removes the items that [P] is true of (strace has no use of it) *)
Fixpoint foreach_safe_from (fuel : nat) (h : heap) (head v tmp : N) (P : N -> bool) (acc : list N) : res (heap * list N) :=
  if v =? head then Ok (h, acc)
  else match fuel with
       | O => Undef
       | S fuel' =>
           rlet h := (if P v then rlet (h, _) := list_remove h v in Ok h else Ok h) in
           rlet n := get_next h tmp in
           foreach_safe_from fuel' h head tmp n P (acc ++ [v])
       end.
Definition list_foreach_safe (fuel : nat) (h : heap) (head : N) (P : N -> bool) : res (heap * list N) :=
  rlet v := get_next h head in
  rlet tmp := get_next h v in
  foreach_safe_from fuel h head v tmp P [].
