(** What is to be said of the result of poll. *)
From Verif Require Import Base PollModel.
Local Open Scope N_scope.

(** How a ready descriptor is shown. *)
Definition entry (e : env) (x : Z * N) : list N := bs "{fd=" ++ dec (fst x) ++ bs ", revents=" ++ flags e (snd x) ++ bs "}".
(** the address of an element of the array *)
Definition at_ (start : N) (i : nat) : N := start + 8 * N.of_nat i.
(** The first [n] elements of the array at [start] can be read: these. *)
Definition elements (e : env) (start : N) (l : list (Z * N)) : Prop := forall i, (i < length l)%nat -> rd e (at_ start i) = nth_error l i.
(** those with events *)
Definition ready (l : list (Z * N)) : list (Z * N) := filter (fun x => negb (snd x =? 0)) l.
(** texts with a separator *)
Fixpoint joined (ts : list (list N)) : list N :=
  match ts with [] => [] | [t] => t | t :: r => t ++ bs ", " ++ joined r end.
(** in brackets; nothing for none *)
Definition listing (ts : list (list N)) : list N := match ts with [] => [] | _ => bs "[" ++ joined ts ++ bs "]" end.
(** The time left is added when it is known and there is space for it in 1024 bytes; else something is said to be missing. *)
Inductive with_left (e : env) (pts : N) (o : list N) : list N -> Prop :=
| WL_none : pts = 0 -> with_left e pts o o
| WL_only : pts <> 0 -> o = [] -> len (ts e pts) < 1024 - 8 -> with_left e pts o (bs "left " ++ ts e pts)
| WL_left : pts <> 0 -> o <> [] -> len o + len (ts e pts) < 1024 - 8 -> with_left e pts o (o ++ bs ", left " ++ ts e pts)
| WL_more : pts <> 0 -> 1024 - 8 <= len o + len (ts e pts) -> with_left e pts o (o ++ bs ", ...").
(** The array lies in the address space. *)
Definition array_ok (start nfds : N) : Prop := 0 < start /\ 0 < nfds < 2^32 /\ start + 8 * nfds < 2^64.
(** A text in [ts] for the ready ones among the [nfds] elements at [start]: one for each, in order; at the end the address of an element that
    cannot be read; or "..." instead of all the rest, when [max] are shown or the list gets too long. *)
Definition result_list (e : env) (start nfds : N) (o : list N) : Prop :=
  exists l k tail, let R := map (entry e) (ready l) in
    elements e start l /\ N.of_nat (length l) <= nfds /\ (N.of_nat (length l) < nfds -> rd e (at_ start (length l)) = None) /\
    o = listing (firstn k R ++ tail) /\ (abbrev e = true -> N.of_nat k <= max_strlen e) /\
    ((k = length R /\ tail = if N.of_nat (length l) =? nfds then [] else [hex (at_ start (length l))]) \/
     ((k < length R)%nat /\ tail = [bs "..."] /\
      ((abbrev e = true /\ N.of_nat k = max_strlen e) \/ 1024 - 27 <= len (bs "[" ++ joined (firstn (S k) R))))).
