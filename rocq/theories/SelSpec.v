(** What is shown of descriptor sets, CPU masks and poll results. *)
From Coq Require Import Sorted.
From Verif Require Import Base Printf RetModel BitsSpec.
Local Open Scope N_scope.

(** [l] lists, in increasing order, exactly the members below [n] of the set stored in [arr] *)
Definition members_of (arr : list N) (xm n : N) (l : list N) : Prop :=
  StronglySorted N.lt l /\ forall b, In b l <-> b < n /\ bit_set arr xm b.

(** a set of numbers: [a b c] *)
Definition set_text (l : list (list N)) : list N := bs "[" ++ join l ++ bs "]".

(** items separated by ", " *)
Fixpoint commas (l : list (list N)) : list N :=
  match l with [] => [] | [x] => x | x :: r => x ++ bs ", " ++ commas r end.
(** a set with ready descriptors: its name and its members; nothing for a set without any *)
Definition ready_text (name : list N) (l : list N) : list (list N) :=
  match l with [] => [] | _ => [name ++ bs " " ++ set_text (map (pr_num 10) l)] end.
(** what a successful select reports: the ready descriptors by set, then the remaining time *)
Definition select_text (ins outs excs : list N) (left : option (list N)) : list N :=
  commas (ready_text (bs "in") ins ++ ready_text (bs "out") outs ++ ready_text (bs "except") excs
          ++ match left with Some t => [bs "left " ++ t] | None => [] end).

(** what the tracer gets of one set argument of select after the call: nothing when the argument is
    NULL or cannot be read, else its members *)
Inductive set_result (mem : N -> N -> option (list N)) (size xm nfds addr : N) : option (list N) -> Prop :=
| SetNone : addr = 0 \/ mem addr size = None -> set_result mem size xm nfds addr None
| SetSome arr l : addr <> 0 -> mem addr size = Some arr -> members_of arr xm nfds l -> set_result mem size xm nfds addr (Some l).
Definition mem_list (r : option (list N)) : list N := match r with Some l => l | None => [] end.

(** ---- poll ---- *)
(** the elements of an array of [n] struct pollfd, up to the first that cannot be read *)
Fixpoint walk (mem : N -> option (Z * N)) (addr : N) (n : nat) : list (Z * N) * option N :=
  match n with
  | O => ([], None)
  | S k => match mem addr with
           | None => ([], Some addr)
           | Some e => let (l, bad) := walk mem (addr + 8) k in (e :: l, bad)
           end
  end.
(** those with returned events *)
Definition with_events (l : list (Z * N)) : list (Z * N) := filter (fun e => negb (snd e =? 0)) l.
Definition poll_item (fl : N -> list N) (e : Z * N) : list N :=
  bs "{fd=" ++ pr_z (fst e) ++ bs ", revents=" ++ fl (snd e) ++ bs "}".
(** the list of results, nothing when there is none; then the remaining time *)
Definition poll_list (items : list (list N)) : list (list N) :=
  match items with [] => [] | _ => [bs "[" ++ commas items ++ bs "]"] end.
