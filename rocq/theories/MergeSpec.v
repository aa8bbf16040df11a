(** Merging logs: strace-log-merge(1), and the options -ff, -t, -tt, -ttt of strace(1). *)
From Coq Require Import Sorted Permutation.
From Verif Require Import Base Printf.
Local Open Scope N_scope.

(** A log is lines, each ended by a newline, except perhaps the last. *)
Definition a_line (l : list N) : Prop := ~ In 10 l.
Definition is_text (ls : list (list N)) (b : list N) : Prop :=
  Forall a_line ls /\
  (b = concat (map (fun l => l ++ [10]) ls) \/
   exists ls' l, ls = ls' ++ [l] /\ l <> [] /\ b = concat (map (fun l => l ++ [10]) ls') ++ l).

(** Time stamps: -t, -tt: the time of the day; -ttt: seconds since the Epoch; [prec] digits after the period, if any. *)
Inductive clock := Day | Epoch.
Definition two (n : N) : list N := pr_pad 10 2 n.
Definition fraction (prec : nat) (f : N) : list N := match prec with O => [] | _ => bs "." ++ pr_pad 10 prec f end.
(** [l] begins with the stamp of the time [t], in units of the last digit *)
Definition stamped (c : clock) (prec : nat) (l : list N) (t : N) : Prop :=
  exists f rest, f < 10 ^ N.of_nat prec /\
  match c with
  | Day => exists h m s, h < 24 /\ m < 60 /\ s < 60 /\ l = two h ++ bs ":" ++ two m ++ bs ":" ++ two s ++ fraction prec f ++ bs " " ++ rest /\
           t = ((h * 60 + m) * 60 + s) * 10 ^ N.of_nat prec + f
  | Epoch => exists s, l = pr_num 10 s ++ fraction prec f ++ bs " " ++ rest /\ t = s * 10 ^ N.of_nat prec + f
  end.
(** Other lines of a log (stacks, dumps of data) begin with a space or are empty. *)
Definition other (l : list N) : Prop := l = [] \/ exists r, l = 32 :: r.

(** The lines of a log with a stamp, with their times, behind the number of the process in [w] columns *)
Definition column (w : nat) (s : list N) : list N := s ++ repeat 32 (w - length s).
Inductive taken (c : clock) (prec : nat) (pid : list N) : list (list N) -> list (N * list N) -> Prop :=
| t_nil : taken c prec pid [] []
| t_stamp l t ls es : stamped c prec l t -> taken c prec pid ls es -> taken c prec pid (l :: ls) ((t, pid ++ bs " " ++ l) :: es)
| t_other l ls es : other l -> taken c prec pid ls es -> taken c prec pid (l :: ls) es.
Inductive taken_all (c : clock) (prec w : nat) : list (list N * list N) -> list (N * list N) -> Prop :=
| a_nil : taken_all c prec w [] []
| a_log s b ls es fs es' : is_text ls b -> taken c prec (column w s) ls es -> taken_all c prec w fs es' -> taken_all c prec w ((s, b) :: fs) (es ++ es').

(** [e'] is [e] sorted by time, lines of the same time in the order they had *)
Definition by_time (e e' : list (N * list N)) : Prop :=
  Permutation e e' /\ StronglySorted (fun x y => fst x <= fst y) e' /\ forall t, filter (fun x => fst x =? t) e' = filter (fun x => fst x =? t) e.
(** Of the files, those with the number of a process behind the period are logs. *)
Definition a_pid (s : list N) : Prop := exists n, 0 < n /\ s = pr_num 10 n.
Inductive logs : list (list N * list N) -> list (list N * list N) -> Prop :=
| l_nil : logs [] []
| l_pid s b fs ls : a_pid s -> logs fs ls -> logs ((s, b) :: fs) ((s, b) :: ls)
| l_not s b fs ls : s = [] \/ (exists c, In c s /\ ~ 48 <= c <= 57) -> logs fs ls -> logs ((s, b) :: fs) ls.
Definition widest (files : list (list N * list N)) : nat := list_max (map (fun f => length (fst f)) files).
(** [l] is what is left of [l'] when elements are removed *)
Inductive part {A} : list A -> list A -> Prop :=
| p_nil : part [] []
| p_keep x l l' : part l l' -> part (x :: l) (x :: l')
| p_drop x l l' : part l l' -> part l (x :: l').
