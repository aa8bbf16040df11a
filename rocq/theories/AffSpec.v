(** What is claimed of sets of cpus, without the model: sched_setaffinity(2), CPU_SET(3). *)
From Coq Require Import Sorted.
From Verif Require Import Base Printf.
From Verif Require Import TvalSpec.
Local Open Scope N_scope.

(** A set of cpus is an array of words of [ws] bytes.  Where byte [p], counted from the least significant byte of the first
    word, is in memory *)
Definition place (big : bool) (ws p : N) : N := if big then ws * (p / ws) + (ws - 1 - p mod ws) else p.
(** cpu [i] is in the set whose bytes are [b] *)
Definition member (big : bool) (ws : N) (b : list N) (i : N) : bool :=
  N.testbit (nth (N.to_nat (place big ws (i / 8))) b 0) (i mod 8).
(** [l]: all the cpus of the set in increasing order, each once *)
Definition cpus (big : bool) (ws : N) (b l : list N) : Prop :=
  StronglySorted N.lt l /\ forall i, In i l <-> member big ws b i = true.

Fixpoint spaces (l : list (list N)) : list N := match l with [] => [] | [x] => x | x :: r => x ++ bs " " ++ spaces r end.
(** their numbers in decimal between brackets; [more]: there are bytes that are not shown *)
Definition set_text (big : bool) (ws : N) (b : list N) (more : bool) (t : list N) : Prop :=
  exists l d, cpus big ws b l /\ Forall2 number d l /\ t = bs "[" ++ spaces (d ++ if more then [bs "..."] else []) ++ bs "]".

(** [s] is the size of the sets of the kernel as far as it can be told: the least 128 * 2^j that it does not refuse, or 128 if it
    refuses all of them *)
Definition set_size (refuses : N -> bool) (s : N) : Prop :=
  (exists j, j < 25 /\ s = 128 * 2 ^ j /\ refuses s = false /\ forall k, k < j -> refuses (128 * 2 ^ k) = true) \/
  (s = 128 /\ forall k, k < 25 -> refuses (128 * 2 ^ k) = true).
