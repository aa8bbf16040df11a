(** What is claimed of the system call summary. *)
From Verif Require Import Base TimeModel TimeSpec CountModel.
From Coq Require Import String Sorted Permutation.
Import ListNotations.
Local Open Scope N_scope.

(** The time charged for a call, in nanoseconds. *)
Definition charged (g : cfg) (e : ev) : Z :=
  Z.max 0 ((if wall g then ns (v_exit e) - ns (v_etime e)
            else ns (v_stime e) - ns (v_ltime e)) - ns (overhead g)).

(** The calls of a history that are number [k] of personality [p], and those
    that are any known number of it. *)
Definition of_call (p : nat) (k : nat) (h : list ev) : list ev :=
  filter (fun e => Nat.eqb (v_pers e) p && (v_scno e =? N.of_nat k)) h.
Definition of_pers (g : cfg) (p : nat) (h : list ev) : list ev :=
  filter (fun e => Nat.eqb (v_pers e) p && (v_scno e <? N.of_nat (nsys g p))) h.

Definition failed (h : list ev) : list ev := filter v_err h.

Definition sum (l : list Z) : Z := fold_right Z.add 0%Z l.
Definition is_min (m : Z) (l : list Z) : Prop := In m l /\ Forall (fun x => (m <= x)%Z) l.
Definition is_max (m : Z) (l : list Z) : Prop := In m l /\ Forall (fun x => (x <= m)%Z) l.

(** Times are normalised and the time charged can be represented. *)
Definition sane (g : cfg) (e : ev) : Prop :=
  normal (v_exit e) /\ normal (v_etime e) /\ normal (v_stime e) /\ normal (v_ltime e) /\
  (charged g e <= ns max_ts)%Z.

(** The entry of a call agrees with the history of that call. *)
Definition exact (g : cfg) (h : list ev) (c : cc) : Prop :=
  c_calls c = N.of_nat (List.length h) /\
  c_errors c = N.of_nat (List.length (failed h)) /\
  ns (c_time c) = sum (map (charged g) h) /\
  is_min (ns (c_min c)) (map (charged g) h) /\
  is_max (ns (c_max c)) (map (charged g) h).

(** Comma separated words. *)
Fixpoint join_comma (l : list (list N)) : list N :=
  match l with
  | [] => []
  | [w] => w
  | w :: r => w ++ 44 :: join_comma r
  end.

(** The names of the columns. *)
Definition column_names (c : N) : list string :=
  match c with
  | 1 => ["time"; "time_percent"; "time-percent"]
  | 2 => ["time_total"; "time-total"; "total_time"; "total-time"]
  | 3 => ["min_time"; "min-time"; "shortest"; "time_min"; "time-min"]
  | 4 => ["longest"; "max_time"; "max-time"; "time_max"; "time-max"]
  | 5 => ["avg_time"; "avg-time"; "time_avg"; "time-avg"]
  | 6 => ["calls"; "count"]
  | 7 => ["error"; "errors"]
  | 8 => ["name"; "syscall"; "syscall_name"; "syscall-name"]
  | _ => []
  end%string.

Definition names_column (w : list N) (c : N) : Prop :=
  exists n, In n (column_names c) /\ w = bs n.
