(** Model of the system call summary (-c, -C, -U, -S): src/count.c. *)
From Verif Require Import Base TimeModel.
From Coq Require Import String.
Import ListNotations.
Local Open Scope N_scope.

(** struct call_counts, src/count.c:22-29 *)
Record cc := mk_cc {
  c_time : ts; c_min : ts; c_max : ts; c_avg : ts; c_calls : N; c_errors : N }.

(** src/count.c:34-37, 64-bit time_t *)
Definition zero_ts : ts := {| sec := 0; nsec := 0 |}.
Definition max_ts : ts := {| sec := 2 ^ 63 - 1; nsec := 999999999 |}.

(** A completed system call as count_syscall sees it: current_personality,
    scno, syserror(), syscall_exiting_ts, and etime, stime, ltime of the tcb. *)
Record ev := mk_ev {
  v_pers : nat; v_scno : N; v_err : bool;
  v_exit : ts; v_etime : ts; v_stime : ts; v_ltime : ts }.

(** What a run is configured with: nsyscalls of each personality,
    count_wallclock (-w), overhead (-O). *)
Record cfg := mk_cfg { nsys : nat -> nat; wall : bool; overhead : ts }.

(** countv, src/count.c:31: NULL until the first call is counted. *)
Notation counts_t := (nat -> option (list cc)) (only parsing).

(** xcalloc and the initialisation of time_min, src/count.c:108-113 *)
Definition cc0 : cc := mk_cc zero_ts max_ts zero_ts zero_ts 0 0.

(** src/count.c:114-135 *)
Definition count_one (g : cfg) (e : ev) (c : cc) : cc :=
  let wts := if wall g then ts_sub (v_exit e) (v_etime e)
             else ts_sub (v_stime e) (v_ltime e) in
  let wts := ts_sub wts (overhead g) in
  let nonneg := ts_max wts zero_ts in
  mk_cc (ts_add (c_time c) nonneg) (ts_min (c_min c) nonneg)
        (ts_max (c_max c) nonneg) (c_avg c)
        (u64 (c_calls c + 1))
        (if v_err e then u64 (c_errors c + 1) else c_errors c).

(** count_syscall, src/count.c:102-136.  [None] is an access out of bounds. *)
Definition count_syscall (g : cfg) (cv : counts_t) (e : ev) : option counts_t :=
  let p := v_pers e in
  if N.of_nat (nsys g p) <=? v_scno e then Some cv
  else
    let l := match cv p with Some l => l | None => repeat cc0 (nsys g p) end in
    olet c := nth_error l (N.to_nat (v_scno e)) in
    olet l' := upd l (N.to_nat (v_scno e)) (count_one g e c) in
    Some (fun q => if Nat.eqb q p then Some l' else cv q).

Fixpoint count_all (g : cfg) (cv : counts_t) (h : list ev) : option counts_t :=
  match h with
  | [] => Some cv
  | e :: h' => olet cv' := count_syscall g cv e in count_all g cv' h'
  end.

Definition no_counts : counts_t := fun _ => None.

(** The comparison functions, src/count.c:138-195.  [l] is counts, names are
    sysent[].sys_name, NULL for a gap in the table. *)
Definition cmp_neg (z : Z) : Z := (- z)%Z.
Definition time_cmp (a b : cc) : Z := cmp_neg (ts_cmp (c_time a) (c_time b)).
Definition min_time_cmp (a b : cc) : Z := cmp_neg (ts_cmp (c_min a) (c_min b)).
Definition max_time_cmp (a b : cc) : Z := cmp_neg (ts_cmp (c_max a) (c_max b)).
Definition avg_time_cmp (a b : cc) : Z := cmp_neg (ts_cmp (c_avg a) (c_avg b)).
(** The counters are converted to unsigned int. *)
Definition u32_cmp (x y : N) : Z :=
  let m := u32 x in let n := u32 y in
  if m <? n then 1%Z else if n <? m then (-1)%Z else 0%Z.
Definition count_cmp (a b : cc) : Z := u32_cmp (c_calls a) (c_calls b).
Definition error_cmp (a b : cc) : Z := u32_cmp (c_errors a) (c_errors b).

(** The accumulators of call_summary_pers, src/count.c:302-308. *)
Record totals := mk_tot {
  t_cum : ts; t_min : ts; t_min_max : ts; t_max : ts; t_avg_max : ts;
  t_calls : N; t_errors : N; t_name : nat }.

Definition totals0 : totals :=
  mk_tot zero_ts max_ts zero_ts zero_ts zero_ts 0 0 0.

(** One iteration of the loop of src/count.c:318-336 for an entry that was
    counted: the average is stored in the entry.  strlen of a NULL name is
    undefined. *)
Definition tally (t : totals) (c : cc) (name : option (list N)) : res (totals * cc) :=
  match name with
  | None => Undef
  | Some n =>
      let avg := ts_div (c_time c) (Z.of_N (c_calls c)) in
      Ok (mk_tot (ts_add (t_cum t) (c_time c))
                 (ts_min (t_min t) (c_min c))
                 (ts_max (t_min_max t) (c_min c))
                 (ts_max (t_max t) (c_max c))
                 (ts_max (t_avg_max t) avg)
                 (u64 (t_calls t + c_calls c))
                 (u64 (t_errors t + c_errors c))
                 (Nat.max (t_name t) (List.length n)),
          mk_cc (c_time c) (c_min c) (c_max c) avg (c_calls c) (c_errors c))
  end.

Fixpoint tally_all (t : totals) (l : list cc) (names : list (option (list N)))
  : res (totals * list cc) :=
  match l with
  | [] => Ok (t, [])
  | c :: l' =>
      if c_calls c =? 0
      then rlet (t', r) := tally_all t l' (tl names) in Ok (t', c :: r)
      else
        rlet (t1, c') := tally t c (hd None names) in
        rlet (t', r) := tally_all t1 l' (tl names) in Ok (t', c' :: r)
  end.

(** The rows of the table, src/count.c:433-466: the indices are sorted (by
    qsort if there is a sort function; [sort] is what it does to the array)
    and entries without calls are left out. *)
Fixpoint rows (l : list cc) (indices : list nat) : list (nat * cc) :=
  match indices with
  | [] => []
  | i :: r => match nth_error l i with
              | Some c => if c_calls c =? 0 then rows l r else (i, c) :: rows l r
              | None => rows l r
              end
  end.

(** call_summary_pers, src/count.c:298-503: totals and rows.  Not modelled:
    the layout of the table and the floating-point conversion of times and
    percentages. *)
Definition call_summary_pers (sort : list cc -> list nat -> list nat)
  (names : list (option (list N))) (l : list cc) : res (totals * list (nat * cc)) :=
  rlet (t, l') := tally_all totals0 l names in
  Ok (t, rows l' (sort l' (seq 0 (List.length l)))).

(** enum count_summary_columns, src/count.c:42-54 *)
Definition CSC_NONE : N := 0.
Definition CSC_TIME_100S : N := 1.
Definition CSC_TIME_TOTAL : N := 2.
Definition CSC_TIME_MIN : N := 3.
Definition CSC_TIME_MAX : N := 4.
Definition CSC_TIME_AVG : N := 5.
Definition CSC_CALLS : N := 6.
Definition CSC_ERRORS : N := 7.
Definition CSC_SC_NAME : N := 8.
Definition CSC_MAX : N := 9.

(** column_aliases, src/count.c:65-100 *)
Definition column_aliases : list (list N * N) :=
  map (fun x => (bs (fst x), snd x))
  [("time", CSC_TIME_100S); ("time_percent", CSC_TIME_100S); ("time-percent", CSC_TIME_100S);
   ("time_total", CSC_TIME_TOTAL); ("time-total", CSC_TIME_TOTAL);
   ("total_time", CSC_TIME_TOTAL); ("total-time", CSC_TIME_TOTAL);
   ("min_time", CSC_TIME_MIN); ("min-time", CSC_TIME_MIN); ("shortest", CSC_TIME_MIN);
   ("time_min", CSC_TIME_MIN); ("time-min", CSC_TIME_MIN);
   ("longest", CSC_TIME_MAX); ("max_time", CSC_TIME_MAX); ("max-time", CSC_TIME_MAX);
   ("time_max", CSC_TIME_MAX); ("time-max", CSC_TIME_MAX);
   ("avg_time", CSC_TIME_AVG); ("avg-time", CSC_TIME_AVG);
   ("time_avg", CSC_TIME_AVG); ("time-avg", CSC_TIME_AVG);
   ("calls", CSC_CALLS); ("count", CSC_CALLS);
   ("error", CSC_ERRORS); ("errors", CSC_ERRORS);
   ("name", CSC_SC_NAME); ("syscall", CSC_SC_NAME);
   ("syscall_name", CSC_SC_NAME); ("syscall-name", CSC_SC_NAME);
   ("none", CSC_NONE); ("nothing", CSC_NONE)]%string.

(** strchr(prev, ','): the text up to the comma and the text after it. *)
Fixpoint split_comma (s : list N) : list N * option (list N) :=
  match s with
  | [] => ([], None)
  | c :: s' => if c =? 44 then ([], Some s')
               else let '(a, r) := split_comma s' in (c :: a, r)
  end.

(** strncmp(name, prev, len) || name[len]: false iff [name] is exactly the
    [len] characters [w] (which hold neither NUL nor comma).  The inner loop
    of src/count.c:240-263: the first alias that is no CSC_NONE. *)
Fixpoint find_column (al : list (list N * N)) (w : list N) : option N :=
  match al with
  | [] => None
  | (name, c) :: al' =>
      if negb (beqs name w) then find_column al' w
      else if (c =? CSC_NONE) || (CSC_MAX <=? c) then find_column al' w
      else Some c
  end.

(** Store into columns[], which has CSC_MAX elements. *)
Definition put_column (cols : list N) (c : N) : res (list N) :=
  if N.of_nat (List.length cols) <? CSC_MAX then Ok (cols ++ [c]) else Undef.

(** set_count_summary_columns, src/count.c:226-279; error_msg_and_help is
    [Die].  The result are columns[0..cur-1]; the others are 0.  [visible] is
    membership in [cols]. *)
Fixpoint columns_loop (fuel : nat) (s : list N) (cols : list N) : res (list N) :=
  match fuel with
  | O => Undef
  | S f =>
      let '(w, rest) := split_comma s in
      match find_column column_aliases w with
      | None => Die
      | Some c =>
          if existsb (N.eqb c) cols then Die
          else rlet cols' := put_column cols c in
               match rest with
               | None => Ok cols'
               | Some s' => columns_loop f s' cols'
               end
      end
  end.

Definition set_count_summary_columns (s : list N) : res (list N) :=
  rlet cols := columns_loop (S (List.length s)) s [] in
  if existsb (N.eqb CSC_SC_NAME) cols then Ok cols
  else put_column cols CSC_SC_NAME.
