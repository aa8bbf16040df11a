(** What poke_enter= and poke_exit= ask for (C100). *)
From Verif Require Import Base UcopyModel RetModel PokeModel.
Local Open Scope N_scope.

(** The requests of an expression, in the order given: at the entry or at the exit, argument, data *)
Definition requests (e : list (bool * list (N * list N))) : list (bool * N * list N) :=
  flat_map (fun t => map (fun d => (fst t, fst d, snd d)) (snd t)) e.
(** no argument is named twice for the same stop *)
Definition no_twice (e : list (bool * list (N * list N))) : Prop := NoDup (map fst (requests e)).
(** Those for a stop of a call that has the argument: the address the argument holds, and the data *)
Definition asked (enter : bool) (c : call) (rs : list (bool * N * list N)) : list (N * list N) :=
  flat_map (fun r => match r with (ph, a, d) => if Bool.eqb ph enter && (a <=? n_args c) then [(nth (N.to_nat (a - 1)) (u_arg c) 0, d)] else [] end) rs.
(** The memory after the first [n] bytes of each request have been written: where two requests meet, the one given
    first is the one that stays. *)
Fixpoint after (m : mem) (js : list (N * list N)) (ns : list N) (x : N) : option N :=
  match js, ns with
  | (a, d) :: js, n :: ns => if (a <=? x) && (x <? a + n) then Some (nth (N.to_nat (x - a)) d 0) else after m js ns x
  | _, _ => m x
  end.
(** [m'] is [m] with the requests carried out as far as [ns] says, and nothing else changed *)
Definition carried_out (m m' : mem) (js : list (N * list N)) (ns : list N) : Prop :=
  Forall2 (fun j n => n <= N.of_nat (length (snd j))) js ns /\ forall x, m' x = after m js ns x.
Definition in_full (js : list (N * list N)) : list N := map (fun j => N.of_nat (length (snd j))) js.
(** some byte was written *)
Definition some_byte (ns : list N) : bool := existsb (fun n => 0 <? n) ns.
(** the addresses and the data lie in the address space *)
Definition in_space (js : list (N * list N)) : Prop := Forall (fun j => fst j + N.of_nat (length (snd j)) <= 2 ^ 64) js.
(** the kernel lets all of it be written *)
Definition permitted (W : world) (c : call) (js : list (N * list N)) : Prop :=
  short c = false /\ w_we W = None /\ Forall (fun j => forall i, i < N.of_nat (length (snd j)) -> w_vwr W (fst j + i) = true) js.

(** ** What is asked of a call *)
(** The rule that fires at a call is the one of an expression of the command line (or there is none) *)
Definition applies (exprs : list (list (bool * list (N * list N)))) (is : list N) (e : event) (ex : list (bool * list (N * list N))) : Prop :=
  e_inj e = None /\ ex = [] \/
  exists i k, e_inj e = Some i /\ nth_error exprs k = Some ex /\ nth_error is k = Some (i_idx i) /\ i_penter i = existsb (fun t => fst t) ex /\ i_pexit i = existsb (fun t => negb (fst t)) ex.
(** strace was asked for another result and could replace the call *)
Definition result_changed (e : event) : bool := match e_inj e with Some i => i_result i && e_set e | None => false end.
Definition delayed (e : event) : bool := match e_inj e with Some i => i_denter i || (x_traced e && i_dexit i) | None => false end.
(** what the line of a call says about it *)
Definition note (x : seen) : list N := RetModel.print_injected_note (f_tampered (s_flags x)) (f_poked (s_flags x)) (f_delayed (s_flags x)).
Definition note_text (args result delay : bool) : list N :=
  (if args then if result then bs " (INJECTED: args, retval)" else bs " (INJECTED: args)" else if result then bs " (INJECTED)" else []) ++
  (if delay then bs " (DELAYED)" else []).
