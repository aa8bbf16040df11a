(** The tables of -e inject (C52): histories of registrations. *)
From Verif Require Import Base AllocModel ListModel TimeModel TableModel.
Local Open Scope N_scope.

(** values registered one after another, and the indices handed out *)
Fixpoint retvals (k : N) (mal : N -> bool) (v : vec Z) (vs : list Z) : res (vec Z * list N) :=
  match vs with [] => Ok (v, []) | x :: r => rlet (v, i) := retval_new k mal v x in rlet (v, is) := retvals k mal v r in Ok (v, i :: is) end.

(** the delays of one -e inject: tokens delay_enter (true) and delay_exit (false), and what it gets *)
Fixpoint expr_from (k : N) (mal : N -> bool) (v : vec delay_data) (o : dopts) (toks : list (bool * ts)) : res (option (vec delay_data * dopts)) :=
  match toks with
  | [] => Ok (Some (v, o))
  | (e, t) :: r => rlet x := parse_delay_token k mal v o t e in match x with Some (v, o) => expr_from k mal v o r | None => Ok None end
  end.
Definition expr (k : N) (mal : N -> bool) (v : vec delay_data) (toks : list (bool * ts)) : res (option (vec delay_data * dopts)) := expr_from k mal v dopts0 toks.
(** one after another *)
Fixpoint exprs (k : N) (mal : N -> bool) (v : vec delay_data) (es : list (list (bool * ts))) : res (option (vec delay_data * list dopts)) :=
  match es with
  | [] => Ok (Some (v, []))
  | e :: r => rlet x := expr k mal v e in
      match x with Some (v, o) => rlet y := exprs k mal v r in Ok (match y with Some (v, os) => Some (v, o :: os) | None => None end) | None => Ok None end
  end.

(** pokes: a list is started, or a payload at [p] is added to the list [idx] *)
Inductive pop := PAlloc | PAdd (idx p : N) (e : bool) (a : N).
Inductive pval := PIdx (i : N) | PDup (d : bool).
(** [b]: where the array is whenever it is reallocated *)
Definition pstep (k : N) (mal : N -> bool) (b : N) (s : ptab) (o : pop) : res (ptab * pval) :=
  match o with
  | PAlloc => rlet (s, i) := alloc_poke_data k mal s b in Ok (s, PIdx i)
  | PAdd idx p e a => rlet (s, d) := poke_add s idx p e a in Ok (s, PDup d)
  end.
Fixpoint prun (k : N) (mal : N -> bool) (b : N) (s : ptab) (os : list pop) : res (ptab * list pval) :=
  match os with [] => Ok (s, []) | o :: r => rlet (s, v) := pstep k mal b s o in rlet (s, vs) := prun k mal b s r in Ok (s, v :: vs) end.
(** the same on a list of lists; None if the index is wrong or there are too many *)
Definition aplist := list (N * (bool * N)).
Definition apstep (L : list aplist) (o : pop) : option (list aplist * pval) :=
  match o with
  | PAlloc => if N.of_nat (length L) <? 65536 then Some (L ++ [[]], PIdx (N.of_nat (length L))) else None
  | PAdd idx p e a =>
      match nth_error L (N.to_nat idx) with
      | None => None
      | Some l => if existsb (fun q => eqb (fst (snd q)) e && (snd (snd q) =? a)) l then Some (L, PDup true) else Some (set_nth L (N.to_nat idx) ((p, (e, a)) :: l), PDup false)
      end
  end.
Fixpoint aprun (L : list aplist) (os : list pop) : option (list aplist * list pval) :=
  match os with [] => Some (L, []) | o :: r => match apstep L o with Some (L, v) => match aprun L r with Some (L, vs) => Some (L, v :: vs) | None => None end | None => None end end.
(** payloads are allocated at places of their own *)
Definition paddrs (os : list pop) : list N := flat_map (fun o => match o with PAdd _ p _ _ => [p] | PAlloc => [] end) os.
Definition placed (b : N) (os : list pop) : Prop := NoDup (paddrs os) /\ forall p, In p (paddrs os) -> p <> 0 /\ (p < b \/ b + 16 * 2 ^ 17 <= p).
