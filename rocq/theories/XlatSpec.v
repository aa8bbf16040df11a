(** What a reader expects of symbolic constants (C36-C39). *)
From Coq Require Import Sorted.
From Verif Require Import Base BitsModel XlatModel.
Local Open Scope N_scope.

(** ** Tables *)
(** A table as the generator (src/xlat/gen.sh) writes it: named entries, in strictly
    increasing order of value if sorted; an indexed table has the entry of value i, if any, at
    position i, other positions being holes (0, NULL). *)
Definition table_ok (x : xlat) : Prop :=
  match ty x with
  | XT_NORMAL => Forall (fun e => snd e <> None) (data x)
  | XT_SORTED => StronglySorted (fun a b => fst a < fst b) (data x) /\ Forall (fun e => snd e <> None) (data x)
  | XT_INDEXED => forall i v s, nth_error (data x) i = Some (v, s) -> s <> None /\ v = N.of_nat i \/ s = None /\ v = 0
  end.
Definition named (x : xlat) (v : N) (s : list N) : Prop := In (v, Some s) (data x).

(** ** Flag sets *)
Definition ors (l : list (N * list N)) : N := fold_right (fun e a => N.lor (fst e) a) 0 l.
(** [chosen] named constants and the remaining bits [rest] together are [flags] *)
Record reading (ents : list entry) (flags : N) (chosen : list (N * list N)) (rest : N) : Prop := {
  r_named : Forall (fun e => In (fst e, Some (snd e)) ents) chosen;
  r_inside : Forall (fun e => N.land flags (fst e) = fst e) chosen;   (* contained in the value *)
  r_or : N.lor (ors chosen) rest = flags;                             (* nothing lost, nothing added *)
  r_disj : N.land (ors chosen) rest = 0;                              (* the rest is what is left *)
  r_once : ForallOrdPairs (fun a b => N.land (fst a) (fst b) = 0) chosen;
  r_nonzero : flags <> 0 -> Forall (fun e => fst e <> 0) chosen;
  (* no constant of the table is left unnamed *)
  r_max : forall v s, In (v, Some s) ents -> v <> 0 -> N.land rest v <> v;
  (* zero is shown by at most one name *)
  r_zero : flags = 0 -> chosen = [] \/ exists s, chosen = [(0, s)]
}.
Fixpoint join_bar (l : list (list N)) : list N :=
  match l with
  | [] => []
  | [a] => a
  | a :: r => a ++ bs "|" ++ join_bar r
  end.
Definition tokens (f : fmt) (chosen : list (N * list N)) (rest : N) : list (list N) :=
  map snd chosen ++ (if rest =? 0 then [] else [sprint_xlat_val f rest]).
(** the table in the comment at src/xlat.c:401-425 *)
Definition render (st : xstyle_t) (f : fmt) (dflt : option (list N)) (flags : N) (chosen : list (N * list N)) (rest : N) : list N :=
  match st, chosen with
  | XRAW, _ => if (flags =? 0) && match dflt with None => true | _ => false end then [] else sprint_xlat_val f flags
  | _, [] => if flags =? 0 then match dflt with Some _ => bs "0" | None => [] end
             else sprint_xlat_val f flags ++ comment dflt
  | XABBREV, _ => join_bar (tokens f chosen rest)
  | XVERBOSE, _ => sprint_xlat_val f flags ++ bs " /* " ++ join_bar (tokens f chosen rest) ++ bs " */"
  end.
Definition all_entries (xs : list xlat) : list entry := concat (map data xs).

(** Names that can be told apart from each other and from numbers *)
Definition digit_like (c : N) : Prop := 48 <= c <= 57 \/ c = 45.
Definition names_readable (ents : list entry) : Prop :=
  (forall v s, In (v, Some s) ents -> ~ In 124 s /\ exists c r, s = c :: r /\ ~ digit_like c) /\
  (forall v1 v2 s, In (v1, Some s) ents -> In (v2, Some s) ents -> v1 = v2).
