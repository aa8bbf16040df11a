(** What is claimed of the cache of memory mappings. *)
From Verif Require Import Base MmapModel.
From Coq Require Import Sorted.
Import ListNotations.
Open Scope N_scope.

Definition contains (e : entry) (ip : N) : Prop :=
  e_start e <= ip < e_end e.

(** Ascending and non-overlapping: each range is non-negative and ends at or
    before the start of every later one. *)
Definition before (a b : entry) : Prop :=
  e_start a < e_start b /\ e_end a <= e_start b.

Definition ascending (es : list entry) : Prop :=
  Forall (fun e => e_start e <= e_end e) es /\ StronglySorted before es.

(** The answer to a lookup. *)
Definition attributed (es : list entry) (ip : N) (r : option entry) : Prop :=
  match r with
  | Some e => In e es /\ contains e ip
  | None => forall e, In e es -> ~ contains e ip
  end.

(** Maps contents as the kernel writes them: known protections, ascending
    non-empty ranges.  Lines without a path are not constrained. *)
Definition line_before (a b : line) : Prop := l_end a <= l_start b.

Fixpoint named (ls : list (option line)) : list line :=
  match ls with
  | [] => []
  | Some l :: ls' => l :: named ls'
  | None :: ls' => named ls'
  end.

Definition prot_ok (l : line) : Prop :=
  (l_r l = ch "-" \/ l_r l = ch "r") /\
  (l_w l = ch "-" \/ l_w l = ch "w") /\
  (l_x l = ch "-" \/ l_x l = ch "x") /\
  (l_s l = ch "p" \/ l_s l = ch "s").

Definition kernel_maps (ls : list (option line)) : Prop :=
  Forall (fun l => prot_ok l /\ l_start l < l_end l) (named ls) /\
  StronglySorted line_before (named ls).

(** An entry shows a line. *)
Definition shows (l : line) (e : entry) : Prop :=
  e_start e = l_start l /\ e_end e = l_end l /\ e_off e = l_off l /\
  e_major e = l_major l /\ e_minor e = l_minor l /\ e_path e = l_path l /\
  N.testbit (e_prot e) 0 = (l_r l =? ch "r") /\
  N.testbit (e_prot e) 1 = (l_w l =? ch "w") /\
  N.testbit (e_prot e) 2 = (l_x l =? ch "x") /\
  N.testbit (e_prot e) 3 = (l_s l =? ch "s").

(** The entries in use for a tracee, if any. *)
Definition cached (s : state) (t : N) : option (list entry) :=
  option_map snd (caches s t).

(** What a maps file gives: nothing if it cannot be opened or holds no
    usable line. *)
Definition content (f : option (list (option line))) : option (list entry) :=
  match f with
  | None => None
  | Some ls => match build ls with [] => None | es => Some es end
  end.

(** Number of mapping changes seen. *)
Fixpoint reports (h : list event) : nat :=
  match h with
  | [] => O
  | EReport :: h' => S (reports h')
  | _ :: h' => reports h'
  end.

(** The contents the maps file of [t] has had since the last mapping change
    seen: [cur] is what it holds now, [vs] what it has held since then
    (including now). *)
Fixpoint versions (h : list event) (t : N)
  (cur : option (list (option line))) (vs : list (option (list (option line))))
  : list (option (list (option line))) :=
  match h with
  | [] => vs
  | EFiles f :: h' => versions h' t (f t) (f t :: vs)
  | EReport :: h' => versions h' t cur [cur]
  | _ :: h' => versions h' t cur vs
  end.

(** No change of files after the last report. *)
Fixpoint settled (h : list event) (b : bool) : bool :=
  match h with
  | [] => b
  | EFiles _ :: h' => settled h' false
  | EReport :: h' => settled h' true
  | _ :: h' => settled h' b
  end.
