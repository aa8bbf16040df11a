(** What is claimed of the environment edits. *)
From Verif Require Import Base.
Import ListNotations.
Local Open Scope N_scope.

(** The name of an entry or an edit is what precedes its first '='. *)
Fixpoint name (s : list N) : list N :=
  match s with
  | [] => []
  | c :: s' => if c =? 61 then [] else c :: name s'
  end.

(** VAR=VAL sets, VAR alone removes. *)
Definition sets (s : list N) : Prop := In 61 s.

(** A string can be an entry of an environment. *)
Definition cstring (s : list N) : Prop := ~ In 0 s.

(** The entries of a variable, in order, and the entries of the variables
    selected by [keep]. *)
Definition bindings (n : list N) (env : list (list N)) : list (list N) :=
  filter (fun e => beqs (name e) n) env.
Definition only (keep : list N -> bool) (env : list (list N)) : list (list N) :=
  filter (fun e => keep (name e)) env.

(** The last edit of a variable. *)
Fixpoint last_edit (n : list N) (changes : list (list N)) : option (list N) :=
  match changes with
  | [] => None
  | c :: r =>
      match last_edit n r with
      | Some d => Some d
      | None => if beqs (name c) n then Some c else None
      end
  end.
