(** Specification for StartThms: the search rule for programs named without a slash.
    PATH is a list of directories separated by colons; an empty element is the current
    directory; the program is the first regular file of that name with an execute permission. *)
From Verif Require Import Base StartModel.
Local Open Scope N_scope.

(** the elements of PATH *)
Fixpoint elements (p : list N) : list (list N) :=
  match p with
  | [] => [[]]
  | c :: r => if c =? ch ":" then [] :: elements r
              else match elements r with d :: ds => (c :: d) :: ds | [] => [[c]] end
  end.
(** the file [name] of directory [d] *)
Definition in_dir (d name : list N) : list N := d ++ (if last d 0 =? ch "/" then [] else bs "/") ++ name.
(** an executable file: regular, and some x of its mode is set *)
Definition program (e : env) (p : list N) : Prop :=
  exists i, stat e p = Some i /\ regular i = true /\ (N.testbit (mode i) 0 = true \/ N.testbit (mode i) 3 = true \/ N.testbit (mode i) 6 = true).
(** the directory an element of PATH stands for *)
Definition directory (e : env) (d : list N) : option (list N) := match d with [] => cwd e | _ => Some d end.
(** [p] is what the search through the directories [l] finds *)
Inductive finds (e : env) (name : list N) : list (list N) -> option (list N) -> Prop :=
| Nowhere : finds e name [] None
| Here : forall el d l, directory e el = Some d -> program e (in_dir d name) -> finds e name (el :: l) (Some (in_dir d name))
| Further : forall el l r, (forall d, directory e el = Some d -> ~ program e (in_dir d name)) -> finds e name l r -> finds e name (el :: l) r.

(** the system: no path of PATH_MAX bytes or more exists, nor is one the current directory, which is an absolute path *)
Definition system (e : env) : Prop :=
  (forall p, 4096 <= N.of_nat (length p) -> stat e p = None) /\
  (forall w, cwd e = Some w -> N.of_nat (length w) < 4096 /\ exists r, w = ch "/" :: r).
