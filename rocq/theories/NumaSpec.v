(** What is claimed of memory policies and node sets, without the model: mbind(2), set_mempolicy(2), move_pages(2). *)
From Verif Require Import Base Printf.
From Verif Require Import TvalSpec InfoSpec CapSpec.
From Verif Require BitsModel.
Local Open Scope N_scope.

Fixpoint commas (l : list (list N)) : list N := match l with [] => [] | [x] => x | x :: r => x ++ bs ", " ++ commas r end.
(** An array of [n] elements of which [k] are shown; [elt i] is what the text of element i has to satisfy; [rest]: what stands for the others *)
Definition array_text (elt : nat -> list N -> Prop) (k : nat) (rest : list (list N)) (t : list N) : Prop :=
  exists l, length l = k /\ (forall i, (i < k)%nat -> elt i (nth i l [])) /\ t = bs "[" ++ commas (l ++ rest) ++ bs "]".
(** all of [n], or with abbreviation (no -v) at most [most] *)
Definition count (abbrev : bool) (most n : N) : nat := N.to_nat (if abbrev then N.min n most else n).
(** "..." if not all are shown *)
Definition cut (k n : nat) : list (list N) := if (k <? n)%nat then [bs "..."] else [].

(** A mask of nodes has maxnode - 1 bits, in words of [bits]: the least number of words *)
Definition words (bits maxnode k : N) : Prop := maxnode - 1 <= k * bits < maxnode - 1 + bits.
(** a word: hexadecimal, zero-padded *)
Definition word_text (v : N) (t : list N) : Prop :=
  v = 0 /\ t <> [] /\ rd_num 16 0 t = Some 0 \/ v <> 0 /\ hexnum t v.

(** ---- policies ---- *)
Definition policy (k : N) : option (list N) :=
  nth_error [bs "MPOL_DEFAULT"; bs "MPOL_PREFERRED"; bs "MPOL_BIND"; bs "MPOL_INTERLEAVE"; bs "MPOL_LOCAL"; bs "MPOL_PREFERRED_MANY"; bs "MPOL_WEIGHTED_INTERLEAVE"] (N.to_nat k).
(** the names of the flags in the bits 15, 14 and 13 *)
Definition flag_names (v : N) : list (list N) :=
  (if N.testbit v 15 then [bs "MPOL_F_STATIC_NODES"] else []) ++ (if N.testbit v 14 then [bs "MPOL_F_RELATIVE_NODES"] else [])
  ++ (if N.testbit v 13 then [bs "MPOL_F_NUMA_BALANCING"] else []).
(** the rest: the policy *)
Definition base_mode (v : N) : N := N.ldiff v 0xe000.
Definition hex_or_0 (t : list N) (n : N) : Prop := n = 0 /\ t = bs "0" \/ n <> 0 /\ hexnum t n.
(** the name of the policy and the flags; without a name the number *)
Definition mode_text (st : BitsModel.xstyle_t) (v : N) (t : list N) : Prop :=
  exists x, hex_or_0 x v /\
  match st, policy (base_mode v), flag_names v with
  | BitsModel.XRAW, _, _ => t = x
  | BitsModel.XABBREV, Some p, fl => t = bar (p :: fl)
  | BitsModel.XVERBOSE, Some p, fl => t = x ++ bs " /* " ++ bar (p :: fl) ++ bs " */"
  | _, None, [] => t = x ++ bs " /* MPOL_??? */"
  | BitsModel.XABBREV, None, fl => exists y, hexnum y (base_mode v) /\ t = bar (fl ++ [y])
  | BitsModel.XVERBOSE, None, fl => exists y, hexnum y (base_mode v) /\ t = x ++ bs " /* " ++ bar (fl ++ [y]) ++ bs " */"
  end.

(** ---- the status of a page: a node, or the negation of an error number that has the name [errname] ---- *)
Definition status_text (errname : N -> option (list N)) (st : BitsModel.xstyle_t) (z : Z) (t : list N) : Prop :=
  exists x, integer x z /\
  match (if (z <? 0)%Z then errname (Z.to_N (- z)) else None), st with
  | None, _ | _, BitsModel.XRAW => t = x
  | Some s, BitsModel.XABBREV => t = bs "-" ++ s
  | Some s, BitsModel.XVERBOSE => t = x ++ bs " /* -" ++ s ++ bs " */"
  end.
