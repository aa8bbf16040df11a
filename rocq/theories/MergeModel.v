(** Model of src/strace-log-merge: merging the logs that strace -ff -tt wrote, one per process. *)
From Verif Require Import Base.
Local Open Scope N_scope.

(** the lines of a text; the last one need not be terminated *)
Fixpoint lines (b : list N) : list (list N) :=
  match b with
  | [] => []
  | c :: r => if c =? 10 then [] :: lines r else match lines r with [] => [[c]] | l :: ls => (c :: l) :: ls end
  end.
Definition unlines (l : list (list N)) : list N := concat (map (fun t => t ++ [10]) l).
Definition is_digit (c : N) : bool := (48 <=? c) && (c <=? 57).
(** \([0-9][0-9]\): with the colon; lines 23, 71 *)
Definition dd (s : list N) : option (list N * list N) :=
  match s with a :: b :: 58 :: r => if is_digit a && is_digit b then Some ([a; b], r) else None | _ => None end.
(** \([0-9][0-9]*\), the longest *)
Fixpoint digits (s : list N) : list N * list N :=
  match s with
  | c :: r => if is_digit c then let (d, t) := digits r in (c :: d, t) else ([], s)
  | [] => ([], [])
  end.
(** the pattern of line 71: the digits of its groups, if it matches at the beginning of the line.  No digit,
    colon, period or space can be matched in two ways, so that nothing has to be tried again; of the two optional groups with
    a colon it does not matter which one matches. *)
Definition stamp (s : list N) : option (list N) :=
  let (a, s) := match dd s with Some (a, r) => (a, r) | None => ([], s) end in
  let (b, s) := match dd s with Some (b, r) => (b, r) | None => ([], s) end in
  let (d, r) := digits s in
  match d, r with
  | [], _ => None
  | _, 32 :: _ => Some (a ++ b ++ d)
  | _, 46 :: r => let (e, r) := digits r in match e, r with _ :: _, 32 :: _ => Some (a ++ b ++ d ++ e) | _, _ => None end
  | _, _ => None
  end.

(** a log: the suffix of the file's name, and the contents *)
Definition log := (list N * list N)%type.
(** iterate_logfiles, lines 36-47: [ "$suffix" -gt 0 ]; signs and blanks, which it also takes, are left out.
    The list is that of the regular files in the order of the expansion of "$logfile".* *)
Definition number (s : list N) : N := fold_left (fun a c => 10 * a + (c - 48)) s 0.
Definition chosen (l : log) : bool := negb (match fst l with [] => true | _ => false end) && forallb is_digit (fst l) && (0 <? number (fst l)).
(** process_suffix, lines 49-59 *)
Definition max_suffix_length (l : list log) : nat := fold_left (fun m f => if (m <? length (fst f))%nat then length (fst f) else m) l 0%nat.
(** process_logfile, lines 61-73 *)
Definition padded (w : nat) (s : list N) : list N := s ++ repeat 32 (w - length s).
Definition convert (pid l : list N) : option (list N) :=
  match stamp l with Some k => Some (k ++ [32] ++ pid ++ [32] ++ l) | None => None end.
Definition terminated (b : list N) : bool := last b 10 =? 10.
Fixpoint sed (pid : list N) (term : bool) (l : list (list N)) : list N :=
  match l with
  | [] => []
  | [t] => match convert pid t with Some t => t ++ (if term then [10] else []) | None => [] end
  | t :: l => (match convert pid t with Some t => t ++ [10] | None => [] end) ++ sed pid term l
  end.
Definition process_logfile (w : nat) (f : log) : list N := sed (padded w (fst f)) (terminated (snd f)) (lines (snd f)) ++ [10].
(** sort -s -n -k1,1: by the number the line begins with, otherwise in the order given *)
Definition sort_key (l : list N) : N := number (fst (digits l)).
Fixpoint ins (x : list N) (l : list (list N)) : list (list N) :=
  match l with [] => [x] | y :: r => if sort_key x <=? sort_key y then x :: l else y :: ins x r end.
Definition sort (l : list (list N)) : list (list N) := fold_right ins [] l.
(** sed -n 's/^[0-9][0-9]* //p' *)
Definition strip (l : list N) : list (list N) := match digits l with (_ :: _, 32 :: r) => [r] | _ => [] end.
(** the whole, lines 75-85; None: "strace output not found" *)
Definition merge (files : list log) : option (list N) :=
  let l := filter chosen files in
  let w := max_suffix_length l in
  if (0 <? w)%nat
  then Some (unlines (filter (fun t => match t with [] => false | _ => true end) (flat_map strip (sort (lines (concat (map (process_logfile w) l)))))))
  else None.
