(** Stack traces, strace(1), option -k: "Print the execution stack trace of the traced processes after each system call". *)
From Verif Require Import Base Printf StackModel.
Local Open Scope N_scope.

(** The text of a frame: the binary, the function and the offset in it if known, the address, the source if known. *)
Definition number16 (n : N) : list N := bs "0x" ++ pr_num 16 n.
Inductive text : frame -> list N -> Prop :=
| x_fun b c s off t : text (Call (Some b) (Some (c :: s)) off t None) (bs " > " ++ b ++ bs "(" ++ (c :: s) ++ bs "+" ++ number16 off ++ bs ") [" ++ number16 t ++ bs "]")
| x_src b c s off t f n : text (Call (Some b) (Some (c :: s)) off t (Some (f, n)))
    (bs " > " ++ b ++ bs "(" ++ (c :: s) ++ bs "+" ++ number16 off ++ bs ") [" ++ number16 t ++ bs "] " ++ f ++ bs ":" ++ pr_num 10 n)
| x_none b s off t src : s = None \/ s = Some [] -> text (Call (Some b) s off t src) (bs " > " ++ b ++ bs "() [" ++ number16 t ++ bs "]")
| x_err m : text (Error m 0) (bs " > " ++ m)
| x_err_at m a : 0 < a -> text (Error m a) (bs " > " ++ m ++ bs " [" ++ number16 a ++ bs "]").
Inductive texts : list frame -> list item -> Prop :=
| xs_nil : texts [] []
| xs_cons f t l r : text f t -> texts l r -> texts (f :: l) (Frame t :: r).

(** Is a call with this outcome to be shown? *)
Definition wanted (c : config) (err : bool) : bool := if err then failed c else successful c.
Definition death (d : bool) : list item := if d then [Death] else [].
(** What can happen to a process, and what should be shown of it.  Calls that replace or end the process are shown with the
    stack they were entered with ([taken]), the others with that at their end.  Nothing is shown of filtered calls and of calls with an unwanted outcome. *)
Inductive story (c : config) : list event -> list item -> Prop :=
| s_now : story c [] []
| s_filtered id se ck w ok err p w' h o : story c h o -> story c (Enter id se ck true w :: Leave ok err p w' :: h) o
| s_call id se ck w err p w' r h o : wanted c err = true -> texts (if se && negb ck then w else w') r -> story c h o ->
    story c (Enter id se ck false w :: Leave true err p w' :: h) (Begin id :: Result id :: r ++ o)
| s_unwanted id se ck w err p w' h o : wanted c err = false -> story c h o -> story c (Enter id se ck false w :: Leave true err p w' :: h) o
| s_signal id w r h o : texts w r -> story c h o -> story c (Stop id true w :: h) (Signal id :: r ++ o)
| s_no_signal id w h o : story c h o -> story c (Stop id false w :: h) o
| s_end d : story c [Die_ d] (death d)
| s_exit_filtered id se ck w d : story c [Enter id se ck true w; ExitStop; Die_ d] (death d)
| s_exit id se ck w r d : unfinished c = true -> texts (if se && negb ck then w else []) r ->
    story c [Enter id se ck false w; ExitStop; Die_ d] (Begin id :: NoReturn id :: death d ++ r)
| s_exit_unwanted id se ck w d : unfinished c = false -> story c [Enter id se ck false w; ExitStop; Die_ d] (death d).

(** The conditions of the theorem: stacks taken at the entry are not empty and name no function with an empty name; they belong to calls that are shown; the personality stays. *)
Definition no_empty (f : frame) : Prop := match f with Call _ (Some []) _ _ _ => False | _ => True end.
Inductive plain (c : config) : list event -> Prop :=
| p_now : plain c []
| p_leave id se ck filt w ok err w' h : (filt = false -> se && negb ck = true -> w <> [] /\ Forall no_empty w /\ wanted c err = true) ->
    plain c h -> plain c (Enter id se ck filt w :: Leave ok err 0 w' :: h)
| p_stop id sh w h : plain c h -> plain c (Stop id sh w :: h)
| p_end d : plain c [Die_ d]
| p_exit id se ck filt w d : (filt = false -> se && negb ck = true -> Forall no_empty w /\ unfinished c = true) -> plain c [Enter id se ck filt w; ExitStop; Die_ d].

(** ** Walking: what libdw tells of each address, at most [limit] of them *)
Definition address (f : N * bool) : N := if snd f then fst f else u64 (fst f + 2^64 - 1).
Definition found (look : N -> option info) (f : N * bool) : list frame :=
  match look (address f) with Some (m, s, o, t, l) => [Call m s o t l] | None => [] end.
(** the frames up to the first one that cannot be read *)
Fixpoint readable (l : list dframe) : list (N * bool) := match l with Some f :: l => f :: readable l | _ => [] end.
Definition all_readable (l : list dframe) : bool := forallb (fun f => match f with Some _ => true | None => false end) l.
Definition told (look : N -> option info) (e : list N) (bad : bool) (limit : nat) (l : list dframe) : list frame :=
  flat_map (found look) (firstn limit (readable l)) ++
  (if (limit <=? length (readable l))%nat then [Error (bs "too many stack frames") 0] else if negb (all_readable l) || bad then [Error e 0] else []).
(** a history of walks, the mappings being those after so many changes *)
Fixpoint told_all (look : N -> N -> option info) (limit : nat) (g : N) (h : list wevent) : list (list frame) :=
  match h with
  | [] => []
  | Remap :: h => told_all look limit (g + 1) h
  | Walk e bad l :: h => told (look g) e bad limit l :: told_all look limit g h
  end.
