(** The vectors of execve and how they are shown. *)
From Verif Require Import Base Printf.
Local Open Scope N_scope.

(** a vector: its words up to the null word, or up to an address that cannot be read *)
Inductive ending := Null | Bad (a : N).
Inductive vector (rd : N -> option N) (wsz : N) : N -> list N -> ending -> Prop :=
| v_null a : a < 2^64 -> rd a = Some 0 -> vector rd wsz a [] Null
| v_bad a : 2^64 <= a \/ rd a = None -> vector rd wsz a [] (Bad (u64 a))
| v_word a w l e : a < 2^64 -> rd a = Some w -> w <> 0 -> vector rd wsz (a + wsz) l e -> vector rd wsz a (w :: l) e.
Fixpoint join (l : list (list N)) : list N := match l with [] => [] | [x] => x | x :: r => x ++ bs ", " ++ join r end.
Definition hex (a : N) : list N := if a =? 0 then bs "0" else bs "0x" ++ pr_num 16 a.
(** the elements; at most [limit] strings *)
Definition items (str : N -> list N) (limit : option N) (l : list N) (e : ending) : list (list N) :=
  if match limit with Some m => m <? N.of_nat (length l) | None => false end
  then map str (firstn (N.to_nat (match limit with Some m => m | None => 0 end)) l) ++ [bs "..."]
  else map str l ++ match e with Null => [] | Bad a => [bs "... /* " ++ hex a ++ bs " */"] end.
Definition listed (str : N -> list N) (limit : option N) (addr : N) (l : list N) (e : ending) : list N :=
  match l, e with
  | [], Bad _ => if addr =? 0 then bs "NULL" else hex addr
  | _, _ => bs "[" ++ join (items str limit l e) ++ bs "]"
  end.
Definition counted (addr : N) (l : list N) (e : ending) : list N :=
  (if addr =? 0 then bs "NULL" else hex addr) ++
  match l, e with
  | [], Bad _ => []
  | _, _ => bs " /* " ++ pr_num 10 (N.of_nat (length l)) ++ (match l with [_] => bs " var" | _ => bs " vars" end) ++ (match e with Bad _ => bs ", unterminated" | Null => [] end) ++ bs " */"
  end.
