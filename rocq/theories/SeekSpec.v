(** What is claimed of offsets, without the model: lseek(2), _llseek(2), sendfile(2). *)
From Verif Require Import Base Printf InfoSpec TvalSpec NumaSpec VmSpec AioSpec.
From Verif Require BitsModel.
Local Open Scope N_scope.

Definition origin (v : N) : option (list N) :=
  match v with 0 => Some (bs "SEEK_SET") | 1 => Some (bs "SEEK_CUR") | 2 => Some (bs "SEEK_END") | 3 => Some (bs "SEEK_DATA") | 4 => Some (bs "SEEK_HOLE") | _ => None end.
Definition origin_text st (v : N) t : Prop := exists x, hex_or_0 x v /\ named st (origin v) (bs "SEEK_???") x t.
(** The number of [w] bytes at [a]: "[n]" *)
Definition pointed (b : list N) (t : list N) : Prop := exists d, number d (number_at b 0 (length b)) /\ t = bs "[" ++ d ++ bs "]".
