(** Model of src/number_set.c. *)
From Verif Require Import Base.
Local Open Scope N_scope.

(** src/number_set.c:24-28, struct number_set.  The vector [vec] has exactly
    [nslots] elements in the C code (reallocate_number_set keeps them in step),
    so [nslots] is [length vec] here; [nt] is the field called `not'. *)
Record nset := { vec : list N; nt : bool }.
Definition nslots (s : nset) : N := N.of_nat (length (vec s)).

(** src/number_set.c:22, BITS_PER_SLOT = sizeof(unsigned int) * 8. *)
Definition bits_per_slot : N := 32.

(** src/number_set.c:30-34, number_setbit; [None] = out-of-bounds write. *)
Definition number_setbit (i : N) (v : list N) : option (list N) :=
  let k := N.to_nat (i / bits_per_slot) in
  match nth_error v k with
  | Some w => upd v k (N.lor w (N.shiftl 1 (i mod bits_per_slot)))
  | None => None
  end.

(** src/number_set.c:36-40, number_isset; [None] = out-of-bounds read.
    The C conversion of a nonzero unsigned int to bool is [negb (_ =? 0)]. *)
Definition number_isset (i : N) (v : list N) : option bool :=
  match nth_error v (N.to_nat (i / bits_per_slot)) with
  | Some w => Some (negb (N.land w (N.shiftl 1 (i mod bits_per_slot)) =? 0))
  | None => None
  end.

(** src/number_set.c:42-51, reallocate_number_set: the new slots are zeroed. *)
Definition reallocate_number_set (s : nset) (new_nslots : N) : nset :=
  if new_nslots <=? nslots s then s
  else {| vec := vec s ++ repeat 0 (N.to_nat (new_nslots - nslots s)); nt := nt s |}.

(** src/defs.h:1931-1948, popcount32 (builtin or Kernighan loop): the number of
    one bits of each 32-bit word, summed in an unsigned int. *)
Fixpoint pos_popcount (p : positive) : N :=
  match p with
  | xH => 1
  | xO q => pos_popcount q
  | xI q => 1 + pos_popcount q
  end.
Definition popcount (x : N) : N := match x with N0 => 0 | Npos p => pos_popcount p end.
Fixpoint popcount32 (a : list N) (count : N) : N :=
  match a with
  | [] => count
  | x :: r => popcount32 r (u32 (count + popcount x))
  end.

(** src/number_set.c:53-59, get_number_setbit. *)
Definition get_number_setbit (s : nset) : N := popcount32 (vec s) 0.

(** src/number_set.c:61-66, number_set_array_is_empty; a NULL array is [None]
    in the first argument; result [None] = out-of-bounds index. *)
Definition number_set_array_is_empty (set : option (list nset)) (idx : nat) : option bool :=
  match set with
  | None => Some true
  | Some a =>
      match nth_error a idx with
      | None => None
      | Some s => Some (negb (negb (nslots s =? 0) || nt s))
      end
  end.

(** src/number_set.c:68-73, is_number_in_set. *)
Definition is_number_in_set (number : N) (set : option nset) : option bool :=
  match set with
  | None => Some false
  | Some s =>
      if number / bits_per_slot <? nslots s
      then match number_isset number (vec s) with
           | Some b => Some (xorb b (nt s))
           | None => None
           end
      else Some (xorb false (nt s))
  end.

(** src/number_set.c:75-81, is_number_in_set_array. *)
Definition is_number_in_set_array (number : N) (set : option (list nset)) (idx : nat) : option bool :=
  match set with
  | None => Some false
  | Some a => match nth_error a idx with
              | Some s => is_number_in_set number (Some s)
              | None => None
              end
  end.

(** src/number_set.c:83-88, is_complete_set. *)
Definition is_complete_set (set : option nset) (max_numbers : N) : bool :=
  match set with
  | None => false
  | Some s => (nt s && (nslots s =? 0)) || (get_number_setbit s =? max_numbers)
  end.

(** src/number_set.c:90-100, is_complete_set_array, for arrays with (at least)
    as many elements as [max_numbers]; [None] = out of bounds. *)
Fixpoint is_complete_set_array (set : list nset) (max_numbers : list N) : option bool :=
  match max_numbers with
  | [] => Some true
  | m :: ms =>
      match set with
      | [] => None
      | s :: ss => if is_complete_set (Some s) m then is_complete_set_array ss ms else Some false
      end
  end.

(** src/number_set.c:102-107, add_number_to_set. *)
Definition add_number_to_set (number : N) (s : nset) : option nset :=
  let s' := reallocate_number_set s (number / bits_per_slot + 1) in
  match number_setbit number (vec s') with
  | Some v => Some {| vec := v; nt := nt s' |}
  | None => None
  end.

(** src/number_set.c:109-114, add_number_to_set_array. *)
Definition add_number_to_set_array (number : N) (a : list nset) (idx : nat) : option (list nset) :=
  match nth_error a idx with
  | Some s => match add_number_to_set number s with
              | Some s' => upd a idx s'
              | None => None
              end
  | None => None
  end.

(** Apply [f] to the first [n] elements of an array ([for i < nmemb] loops of
    src/number_set.c:119 and :130); [None] = out of bounds. *)
Fixpoint map_first (f : nset -> nset) (a : list nset) (n : nat) {struct n} : option (list nset) :=
  match n with
  | O => Some a
  | S n' => match a with
            | [] => None
            | s :: r => match map_first f r n' with Some r' => Some (f s :: r') | None => None end
            end
  end.

(** src/number_set.c:116-125, clear_number_set_array: the vectors keep their
    size and are zero-filled. *)
Definition clear_one (s : nset) : nset := {| vec := map (fun _ => 0) (vec s); nt := false |}.
Definition clear_number_set_array (a : list nset) (nmemb : nat) : option (list nset) :=
  map_first clear_one a nmemb.

(** src/number_set.c:127-132, invert_number_set_array. *)
Definition invert_one (s : nset) : nset := {| vec := vec s; nt := negb (nt s) |}.
Definition invert_number_set_array (a : list nset) (nmemb : nat) : option (list nset) :=
  map_first invert_one a nmemb.

(** src/number_set.c:134-138, alloc_number_set_array (xcalloc: all zero). *)
Definition empty_nset : nset := {| vec := []; nt := false |}.
Definition alloc_number_set_array (nmemb : nat) : list nset := repeat empty_nset nmemb.

(** Operations clients perform on an array of sets. *)
Inductive nop :=
| NAdd (number : N) (idx : nat)
| NInvert (nmemb : nat)
| NClear (nmemb : nat).

Definition nstep (a : list nset) (o : nop) : option (list nset) :=
  match o with
  | NAdd n i => add_number_to_set_array n a i
  | NInvert k => invert_number_set_array a k
  | NClear k => clear_number_set_array a k
  end.
Fixpoint nrun (a : list nset) (ops : list nop) : option (list nset) :=
  match ops with
  | [] => Some a
  | o :: r => match nstep a o with Some a' => nrun a' r | None => None end
  end.
