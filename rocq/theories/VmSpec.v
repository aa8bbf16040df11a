(** What is claimed of the memory mapping calls, without the model: mmap(2), mremap(2), mincore(2), x86. *)
From Verif Require Import Base Printf.
From Verif Require Import TvalSpec CapSpec NumaSpec.
From Verif Require BitsModel.
Local Open Scope N_scope.

(** the names of the bits that are set, in the order of [bits] *)
Definition marks (bits : list (N * list N)) (v : N) : list (list N) :=
  flat_map (fun b => if N.testbit v (fst b) then [snd b] else []) bits.
(** the bits that have no names *)
Definition unnamed (bits : list (N * list N)) (v : N) : N := fold_left (fun a b => N.clearbit a (fst b)) bits v.
(** those as a number, if there are any *)
Definition rest_text (u : N) (y : list (list N)) : Prop := u = 0 /\ y = [] \/ u <> 0 /\ exists h, hexnum h u /\ y = [h].

(** A set of flags with the names [bits]; [zero]: the name of the value 0, if it has one; [unknown]: the remark if no bit has a name *)
Definition flags_text (st : BitsModel.xstyle_t) (bits : list (N * list N)) (zero : option (list N)) (unknown : list N) (v : N) (t : list N) : Prop :=
  exists x y, hex_or_0 x v /\ rest_text (unnamed bits v) y /\
  let some := if v =? 0 then match zero with Some z => [z] | None => [] end else marks bits v in
  match st, some with
  | BitsModel.XRAW, _ => t = x
  | _, [] => t = x ++ if v =? 0 then [] else unknown
  | BitsModel.XABBREV, _ => t = bar (some ++ y)
  | BitsModel.XVERBOSE, _ => t = x ++ bs " /* " ++ bar (some ++ y) ++ bs " */"
  end.

Definition prot_bits : list (N * list N) :=
  [(0, bs "PROT_READ"); (1, bs "PROT_WRITE"); (2, bs "PROT_EXEC"); (3, bs "PROT_SEM"); (24, bs "PROT_GROWSDOWN"); (25, bs "PROT_GROWSUP")].
Definition prot_text st v t : Prop := flags_text st prot_bits (Some (bs "PROT_NONE")) (bs " /* PROT_??? */") v t.
Definition mremap_bits : list (N * list N) := [(0, bs "MREMAP_MAYMOVE"); (1, bs "MREMAP_FIXED"); (2, bs "MREMAP_DONTUNMAP")].

(** ---- the flags of mmap: a type in the bits 0-3, flags, the size of huge pages in the bits 26-31 ---- *)
Definition type_name (k : N) : option (list N) :=
  match k with 0 => Some (bs "MAP_FILE") | 1 => Some (bs "MAP_SHARED") | 2 => Some (bs "MAP_PRIVATE") | 3 => Some (bs "MAP_SHARED_VALIDATE") | 8 => Some (bs "MAP_DROPPABLE") | _ => None end.
Definition map_bits : list (N * list N) :=
  [(4, bs "MAP_FIXED"); (5, bs "MAP_ANONYMOUS"); (6, bs "MAP_32BIT"); (7, bs "MAP_ABOVE4G"); (14, bs "MAP_NORESERVE"); (15, bs "MAP_POPULATE"); (16, bs "MAP_NONBLOCK");
   (8, bs "MAP_GROWSDOWN"); (11, bs "MAP_DENYWRITE"); (12, bs "MAP_EXECUTABLE"); (13, bs "MAP_LOCKED"); (17, bs "MAP_STACK"); (18, bs "MAP_HUGETLB"); (19, bs "MAP_SYNC");
   (20, bs "MAP_FIXED_NOREPLACE")].
(** the bits 4-25 and above 31, without the names *)
Definition map_rest (v : N) : N := unnamed map_bits (v mod 2 ^ 26 - v mod 2 ^ 4 + 2 ^ 32 * (v / 2 ^ 32)).
Definition huge (v : N) : N := v / 2 ^ 26 mod 2 ^ 6.
Definition map_flags_text (st : BitsModel.xstyle_t) (v : N) (t : list N) : Prop :=
  exists x k y h, hex_or_0 x v /\ rest_text (map_rest v) y /\
  (match type_name (v mod 16) with Some n => k = n | None => exists z, hexnum z (v mod 16) /\ k = z ++ bs " /* MAP_??? */" end) /\
  (huge v = 0 /\ h = [] \/ huge v <> 0 /\ exists d, number d (huge v) /\ h = [d ++ bs "<<MAP_HUGE_SHIFT"]) /\
  let names := bar (k :: marks map_bits v ++ y ++ h) in
  match st with
  | BitsModel.XRAW => t = x
  | BitsModel.XABBREV => t = names
  | BitsModel.XVERBOSE => t = x ++ bs " /* " ++ names ++ bs " */"
  end.

(** a descriptor or a key is an int *)
Definition int_value (a : N) (z : Z) : Prop := (- 2 ^ 31 <= z < 2 ^ 31 /\ (z mod 2 ^ 32 = Z.of_N (a mod 2 ^ 32)))%Z.
(** the arguments of mmap; [offset] in bytes *)
Definition mmap_text (st : BitsModel.xstyle_t) (fd : Z -> list N) (a : list N) (offset : N) (t : list N) : Prop :=
  exists p n r f d z x, address p (nth 0 a 0) /\ number n (nth 1 a 0) /\ prot_text st (nth 2 a 0) r /\ map_flags_text st (nth 3 a 0) f /\
    int_value (nth 4 a 0) z /\ d = fd z /\ hex_or_0 x offset /\ t = commas [p; n; r; f; d; x].
