(** Model of the sparse map of src/trie.c, used by PID namespace translation (src/pidns.c).
    [p] is ptr_sz_lg (src/trie.c:22): 6, or 5 where pointers have 32 bits.  A node is NULL, an
    array of pointers (its capacity and its contents) or a data block (64-bit words).  Memory
    exhaustion, which terminates strace, is not modelled; malloc failure in trie_create
    neither. *)
From Verif Require Import Base.
Local Open Scope N_scope.

Inductive node := Null | Inner (slots : N) (child : N -> node) | Block (words : list N).

(** struct trie, src/trie.h:36-69 *)
Record trie := { empty_value : N; fill_value : N; root : node; key_size : N; item_size_lg : N;
                 node_key_bits : N; data_block_key_bits : N; max_depth : N }.

(** BIT64, MASK64: src/macros.h:108-118; a shift by 64 or more is undefined *)
Definition bit64 (n : N) : res N := if n <? 64 then Ok (2 ^ n) else Undef.
Definition mask64 (n : N) : res N := rlet b := bit64 n in Ok (b - 1).
(** BIT32, src/macros.h:104-106 *)
Definition bit32 (n : N) : res N := if n <? 32 then Ok (2 ^ n) else Undef.
(** MASK64_SAFE, src/macros.h:123-130 *)
Definition mask64_safe (n : N) : N := if n <? 64 then 2 ^ n - 1 else 2 ^ 64 - 1.
Definition shr64 (v n : N) : res N := if n <? 64 then Ok (N.shiftr v n) else Undef.

(** src/trie.c:27-39 *)
Definition node_size (p : N) (t : trie) (depth : N) : N :=
  if depth =? max_depth t then u8 (data_block_key_bits t + item_size_lg t)
  else if depth + 1 =? max_depth t then u8 ((key_size t - data_block_key_bits t - 1) mod node_key_bits t + 1 + p)
  else u8 (node_key_bits t + p).
(** src/trie.c:45-63 *)
Definition node_bit_offs (p : N) (t : trie) (depth : N) : N :=
  if depth =? max_depth t then 0
  else let offs := data_block_key_bits t in
       if depth + 1 =? max_depth t then offs
       else let offs := u8 (offs + (node_size p t (max_depth t - 1) - p)) in
            u8 (offs + (max_depth t - depth - 2) * node_key_bits t).

(** src/trie.c:79-82: [n] iterations remain *)
Fixpoint fill (n : nat) (isl i v : N) : N :=
  match n with
  | O => v
  | S k => fill k isl (i + 1) (N.lor v (u64 (N.shiftl v (2 ^ (isl + i)))))
  end.
(** src/trie.c:65-93; [None] is NULL *)
Definition trie_create (ks isl nkb db empty : N) : option trie :=
  if 6 <? isl then None
  else if 64 <? ks then None
  else if nkb <? 1 then None
  else if (db <? 1) || (ks <? db) then None
  else
    let e := N.land empty (mask64_safe (2 ^ isl)) in
    Some {| empty_value := e; fill_value := fill (N.to_nat (6 - isl)) isl 0 e; root := Null; key_size := ks; item_size_lg := isl;
            node_key_bits := nkb; data_block_key_bits := db; max_depth := u8 ((ks - db + nkb - 1) / nkb) |}.

(** src/trie.c:95-109 *)
Definition create_data_block (t : trie) : res (list N) :=
  let sz := u8 (data_block_key_bits t + item_size_lg t) in
  let sz := if sz <? 6 then 6 else sz in
  rlet count := bit32 (sz - 6) in
  Ok (repeat (fill_value t) (N.to_nat count)).

(** the key is out of range: src/trie.c:116-117 *)
Definition key_bad (t : trie) (key : N) : bool := (key_size t <? 64) && (2 ^ key_size t - 1 <? key).
(** index of the child for [key]: src/trie.c:136 *)
Definition child_pos (p : N) (t : trie) (key depth : N) : res N :=
  rlet m := mask64 (node_size p t depth - p) in
  rlet k := shr64 key (node_bit_offs p t depth) in
  Ok (N.land k m).
(** trie_get_node without auto_create, src/trie.c:119-140 *)
Fixpoint find_block (fuel : nat) (p : N) (t : trie) (key depth : N) (n : node) {struct fuel} : res (option (list N)) :=
  match fuel with
  | O => Undef
  | S f =>
      match n with
      | Null => Ok None
      | Block w => if depth =? max_depth t then Ok (Some w) else Undef
      | Inner s c =>
          if depth =? max_depth t then Undef
          else rlet pos := child_pos p t key depth in
               if pos <? s then find_block f p t key (depth + 1) (c pos) else Undef
      end
  end.
(** trie_get_node with auto_create, src/trie.c:119-140, together with the writing of the
    block found, [wr]: the updated tree.  A new array has BIT64(sz) bytes. *)
Fixpoint set_block (fuel : nat) (p : N) (t : trie) (key : N) (wr : list N -> res (list N)) (depth : N) (n : node) {struct fuel} : res node :=
  match fuel with
  | O => Undef
  | S f =>
      rlet n1 := (match n with
                  | Null => if depth =? max_depth t then rlet w := create_data_block t in Ok (Block w)
                            else rlet b := bit64 (node_size p t depth) in Ok (Inner (b / 2 ^ (p - 3)) (fun _ => Null))
                  | _ => Ok n
                  end) in
      if depth =? max_depth t then
        match n1 with Block w => rlet w' := wr w in Ok (Block w') | _ => Undef end
      else
        match n1 with
        | Inner s c =>
            rlet pos := child_pos p t key depth in
            if pos <? s
            then rlet n' := set_block f p t key wr (depth + 1) (c pos) in
                 Ok (Inner s (fun i => if i =? pos then n' else c i))
            else Undef
        | _ => Undef
        end
  end.

(** src/trie.c:143-162: pos, mask, offs *)
Definition calc_pos (t : trie) (key : N) : res (N * N * N) :=
  rlet km := mask64 (data_block_key_bits t) in
  let pos := N.shiftr (N.land key km) (6 - item_size_lg t) in
  if item_size_lg t =? 6 then Ok (pos, 2 ^ 64 - 1, 0)
  else rlet km2 := mask64 (6 - item_size_lg t) in
       let offs := N.shiftl (N.land key km2) (item_size_lg t) in
       if offs <? 64 then Ok (pos, u64 (N.shiftl (mask64_safe (2 ^ item_size_lg t)) offs), offs) else Undef.
(** src/trie.c:174-175 *)
Definition block_put (t : trie) (key val : N) (w : list N) : res (list N) :=
  rlet c := calc_pos t key in
  let '(pos, mask, offs) := c in
  match nth_error w (N.to_nat pos) with
  | None => Undef
  | Some x =>
      let x := N.ldiff x mask in
      let x := N.lor x (N.land (u64 (N.shiftl val offs)) mask) in
      match upd w (N.to_nat pos) x with Some w' => Ok w' | None => Undef end
  end.
(** src/trie.c:180-191 *)
Definition block_get (t : trie) (w : option (list N)) (key : N) : res N :=
  match w with
  | None => Ok (empty_value t)
  | Some w =>
      rlet c := calc_pos t key in
      let '(pos, mask, offs) := c in
      match nth_error w (N.to_nat pos) with
      | None => Undef
      | Some x => Ok (N.shiftr (N.land x mask) offs)
      end
  end.
Definition depth_fuel (t : trie) : nat := S (N.to_nat (max_depth t)).
Definition with_root (t : trie) (n : node) : trie :=
  {| empty_value := empty_value t; fill_value := fill_value t; root := n; key_size := key_size t; item_size_lg := item_size_lg t;
     node_key_bits := node_key_bits t; data_block_key_bits := data_block_key_bits t; max_depth := max_depth t |}.
(** src/trie.c:164-178 *)
Definition trie_set (p : N) (t : trie) (key val : N) : res (trie * bool) :=
  if key_bad t key then Ok (t, false)
  else rlet n := set_block (depth_fuel t) p t key (block_put t key val) 0 (root t) in Ok (with_root t n, true).
(** src/trie.c:193-197 *)
Definition trie_get (p : N) (t : trie) (key : N) : res N :=
  rlet b := (if key_bad t key then Ok None else find_block (depth_fuel t) p t key 0 (root t)) in
  block_get t b key.

(** ** Iteration *)
(** the numbers from [a], [n] of them *)
Fixpoint nseq (a : N) (n : nat) : list N := match n with O => [] | S k => a :: nseq (a + 1) k end.
(** for (i = a; i <= b; i++), where b < 2^64 - 1 *)
Definition range (a b : N) : list N := nseq a (N.to_nat (b + 1 - a)).
Fixpoint rmap {A B} (f : A -> res B) (l : list A) : res (list B) :=
  match l with [] => Ok [] | x :: r => rlet y := f x in rlet ys := rmap f r in Ok (y :: ys) end.
(** src/trie.c:199-252: the calls of fn made (key and value), and the result.  The loop of
    lines 214-217 does not end when end is UINT64_MAX: undefined here.  The visitor does not
    change the trie. *)
Fixpoint iterate_node (fuel : nat) (p : N) (t : trie) (n : node) (start end_ depth : N) {struct fuel} : res (list (N * N) * N) :=
  match fuel with
  | O => Undef
  | S f =>
      if end_ <? start then Ok ([], 0)
      else match n with
      | Null => Ok ([], 0)
      | _ =>
        let end_ := if key_size t <? 64 then N.min end_ (2 ^ key_size t - 1) else end_ in
        if depth =? max_depth t then
          if end_ =? 2 ^ 64 - 1 then Undef
          else match n with
          | Block w =>
              rlet l := rmap (fun i => rlet v := block_get t (Some w) i in Ok (i, v)) (range start end_) in
              Ok (l, u64 (end_ + 2 ^ 64 - start + 1))
          | _ => Undef
          end
        else
          let poff := if depth =? 0 then key_size t else node_bit_offs p t (depth - 1) in
          let first := N.ldiff start (mask64_safe poff) in
          let off := node_bit_offs p t depth in
          let mask := mask64_safe (u8 (poff + 256 - off)) in
          rlet s := shr64 start off in
          rlet e := shr64 end_ off in
          let start_index := N.land s mask in
          let end_index := N.land e mask in
          rlet cnt := bit64 off in
          match n with
          | Inner slots c =>
              rlet rs := rmap (fun i =>
                let cs := u64 (first + u64 (i * cnt)) in
                let ce := u64 (first + u64 ((i + 1) * cnt) + 2 ^ 64 - 1) in
                let cs := if cs <? start then start else cs in
                let ce := if end_ <? ce then end_ else ce in
                if i <? slots then iterate_node f p t (c i) cs ce (depth + 1) else Undef) (range start_index end_index) in
              Ok (concat (map fst rs), u64 (fold_right (fun r a => snd r + a) 0 rs))
          | _ => Undef
          end
      end
  end.
(** src/trie.c:254-259 *)
Definition trie_iterate_keys (p : N) (t : trie) (start end_ : N) : res (list (N * N) * N) :=
  iterate_node (depth_fuel t) p t (root t) start end_ 0.
