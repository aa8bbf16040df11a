(** Model of the array allocators: src/xmalloc.c:51-107, ROUNDUP_DIV of src/macros.h:55-57.
    size_t has [2 * k] bits (k = 32 or 16); [mal n] tells whether the C library can provide a
    block of n bytes.  An allocated block is represented by its size in bytes.  Not modelled:
    the contents, which realloc preserves. *)
From Verif Require Import Base.
Local Open Scope N_scope.

Definition szmod (k n : N) : N := n mod 2 ^ (2 * k).

(** src/xmalloc.c:53-68 (xallocarray) and 70-85 (xreallocarray): the same size computation *)
Definition xallocarray (k : N) (mal : N -> bool) (nmemb size : N) : res N :=
  let bytes := szmod k (nmemb * size) in
  if (2 ^ k <=? N.lor nmemb size) && negb (size =? 0) && negb (bytes / size =? nmemb) then Die
  else if mal bytes then Ok bytes else Die.

(** src/xmalloc.c:87-107; result: new *nmemb and block.  DEFAULT_ALLOC_SIZE is
    64 * SIZEOF_LONG / 4 with SIZEOF_LONG = sizeof(size_t).  Division by a zero memb_size is
    undefined. *)
Definition xgrowarray (k : N) (mal : N -> bool) (null : bool) (nmemb memb_size : N) : res (N * N) :=
  rlet grow := (if null
                then if nmemb =? 0
                     then if memb_size =? 0 then Undef
                          else Ok (szmod k (64 * (k / 4) / 4 + memb_size - 1) / memb_size)
                     else Ok 0
                else Ok (nmemb / 2 + 1)) in
  let n' := szmod k (nmemb + grow) in
  if n' <? nmemb then Die
  else rlet b := xallocarray k mal n' memb_size in Ok (n', b).
