(** The environment of the command: -E. *)
From Verif Require Import Base.
From Coq Require Import String.
Import ListNotations.
Local Open Scope N_scope.

(** A C string is the list of its bytes, without the terminating NUL: the byte
    at the length is NUL and what lies behind it must not be read.  Strings
    given by the kernel and by getopt contain no NUL. *)
Definition at_ (s : list N) (i : nat) : res N :=
  if (i <? List.length s)%nat then Ok (nth i s 0)
  else if (i =? List.length s)%nat then Ok 0 else Undef.

(** strncmp(a, b, n) == 0, the way it reads its arguments: it stops at the
    first difference and behind a NUL. *)
Fixpoint strneq (a b : list N) (n : nat) : bool :=
  match n with
  | O => true
  | S n' =>
      match a, b with
      | [], [] => true
      | x :: a', y :: b' => if x =? y then strneq a' b' n' else false
      | _, _ => false
      end
  end.

(** The test used by src/strace.c:2123-2124 and 2149-2150:
      !strncmp(env[r], var, len) && (env[r][len] == '=' || env[r][len] == '\0') *)
Definition entry_matches (e var : list N) (len : nat) : res bool :=
  if strneq e var len then
    rlet c := at_ e len in Ok ((c =? 61) || (c =? 0))
  else Ok false.

(** The array of pointers new_env; None is a slot not written yet. *)
Definition rd (env : list (option (list N))) (i : nat) : res (list N) :=
  match nth_error env i with Some (Some e) => Ok e | _ => Undef end.
Definition wr (env : list (option (list N))) (i : nat) (e : list N) : res (list (option (list N))) :=
  match upd env i (Some e) with Some env' => Ok env' | None => Undef end.

(** src/strace.c:2113-2141 remove_from_env: [k] is what remains of the loop,
    [r] and [w] are its indices; debug messages are left out. *)
Fixpoint remove_loop (k : nat) (env : list (option (list N))) (r w : nat) (var : list N)
  : res (list (option (list N)) * nat) :=
  match k with
  | O => Ok (env, w)
  | S k' =>
      rlet e := rd env r in
      rlet m := entry_matches e var (List.length var) in
      if (m : bool) then remove_loop k' env (S r) w var
      else
        rlet env' := if (w <? r)%nat then wr env w e else Ok env in
        remove_loop k' env' (S r) (S w) var
  end.

Definition remove_from_env (env : list (option (list N))) (count : nat) (var : list N)
  : res (list (option (list N)) * nat) :=
  rlet (env', w) := remove_loop count env 0 0 var in
  Ok (env', if (w <? count)%nat then w else count).

(** src/strace.c:2143-2166 add_to_env *)
Fixpoint find_loop (k : nat) (env : list (option (list N))) (r : nat) (var : list N) (len : nat)
  : res nat :=
  match k with
  | O => Ok r
  | S k' =>
      rlet e := rd env r in
      rlet m := entry_matches e var len in
      if (m : bool) then Ok r else find_loop k' env (S r) var len
  end.

Definition add_to_env (env : list (option (list N))) (count : nat) (var : list N) (len : nat)
  : res (list (option (list N)) * nat) :=
  rlet r := find_loop count env 0 var len in
  let count' := if (r <? count)%nat then count else S count in
  rlet env' := wr env r var in
  Ok (env', count').

(** strchr(var, '='), as an index *)
Fixpoint strchr_eq (s : list N) : option nat :=
  match s with
  | [] => None
  | c :: s' => if c =? 61 then Some O else option_map S (strchr_eq s')
  end.

(** src/strace.c:2168-2177 update_env *)
Definition update_env (env : list (option (list N))) (count : nat) (var : list N)
  : res (list (option (list N)) * nat) :=
  match strchr_eq var with
  | Some i => add_to_env env count var i
  | None => remove_from_env env count var
  end.

Fixpoint update_all (env : list (option (list N))) (count : nat) (changes : list (list N))
  : res (list (option (list N)) * nat) :=
  match changes with
  | [] => Ok (env, count)
  | c :: r =>
      rlet (env', count') := update_env env count c in
      update_all env' count' r
  end.

(** Reading back the NULL-terminated array: the slots below [count]. *)
Fixpoint read_env (k : nat) (env : list (option (list N))) (r : nat) : res (list (list N)) :=
  match k with
  | O => Ok []
  | S k' =>
      rlet e := rd env r in
      rlet l := read_env k' env (S r) in
      Ok (e :: l)
  end.

(** src/strace.c:2179-2214 make_env: [orig] is the original environment (a
    NULL orig_env counts as an empty one).  The sizes are 64-bit; xallocarray
    (src/xmalloc.c:42-54) dies if the product overflows.  The result is the
    list of strings in the array before its terminating NULL; writing the
    NULL must stay within the array. *)
Definition make_env (orig changes : list (list N)) : res (list (list N)) :=
  match changes with
  | [] => Ok orig
  | _ =>
      let n := N.of_nat (List.length orig) in
      let m := N.of_nat (List.length changes) in
      let size := u64 (n + m) in
      if (size <? n) || (size <? m) || (u64 (size + 1) <? size) then Die
      else
        let size1 := u64 (size + 1) in
        if 2 ^ 64 <=? size1 * 8 then Die
        else
          (* xallocarray, memcpy *)
          let env := map Some orig ++
                     repeat None (N.to_nat size1 - List.length orig) in
          rlet (env', count) := update_all env (List.length orig) changes in
          if (count <? List.length env')%nat then read_env count env' 0 else Undef
  end.
