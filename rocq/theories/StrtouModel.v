(** Model of src/string_to_uint.c and src/string_to_uint.h. *)
From Verif Require Import Base.
Local Open Scope N_scope.

(** isspace(3) and isdigit(3) of the C locale (libc, not strace code). *)
Definition is_space (c : N) : bool := (c =? 32) || ((9 <=? c) && (c <=? 13)).
Definition is_digit (c : N) : bool := (48 <=? c) && (c <=? 57).

Fixpoint skip_space (s : list N) : list N :=
  match s with c :: r => if is_space c then skip_space r else s | [] => [] end.

(** digit loop: accumulated value, number of digits, rest *)
Fixpoint digits_loop (s : list N) (acc : N) (k : N) : N * N * list N :=
  match s with
  | c :: r => if is_digit c then digits_loop r (acc * 10 + (c - 48)) (k + 1) else (acc, k, s)
  | [] => (acc, k, [])
  end.

Definition LLONG_MAX : Z := (2^63 - 1)%Z.
Definition LLONG_MIN : Z := (- 2^63)%Z.

(** strtoll(str, &end, 10) as the C standard defines it (libc, not strace code).
    Result: value, end pointer as the remaining suffix, whether any character
    was converted (str != end), whether errno is ERANGE. *)
Record strtoll_res := { sv : Z; send : list N; sconv : bool; serange : bool }.
Definition strtoll10 (str : list N) : strtoll_res :=
  let s1 := skip_space str in
  let '(neg, s2) := match s1 with
                    | c :: r => if c =? 45 then (true, r) else if c =? 43 then (false, r) else (false, s1)
                    | [] => (false, [])
                    end in
  let '(v, k, rest) := digits_loop s2 0 0 in
  if k =? 0 then {| sv := 0; send := str; sconv := false; serange := false |}
  else
    let z := if neg then (- Z.of_N v)%Z else Z.of_N v in
    if (LLONG_MAX <? z)%Z then {| sv := LLONG_MAX; send := rest; sconv := true; serange := true |}
    else if (z <? LLONG_MIN)%Z then {| sv := LLONG_MIN; send := rest; sconv := true; serange := true |}
    else {| sv := z; send := rest; sconv := true; serange := false |}.

(** strchr(accepted, c) != NULL for a nonzero c. *)
Definition strchr_in (accepted : list N) (c : N) : bool := existsb (N.eqb c) accepted.

(** src/string_to_uint.c:18-43, string_to_uint_ex.  The result is [None] for -1
    and otherwise the value and the suffix *endptr points at.  A NULL
    [accepted_ending] is [None]. *)
Definition string_to_uint_ex (str : list N) (max_val : N) (accepted_ending : option (list N))
  : option (Z * list N) :=
  match str with
  | [] => None
  | _ =>
      let r := strtoll10 str in
      if negb (sconv r) || (sv r <? 0)%Z || (max_val <? Z.to_N (sv r))
         || ((sv r =? LLONG_MAX)%Z && serange r)
      then None
      else
        match send r with
        | [] => Some (sv r, [])
        | c :: _ =>
            match accepted_ending with
            | None => None
            | Some a => if strchr_in a c then Some (sv r, send r) else None
            end
        end
  end.

(** src/string_to_uint.h:19-23, string_to_uint_upto (-1 is [None]). *)
Definition string_to_uint_upto (str : list N) (max_val : N) : option N :=
  match string_to_uint_ex str max_val None with
  | Some (v, _) => Some (Z.to_N v)
  | None => None
  end.
(** src/string_to_uint.h:25-29, string_to_uint. *)
Definition string_to_uint (str : list N) : option N := string_to_uint_upto str (2^31 - 1).
