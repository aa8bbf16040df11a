(** What qualifier expressions denote. *)
From Verif Require Import Base StrtouModel QualModel.
Local Open Scope N_scope.

(** pieces between commas *)
Fixpoint split (d : N) (s : list N) : list (list N) :=
  match s with
  | [] => [[]]
  | c :: r => if c =? d then [] :: split d r
              else match split d r with p :: ps => (c :: p) :: ps | [] => [[c]] end
  end.
Definition nonempty {A} (l : list A) : bool := match l with [] => false | _ => true end.
Definition comma_tokens (s : list N) : list (list N) := filter nonempty (split 44 s).

(** all answers, or none if some token is unknown *)
Fixpoint all_some {A} (l : list (option A)) : option (list A) :=
  match l with
  | [] => Some []
  | None :: _ => None
  | Some a :: r => match all_some r with Some l' => Some (a :: l') | None => None end
  end.

(** The set a body (the expression without its leading '!'s) denotes;
    [None]: the expression is invalid. *)
Definition body_denotes (func : list N -> option N) (body : list N) : option (N -> bool) :=
  if beqs body (bs "none") then Some (fun _ => false)
  else if beqs body (bs "all") then Some (fun _ => true)
  else match comma_tokens body with
       | [] => None
       | toks => match all_some (map func toks) with
                 | Some ns => Some (fun n => existsb (N.eqb n) ns)
                 | None => None
                 end
       end.

Definition no_leading (c : N) (s : list N) : Prop := forall d r, s = d :: r -> d <> c.

(** ---- system calls ---- *)
(** entry [i] of the table satisfies [P] *)
Definition entry (t : list sysent) (P : sysent -> bool) (i : N) : bool :=
  match nth_error t (N.to_nat i) with Some e => P e | None => false end.
Definition named (P : list N -> bool) (e : sysent) : bool :=
  match sys_name e with Some n => P n | None => false end.
Definition class_value (tok : list N) : option N :=
  match find (fun c => beqs (snd c) tok) syscall_class with Some (v, _) => Some v | None => None end.

(** the system call a number designates *)
Definition number_denotes (env : qenv) (t : list sysent) (p : nat) (tok : list N) : option N :=
  match string_to_uint tok with
  | None => None
  | Some v => if scno_pers_is_valid t (shuffle env v p) then Some (shuffle env v p)
              else if non_shuffled_check env && scno_pers_is_valid t v then Some v
              else None
  end.

(** In personality [p] with table [t], the token (without '?' and '@...')
    denotes this set; the boolean tells whether anything was recognised;
    [None]: fatal error (bad regular expression). *)
Definition pers_denotes (env : qenv) (t : list sysent) (p : nat) (tok : list N)
  : option (bool * (N -> bool)) :=
  match tok with
  | [] => Some (existsb (named (beqs tok)) t, entry t (named (beqs tok)))
  | c :: r =>
      if (48 <=? c) && (c <=? 57) then
        match number_denotes env t p tok with
        | Some k => Some (true, N.eqb k)
        | None => Some (false, fun _ => false)
        end
      else if c =? 47 then
        match regcomp env r with
        | None => None
        | Some rx =>
            if existsb (named (fun n => match rx n with RxError => true | _ => false end)) t then None
            else let m := named (fun n => match rx n with RxMatch => true | _ => false end) in
                 Some (existsb m t, entry t m)
        end
      else
        match class_value tok with
        | Some v => Some (true, entry t (fun e => named (fun _ => true) e && (N.land (sys_flags e) v =? v)))
        | None => Some (existsb (named (beqs tok)) t, entry t (named (beqs tok)))
        end
  end.

(** text before and after the last '@' *)
Fixpoint split_first (d : N) (s : list N) : option (list N * list N) :=
  match s with
  | [] => None
  | c :: r => if c =? d then Some ([], r)
              else match split_first d r with Some (a, b) => Some (c :: a, b) | None => None end
  end.
Definition split_last_at (s : list N) : option (list N * list N) :=
  match split_first 64 (rev s) with
  | Some (a, b) => Some (rev b, rev a)
  | None => None
  end.
Fixpoint index_of (l : list (list N)) (s : list N) : option nat :=
  match l with
  | [] => None
  | d :: r => if beqs d s then Some O else option_map S (index_of r s)
  end.

(** personalities a token applies to, and the token without its suffix;
    [None]: unknown personality *)
Definition token_scope (env : qenv) (tok : list N) : option (list nat * list N) :=
  match split_last_at tok with
  | None => Some (seq 0 (length (tables env)), tok)
  | Some (pre, suf) => match index_of (designators env) suf with
                       | Some p => Some ([p], pre)
                       | None => None
                       end
  end.

Fixpoint drop_q (s : list N) : list N :=
  match s with c :: r => if c =? 63 then drop_q r else s | [] => [] end.
Definition optional_token (s : list N) : bool := match s with c :: _ => c =? 63 | [] => false end.

(** The set of (personality, number) pairs a token denotes; [None]: invalid. *)
Definition token_denotes (env : qenv) (tok : list N) : option (nat -> N -> bool) :=
  match token_scope env (drop_q tok) with
  | None => None
  | Some (ps, str) =>
      match all_some (map (fun p => match nth_error (tables env) p with
                                    | Some t => option_map (fun d => (p, d)) (pers_denotes env t p str)
                                    | None => None end) ps) with
      | None => None
      | Some ds =>
          if optional_token tok || existsb (fun d => fst (snd d)) ds
          then Some (fun p n => existsb (fun d => Nat.eqb p (fst d) && snd (snd d) n) ds)
          else None
      end
  end.

Definition syscalls_denote (env : qenv) (body : list N) : option (nat -> N -> bool) :=
  if beqs body (bs "none") then Some (fun _ _ => false)
  else if beqs body (bs "all") then Some (fun _ _ => true)
  else match comma_tokens body with
       | [] => None
       | toks => match all_some (map (token_denotes env) toks) with
                 | Some fs => Some (fun p n => existsb (fun f : nat -> N -> bool => f p n) fs)
                 | None => None
                 end
       end.

(** An environment is sane: one designator per personality, syscall tables far
    smaller than 2^32, shuffling stays within unsigned int and maps the invalid
    number (unsigned int) -1 outside the tables. *)
Definition env_ok (env : qenv) : Prop :=
  length (designators env) = length (tables env) /\
  forall p t, nth_error (tables env) p = Some t ->
    N.of_nat (length t) < 2^32 /\
    (forall v, v < 2^32 -> shuffle env v p < 2^32) /\
    N.of_nat (length t) <= shuffle env (2^32 - 1) p.
