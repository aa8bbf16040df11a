(** What an expression of -e inject= or -e fault= says. *)
From Verif Require Import Base TimeModel NumSetModel StrtouModel StrtouSpec QualModel QualSpec InjectModel InjectSpec FtsModel FtsSpec IexpModel.
Local Open Scope N_scope.

(** the pieces of [s] between colons, empty ones left out *)
Definition colon_tokens (s : list N) : list (list N) := filter nonempty (split 58 s).

(** an integer constant of C with blanks and a sign in front; negative ones are taken modulo 2^64 *)
Definition int_text (t : list N) (v : N) : Prop :=
  exists blanks sg pre ds base vs,
    t = blanks ++ sg ++ pre ++ ds /\ Forall blank blanks /\ ds <> [] /\ Forall2 (dval base) ds vs /\
    ((pre = [] /\ base = 10 /\ hd 0 ds <> 48) \/ (pre = [] /\ base = 8 /\ hd 0 ds = 48) \/ ((pre = bs "0x" \/ pre = bs "0X") /\ base = 16)) /\
    dsum base vs < 2^64 /\
    (((sg = [] \/ sg = [43]) /\ v = dsum base vs) \/ (sg = [45] /\ v = (2^64 - dsum base vs) mod 2^64)).
Definition upper_eq (a b : list N) : Prop := map tolower a = map tolower b.

(** the number [n] is the first, from 1 on, with [P] *)
Definition least (P : N -> Prop) (n : N) : Prop := 1 <= n /\ P n /\ forall m, 1 <= m < n -> ~ P m.
(** the error [v] stands for: a number, or a name in any case *)
Definition error_denotes (E : ienv) (v : list N) (n : N) : Prop :=
  (numeral v n [] /\ 1 <= n <= 4095) \/
  ((forall m, numeral v m [] -> 4095 < m) /\ least (fun m => exists e, nth_error (errnames E) (N.to_nat m) = Some (Some e) /\ upper_eq v e) n).
(** the signal [v] stands for: a number, or a name in any case, with or without SIG *)
Definition signal_denotes (E : ienv) (v : list N) (n : N) : Prop :=
  1 <= n <= 64 /\
  ((exists c r, v = c :: r /\ digit c /\ numeral v n []) \/
   ((forall c r, v = c :: r -> ~ digit c) /\
    exists base, (upper_eq v (bs "SIG" ++ base) \/ (v = base /\ forall r, ~ upper_eq v (bs "SIG" ++ r))) /\
      least (fun m => exists e, signames E m = Some e /\ upper_eq e (bs "SIG" ++ base)) n)).
(** the system call named [v] has number [i] in this table and belongs to the class of calls without
    side effects (octal 2000000) *)
Definition pure_call (v : list N) (t : list sysent) (i : N) : Prop :=
  entry t (named (beqs v)) i = true /\ (forall j, j < i -> entry t (named (beqs v)) j = false) /\
  entry t (fun e => N.testbit (sys_flags e) 19) i = true.
(** two hexadecimal digits for each byte *)
Fixpoint hex_pairs (h d : list N) : Prop :=
  match h, d with
  | [], [] => True
  | a :: b :: h', v :: d' => (exists x y, dval 16 a x /\ dval 16 b y /\ v = 16 * x + y) /\ hex_pairs h' d'
  | _, _ => False
  end.
(** @argN=HEX: argument 1 to 7, 1 to 1024 bytes *)
Definition poke_text (tok : list N) (p : N * list N) : Prop :=
  exists h, tok = bs "@arg" ++ [48 + fst p] ++ bs "=" ++ h /\ 1 <= fst p <= 7 /\ hex_pairs h (snd p) /\ (1 <= length (snd p) <= 1024)%nat.
Definition pokes_denote (v : list N) (l : list (N * list N)) : Prop :=
  v <> [] /\ Forall2 poke_text (comma_tokens v) l /\ NoDup (map fst l).

Inductive item :=
| IWhen (f l s : N) | ISyscall (l : list N) | IError (n : N) | IRetval (n : N) | ISignal (n : N)
| IPoke (enter : bool) (l : list (N * list N)) | IDelay (enter : bool) (t : ts).
(** fault= knows the first three only; what a time argument is, is C18 *)
Definition item_denotes (E : ienv) (fault : bool) (tok : list N) (i : item) : Prop :=
  match i with
  | IWhen f l s => exists v, tok = bs "when=" ++ v /\ when_denotes v f l s
  | ISyscall k => exists v, tok = bs "syscall=" ++ v /\ Forall2 (pure_call v) (tables (qe E)) k
  | IError n => exists v, tok = bs "error=" ++ v /\ error_denotes E v n
  | IRetval n => fault = false /\ exists v, tok = bs "retval=" ++ v /\ int_text v n
  | ISignal n => fault = false /\ exists v, tok = bs "signal=" ++ v /\ signal_denotes E v n
  | IPoke enter l => fault = false /\ exists v, tok = (if enter then bs "poke_enter=" else bs "poke_exit=") ++ v /\ pokes_denote v l
  | IDelay enter t => fault = false /\ exists v, tok = (if enter then bs "delay_enter=" else bs "delay_exit=") ++ v /\ parse_ts_full (fpunit E) v = Ok (Some t)
  end.
(** of each kind at most one, error and result being one kind; when= may be repeated *)
Definition kind (i : item) : option N :=
  match i with
  | IWhen _ _ _ => None | ISyscall _ => Some 1 | IError _ | IRetval _ => Some 2 | ISignal _ => Some 3
  | IPoke true _ => Some 4 | IPoke false _ => Some 5 | IDelay true _ => Some 6 | IDelay false _ => Some 7
  end.
Fixpoint pick {A} (f : item -> option A) (l : list item) : option A :=
  match l with [] => None | i :: r => match f i with Some a => Some a | None => pick f r end end.
Definition kinds (l : list item) : list N := flat_map (fun i => match kind i with Some k => [k] | None => [] end) l.
(** what they say together; the pokes of one token are carried out from the last to the first *)
Definition says (l : list item) : idata := {|
  signal := pick (fun i => match i with ISignal n => Some n | _ => None end) l;
  rval := pick (fun i => match i with IError n => Some (true, n) | IRetval n => Some (false, n) | _ => None end) l;
  delay_enter := pick (fun i => match i with IDelay true t => Some t | _ => None end) l;
  delay_exit := pick (fun i => match i with IDelay false t => Some t | _ => None end) l;
  poke_enter := pick (fun i => match i with IPoke true p => Some (rev p) | _ => None end) l;
  poke_exit := pick (fun i => match i with IPoke false p => Some (rev p) | _ => None end) l;
  scnos := pick (fun i => match i with ISyscall k => Some k | _ => None end) l |}.
(** the last when= counts; without one, every call *)
Definition when_said (l : list item) : N * N * N :=
  match pick (fun i => match i with IWhen a b c => Some (a, b, c) | _ => None end) (rev l) with Some w => w | None => (1, 65535, 1) end.
Definition acts (l : list item) : bool := existsb (fun i => match i with IWhen _ _ _ | ISyscall _ => false | _ => true end) l.

(** The expression: system calls, then items, separated by colons; [k] exclamation marks in front. *)
Definition inject_denotes (E : ienv) (fault : bool) (str : list N) (k : nat) (body : list N) (base : nat -> N -> bool) (l : list item) : Prop :=
  no_leading 58 str /\
  exists toks, colon_tokens str = (repeat 33 k ++ body) :: toks /\ no_leading 33 body /\ syscalls_denote (qe E) body = Some base /\
    Forall2 (item_denotes E fault) toks l /\ NoDup (kinds l) /\ (fault = true \/ acts l = true).
(** every poke in the expression is written with hexadecimal digits *)
Definition hex_pokes (str : list N) : Prop :=
  forall tok v p a h, In tok (colon_tokens str) -> (tok = bs "poke_enter=" ++ v \/ tok = bs "poke_exit=" ++ v) -> In p (comma_tokens v) ->
    p = bs "@arg" ++ [a] ++ bs "=" ++ h -> Forall (fun c => exists x, dval 16 c x) h.
