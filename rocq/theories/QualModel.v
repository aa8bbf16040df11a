(** Model of src/basic_filters.c and of the token tables of src/filter_qualify.c. *)
From Verif Require Import Base NumSetModel StrtouModel.
Local Open Scope N_scope.

(** The tokens successive strtok_r(s, ",", &saveptr) calls return (libc):
    maximal runs of characters other than the delimiter. *)
Fixpoint strtok_loop (d : N) (s cur : list N) : list (list N) :=
  match s with
  | [] => match cur with [] => [] | _ => [rev cur] end
  | c :: r =>
      if c =? d
      then match cur with [] => strtok_loop d r [] | _ => rev cur :: strtok_loop d r [] end
      else strtok_loop d r (c :: cur)
  end.
Definition strtok_all (d : N) (s : list N) : list (list N) := strtok_loop d s [].

(** tolower(3) of the C locale and strcasecmp(a, b) == 0 (libc). *)
Definition tolower (c : N) : N := if (65 <=? c) && (c <=? 90) then c + 32 else c.
Definition strcaseeq (a b : list N) : bool := beqs (map tolower a) (map tolower b).

(** src/util.c:36-47, find_xlat_val_ex. *)
Fixpoint find_xlat_val_ex (items : list (N * list N)) (s : list N) (case_sensitive : bool) : option N :=
  match items with
  | [] => None
  | (v, str) :: r =>
      if (if case_sensitive then beqs str s else strcaseeq str s) then Some v
      else find_xlat_val_ex r s case_sensitive
  end.

(** src/filter_qualify.c:71-83, statusstr_to_uint with the table at 74-80;
    values are those of enum status_t, src/number_set.h:50-57. *)
Definition statusstr_to_uint (s : list N) : option N :=
  find_xlat_val_ex [(0, bs "successful"); (1, bs "failed"); (2, bs "unfinished");
                    (3, bs "unavailable"); (4, bs "detached")] s false.
(** src/filter_qualify.c:85-99, quietstr_to_uint; enum quiet_bits, src/number_set.h:59-70. *)
Definition quietstr_to_uint (s : list N) : option N :=
  find_xlat_val_ex [(0, bs "attach"); (1, bs "exit"); (1, bs "exits"); (2, bs "path-resolution");
                    (3, bs "personality"); (4, bs "superseded"); (4, bs "thread-execve")] s false.
(** src/filter_qualify.c:42-69, sigstr_to_uint; [signame] is src/signal.c's. *)
Fixpoint sig_loop (signame : N -> option (list N)) (s : list N) (i : N) (fuel : nat) : option N :=
  match fuel with
  | O => None
  | S f =>
      match signame i with
      | Some name =>
          if strcaseeq (firstn 3 name) (bs "SIG") && strcaseeq (skipn 3 name) s then Some i
          else sig_loop signame s (i + 1) f
      | None => sig_loop signame s (i + 1) f
      end
  end.
Definition sigstr_to_uint (signame : N -> option (list N)) (s : list N) : option N :=
  match s with
  | c :: _ => if is_digit c then string_to_uint_upto s 255
              else sig_loop signame (if strcaseeq (firstn 3 s) (bs "SIG") then skipn 3 s else s) 1 255
  | [] => sig_loop signame [] 1 255
  end.

(** src/basic_filters.c:234-237 and 291-294, the leading '!' loop. *)
Fixpoint bang_loop (s : list N) (set : list nset) (nmemb : nat) : option (list N * list nset) :=
  match s with
  | c :: r => if c =? 33
              then match invert_number_set_array set nmemb with
                   | Some set' => bang_loop r set' nmemb
                   | None => None
                   end
              else Some (s, set)
  | [] => Some ([], set)
  end.

(** src/basic_filters.c:318-327, the token loop; the boolean is number >= 0. *)
Fixpoint token_loop (func : list N -> option N) (toks : list (list N)) (ok : bool) (set : list nset)
  : res (bool * list nset) :=
  match toks with
  | [] => Ok (ok, set)
  | t :: r => match func t with
              | None => Die
              | Some n => rlet set' := oob (add_number_to_set_array n set 0) in token_loop func r true set'
              end
  end.

(** src/basic_filters.c:279-333, qualify_tokens; [func] returns [None] for a
    negative answer. *)
Definition qualify_tokens (str : list N) (set : list nset) (func : list N -> option N)
  : res (list nset) :=
  rlet set1 := oob (clear_number_set_array set 1) in
  rlet (s, set2) := oob (bang_loop str set1 1) in
  if beqs s (bs "none") then Ok set2
  else if beqs s (bs "all") then oob (invert_number_set_array set2 1)
  else rlet (ok, set3) := token_loop func (strtok_all 44 s) false set2 in
       if ok then Ok set3 else Die.

(** ---- system call sets ---- *)

(** src/sysent.h:13-19, the fields the filters look at. *)
Record sysent := { sys_flags : N; sys_func : bool; sys_name : option (list N) }.

(** Result of regexec(3). *)
Inductive rxres := RxMatch | RxNoMatch | RxError.

(** What qualification depends on: the per-personality tables sysent_vec (with
    nsyscall_vec their lengths), PERSONALITY_DESIGNATORS, shuffle_scno_pers,
    ARCH_NEEDS_NON_SHUFFLED_SCNO_CHECK, and regcomp/regexec (libc). *)
Record qenv := {
  tables : list (list sysent);
  designators : list (list N);
  shuffle : N -> nat -> N;
  non_shuffled_check : bool;
  regcomp : list N -> option (list N -> rxres)
}.

Definition TRACE_INDIRECT_SUBCALL : N := 1024.  (* src/sysent.h:31, 000002000 *)

(** src/defs.h:2039-2045, scno_pers_is_valid. *)
Definition scno_pers_is_valid (t : list sysent) (scno : N) : bool :=
  if scno <? N.of_nat (length t)
  then match nth_error t (N.to_nat scno) with
       | Some e => sys_func e && (N.land (sys_flags e) TRACE_INDIRECT_SUBCALL =? 0)
       | None => false
       end
  else false.

(** src/basic_filters.c:37, strrchr(s, '@'): text before and after the last '@'. *)
Fixpoint strrchr_at (s : list N) : option (list N * list N) :=
  match s with
  | [] => None
  | c :: r =>
      match strrchr_at r with
      | Some (a, b) => Some (c :: a, b)
      | None => if c =? 64 then Some ([], r) else None
      end
  end.
(** src/basic_filters.c:42-47, the designator loop. *)
Fixpoint find_designator (ds : list (list N)) (s : list N) (i : nat) : option nat :=
  match ds with
  | [] => None
  | d :: r => if beqs s d then Some i else find_designator r s (S i)
  end.
(** src/basic_filters.c:34-51, qualify_syscall_separate_personality. *)
Definition separate_personality (env : qenv) (s : list N) : res (option (list N * nat)) :=
  match strrchr_at s with
  | None => Ok None
  | Some (pre, suf) =>
      match find_designator (designators env) suf 0 with
      | Some p => Ok (Some (pre, p))
      | None => Die
      end
  end.

(** src/basic_filters.c:53-68, qualify_syscall_number; a failed conversion is
    (unsigned int) -1, and scno is an unsigned int. *)
Definition qualify_syscall_number (env : qenv) (t : list sysent) (str : list N) (p : nat)
    (set : list nset) : res (bool * list nset) :=
  let nr := match string_to_uint str with Some v => v | None => 2^32 - 1 end in
  let scno := u32 (shuffle env nr p) in
  if scno_pers_is_valid t scno
  then rlet set' := oob (add_number_to_set_array scno set p) in Ok (true, set')
  else if non_shuffled_check env && scno_pers_is_valid t nr
  then rlet set' := oob (add_number_to_set_array nr set p) in Ok (true, set')
  else Ok (false, set).

(** src/basic_filters.c:91-104, the loop of qualify_syscall_regex. *)
Fixpoint regex_loop (rx : list N -> rxres) (t : list sysent) (i : N) (p : nat) (found : bool)
    (set : list nset) : res (bool * list nset) :=
  match t with
  | [] => Ok (found, set)
  | e :: r =>
      match sys_name e with
      | None => regex_loop rx r (i + 1) p found set
      | Some name =>
          match rx name with
          | RxNoMatch => regex_loop rx r (i + 1) p found set
          | RxError => Die
          | RxMatch => rlet set' := oob (add_number_to_set_array i set p) in
                       regex_loop rx r (i + 1) p true set'
          end
      end
  end.
(** src/basic_filters.c:80-108, qualify_syscall_regex. *)
Definition qualify_syscall_regex (env : qenv) (t : list sysent) (str : list N) (p : nat)
    (set : list nset) : res (bool * list nset) :=
  match regcomp env str with
  | None => Die
  | Some rx => regex_loop rx t 0 p false set
  end.

(** src/basic_filters.c:113-141, syscall_class (values from src/sysent.h:21-43). *)
Definition syscall_class : list (N * list N) :=
  [ (32, bs "%desc"); (1, bs "%file"); (64, bs "%memory"); (8, bs "%process");
    (2097152, bs "%creds"); (16, bs "%signal"); (2, bs "%ipc"); (4, bs "%net");
    (4, bs "%network"); (4096, bs "%stat"); (8192, bs "%lstat"); (131072, bs "%fstat");
    (262144, bs "%%stat"); (16384, bs "%statfs"); (32768, bs "%fstatfs");
    (65536, bs "%%statfs"); (524288, bs "%pure"); (4194304, bs "%clock");
    (0, bs "all"); (32, bs "desc"); (1, bs "file"); (64, bs "memory"); (8, bs "process");
    (16, bs "signal"); (2, bs "ipc"); (4, bs "network") ].

(** src/basic_filters.c:148-152, the loop of qualify_syscall_class. *)
Fixpoint class_loop (n : N) (t : list sysent) (i : N) (p : nat) (set : list nset) : res (list nset) :=
  match t with
  | [] => Ok set
  | e :: r =>
      match sys_name e with
      | Some _ => if N.land (sys_flags e) n =? n
                  then rlet set' := oob (add_number_to_set_array i set p) in class_loop n r (i + 1) p set'
                  else class_loop n r (i + 1) p set
      | None => class_loop n r (i + 1) p set
      end
  end.
(** src/basic_filters.c:110-155, qualify_syscall_class. *)
Definition qualify_syscall_class (t : list sysent) (str : list N) (p : nat) (set : list nset)
  : res (bool * list nset) :=
  match find_xlat_val_ex syscall_class str true with
  | None => Ok (false, set)
  | Some n => rlet set' := class_loop n t 0 p set in Ok (true, set')
  end.

(** src/basic_filters.c:163-167, the loop of scno_by_name from index [i] on. *)
Fixpoint scno_by_name_loop (s : list N) (t : list sysent) (i : N) : option N :=
  match t with
  | [] => None
  | e :: r => match sys_name e with
              | Some name => if beqs s name then Some i else scno_by_name_loop s r (i + 1)
              | None => scno_by_name_loop s r (i + 1)
              end
  end.
(** src/basic_filters.c:157-170, scno_by_name (-1 is [None]). *)
Definition scno_by_name (s : list N) (t : list sysent) (start : N) : option N :=
  scno_by_name_loop s (skipn (N.to_nat start) t) start.

(** src/basic_filters.c:177-181, the loop of qualify_syscall_name; running out of
    fuel is [Undef] and never happens with the fuel given below. *)
Fixpoint name_loop (fuel : nat) (s : list N) (t : list sysent) (scno : N) (p : nat) (found : bool)
    (set : list nset) : res (bool * list nset) :=
  match fuel with
  | O => Undef
  | S f => match scno_by_name s t scno with
           | None => Ok (found, set)
           | Some k => rlet set' := oob (add_number_to_set_array k set p) in
                       name_loop f s t (k + 1) p true set'
           end
  end.
(** src/basic_filters.c:172-184, qualify_syscall_name. *)
Definition qualify_syscall_name (t : list sysent) (s : list N) (p : nat) (set : list nset)
  : res (bool * list nset) := name_loop (S (length t)) s t 0 p false set.

(** src/basic_filters.c:186-195, qualify_syscall_pers. *)
Definition qualify_syscall_pers (env : qenv) (token : list N) (p : nat) (set : list nset)
  : res (bool * list nset) :=
  match nth_error (tables env) p with
  | None => Undef
  | Some t =>
      match token with
      | c :: r =>
          if is_digit c then qualify_syscall_number env t token p set
          else if c =? 47 then qualify_syscall_regex env t r p set
          else rlet (ok, set') := qualify_syscall_class t token p set in
               if ok then Ok (true, set') else qualify_syscall_name t token p set'
      | [] => rlet (ok, set') := qualify_syscall_class t token p set in
              if ok then Ok (true, set') else qualify_syscall_name t token p set'
      end
  end.

(** src/basic_filters.c:201-204, the leading '?' loop. *)
Fixpoint strip_q (token : list N) (rc : bool) : list N * bool :=
  match token with
  | c :: r => if c =? 63 then strip_q r true else (token, rc)
  | [] => ([], rc)
  end.
(** src/basic_filters.c:212-213, the loop over all personalities. *)
Fixpoint pers_loop (env : qenv) (token : list N) (p n : nat) (rc : bool) (set : list nset)
  : res (bool * list nset) :=
  match n with
  | O => Ok (rc, set)
  | S n' => rlet (ok, set') := qualify_syscall_pers env token p set in
            pers_loop env token (S p) n' (rc || ok) set'
  end.
(** src/basic_filters.c:197-217, qualify_syscall. *)
Definition qualify_syscall (env : qenv) (token : list N) (set : list nset) : res (bool * list nset) :=
  let '(tok, rc) := strip_q token false in
  rlet sep := separate_personality env tok in
  match sep with
  | Some (str, p) => rlet (ok, set') := qualify_syscall_pers env str p set in Ok (rc || ok, set')
  | None => pers_loop env tok 0 (length (tables env)) rc set
  end.

(** src/basic_filters.c:263-268, the token loop. *)
Fixpoint syscall_token_loop (env : qenv) (toks : list (list N)) (done : bool) (set : list nset)
  : res (bool * list nset) :=
  match toks with
  | [] => Ok (done, set)
  | t :: r => rlet (ok, set') := qualify_syscall env t set in
              if ok then syscall_token_loop env r true set' else Die
  end.
(** src/basic_filters.c:223-274, qualify_syscall_tokens. *)
Definition qualify_syscall_tokens (env : qenv) (str : list N) (set : list nset) : res (list nset) :=
  let np := length (tables env) in
  rlet set1 := oob (clear_number_set_array set np) in
  rlet (s, set2) := oob (bang_loop str set1 np) in
  if beqs s (bs "none") then Ok set2
  else if beqs s (bs "all") then oob (invert_number_set_array set2 np)
  else rlet (done, set3) := syscall_token_loop env (strtok_all 44 s) false set2 in
       if done then Ok set3 else Die.
