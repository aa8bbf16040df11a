(** Model of the translation of process IDs between PID namespaces, src/pidns.c.
    What /proc shows is a [view]: it does not change while one ID is translated, and may change
    in any way between two translations.  The two maps are the tries of src/trie.c seen as maps
    (C19, C20).  Memory exhaustion is not modelled. *)
From Verif Require Import Base RetModel.
Local Open Scope Z_scope.

(** enum pid_type, src/defs.h:478-486 *)
Inductive ptype := TID | TGID | PGID | SID.
Definition ptype_eqb (a b : ptype) : bool :=
  match a, b with TID, TID | TGID, TGID | PGID, PGID | SID, SID => true | _, _ => false end.

(** What /proc answers: [ns_of p]: the namespaces met from /proc/p/ns/pid upwards with
    NS_GET_PARENT until it fails (none: the file cannot be opened); [ids_of p]: the numbers of
    the NS* line of /proc/p/status (none: no such file or line); [dirs]: the numeric
    directories of /proc with those of their task directories; [comm_of p]: /proc/p/comm as
    it is printed (load_pid_comm and print_comm_str, src/strace.c:1013-1037: length limit and quoting left out) *)
Record view := { ns_of : Z -> list N; ids_of : Z -> ptype -> list Z; dirs : list (Z * list Z); comm_of : Z -> list N }.
(** What does not change while strace runs: pid_max (src/pidns.c:71), the results of get_our_ns
    (252-265) and is_proc_ours (219-231), both read once from /proc/self; and whether the
    kernel knows NS_GET_PARENT *)
Record config := { pid_max : Z; our_ns : N; proc_ours : bool; parent_known : bool }.

(** struct proc_data, src/pidns.c:74-80: id_count is the length of [pd_ids], of which
    proc_status_get_id_list stores the first MAX_NS_DEPTH only (src/util.c:1095-1098) *)
Record pdata := { pd_pid : Z; pd_ns : list N; pd_ids : ptype -> list Z }.
Definition MAX_NS_DEPTH : nat := 32.
(** the static variables, src/pidns.c:36-44 *)
Record state := { cached_pid : ptype -> N -> Z -> Z; cache : Z -> option pdata; enotty : bool }.
(** pidns_init, src/pidns.c:102-118 *)
Definition init : state := {| cached_pid := fun _ _ _ => 0; cache := fun _ => None; enotty := false |}.

(** pid_max_size and pid_max_size_lg, src/pidns.c:111-112; ilog2_32: src/defs.h:2093-2105 (C47) *)
Definition pid_max_size (c : config) : Z := Z.log2 (pid_max c - 1) + 1.
Definition pid_max_size_lg (c : config) : Z := Z.log2 (pid_max_size c - 1) + 1.
(** the keys the tries indexed by process ID accept *)
Definition in_trie (c : config) (k : Z) : bool := (0 <=? k) && (k <? 2 ^ pid_max_size c).

(** put_proc_pid, src/pidns.c:120-129: the items of the inner trie have 2^pid_max_size_lg bits *)
Definition put_proc_pid (c : config) (s : state) (ns : N) (id : Z) (ty : ptype) (pid : Z) : state :=
  {| cached_pid := fun t n i => if ptype_eqb t ty && N.eqb n ns && (i =? id) && in_trie c id
                                then pid mod 2 ^ 2 ^ pid_max_size_lg c else cached_pid s t n i;
     cache := cache s; enotty := enotty s |}.
(** get_cached_proc_pid, src/pidns.c:131-140 *)
Definition get_cached_proc_pid (c : config) (s : state) (ns : N) (id : Z) (ty : ptype) : Z :=
  if in_trie c id then cached_pid s ty ns id else 0.

(** trie_set(proc_data_cache, pid, pd) *)
Definition set_cache (c : config) (s : state) (pid : Z) (pd : option pdata) : state :=
  {| cached_pid := cached_pid s; cache := fun k => if (k =? pid) && in_trie c pid then pd else cache s k; enotty := enotty s |}.
Definition set_enotty (s : state) : state := {| cached_pid := cached_pid s; cache := cache s; enotty := true |}.

(** get_ns_hierarchy, src/pidns.c:150-200 *)
Definition get_ns_hierarchy (c : config) (v : view) (s : state) (pid : Z) (size : nat) : list N * state :=
  match ns_of v pid with
  | [] => ([], s)
  | n :: r =>
      if (size <=? 1)%nat then (firstn size (n :: r), s)
      else if enotty s then ([n], s)
      else if parent_known c then (firstn size (n :: r), s)
      else ([n], set_enotty s)
  end.

(** get_or_create_proc_data, src/pidns.c:271-287 *)
Definition get_or_create (c : config) (s : state) (pid : Z) : pdata * state :=
  match (if in_trie c pid then cache s pid else None) with
  | Some pd => (pd, s)
  | None => let pd := {| pd_pid := pid; pd_ns := []; pd_ids := fun _ => [] |} in (pd, set_cache c s pid (Some pd))
  end.

(** update_proc_data, src/pidns.c:293-312; [key]: where the structure is found in the cache,
    the pointer there being left in place while the structure changes; get_id_list: 212-217 *)
Definition update_proc_data (c : config) (v : view) (s : state) (key : Z) (pd : pdata) (ty : ptype) : option pdata * state :=
  let '(h, s) := get_ns_hierarchy c v s (pd_pid pd) MAX_NS_DEPTH in
  match h with
  | [] => (None, set_cache c s (pd_pid pd) None)
  | _ =>
      let ids := ids_of v (pd_pid pd) ty in
      match ids with
      | [] => (None, set_cache c s (pd_pid pd) None)
      | _ => let pd := {| pd_pid := pd_pid pd; pd_ns := h;
                          pd_ids := fun t => if ptype_eqb t ty then ids else pd_ids pd t |} in
             (Some pd, set_cache c s key (Some pd))
      end
  end.

(** an element of id_hierarchy[type]; beyond MAX_NS_DEPTH it is outside of the array *)
Definition id_at (ids : list Z) (i : nat) : res Z :=
  if (i <? MAX_NS_DEPTH)%nat then match nth_error ids i with Some x => Ok x | None => Undef end else Undef.
(** the loop of translate_id_proc_pid, src/pidns.c:360-377: [Ok None]: return without result *)
Fixpoint find_ns (ids : list Z) (count : nat) (from_ns : N) (from_id : Z) (i : nat) (l : list N) : res (option Z) :=
  match l with
  | [] => Ok None
  | ns :: r =>
      rlet ns_id := id_at ids (length ids - i - 1) in
      rlet our_id := id_at ids (length ids - count) in
      if negb (N.eqb ns from_ns) then find_ns ids count from_ns from_id (S i) r
      else if negb (ns_id =? from_id) then Ok None
      else Ok (Some our_id)
  end.
(** src/pidns.c:354-377 *)
Definition from_data (pd : pdata) (from_ns : N) (from_id : Z) (ty : ptype) : res (option Z) :=
  let ids := pd_ids pd ty in
  if (length (pd_ns pd) =? 0)%nat || (length ids <? length (pd_ns pd))%nat then Ok None
  else find_ns ids (length (pd_ns pd)) from_ns from_id 0 (pd_ns pd).

(** the output part of struct translate_id_params, src/pidns.c:325-328, and the static variables *)
Record out := { result_id : Z; found : option pdata; st : state }.
Definition outcome (s : state) (pd : pdata) (r : option Z) : out :=
  match r with
  | None => {| result_id := 0; found := None; st := s |}
  | Some id => {| result_id := id; found := Some pd; st := s |}
  end.

(** translate_id_proc_pid, src/pidns.c:339-378, with a process *)
Definition by_pid (c : config) (v : view) (from_ns : N) (from_id : Z) (ty : ptype) (s : state) (pid : Z) : res out :=
  let '(pd, s) := get_or_create c s pid in
  match update_proc_data c v s pid pd ty with
  | (None, s) => Ok {| result_id := 0; found := None; st := s |}
  | (Some pd, s) => rlet r := from_data pd from_ns from_id ty in Ok (outcome s pd r)
  end.
(** the same with proc_pid 0 *)
Definition by_data (from_ns : N) (from_id : Z) (ty : ptype) (s : state) (pd : pdata) : res out :=
  rlet r := from_data pd from_ns from_id ty in Ok (outcome s pd r).

(** proc_data_cache_iterator_fn, src/pidns.c:435-456 *)
Definition cache_fn (c : config) (v : view) (from_ns : N) (from_id : Z) (ty : ptype) (o : out) (key : Z) : res out :=
  match cache (st o) key with
  | None => Ok o
  | Some pd =>
      if negb (result_id o =? 0) then Ok o
      else
        rlet o := by_data from_ns from_id ty (st o) pd in
        if result_id o =? 0 then Ok o
        else if pd_pid pd =? 0 then by_data from_ns from_id ty (st o) pd
        else by_pid c v from_ns from_id ty (st o) (pd_pid pd)
  end.
(** trie_iterate_keys over the whole cache, src/pidns.c:497-499 (C20) *)
Fixpoint iterate (f : out -> Z -> res out) (o : out) (keys : list Z) : res out :=
  match keys with
  | [] => Ok o
  | k :: r => rlet o := f o k in iterate f o r
  end.
Definition all_keys (c : config) : list Z := map Z.of_nat (seq 0 (Z.to_nat (pid_max c))).

(** the loop of translate_id_dir, src/pidns.c:400-428, over the entries read: [sub]: what is done
    for an entry before the process itself, the task directory *)
Fixpoint scan (c : config) (v : view) (from_ns : N) (from_id : Z) (ty : ptype) (o : out) (l : list Z) : res out :=
  match l with
  | [] => Ok o
  | p :: r =>
      if negb (result_id o =? 0) then Ok o
      else if (p <? 1) || (2147483647 <? p) then scan c v from_ns from_id ty o r
      else rlet o := by_pid c v from_ns from_id ty (st o) p in scan c v from_ns from_id ty o r
  end.
Fixpoint scan_proc (c : config) (v : view) (from_ns : N) (from_id : Z) (ty : ptype) (o : out) (l : list (Z * list Z)) : res out :=
  match l with
  | [] => Ok o
  | (p, tasks) :: r =>
      if negb (result_id o =? 0) then Ok o
      else if (p <? 1) || (2147483647 <? p) then scan_proc c v from_ns from_id ty o r
      else
        rlet o := scan c v from_ns from_id ty o tasks in
        if negb (result_id o =? 0) then Ok o
        else rlet o := by_pid c v from_ns from_id ty (st o) p in scan_proc c v from_ns from_id ty o r
  end.

(** translate_pid from where the translation is not trivial, src/pidns.c:474-517: the result
    and *proc_pid_ptr, when it is set *)
Definition translate_in (c : config) (v : view) (s : state) (from_ns : N) (from_id : Z) (ty : ptype) : res (Z * option Z * state) :=
  if N.eqb from_ns 0 then Ok (0, None, s)
  else if enotty s then Ok (0, None, s)
  else
    let start := {| result_id := 0; found := None; st := s |} in
    let cp := get_cached_proc_pid c s from_ns from_id ty in
    rlet o := (if cp =? 0 then Ok start else by_pid c v from_ns from_id ty s cp) in
    rlet o := (if negb (result_id o =? 0) then Ok o
               else rlet o := iterate (cache_fn c v from_ns from_id ty) o (all_keys c) in
                    if negb (result_id o =? 0) then Ok o
                    else scan_proc c v from_ns from_id ty o (dirs v)) in
    match found o with
    | None => Ok (result_id o, None, st o)
    | Some pd =>
        Ok (result_id o, Some (pd_pid pd),
            if pd_pid pd =? 0 then st o else put_proc_pid c (st o) from_ns from_id ty (pd_pid pd))
    end.

(** translate_pid(NULL, from_id, type, &proc_pid), src/pidns.c:458-518 *)
Definition translate_ours (c : config) (v : view) (s : state) (from_id : Z) (ty : ptype) : res (Z * option Z * state) :=
  if from_id <=? 0 then Ok (0, None, s)
  else if proc_ours c then Ok (from_id, Some from_id, s)
  else translate_in c v s (our_ns c) from_id ty.
(** get_proc_pid, src/pidns.c:520-526 *)
Definition get_proc_pid (c : config) (v : view) (s : state) (pid : Z) : res (Z * state) :=
  rlet r := translate_ours c v s pid TID in
  Ok (match snd (fst r) with Some p => p | None => 0 end, snd r).

(** the fields pid and pid_ns of struct tcb *)
Record tcb := { t_pid : Z; t_ns : N }.
(** get_ns, src/pidns.c:236-247 *)
Definition get_ns (c : config) (v : view) (s : state) (t : tcb) : res (N * tcb * state) :=
  if negb (N.eqb (t_ns t) 0) then Ok (t_ns t, t, s)
  else
    rlet r := get_proc_pid c v s (t_pid t) in
    let '(p, s) := r in
    if p =? 0 then Ok (0%N, t, s)
    else match get_ns_hierarchy c v s p 1 with
         | (n :: _, s) => Ok (n, {| t_pid := t_pid t; t_ns := n |}, s)
         | ([], s) => Ok (0%N, t, s)
         end.
(** translate_pid(tcp, from_id, type, NULL), src/pidns.c:458-518; get_ns is called again at 476,
    with the same tcb: it then returns the namespace just found, or reads it again *)
Definition translate_pid (c : config) (v : view) (s : state) (t : tcb) (from_id : Z) (ty : ptype) : res (Z * tcb * state) :=
  if from_id <=? 0 then Ok (0, t, s)
  else
    rlet r := get_ns c v s t in
    let '(n, t, s) := r in
    if N.eqb n (our_ns c) then Ok (from_id, t, s)
    else
      rlet r := get_ns c v s t in
      let '(n, t, s) := r in
      rlet r := translate_in c v s n from_id ty in
      Ok (fst (fst r), t, snd r).

(** printpid_translation, src/pidns.c:528-547; [trans], [comm]: --decode-pids=pidns, comm *)
Definition printpid_translation (c : config) (v : view) (s : state) (trans comm : bool) (t : tcb) (pid : Z) (ty : ptype)
  : res (list N * tcb * state) :=
  let comm := comm && (ptype_eqb ty TID || ptype_eqb ty TGID) in
  if trans || comm then
    rlet r := translate_pid c v s t pid ty in
    let '(p, t, s) := r in
    Ok ((if p =? 0 then []
         else (if comm then bs "<" ++ comm_of v p ++ bs ">" else []) ++
              (if trans && negb (p =? pid) then bs " /* " ++ pr_z p ++ bs " in strace's PID NS */" else [])), t, s)
  else Ok ([], t, s).
(** printpid, src/pidns.c:549-554 *)
Definition printpid (c : config) (v : view) (s : state) (trans comm : bool) (t : tcb) (pid : Z) (ty : ptype)
  : res (list N * tcb * state) :=
  rlet r := printpid_translation c v s trans comm t pid ty in
  Ok (pr_z pid ++ fst (fst r), snd (fst r), snd r).
(** printpid_tgid_pgid, src/pidns.c:556-564 *)
Definition printpid_tgid_pgid (c : config) (v : view) (s : state) (trans comm : bool) (t : tcb) (pid : Z)
  : res (list N * tcb * state) :=
  rlet r := (if 0 <? pid then printpid_translation c v s trans comm t pid TGID
             else if pid <? -1 then printpid_translation c v s trans comm t (- pid) PGID
             else Ok ([], t, s)) in
  Ok (pr_z pid ++ fst (fst r), snd (fst r), snd r).

(** What happens while strace runs: IDs are translated for tracees, or for strace's own use, /proc
    showing something else each time *)
Inductive event := Print (v : view) (t : tcb) (id : Z) (ty : ptype) | Ours (v : view) (id : Z) (ty : ptype).
Definition step (c : config) (s : state) (e : event) : res state :=
  match e with
  | Print v t id ty => rlet r := translate_pid c v s t id ty in Ok (snd r)
  | Ours v id ty => rlet r := translate_ours c v s id ty in Ok (snd r)
  end.
Fixpoint run (c : config) (s : state) (h : list event) : res state :=
  match h with [] => Ok s | e :: r => rlet s := step c s e in run c s r end.
