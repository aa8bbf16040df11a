(** Model of the cache of /proc/PID/maps used for stack traces:
    src/mmap_cache.c and src/mmap_notify.c. *)
From Verif Require Import Base.
Import ListNotations.
Open Scope N_scope.

(** One line of /proc/PID/maps for which the sscanf of
    src/mmap_cache.c:99-105 returned 10.  Simplification: sscanf itself is
    not modelled; a line it does not match (e.g. an anonymous mapping, which
    has no path) is [None] below. *)
Record line := mk_line {
  l_start : N; l_end : N;
  l_r : N; l_w : N; l_x : N; l_s : N;
  l_off : N; l_major : N; l_minor : N;
  l_path : list N }.

(** struct mmap_cache_entry_t, src/mmap_cache.h:22-41. *)
Record entry := mk_entry {
  e_start : N; e_end : N; e_off : N; e_prot : N;
  e_major : N; e_minor : N; e_path : list N }.

(** Protection characters accepted, src/mmap_cache.c:107-115. *)
Definition chr_dash : N := 45.
Definition chr_r : N := 114.
Definition chr_w : N := 119.
Definition chr_x : N := 120.
Definition chr_p : N := 112.
Definition chr_s : N := 115.

Definition known_prot (l : line) : bool :=
  ((l_r l =? chr_dash) || (l_r l =? chr_r)) &&
  ((l_w l =? chr_dash) || (l_w l =? chr_w)) &&
  ((l_x l =? chr_dash) || (l_x l =? chr_x)) &&
  ((l_s l =? chr_p) || (l_s l =? chr_s)).

(** Filling of an entry, src/mmap_cache.c:149-163; the constants are those
    of src/mmap_cache.h:43-48. *)
Definition entry_of (l : line) : entry :=
  mk_entry (l_start l) (l_end l) (l_off l)
    (N.lor (if l_r l =? chr_r then 1 else 0)
    (N.lor (if l_w l =? chr_w then 2 else 0)
    (N.lor (if l_x l =? chr_x then 4 else 0)
           (if l_s l =? chr_s then 8 else 0))))
    (l_major l) (l_minor l) (l_path l).

(** The loop of src/mmap_cache.c:88-165.  [acc] is cache.entry, last entry
    first.  Simplifications: the array growth of lines 145-147 is a list
    (xgrowarray is modelled in AllocModel), messages are omitted. *)
Fixpoint build_loop (ls : list (option line)) (acc : list entry)
  : list entry :=
  match ls with
  | [] => acc
  | None :: ls' => build_loop ls' acc
  | Some l :: ls' =>
      if negb (known_prot l) then build_loop ls' acc
      else if l_end l <? l_start l then acc
      else
        match acc with
        | e :: _ =>
            if (e_start e =? l_start l) && (e_end e =? l_end l)
            then build_loop ls' acc
            else if (l_start l <=? e_start e) || (l_start l <? e_end e)
            then build_loop ls' acc
            else build_loop ls' (entry_of l :: acc)
        | [] => build_loop ls' (entry_of l :: acc)
        end
  end.

Definition build (ls : list (option line)) : list entry :=
  rev (build_loop ls []).

(** The loop of mmap_cache_search, src/mmap_cache.c:185-198.  [lower] and
    [upper] are ints: their sum must not exceed INT_MAX.  An access outside
    of the array is [Undef], and so is running out of fuel. *)
Definition INT_MAX : Z := 2147483647.

Fixpoint search_loop (fuel : nat) (es : list entry) (ip : N)
  (lower upper : Z) : res (option entry) :=
  match fuel with
  | O => Undef
  | S f =>
      if (lower <=? upper)%Z then
        if (INT_MAX <? upper + lower)%Z then Undef
        else
          let mid := Z.quot (upper + lower) 2 in
          if (mid <? 0)%Z then Undef
          else
            match nth_error es (Z.to_nat mid) with
            | None => Undef
            | Some e =>
                if (e_start e <=? ip) && (ip <? e_end e) then Ok (Some e)
                else if ip <? e_start e
                then search_loop f es ip lower (mid - 1)
                else search_loop f es ip (mid + 1) upper
            end
      else Ok None
  end.

(** struct mmap_cache_t, src/mmap_cache.h:15-20: generation and entries. *)
Notation cache := (N * list entry)%type (only parsing).

(** mmap_cache_search, src/mmap_cache.c:179-200.  (int) size is exact for
    sizes up to INT_MAX. *)
Definition mmap_cache_search (c : option cache) (ip : N)
  : res (option entry) :=
  match c with
  | None => Ok None
  | Some (_, es) =>
      if (INT_MAX <? Z.of_nat (length es))%Z then Undef
      else search_loop (S (length es)) es ip 0 (Z.of_nat (length es) - 1)
  end.

(** enum mmap_cache_rebuild_result, src/mmap_cache.h:50-54. *)
Inductive rebuilt := NOCACHE | READY | RENEWED.

(** What strace keeps: the static mmap_cache_generation
    (src/mmap_cache.c:16), use_mmap_cache (line 31), the number of
    registered clients of src/mmap_notify.c:16 (all of them
    mmap_cache_invalidate) and the mmap_cache of each tcb.  [files] is the
    kernel's side: what /proc/PID/maps of each tracee holds, [None] when it
    cannot be opened. *)
Record state := mk_state {
  gen : N;
  use_cache : bool;
  clients : nat;
  caches : N -> option cache;
  files : N -> option (list (option line)) }.

(** mmap_cache_invalidate, src/mmap_cache.c:18-26: unsigned int increment. *)
Definition invalidate (s : state) : state :=
  mk_state (u32 (gen s + 1)) (use_cache s) (clients s) (caches s) (files s).

(** mmap_notify_report, src/mmap_notify.c:27-33. *)
Definition report (s : state) : state := Nat.iter (clients s) invalidate s.

(** mmap_cache_enable, src/mmap_cache.c:28-37. *)
Definition enable (s : state) : state :=
  if use_cache s then s
  else mk_state (gen s) true (S (clients s)) (caches s) (files s).

Definition set_cache (s : state) (t : N) (c : option cache) : state :=
  mk_state (gen s) (use_cache s) (clients s) (fun t' => if t' =? t then c else caches s t') (files s).

(** delete_mmap_cache, src/mmap_cache.c:39-62; also called through free_fn
    by droptcb, src/strace.c:1135-1136. *)
Definition delete_mmap_cache (s : state) (t : N) : state :=
  set_cache s t None.

(** mmap_cache_rebuild_if_invalid, src/mmap_cache.c:70-177. *)
Definition rebuild_if_invalid (s : state) (t : N) : state * rebuilt :=
  let s1 :=
    match caches s t with
    | Some (g, _) => if g =? gen s then s else delete_mmap_cache s t
    | None => s
    end in
  match caches s1 t with
  | Some _ => (s1, READY)
  | None =>
      match files s1 t with
      | None => (s1, NOCACHE)
      | Some ls =>
          match build ls with
          | [] => (s1, NOCACHE)
          | es => (set_cache s1 t (Some (gen s1, es)), RENEWED)
          end
      end
  end.

(** Events: the kernel changes maps files, strace sees a system call that
    changes mappings exit (src/syscall.c:721-722), a stack trace or kvm
    decoder enables and uses the cache, a tcb is dropped. *)
Inductive event :=
| EEnable
| EFiles (f : N -> option (list (option line)))
| EReport
| EUse (t : N)
| EDrop (t : N).

Definition step (s : state) (e : event) : state :=
  match e with
  | EEnable => enable s
  | EFiles f => mk_state (gen s) (use_cache s) (clients s) (caches s) f
  | EReport => report s
  | EUse t => fst (rebuild_if_invalid s t)
  | EDrop t => delete_mmap_cache s t
  end.

Definition run (s : state) (h : list event) : state := fold_left step h s.

(** Initial values of the statics. *)
Definition init (f : N -> option (list (option line))) : state :=
  mk_state 0 false 0 (fun _ => None) f.
