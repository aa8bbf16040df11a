(** Reading and writing the memory of a tracee: src/ucopy.c.
    Simplifications: unsigned long is as wide as kernel_ulong_t (64 bits), so that the checks of
    src/ucopy.c:132-137 and 203-208 are never needed; messages are left out; the tracee is the one
    that the current event is about, as the cache does not say whose memory it holds. *)
From Verif Require Import Base.
Local Open Scope N_scope.

(** get_pagesize() = 2^pg; sizeof(long) = 2^wb *)
Record mach := { pg : N; wb : N }.
Definition page_size (M : mach) : N := 2 ^ pg M.
Definition long_size (M : mach) : N := 2 ^ wb M.
(** the memory of the tracee: None where nothing can be read *)
Definition mem := N -> option N.
(** the bytes that can be read from [a] on, up to [n] *)
Fixpoint prefix (m : mem) (a : N) (n : nat) : list N :=
  match n with
  | O => []
  | S n' => match m a with Some b => b :: prefix m (a + 1) n' | None => [] end
  end.

Definition ENOSYS : N := 38. Definition EPERM : N := 1. Definition EFAULT : N := 14. Definition EIO : N := 5. Definition ESRCH : N := 3.
(** what a read gives: bytes, as many as the value returned says, or -1 with errno *)
Inductive rd := RD (l : list N) | RE (errno : N).
(** process_vm_readv with one segment (process_vm_readv(2)): it stops at the first page that cannot be
    read.  [ve a]: the call for address [a] fails for another reason *)
Definition vm_readv (m : mem) (ve : N -> option N) (a len : N) : rd :=
  match ve a with
  | Some e => RE e
  | None => match prefix m a (N.to_nat len) with [] => RE EFAULT | l => RD l end
  end.

(** src/ucopy.c:21, 84-85, 153: process_vm_readv_not_supported, cached_idx, cached_raddr, buf *)
Record uc := { nosup : bool; cidx : option nat; craddr : nat -> N; cbuf : nat -> list N }.
Definition uc0 : uc := {| nosup := false; cidx := None; craddr := fun _ => 0; cbuf := fun _ => [] |}.
(** src/ucopy.c:64-82 *)
Definition process_read_mem (s : uc) (m : mem) (ve : N -> option N) (a len : N) : uc * rd :=
  let r := vm_readv m ve a len in
  (match r with RE e => if e =? ENOSYS then {| nosup := true; cidx := cidx s; craddr := craddr s; cbuf := cbuf s |} else s | RD _ => s end, r).
(** src/ucopy.c:87-91 *)
Definition invalidate_umove_cache (s : uc) : uc := {| nosup := nosup s; cidx := None; craddr := craddr s; cbuf := cbuf s |}.
(** src/ucopy.c:93-97 *)
Definition get_next_unused_idx (s : uc) : nat := match cidx s with Some i => Nat.modulo (i + 1) 4 | None => 0%nat end.
(** src/ucopy.c:99-112 *)
Definition lookup_cached_raddr_idx (s : uc) (raddr : N) : option nat :=
  match cidx s with
  | Some c => find (fun i => raddr =? craddr s i) (rev (seq 0 (c + 1)) ++ rev (seq (c + 1) (3 - c)))
  | None => None
  end.
(** src/ucopy.c:114-121 *)
Definition set_cached_raddr_idx (s : uc) (raddr : N) (idx : nat) : uc :=
  let ra := match cidx s with Some _ => craddr s | None => fun _ => 0 end in
  {| nosup := nosup s; cidx := Some idx; craddr := fun i => if Nat.eqb i idx then raddr else ra i; cbuf := cbuf s |}.
Definition set_buf (s : uc) (idx : nat) (l : list N) : uc :=
  {| nosup := nosup s; cidx := cidx s; craddr := craddr s; cbuf := fun i => if Nat.eqb i idx then l else cbuf s i |}.
(** memcpy from [off] on; undefined if that was never written *)
Definition slice (l : list N) (off len : N) : res (list N) :=
  if N.of_nat (length l) <? off + len then Undef else Ok (firstn (N.to_nat len) (skipn (N.to_nat off) l)).

Definition page_of (M : mach) (a : N) : N := N.ldiff a (page_size M - 1).
(** src/ucopy.c:150-194, the loop; [acc]: what was copied to laddr so far; [fuel] bounds the number of turns *)
Fixpoint vm_loop (M : mach) (fuel : nat) (s : uc) (m : mem) (ve : N -> option N) (page_start taddr len : N) (acc : list N) : res (uc * rd) :=
  match fuel with
  | O => Undef
  | S fuel' =>
      rlet (s, found) :=
        match lookup_cached_raddr_idx s page_start with
        | Some idx => Ok (s, inl idx)
        | None =>
            let idx := get_next_unused_idx s in
            let (s, r) := process_read_mem s m ve page_start (page_size M) in
            match r with
            | RE e => Ok (s, inr (match acc with [] => RE e | _ => RD acc end))
            | RD l => Ok (set_cached_raddr_idx (set_buf s idx (firstn (N.to_nat (page_size M)) (l ++ skipn (length l) (cbuf s idx)))) page_start idx, inl idx)
            end
        end in
      match found with
      | inr r => Ok (s, r)
      | inl idx =>
          let offset := taddr - page_start in
          let copy_len := if len <=? page_size M - offset then len else page_size M - offset in
          let next_len := len - copy_len in
          rlet l := slice (cbuf s idx) offset copy_len in
          if next_len =? 0 then Ok (s, RD (acc ++ l))
          else let p := u64 (page_start + page_size M) in vm_loop M fuel' s m ve p p next_len (acc ++ l)
      end
  end.
(** src/ucopy.c:123-195 *)
Definition vm_read_mem (M : mach) (s : uc) (m : mem) (ve : N -> option N) (taddr len : N) : res (uc * rd) :=
  if len =? 0 then Ok (s, RD [])
  else
    let page_start := page_of M taddr in
    let page_after_last := page_of M (u64 (taddr + len + (page_size M - 1))) in
    if (page_start =? 0) || (page_after_last <? page_start) || (4 * page_size M <? page_after_last - page_start)
    then Ok (process_read_mem s m ve taddr len)
    else vm_loop M (N.to_nat len) s m ve page_start taddr len [].

(** PTRACE_PEEKDATA at an aligned address; [pe a]: it fails for another reason *)
Definition peek (M : mach) (m : mem) (pe : N -> option N) (a : N) : option (list N) :=
  match pe a with
  | Some _ => None
  | None => let l := prefix m a (N.to_nat (long_size M)) in if N.of_nat (length l) =? long_size M then Some l else None
  end.
Definition align (M : mach) (a : N) : N := N.ldiff a (long_size M - 1).
Definition residue_of (M : mach) (a : N) : N := N.land a (long_size M - 1).
(** src/ucopy.c:244-291: Some: what was copied, and 0 is returned *)
Fixpoint umoven_peekdata_from (M : mach) (fuel : nat) (m : mem) (pe : N -> option N) (addr residue len : N) (acc : list N) : res (option (list N)) :=
  if len =? 0 then Ok (Some acc)
  else
    match fuel with
    | O => Undef
    | S fuel' =>
        let addr := align M addr in
        match peek M m pe addr with
        | None => Ok None
        | Some u =>
            let k := N.min (long_size M - residue) len in
            rlet l := slice u residue k in
            umoven_peekdata_from M fuel' m pe (u64 (addr + long_size M)) 0 (len - k) (acc ++ l)
        end
    end.
Definition umoven_peekdata (M : mach) (m : mem) (pe : N -> option N) (addr len : N) : res (option (list N)) :=
  umoven_peekdata_from M (N.to_nat len) m pe addr (residue_of M addr) len [].

(** src/ucopy.c:227-236; [short]: current_wordsize < sizeof(addr) *)
Definition tracee_addr_is_invalid (short : bool) (addr : N) : bool := short && negb (N.ldiff addr 0xffffffff =? 0).
(** src/ucopy.c:297-333: Some: 0 is returned.  The value of vm_read_mem is converted to int; what
    follows for one of 2^31 or more depends on errno and is left undefined *)
Definition umoven (M : mach) (short : bool) (s : uc) (m : mem) (ve pe : N -> option N) (addr len : N) : res (uc * option (list N)) :=
  if tracee_addr_is_invalid short addr then Ok (s, None)
  else if nosup s then rlet r := umoven_peekdata M m pe addr len in Ok (s, r)
  else
    rlet (s, r) := vm_read_mem M s m ve addr len in
    match r with
    | RD l =>
        if N.of_nat (length l) =? len then Ok (s, Some l)
        else if N.of_nat (length l) <? 2147483648 then Ok (s, None) else Undef
    | RE e =>
        (* (unsigned int) -1 == len *)
        if len =? 4294967295 then Undef
        else if (e =? ENOSYS) || (e =? EPERM) then rlet r := umoven_peekdata M m pe addr len in Ok (s, r)
        else Ok (s, None)
    end.

(** position of the first NUL *)
Fixpoint find_nul (l : list N) (k : N) : option N := match l with [] => None | b :: r => if b =? 0 then Some k else find_nul r (k + 1) end.
(** src/ucopy.c:339-390: value returned, and what was copied *)
Fixpoint umovestr_peekdata_from (M : mach) (fuel : nat) (m : mem) (pe : N -> option N) (addr residue len : N) (acc : list N) : res (Z * list N) :=
  if len =? 0 then Ok (0%Z, acc)
  else
    match fuel with
    | O => Undef
    | S fuel' =>
        let addr := align M addr in
        match peek M m pe addr with
        | None => Ok ((-1)%Z, acc)
        | Some u =>
            let k := N.min (long_size M - residue) len in
            rlet l := slice u residue k in
            match find_nul (skipn (N.to_nat residue) u) residue with
            | Some j => Ok (Z.of_nat (length acc) + Z.of_N (j + 1), acc ++ l)%Z
            | None => umovestr_peekdata_from M fuel' m pe (u64 (addr + long_size M)) 0 (len - k) (acc ++ l)
            end
        end
    end.
Definition umovestr_peekdata (M : mach) (m : mem) (pe : N -> option N) (addr len : N) : res (Z * list N) :=
  umovestr_peekdata_from M (N.to_nat len) m pe addr (residue_of M addr) len [].
(** src/ucopy.c:415-468, the loop *)
Fixpoint umovestr_from (M : mach) (fuel : nat) (s : uc) (m : mem) (ve pe : N -> option N) (addr len : N) (acc : list N) : res (uc * (Z * list N)) :=
  if len =? 0 then Ok (s, (0%Z, acc))
  else
    match fuel with
    | O => Undef
    | S fuel' =>
        let chunk_len := if page_size M <? len then page_size M else len in
        let end_in_page := N.land (u64 (addr + chunk_len)) (page_size M - 1) in
        let chunk_len := if end_in_page <? chunk_len then chunk_len - end_in_page else chunk_len in
        rlet (s, r) := vm_read_mem M s m ve addr chunk_len in
        match r with
        | RD [] => Undef                  (* errno is not set *)
        | RD l =>
            match find_nul l 0 with
            | Some k => Ok (s, (Z.of_nat (length acc) + Z.of_N k + 1, acc ++ l)%Z)
            | None => umovestr_from M fuel' s m ve pe (u64 (addr + N.of_nat (length l))) (len - N.of_nat (length l)) (acc ++ l)
            end
        | RE e =>
            if ((e =? ENOSYS) || (e =? EPERM)) && (match acc with [] => true | _ => false end)
            then rlet r := umovestr_peekdata M m pe addr len in Ok (s, r)
            else Ok (s, ((-1)%Z, acc))
        end
    end.
(** src/ucopy.c:403-469 *)
Definition umovestr (M : mach) (short : bool) (s : uc) (m : mem) (ve pe : N -> option N) (addr len : N) : res (uc * (Z * list N)) :=
  if tracee_addr_is_invalid short addr then Ok (s, ((-1)%Z, []))
  else if nosup s then rlet r := umovestr_peekdata M m pe addr len in Ok (s, r)
  else umovestr_from M (N.to_nat len) s m ve pe addr len [].

(** ** Writing *)
(** PTRACE_POKEDATA of a word at an aligned address: it fails where [wr] says so *)
Definition write (m : mem) (a : N) (l : list N) : mem := fun x => if (a <=? x) && (x <? a + N.of_nat (length l)) then Some (nth (N.to_nat (x - a)) l 0) else m x.
Definition poke (m : mem) (wr : N -> bool) (a : N) (l : list N) : option mem := if wr a then Some (write m a l) else None.
(** src/ucopy.c:471-487 *)
Definition upoken_peekpoke (M : mach) (m : mem) (pe : N -> option N) (wr : N -> bool) (addr : N) (l : list N) (offset : N) : option mem :=
  match peek M m pe addr with
  | None => None
  | Some u => poke m wr addr (firstn (N.to_nat offset) u ++ l ++ skipn (N.to_nat offset + length l) u)
  end.
(** src/ucopy.c:509-520; results: memory, number of bytes written, what is left to write and where; None
    if a write failed *)
Fixpoint pokedata_words (M : mach) (fuel : nat) (m : mem) (wr : N -> bool) (addr : N) (l : list N) (nw : N) : mem * N * option (N * list N) :=
  if N.of_nat (length l) <? long_size M then (m, nw, Some (addr, l))
  else
    match fuel with
    | O => (m, nw, Some (addr, l))
    | S fuel' =>
        match poke m wr addr (firstn (N.to_nat (long_size M)) l) with
        | None => (m, nw, None)
        | Some m' => pokedata_words M fuel' m' wr (u64 (addr + long_size M)) (skipn (N.to_nat (long_size M)) l) (nw + long_size M)
        end
    end.
(** src/ucopy.c:489-551 *)
Definition upoken_pokedata (M : mach) (m : mem) (pe : N -> option N) (wr : N -> bool) (addr : N) (l : list N) : mem * N :=
  let head :=
    match l with
    | [] => (m, 0, Some (addr, l))
    | _ =>
        let residue := residue_of M addr in
        if residue =? 0 then (m, 0, Some (addr, l))
        else
          let npoke := N.min (long_size M - residue) (N.of_nat (length l)) in
          let a := align M addr in
          match upoken_peekpoke M m pe wr a (firstn (N.to_nat npoke) l) residue with
          | None => (m, 0, None)
          | Some m' => (m', npoke, Some (u64 (a + long_size M), skipn (N.to_nat npoke) l))
          end
    end in
  match head with
  | (m, nw, None) => (m, nw)
  | (m, nw, Some (addr, l)) =>
      match pokedata_words M (length l) m wr addr l nw with
      | (m, nw, None) => (m, nw)
      | (m, nw, Some (addr, [])) => (m, nw)
      | (m, nw, Some (addr, l)) =>
          match upoken_peekpoke M m pe wr addr l 0 with
          | None => (m, nw)
          | Some m' => (m', nw + N.of_nat (length l))
          end
      end
  end.
(** process_vm_writev with one segment: it stops at the first page that cannot be written *)
Fixpoint wprefix (wr : N -> bool) (a : N) (l : list N) : list N := match l with [] => [] | b :: r => if wr a then b :: wprefix wr (a + 1) r else [] end.
(** src/ucopy.c:197-224, 557-590.  [vwr]: where process_vm_writev can write; [we]: it fails for another reason.
    Result: memory, not supported, bytes written *)
Definition upoken (M : mach) (short nowsup : bool) (m : mem) (pe : N -> option N) (wr vwr : N -> bool) (we : option N) (addr : N) (l : list N) : mem * bool * N :=
  if tracee_addr_is_invalid short addr then (m, nowsup, 0)
  else if nowsup then let (m, n) := upoken_pokedata M m pe wr addr l in (m, nowsup, n)
  else
    match we with
    | None =>
        match l, wprefix vwr addr l with
        | [], _ => (m, nowsup, 0)
        | _, [] => let (m, n) := upoken_pokedata M m pe wr addr l in (m, nowsup, n)     (* EFAULT *)
        | _, l' => (write m addr l', nowsup, N.of_nat (length l'))
        end
    | Some e =>
        let nowsup := nowsup || (e =? ENOSYS) in
        if (e =? ENOSYS) || (e =? EPERM) || (e =? EFAULT) || (e =? EIO) then let (m, n) := upoken_pokedata M m pe wr addr l in (m, nowsup, n)
        else (m, nowsup, 0)
    end.
