(** Model of descriptor sets of select, CPU masks and the results of poll:
    src/desc.c:22-143, src/affinity.c:44-94, src/poll.c:49-137. *)
From Verif Require Import Base Printf RetModel BitsModel.
Local Open Scope N_scope.

(** src/desc.c:28-36: the count is truncated to int; negative counts become 0, large ones 1024*1024 *)
Definition clamp_nfds (arg0 : N) : N :=
  let n := u32 arg0 in
  if 2^31 <=? n then 0 else if 1024 * 1024 <? n then 1024 * 1024 else n.
(** ROUNDUP(size, current_wordsize), a power of two; also desc.c:42 *)
Definition roundup (size ws : N) : N := (size + ws - 1) / ws * ws.
(** src/desc.c:42 *)
Definition fdsize (nfds ws : N) : N := roundup ((nfds + 7) / 8) ws.

(** the loop `for (int j = 0;; ++j) { j = next_set_bit(set, j, n); if (j < 0) break; ... }' of
    src/desc.c:61-70 and src/affinity.c:75-84, with the members visited, in order *)
Fixpoint members (fuel : nat) (arr : list N) (xm n j : N) : res (list N) :=
  match fuel with
  | O => Undef
  | S f => rlet r := next_set_bit arr xm j n in
           match r with
           | None => Ok []
           | Some b => rlet l := members f arr xm n (b + 1) in Ok (b :: l)
           end
  end.
(** tprint_bitset_begin/next/end, src/print_fields.h:122-138, around already printed elements; the
    flag `next'/`printed' of the two loops *)
Fixpoint bitset_tail (l : list (list N)) : list N :=
  match l with [] => [] | x :: r => [32] ++ x ++ bitset_tail r end.
Definition bitset_body (l : list (list N)) : list N :=
  match l with [] => [] | x :: r => x ++ bitset_tail r end.

(** the tracee's memory: [mem addr len] is what umoven (src/ucopy.c) copies, None when it fails *)
Definition memory := N -> N -> option (list N).

(** src/desc.c:52-73, one set on entering.  [pfd] is the text of printfd, [paddr] that of printaddr;
    malloc is assumed to succeed. *)
Definition enter_set (pfd : N -> list N) (paddr : N -> list N) (mem : memory) (vb : bool) (ws xm nfds addr : N) : res (list N) :=
  let size := fdsize nfds ws in
  if negb (vb && (0 <? size)) then Ok (paddr addr)
  else match (if addr =? 0 then None else mem addr size) with
       | None => Ok (paddr addr)
       | Some arr => rlet l := members (N.to_nat nfds + 1) arr xm nfds 0 in
                     Ok ([91] ++ bitset_body (map pfd l) ++ [93])
       end.

(** ---- leaving select, src/desc.c:78-140 ---- *)
(** sizeof(outstr) *)
Definition cap : N := 1024.
Record est := mkest { out : list N; ready : Z; first : bool; sep : list N }.
(** the name of a set, desc.c:115 *)
Definition set_name (i : N) : list N := if i =? 0 then bs "in" else if i =? 1 then bs "out" else bs "except".
(** desc.c:109-126, one ready descriptor *)
Definition exit_bit (i j : N) (s : est) : res est :=
  if N.of_nat (length (out s)) <? cap - (11 + 4 * 3 + 2) then
    if first s
    then rlet o := xappendstr cap (out s) (sep s ++ set_name i ++ bs " [" ++ pr_num 10 j) in
         Ok (mkest o (ready s) false (bs ", "))
    else rlet o := xappendstr cap (out s) ([32] ++ pr_num 10 j) in
         Ok (mkest o (ready s) (first s) (sep s))
  else Ok s.
(** desc.c:104-129 *)
Fixpoint exit_bits (fuel : nat) (arr : list N) (xm nfds i j : N) (s : est) : res est :=
  match fuel with
  | O => Undef
  | S f => rlet r := next_set_bit arr xm j nfds in
           match r with
           | None => Ok s
           | Some b =>
               rlet s1 := exit_bit i b s in
               let s2 := mkest (out s1) (ready s1 - 1) (first s1) (sep s1) in
               if (ready s2 =? 0)%Z then Ok s2 else exit_bits f arr xm nfds i (b + 1) s2
           end
  end.
(** desc.c:98-132 *)
Fixpoint exit_sets (mem : memory) (ws xm nfds i : N) (addrs : list N) (s : est) : res est :=
  match addrs with
  | [] => Ok s
  | addr :: r =>
      if (ready s <=? 0)%Z then Ok s
      else match (if addr =? 0 then None else mem addr (fdsize nfds ws)) with
           | None => exit_sets mem ws xm nfds (i + 1) r s
           | Some arr =>
               rlet s1 := exit_bits (N.to_nat nfds + 1) arr xm nfds i 0 (mkest (out s) (ready s) true (sep s)) in
               match out s1 with
               | [] => exit_sets mem ws xm nfds (i + 1) r s1
               | _ => rlet o := put cap (out s1) 93 in
                      exit_sets mem ws xm nfds (i + 1) r (mkest o (ready s1) (first s1) (sep s1))
               end
           end
  end.
(** desc.c:82-140, when the call did not fail.  [rval] is u_rval as an int, [left] the text of the
    remaining time when a timeout was passed. *)
Definition exit_select (mem : memory) (ws xm nfds : N) (rval : Z) (addrs : list N) (left : option (list N)) : res (list N) :=
  if (rval =? 0)%Z then Ok (bs "Timeout")
  else rlet s := exit_sets mem ws xm nfds 0 addrs (mkest [] rval true []) in
       rlet o := (match left with
                  | None => Ok (out s)
                  | Some str => if N.of_nat (length (out s)) + 6 + N.of_nat (length (sep s)) + N.of_nat (length str) <? cap
                                then xappendstr cap (out s) (sep s ++ bs "left " ++ str) else Ok (out s)
                  end) in
       if N.of_nat (length o) <? cap then Ok o else Undef.

(** ---- CPU masks, src/affinity.c:44-94; [cs] is get_cpuset_size().  [err]: exiting with an error.
    calloc is assumed to succeed; sizes near 2^32, where ROUNDUP wraps, are excluded by [cs]. ---- *)
Definition zeros (n : N) : list N := repeat 0 (N.to_nat n).
Definition affinity (paddr : N -> list N) (mem : memory) (vb err : bool) (ws xm cs addr len : N) : res (list N) :=
  let umove_size := N.min len cs in
  let size := roundup umove_size ws in
  if negb vb || err || (addr =? 0) then Ok (paddr addr)
  else if len =? 0 then Ok (bs "[]")
  else match mem addr umove_size with
       | None => Ok (paddr addr)
       | Some a => let cpu := a ++ zeros (size - umove_size) in
                   rlet l := members (N.to_nat (size * 8) + 1) cpu xm (size * 8) 0 in
                   Ok ([91] ++ bitset_body (map (pr_num 10) l ++ (if size <? len then [bs "..."] else [])) ++ [93])
       end.

(** ---- leaving poll, src/poll.c:49-137 ---- *)
(** the fields fd and revents of struct pollfd at an address, None when it cannot be read *)
Definition pollmem := N -> option (Z * N).
(** "%#lx" *)
Definition alt_hex (v : N) : list N := if v =? 0 then bs "0" else bs "0x" ++ pr_num 16 v.
(** poll.c:88-91 and 79-82 *)
Definition poll_sep (o : list N) : res (list N) :=
  match o with [] => put cap o 91 | _ => stpcpy cap o (bs ", ") end.
(** poll.c:77-114.  [wl] is sizeof(long), [fl] the text of sprintflags for revents; [mx] is max_strlen
    when the call is abbreviated; [n] elements remain *)
Fixpoint poll_loop (n : nat) (wl : N) (fl : N -> list N) (mx : option N) (mem : pollmem) (cur printed : N) (o : list N) : res (list N) :=
  match n with
  | O => Ok o
  | S k =>
      match mem cur with
      | None => rlet o1 := poll_sep o in xappendstr cap o1 (alt_hex cur)
      | Some (fd, rev) =>
          if rev =? 0 then poll_loop k wl fl mx mem (cur + 8) printed o
          else rlet o1 := poll_sep o in
               if (match mx with Some m => m <? printed + 1 | None => false end) then stpcpy cap o1 (bs "...")
               else let fdstr := bs "{fd=" ++ pr_z fd ++ bs ", revents=" in
                    let flagstr := fl rev in
                    if cap - (2 + 2 * wl + 9) <=? N.of_nat (length o1) + N.of_nat (length fdstr) + N.of_nat (length flagstr) + 1
                    then stpcpy cap o1 (bs "...")
                    else rlet o2 := stpcpy cap o1 fdstr in
                         rlet o3 := stpcpy cap o2 flagstr in
                         rlet o4 := put cap o3 125 in
                         poll_loop k wl fl mx mem (cur + 8) (printed + 1) o4
      end
  end.
(** poll.c:116-135; None: nothing is shown *)
Definition poll_finish (pts : option (list N)) (o : list N) : res (option (list N)) :=
  rlet o1 := (match o with [] => Ok o | _ => put cap o 93 end) in
  if N.of_nat (length o1) <? cap then
    rlet o2 := (match pts with
                | None => Ok o1
                | Some str => if N.of_nat (length o1) + 8 + N.of_nat (length str) <? cap
                              then rlet a := stpcpy cap o1 (match o1 with [] => bs "left " | _ => bs ", left " end) in stpcpy cap a str
                              else stpcpy cap o1 (bs ", ...")
                end) in
    match o2 with [] => Ok None | _ => Ok (Some o2) end
  else Undef.
(** poll.c:64-135, when the call did not fail; [lim] is 2^(bits of kernel_ulong_t) *)
Definition exit_poll (wl lim : N) (fl : N -> list N) (vb : bool) (mx : option N) (mem : pollmem) (rval : N) (start nfds : N)
  (pts : option (list N)) : res (option (list N)) :=
  if rval =? 0 then Ok (Some (bs "Timeout"))
  else let size := (8 * nfds) mod 2 ^ (8 * wl) in
       let ende := (start + size) mod lim in
       if negb vb || (start =? 0) || (nfds =? 0) || negb (size / 8 =? nfds) || (ende <? start) then Ok None
       else rlet o := poll_loop (N.to_nat nfds) wl fl mx mem start 0 [] in poll_finish pts o.
