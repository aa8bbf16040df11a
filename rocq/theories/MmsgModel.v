(** Messages of recvmsg, sendmsg, recvmmsg and sendmmsg: src/mmsghdr.c:18-262, src/msghdr.c:415-470, 501-560, with print_array (src/util.c:1880-1991; see C49).
    Memory is a function from addresses to what fetch_struct_mmsghdr (fetch_struct_msghdr) gets there; [sz] is the size of the structure. *)
From Verif Require Import Base.
Local Open Scope N_scope.

(** struct msghdr: msg_namelen as an int; [h_rest] stands for the other members *)
Record hdr := { h_namelen : Z; h_rest : N }.
Record mmsg := { m_hdr : hdr; msg_len : N }.

(** What print_struct_msghdr shows, src/msghdr.c:423-470: the structure, how many bytes of msg_name are decoded, the value before
    "=>" if there is one, and the limit on the data ([None]: (kernel_ulong_t) -1). *)
Record shown := { s_hdr : hdr; s_decoded : Z; s_before : option Z; s_limit : option N }.
Definition print_struct_msghdr (m : hdr) (user : option Z) (size : option N) : shown :=
  {| s_hdr := m;
     s_decoded := match user with Some u => if (u <? h_namelen m)%Z then u else h_namelen m | None => h_namelen m end;
     s_before := match user with Some u => if (u =? h_namelen m)%Z then None else Some u | None => None end;
     s_limit := size |}.

(** struct print_struct_mmsghdr_config; [names]: what p_user_msg_namelen points at, or NULL *)
Record cfg := { names : option (list Z); msg_len_vlen : N; count : N; use_msg_len : bool }.
Inductive elem := Msg (s : shown) (len : option N) | More | MoreAt (a : N).
Inductive out := Null | Addr (a : N) | Elems (l : list elem).
(** src/mmsghdr.c:34-60 print_struct_mmsghdr: what is shown, and the configuration afterwards ([None]: return false).
    Reading namelen past its end is [Undef]. *)
Definition print_struct_mmsghdr (m : mmsg) (c : cfg) : res (elem * option cfg) :=
  if count c =? 0 then Ok (More, None)
  else
    rlet user := (match names c with None => Ok None | Some [] => Undef | Some (u :: _) => Ok (Some u) end) in
    let s := print_struct_msghdr (m_hdr m) user (if use_msg_len c then Some (msg_len m) else None) in
    let '(l, v) := if msg_len_vlen c =? 0 then (None, 0) else (Some (msg_len m), msg_len_vlen c - 1) in
    Ok (Msg s l, Some {| names := match names c with Some n => Some (tl n) | None => None end; msg_len_vlen := v; count := count c - 1; use_msg_len := use_msg_len c |}).

(** print_array_ex (src/util.c:1880-1991) for this printer: elements from the [i]th on; [fuel]: how many are left; [lim]: abbrev_end as an index *)
Record world := { sz : N; abbrev : bool; max_strlen : N }.
Definition at_ (w : world) (start : N) (i : nat) : N := start + sz w * N.of_nat i.
Fixpoint arr_loop (fuel : nat) (w : world) (mem : N -> option mmsg) (start nmemb : N) (i : nat) (c : cfg) (acc : list elem) : res out :=
  match fuel with
  | O => Ok (Elems acc)
  | S fuel =>
      match mem (at_ w start i) with
      | None => Ok (match i with O => Addr (at_ w start i) | _ => Elems (acc ++ [MoreAt (at_ w start i)]) end)
      | Some m =>
          if abbrev w && (max_strlen w <? nmemb) && (max_strlen w <=? N.of_nat i) then Ok (Elems (acc ++ [More]))
          else rlet (e, c') := print_struct_mmsghdr m c in
               match c' with
               | None => Ok (Elems (acc ++ [e]))
               | Some c' => arr_loop fuel w mem start nmemb (S i) c' (acc ++ [e])
               end
      end
  end.
Definition print_array (w : world) (mem : N -> option mmsg) (start nmemb : N) (c : cfg) : res out :=
  if start =? 0 then Ok Null
  else if nmemb =? 0 then Ok (Elems [])
  else let size := u64 (nmemb * sz w) in
       let end_ := u64 (start + size) in
       if (end_ <=? start) || negb (size / sz w =? nmemb) then Ok (Addr start)
       else arr_loop (N.to_nat nmemb) w mem start nmemb 0 c [].

(** src/mmsghdr.c:78-106 save_mmsgvec_namelen: the name lengths saved *)
Definition IOV_MAX : N := 1024.
Fixpoint save_loop (fuel : nat) (w : world) (mem : N -> option mmsg) (addr : N) : list Z :=
  match fuel with
  | O => []
  | S fuel => match mem addr with
              | None => []
              | Some m => h_namelen (m_hdr m) :: save_loop fuel w mem (u64 (addr + sz w))
              end
  end.
Definition save_mmsgvec_namelen (w : world) (mem : N -> option mmsg) (addr len : N) : list Z :=
  save_loop (N.to_nat (if IOV_MAX <? len then IOV_MAX else len)) w mem addr.
(** src/mmsghdr.c:108-130 decode_mmsgvec, on exit; [saved]: the private data; [syserror] makes fetch_struct_mmsghdr_for_print fail *)
Definition decode_mmsgvec (w : world) (mem : N -> option mmsg) (syserror : bool) (saved : option (list Z)) (addr vlen mlv : N) (use : bool) : res out :=
  let c := {| names := saved; msg_len_vlen := mlv; use_msg_len := use;
              count := match saved with Some l => if N.of_nat (length l) <? IOV_MAX then N.of_nat (length l) else IOV_MAX | None => IOV_MAX end |} in
  print_array w (fun a => if syserror then None else mem a) addr vlen c.

(** src/mmsghdr.c:189-262: the vector as recvmmsg shows it (verbose), from the memory on entry and on exit; [vlen]: the argument as an unsigned int;
    [rval]: u_rval, which is 2^64 - 1 when it fails *)
Definition recvmmsg_vec (w : world) (mem_in mem_out : N -> option mmsg) (addr vlen rval : N) (syserror : bool) : res out :=
  decode_mmsgvec w mem_out syserror (Some (save_mmsgvec_namelen w mem_in addr vlen)) addr (u32 rval) (u32 rval) true.
(** src/mmsghdr.c:150-187: as sendmmsg shows it: no private data, the error cleared *)
Definition sendmmsg_vec (w : world) (mem_out : N -> option mmsg) (addr vlen rval : N) (syserror : bool) : res out :=
  decode_mmsgvec w mem_out false None addr vlen (if syserror then 0 else u32 rval) false.
(** src/mmsghdr.c:239-261: what is said of recvmmsg's result *)
Inductive said := Nothing | Timeout | Left (at_ : N).
Definition recvmmsg_aux (verbose : bool) (rval timeout : N) (syserror : bool) : said :=
  if syserror then Nothing else if rval =? 0 then Timeout else if negb verbose || (timeout =? 0) then Nothing else Left timeout.

(** src/msghdr.c:472-560: the structure as recvmsg shows it *)
Inductive out1 := OAddr (a : N) | OLen (n : Z) | OMsg (s : shown).
Definition recvmsg_arg (verbose : bool) (mem_in mem_out : N -> option hdr) (addr rval : N) (syserror : bool) : out1 :=
  match (if negb (addr =? 0) && verbose then mem_in addr else None) with
  | None => OAddr addr                                                   (* printed on entry *)
  | Some m =>
      if syserror then OLen (h_namelen m)
      else match (if negb (addr =? 0) && verbose then mem_out addr else None) with
           | Some m' => OMsg (print_struct_msghdr m' (Some (h_namelen m)) (Some rval))
           | None => OAddr addr
           end
  end.
Definition sendmsg_arg (verbose : bool) (mem : N -> option hdr) (addr : N) : out1 :=
  match (if negb (addr =? 0) && verbose then mem addr else None) with
  | Some m => OMsg (print_struct_msghdr m None None)
  | None => OAddr addr
  end.
