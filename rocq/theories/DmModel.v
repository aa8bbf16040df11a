(** The data of device mapper ioctls: src/dm.c:164-549.  What lies in the tracee's memory is arbitrary. *)
From Verif Require Import Base InfoModel.
Local Open Scope N_scope.

(** [mem addr len]: what umoven (src/ucopy.c) copies, None when it fails *)
Definition memory := N -> N -> option (list N).
(** [ld s off n] (InfoModel): the little-endian member of n bytes at off *)
(** the members of struct dm_ioctl (<linux/dm-ioctl.h>) that are used here; 32 bits each *)
Record ioc := { version1 : N; data_size : N; data_start : N; target_count : N; data_out : bool (* flags & DM_DATA_OUT_FLAG *) }.

(** What is printed, as elements of the array behind the header.  [Elem a s str n ev]: a structure [s] read at address
    [a], with the string of at most [n] bytes at [str] and the event number; [More]: "..."; [Addr a]: the address, where
    nothing could be read; [Misplaced]: "??? /* misplaced struct ... */" *)
Inductive elem := Elem (a : N) (s : list N) (str n : N) (ev : option N) | More | Addr (a : N) | Misplaced.
(** sequence_truncation_needed, src/util.c:2082-2086 *)
Record opts := { abbrev : bool; max_strlen : N }.
Definition truncated (o : opts) (len : N) : bool := abbrev o && (max_strlen o <? u32 len).

Section Walk.
Variable o : opts.
Variable mem : memory.
Variable addr : N.
Variable d : ioc.

(** src/dm.c:182-227, from iteration [i] on.  sizeof(struct dm_target_spec) is 40: sector_start, length (8 each), status
    (4), next (4), target_type (16).  [None]: not finished after [fuel] iterations *)
Fixpoint spec_loop (entering : bool) (fuel : nat) (i offset offset_end : N) : option (list elem) :=
  match fuel with
  | O => None
  | S fuel =>
      if negb (i <? target_count d) then Some []
      else if negb (i =? 0) && (offset <=? offset_end) then Some [Misplaced]
      else
        let offset_end := u32 (offset + 40) in
        if (offset_end <=? offset) || (data_size d <? offset_end) then Some [Misplaced]
        else if truncated o (i + 1) then Some [More]
        else match mem (u64 (addr + offset)) 40 with
             | None => Some [Addr (u64 (addr + offset))]
             | Some s =>
                 let next := ld s 20 4 in
                 let offset' := (if entering then u32 (offset + next) else u32 (data_start d + next)) in
                 olet r := spec_loop entering fuel (i + 1) offset' offset_end in
                 Some (Elem (u64 (addr + offset)) s (u64 (addr + offset_end)) (data_size d - offset_end) None :: r)
             end
  end.
(** src/dm.c:164-234 *)
Definition target_spec (entering : bool) (fuel : nat) : option (list elem) :=
  if abbrev o then Some (if target_count d =? 0 then [] else [More])
  else spec_loop entering fuel 0 (data_start d) 0.

(** src/dm.c:316-379.  struct dm_name_list has dev (8), next (4) and name: offsetof(name) is 12 and sizeof is 16.
    [rc a n]: what printstr_ex returns for the string of at most n bytes at a *)
Fixpoint name_loop (rc : N -> N -> Z) (fuel : nat) (count offset offset_end : N) : option (list elem) :=
  match fuel with
  | O => None
  | S fuel =>
      if negb (count =? 0) && (offset <=? offset_end) then Some [Misplaced]
      else
        let offset_end := u32 (offset + 12) in
        if (offset_end <=? offset) || (data_size d <? offset_end) then Some [Misplaced]
        else if truncated o (count + 1) then Some [More]
        else match mem (u64 (addr + offset)) 16 with
             | None => Some [Addr (u64 (addr + offset))]
             | Some s =>
                 let next := ld s 8 4 in
                 let str := u64 (addr + offset_end) in let n := data_size d - offset_end in
                 let ev := (if (0 <? rc str n)%Z && (37 <=? version1 d)
                            then let e := N.ldiff (u64 (addr + offset_end + Z.to_N (rc str n) + 7)) 7 in
                                 if u64 (e + 4) <=? u64 (addr + offset + next) then option_map (fun b => ld b 0 4) (mem e 4) else None
                            else None) in
                 let rest := (if next =? 0 then Some [] else name_loop rc fuel (u32 (count + 1)) (u32 (offset + next)) offset_end) in
                 olet r := rest in Some (Elem (u64 (addr + offset)) s str n ev :: r)
             end
  end.
(** src/dm.c:296-386 *)
Definition name_list (rc : N -> N -> Z) (fuel : nat) : option (list elem) :=
  if data_start d =? data_size d then Some []
  else if abbrev o then Some [More]
  else name_loop rc fuel 0 (data_start d) 0.

(** src/dm.c:407-439.  struct dm_target_versions has next (4), version (12) and name *)
Fixpoint vers_loop (fuel : nat) (count offset offset_end : N) : option (list elem) :=
  match fuel with
  | O => None
  | S fuel =>
      if negb (count =? 0) && (offset <=? offset_end) then Some [Misplaced]
      else
        let offset_end := u32 (offset + 16) in
        if (offset_end <=? offset) || (data_size d <? offset_end) then Some [Misplaced]
        else if truncated o (count + 1) then Some [More]
        else match mem (u64 (addr + offset)) 16 with
             | None => Some [Addr (u64 (addr + offset))]
             | Some s =>
                 let next := ld s 0 4 in
                 let rest := (if next =? 0 then Some [] else vers_loop fuel (u32 (count + 1)) (u32 (offset + next)) offset_end) in
                 olet r := rest in Some (Elem (u64 (addr + offset)) s (u64 (addr + offset_end)) (data_size d - offset_end) None :: r)
             end
  end.
(** src/dm.c:388-446 *)
Definition target_versions (fuel : nat) : option (list elem) :=
  if data_start d =? data_size d then Some []
  else if abbrev o then Some [More]
  else vers_loop fuel 0 (data_start d) 0.

(** src/dm.c:246-294.  struct dm_target_deps has count (4), padding (4) and dev.  The devices, [n] bytes, are printed by
    print_array *)
Definition target_deps : list elem :=
  if data_start d =? data_size d then []
  else if abbrev o then [More]
  else
    let offset := data_start d in let offset_end := u32 (offset + 8) in
    if (offset_end <=? offset) || (data_size d <? offset_end) then [Misplaced]
    else match mem (u64 (addr + offset)) 8 with
         | None => [Addr (u64 (addr + offset))]
         | Some s => if (data_size d - offset_end) / 8 <? ld s 0 4 then [Misplaced]
                     else [Elem (u64 (addr + offset)) s (u64 (addr + offset_end)) (8 * ld s 0 4) None]
         end.
(** src/dm.c:448-484.  struct dm_target_msg has sector (8) and message *)
Definition target_msg : list elem :=
  if data_start d =? data_size d then []
  else if abbrev o then [More]
  else
    let offset := data_start d in let offset_end := u32 (offset + 8) in
    if (offset <? offset_end) && (offset_end <=? data_size d)
    then match mem (u64 (addr + offset)) 8 with
         | None => [Addr (u64 (addr + offset))]
         | Some s => [Elem (u64 (addr + offset)) s (u64 (addr + offset_end)) (data_size d - offset_end) None]
         end
    else [Misplaced].
(** src/dm.c:486-509 *)
Definition string : list elem :=
  if abbrev o then [More]
  else if data_start d <=? data_size d then [Elem (u64 (addr + data_start d)) [] (u64 (addr + data_start d)) (data_size d - data_start d) None]
  else [Misplaced].

(** the commands with data (<linux/dm-ioctl.h>) *)
Inductive cmd := DEV_WAIT | TABLE_STATUS | TABLE_LOAD | TABLE_DEPS | LIST_DEVICES | LIST_VERSIONS | TARGET_MSG | DEV_RENAME | DEV_SET_GEOMETRY | OTHER.
(** src/dm.c:511-549; [err]: the call failed *)
Definition payload (c : cmd) (entering err : bool) (rc : N -> N -> Z) (fuel : nat) : option (list elem) :=
  let ok := negb entering && negb err in
  match c with
  | DEV_WAIT | TABLE_STATUS => if ok then target_spec entering fuel else Some []
  | TABLE_LOAD => if entering then target_spec entering fuel else Some []
  | TABLE_DEPS => Some (if ok then target_deps else [])
  | LIST_DEVICES => if ok then name_list rc fuel else Some []
  | LIST_VERSIONS => if ok then target_versions fuel else Some []
  | TARGET_MSG => Some (if entering then target_msg else if negb err && data_out d then string else [])
  | DEV_RENAME | DEV_SET_GEOMETRY => Some (if entering then string else [])
  | OTHER => Some []
  end.
End Walk.
