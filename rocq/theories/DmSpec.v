(** The data behind a device mapper request, <linux/dm-ioctl.h>: structures, each of which says where the next is. *)
From Verif Require Import Base DmModel InfoSpec.
Local Open Scope N_scope.

(** The lists: the targets of a table as they are loaded, and as their status is returned; the devices; the versions of
    the targets. *)
Inductive list_kind := Loaded | Status | Names | Versions.
(** the size of the structure, without the string behind it *)
Definition header (k : list_kind) : N := match k with Loaded | Status => 40 | Names => 12 | Versions => 16 end.
(** how much has to be readable *)
Definition needed (k : list_kind) : N := match k with Names => 16 | _ => header k end.
(** which list a request comes with, on entry to the call and after it succeeded *)
Definition comes_with (c : cmd) (entering failed : bool) : option list_kind :=
  match c, entering, failed with
  | TABLE_LOAD, true, _ => Some Loaded
  | (TABLE_STATUS | DEV_WAIT), false, false => Some Status
  | LIST_DEVICES, false, false => Some Names
  | LIST_VERSIONS, false, false => Some Versions
  | _, _, _ => None
  end.

Section Data.
Variables (mem : memory) (addr : N) (d : ioc) (k : list_kind).
(** a structure: its distance from the beginning of the request, and its bytes *)
Definition structure := (N * list N)%type.
Definition last_of (l : list structure) : option structure := nth_error (rev l) 0.

(** Where the structure behind those of [l] is.  Targets are counted; the first is at data_start; the loaded ones say how
    far the next is from themselves, those returned how far it is from data_start.  In the other lists, the last
    structure has 0 there. *)
Definition place (l : list structure) : option N :=
  match k with
  | Loaded | Status =>
      if N.of_nat (length l) =? target_count d then None
      else Some match last_of l with
                | None => data_start d
                | Some (off, s) => (match k with Loaded => off | _ => data_start d end) + number_at s 20 4
                end
  | Names | Versions =>
      match last_of l with
      | None => Some (data_start d)
      | Some (off, s) => let next := number_at s (match k with Names => 8 | _ => 0 end) 4 in
                         if next =? 0 then None else Some (off + next)
      end
  end.
(** it is inside the data, and behind the one before and at least one byte of its string *)
Definition fits (l : list structure) (off : N) : Prop :=
  off + header k <= data_size d /\ forall off' s, last_of l = Some (off', s) -> off' + header k < off.
Definition content (off : N) : option (list N) := mem (u64 (addr + off)) (needed k).

(** [l]: the first structures of the list *)
Inductive chain : list structure -> Prop :=
| chain_nil : chain []
| chain_more l off s : chain l -> place l = Some off -> fits l off -> content off = Some s -> chain (l ++ [(off, s)]).
(** how the list goes on behind [l]: not at all, with a structure that cannot be where it is said to be, or with one that
    cannot be read *)
Inductive ending := End | Wrong | Unreadable (off : N).
Definition ends (l : list structure) (e : ending) : Prop :=
  match e with
  | End => place l = None
  | Wrong => exists off, place l = Some off /\ ~ fits l off
  | Unreadable off => place l = Some off /\ fits l off /\ content off = None
  end.

(** The number of events of a device, since version 4.37: behind the name and its zero byte, of [n] bytes together, at the
    next address that is a multiple of 8, if there is room for it before the next structure. *)
Definition events (n : Z) (st : structure) : option N :=
  let (off, s) := st in let at_ := 8 * ((addr + off + 12 + Z.to_N n + 7) / 8) in
  match k with
  | Names => if (0 <? n)%Z && (37 <=? version1 d) && (at_ + 4 <=? addr + off + number_at s 8 4)
             then option_map (fun b => number_at b 0 4) (mem at_ 4) else None
  | _ => None
  end.

(** A structure is shown with the string behind it, which ends with the data; a wrong one as misplaced; one that cannot be
    read by its address. *)
Definition shown (rc : N -> N -> Z) (st : structure) : elem :=
  let str := u64 (addr + fst st + header k) in let n := data_size d - (fst st + header k) in
  Elem (u64 (addr + fst st)) (snd st) str n (events (rc str n) st).
Definition shown_end (e : ending) : list elem :=
  match e with End => [] | Wrong => [Misplaced] | Unreadable off => [Addr (u64 (addr + off))] end.
End Data.

(** What is in the request has 32 bits; memory consists of bytes. *)
Definition ioc_ok (d : ioc) : Prop := data_size d < 2^32 /\ data_start d < 2^32 /\ target_count d < 2^32.
Definition mem_ok (mem : memory) : Prop := forall a n s, mem a n = Some s -> Forall (fun b => b < 256) s.

(** Lists of devices and of versions are empty when the data end where they start. *)
Definition no_data (k : list_kind) (d : ioc) : bool := match k with Names | Versions => data_start d =? data_size d | _ => false end.
(** Other data: a single structure at data_start.  The size of what precedes its variable part, and how long that is *)
Inductive one_kind := Deps | Message | String.
Definition comes_with_one (c : cmd) (entering failed out : bool) : option one_kind :=
  match c, entering, failed, out with
  | TABLE_DEPS, false, false, _ => Some Deps
  | TARGET_MSG, true, _, _ => Some Message
  | TARGET_MSG, false, false, true => Some String
  | (DEV_RENAME | DEV_SET_GEOMETRY), true, _, _ => Some String
  | _, _, _, _ => None
  end.
Definition one_header (k : one_kind) : N := match k with String => 0 | _ => 8 end.
Definition one_length (k : one_kind) (s : list N) (rest : N) : N := match k with Deps => 8 * number_at s 0 4 | _ => rest end.
