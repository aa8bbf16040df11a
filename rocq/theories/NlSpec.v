(** What is claimed of the decoding of netlink sequences. *)
From Verif Require Import Base NlModel.
Import ListNotations.
Local Open Scope N_scope.

Definition region (t : ntok) : list (N * N) :=
  match t with NHex a n | NPay a n => [(a, n)] | _ => [] end.

Definition inside (addr len : N) (r : N * N) : Prop :=
  addr <= fst r /\ fst r + snd r <= addr + len.

(** Lengths are rounded up to a multiple of 4. *)
Definition padded (n : N) : N := 4 * ((n + 3) / 4).

(** [len] bytes at [addr] are the elements whose headers are [hs]: each begins
    at the padded end of the previous one, and nothing but padding follows
    the last one.  [hs] is the size of a header, [le] the length in it. *)
Fixpoint seq_at (sz : N) (le : list N -> N) (m : nmem) (addr len : N) (hs : list (list N)) : Prop :=
  match hs with
  | [] => False
  | h :: rest =>
      sz <= len /\ m addr sz = Some h /\ sz <= le h /\
      match rest with
      | [] => le h <= len <= padded (le h)
      | _ => padded (le h) < len /\ seq_at sz le m (addr + padded (le h)) (len - padded (le h)) rest
      end
  end.

(** How an element is shown: its header, and its own payload if there is any. *)
Definition shown (sz : N) (le : list N -> N) (addr : N) (h : list N) : list ntok :=
  if sz <? le h then [NBegin; NHdr h; NNext; NPay (addr + sz) (le h - sz); NEnd] else [NHdr h].
Fixpoint shown_all (sz : N) (le : list N -> N) (addr : N) (hs : list (list N)) : list (list ntok) :=
  match hs with
  | [] => []
  | h :: rest => shown sz le addr h :: shown_all sz le (addr + padded (le h)) rest
  end.

Fixpoint joined (l : list (list ntok)) : list ntok :=
  match l with
  | [] => []
  | [x] => x
  | x :: r => x ++ NNext :: joined r
  end.
(** A single element is shown without brackets. *)
Definition array (l : list (list ntok)) : list ntok :=
  match l with
  | [x] => x
  | _ => NBegin :: joined l ++ [NEnd]
  end.

(** At most max_strlen elements are shown when abbreviating, then "...". *)
Definition limited (o : opts) (l : list (list ntok)) : list (list ntok) :=
  if abbrev o && (max_strlen o <? N.of_nat (List.length l))
  then firstn (N.to_nat (max_strlen o)) l ++ [[NMore]] else l.
