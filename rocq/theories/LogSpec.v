(** What a reader of the log expects (C23, C24). *)
From Verif Require Import Base LogModel.
Local Open Scope N_scope.

Definition who_eqb (a b : who) : bool := Nat.eqb (w_gen a) (w_gen b) && (w_pid a =? w_pid b).

(** ** C23: lines have one author *)
(** A log is a sequence of lines, each started by the prefix of the tracee that writes it, then
    only text of that tracee up to the end of the line.  [None]: the log is not of this form;
    [Some (Some w)]: the last line is not ended, and is of w. *)
Fixpoint one_author (s : option who) (l : list item) : option (option who) :=
  match l with
  | [] => Some s
  | (w, x) :: r =>
      match s, x with
      | None, Lead _ => one_author (Some w) r
      | None, _ => None
      | Some _, Lead _ => None
      | Some w', Nl _ => if who_eqb w w' then one_author None r else None
      | Some w', _ => if who_eqb w w' then one_author s r else None
      end
  end.

(** ** C24: calls in the log *)
(** What the log so far says: the line being written, and for each tracee the name of the call
    that was left unfinished, if any. *)
Inductive line := Start                       (* at the start of a line *)
| Fresh (w : who)                             (* after the prefix *)
| InCall (w : who) (n : list N)               (* call n of w is being shown *)
| Unfinished (w : who) (n : list N)           (* it was just marked as unfinished *)
| Ended (w : who).                            (* only the end of the line may follow *)
Record reader := { ln : line; unf : nat -> option (list N) }.
Definition reader0 : reader := {| ln := Start; unf := fun _ => None |}.
Definition set_unf (f : nat -> option (list N)) (w : who) (v : option (list N)) : nat -> option (list N) :=
  fun g => if Nat.eqb g (w_gen w) then v else f g.

Definition read1 (s : reader) (x : item) : option reader :=
  let w := fst x in
  let at_ (l : line) := Some {| ln := l; unf := unf s |} in
  match ln s, snd x with
  | Start, Lead _ => at_ (Fresh w)
  | Fresh w', Msg _ => if who_eqb w w' then at_ (Ended w) else None
  (* a new call: whatever was left unfinished will not be resumed *)
  | Fresh w', Entry n => if who_eqb w w' then Some {| ln := InCall w n; unf := set_unf (unf s) w None |} else None
  (* "resumed" only after "unfinished", with the same name *)
  | Fresh w', Resumed n =>
      if who_eqb w w' then
        match unf s (w_gen w) with
        | Some n' => if beqs n n' then Some {| ln := InCall w n; unf := set_unf (unf s) w None |} else None
        | None => None
        end
      else None
  | InCall w' n, Txt _ => if who_eqb w w' then at_ (InCall w n) else None
  (* a result is shown only on a line that names the call *)
  | InCall w' n, Ret _ => if who_eqb w w' then at_ (Ended w) else None
  | InCall w' n, (Unfin | RetUnknown | PidChanged _ | NoRestart _) => if who_eqb w w' then at_ (Unfinished w n) else None
  | InCall w' n, Detached => if who_eqb w w' then at_ (Ended w) else None
  | Unfinished w' n, RetUnknown => if who_eqb w w' then at_ (Unfinished w n) else None
  | Unfinished w' n, Nl _ => if who_eqb w w' then Some {| ln := Start; unf := set_unf (unf s) w (Some n) |} else None
  | Ended w', Nl _ => if who_eqb w w' then at_ Start else None
  | _, _ => None
  end.
Fixpoint read (s : reader) (l : list item) : option reader :=
  match l with [] => Some s | x :: r => match read1 s x with Some s' => read s' r | None => None end end.

(** the same text as bytes: a line end occurs only where the pieces say so *)
Definition no_newline (x : tok) : Prop :=
  match x with
  | Entry s | Resumed s | Txt s | Ret s | Msg s | NoRestart s => ~ In 10 s
  | _ => True
  end.
