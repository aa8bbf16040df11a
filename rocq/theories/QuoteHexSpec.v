(** C60: in which form each byte of a string is shown. *)
From Verif Require Import Base QuoteModel QuoteSpec.
Local Open Scope N_scope.

(** Text in the sense of -x: printable ASCII or one of the blanks \t \n \v \f \r. *)
Definition ascii_text (c : N) : Prop := 32 <= c <= 126 \/ 9 <= c <= 13.

(** \x and exactly two hexadecimal digits worth [c] *)
Definition hex_form (c : N) (t : list N) : Prop :=
  exists a b x y, t = [92; 120; a; b] /\ hex_val a = Some x /\ hex_val b = Some y /\ c = 16 * x + y.
(** a backslash and one to three octal digits worth [c] *)
Definition oct_value (ds : list N) : N := fold_left (fun v d => 8 * v + (d - 48)) ds 0.
Definition oct_form (c : N) (t : list N) : Prop :=
  exists ds, t = 92 :: ds /\ (1 <= length ds <= 3)%nat /\ Forall (fun d => is_oct d = true) ds /\ c = oct_value ds.

(** A byte in the default form: printable characters other than the quote, the
    backslash and those the caller wants escaped stand for themselves; quote, backslash
    and blanks have their two-character escapes; all others are shown as [num] says. *)
Definition asked (esc : option (list N)) (c : N) : Prop := exists l, esc = Some l /\ In c l.
Inductive default_form (num : N -> list N -> Prop) (esc : option (list N)) (c : N) (t : list N) : Prop :=
| itself : 32 <= c <= 126 -> c <> 34 -> c <> 92 -> ~ asked esc c -> t = [c] -> default_form num esc c t
| short e : t = [92; e] -> simple_escape e = Some c -> (c = 34 \/ c = 92 \/ 9 <= c <= 13) -> default_form num esc c t
| number : (~ ascii_text c \/ asked esc c) -> c <> 34 -> c <> 92 -> num c t -> default_form num esc c t.

(** [body] shows the bytes [b] one after the other, each in the given form *)
Definition shown_as (form : N -> list N -> Prop) (b body : list N) : Prop :=
  exists ts, body = concat ts /\ Forall2 form b ts.

(** What --strings-in-hex asks for: [subj] are the bytes of the string. *)
Definition wanted_form (x : xflag_opts) (esc : option (list N)) (subj : list N) : N -> list N -> Prop :=
  match x with
  | HEXSTR_NONE => default_form oct_form esc
  | HEXSTR_ALL => hex_form
  | HEXSTR_NON_ASCII_CHARS => default_form hex_form esc
  | HEXSTR_NON_ASCII =>
      fun c t => (Exists (fun d => ~ ascii_text d) subj -> hex_form c t) /\
                 (Forall ascii_text subj -> default_form oct_form esc c t)
  end.
