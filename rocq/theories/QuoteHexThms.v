(** C60: the form of each byte. *)
From Verif Require Import Base QuoteModel QuoteSpec QuoteProofs QuoteThms QuoteHexSpec QuoteHexProofs.
Local Open Scope N_scope.

(** For every string, every style and every set of characters to escape, the text is the
    bytes of the string one after the other, each in the form the option asks for: the
    default one, all hexadecimal, all hexadecimal exactly when a byte of the string is not
    ASCII text, or hexadecimal for the characters that have no other form. *)
Theorem C60_form : forall s size st esc out rc,
  bytes_ok s -> string_quote s size st esc = Ok (out, rc) ->
  exists body b, out = wrap st body /\ shown_as (wanted_form (xstyle st) esc (subject st size s)) b body /\
    (b = subject st size s \/
     (q0term st = false /\ omit0 st = true /\ subject st size s = b ++ [0])).
Proof. exact string_quote_form. Qed.
Print Assumptions C60_form.

Example ex_x_text : string_quote (bs "a b" ++ [10]) 4 (ex_style false HEXSTR_NON_ASCII) None = Ok (bs """a b\n""", true).
Proof. reflexivity. Qed.
Example ex_x_nontext : string_quote (bs "ab" ++ [1]) 3 (ex_style false HEXSTR_NON_ASCII) None = Ok (bs """\x61\x62\x01""", true).
Proof. reflexivity. Qed.
Example ex_x_chars : string_quote (bs "ab" ++ [1; 10]) 4 (ex_style false HEXSTR_NON_ASCII_CHARS) None = Ok (bs """ab\x01\n""", true).
Proof. reflexivity. Qed.
Example ex_x_esc : string_quote (bs "a,b") 3 (ex_style false HEXSTR_NONE) (Some (bs ",")) = Ok (bs """a\54b""", true).
Proof. reflexivity. Qed.
