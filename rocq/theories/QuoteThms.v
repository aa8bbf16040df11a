(** C12-C15: quoted strings. *)
From Verif Require Import Base QuoteModel QuoteSpec QuoteProofs.
Local Open Scope N_scope.

(** C12: for every style, text that string_quote produces reads back, by the rules
    for C string literals, as exactly the bytes it was about -- less the one
    trailing NUL QUOTE_OMIT_TRAILING_0 asks to leave out.
    Partial: with non-ascii-chars \x must be read as taking two digits (see C12_non_ascii_chars_refuted). *)
Theorem C12_quoted_lossless_partial : forall h s size st esc out rc,
  bytes_ok s -> rule_ok h st ->
  string_quote s size st esc = Ok (out, rc) ->
  exists body b, out = wrap st body /\ unquote h Plain body = Some b /\
    (b = subject st size s \/
     (q0term st = false /\ omit0 st = true /\ rc = false /\ subject st size s = b ++ [0])) /\
    (q0term st = false -> b = subject st size s -> rc = true) /\
    (q0term st = true -> rc = false <-> exists r, s = b ++ 0 :: r).
Proof. intros. eapply string_quote_lossless; eauto. Qed.
Print Assumptions C12_quoted_lossless_partial.

(** It never reads beyond what its caller provides. *)
Theorem C12_reads_only_input : forall s size st esc,
  bytes_ok s -> readable st size s -> exists out rc, string_quote s size st esc = Ok (out, rc).
Proof. exact string_quote_total. Qed.
Print Assumptions C12_reads_only_input.

Definition ex_style (z : bool) (x : xflag_opts) : qstyle :=
  {| q0term := z; omit_quotes := false; omit0 := false; expect0 := false; comment := false; xstyle := x |}.
Example ex_quote : string_quote [104; 105; 1; 50; 0; 200; 34; 10; 7] 9 (ex_style false HEXSTR_NONE) None
  = Ok (bs """hi\0012\0\310\""\n\7""", true).
Proof. reflexivity. Qed.
Example ex_quote_z : string_quote [104; 105; 0; 50] 3 (ex_style true HEXSTR_ALL) None
  = Ok (bs """\x68\x69""", false).
Proof. reflexivity. Qed.

(** With --strings-in-hex=non-ascii-chars the C reading is not the right one: byte 1
    followed by `a' prints as "\x01a", which in C is the single byte 0x1a. *)
Theorem C12_non_ascii_chars_refuted : exists s out,
  bytes_ok s /\ string_quote s (length s) (ex_style false HEXSTR_NON_ASCII_CHARS) None = Ok (out, true) /\
  (forall body, out = wrap (ex_style false HEXSTR_NON_ASCII_CHARS) body ->
     exists b, unquote AllDigits Plain body = Some b /\ b <> s).
Proof.
  exists [1; 97], (bs """\x01a"""). split; [repeat constructor|]. split; [reflexivity|].
  intros body H. unfold wrap in H. cbn [comment omit_quotes ex_style] in H. rewrite app_nil_r in H.
  assert (body = bs "\x01a") as ->.
  { change (bs """\x01a""") with ([34] ++ bs "\x01a" ++ [34]) in H. change (bs """") with [34] in H.
    change ([] ++ [34] ++ body ++ [34]) with ([34] ++ body ++ [34]) in H.
    apply app_inv_head in H. apply app_inv_tail in H. auto. }
  exists [26]. split; [reflexivity|discriminate].
Qed.
Print Assumptions C12_non_ascii_chars_refuted.

(** Character constants read back as the character. *)
Theorem C12_char_lossless : forall q w c, c < 256 -> unquote_char (sprint_char q w c) = Some c.
Proof. intros. apply sprint_char_dec; auto. Qed.
Print Assumptions C12_char_lossless.

(** C13: output with its NUL fits the documented bound. *)
Theorem C13_output_bound : forall s size st esc out rc,
  bytes_ok s -> string_quote s size st esc = Ok (out, rc) ->
  (length out + 1 <= 4 * size + 1 + (if omit_quotes st then 0 else 2) + (if comment st then 7 else 0))%nat.
Proof.
  intros s size st esc out rc HB H. destruct (string_quote_wrap _ _ _ _ _ _ HB H) as (o & -> & _ & HL).
  rewrite wrap_length. lia.
Qed.
Print Assumptions C13_output_bound.

(** ... hence the buffers callers allocate: printstr_ex's static one, ... *)
Theorem C13_printstr_buffer : forall max m len st old out e,
  bytes_ok m -> bytes_ok old -> comment st = false ->
  printstr_ex max false m len st old = Ok (PText out e) -> N.of_nat (length out) + 1 <= 4 * max + 3.
Proof. exact printstr_fits. Qed.
Print Assumptions C13_printstr_buffer.

(** ... and the one of print_quoted_string_ex, for every size it accepts unless a comment is asked for.
    Partial: with a comment, sizes above 2^30 - 3 wrap around (C13_alloc_wraps_refuted). *)
Theorem C13_alloc_partial : forall s size st esc out rc a,
  bytes_ok s -> quote_alloc_size size st = Some a -> (comment st = false \/ size <= 2^30 - 3) -> size < 2^32 ->
  string_quote s (N.to_nat size) st esc = Ok (out, rc) -> N.of_nat (length out) + 1 <= a.
Proof.
  intros s size st esc out rc a HB HA HC HS H. apply C13_output_bound in H; auto.
  unfold quote_alloc_size in HA. destruct (negb (u32 (4 * size) / 4 =? size)) eqn:E; [discriminate|].
  assert (size < 2^30).
  { assert (u32 (4 * size) / 4 = size) as <- by lia. apply N.div_lt_upper_bound; [lia|].
    unfold u32. pose proof (N.mod_lt (4 * size) (2^32) ltac:(lia)). lia. }
  injection HA as <-. unfold u32. rewrite (N.mod_small (4 * size)) by lia.
  rewrite N.mod_small; destruct (omit_quotes st), (comment st); destruct HC; try discriminate; lia.
Qed.
Print Assumptions C13_alloc_partial.
Example ex_alloc : quote_alloc_size 10 (ex_style false HEXSTR_NONE) = Some 43.
Proof. reflexivity. Qed.

(** In full it is false: with QUOTE_EMIT_COMMENT the size of the buffer wraps around. *)
Theorem C13_alloc_wraps_refuted : exists s size st a out rc,
  bytes_ok s /\ size < 2^32 /\ quote_alloc_size size st = Some a /\
  string_quote s (N.to_nat size) st None = Ok (out, rc) /\ a < N.of_nat (length out) + 1.
Proof.
  set (st := {| q0term := false; omit_quotes := false; omit0 := false; expect0 := false; comment := true; xstyle := HEXSTR_NONE |}).
  assert (HB : bytes_ok (repeat 65 (N.to_nat (2^30 - 1)))).
  { apply Forall_forall. intros x Hx. apply repeat_spec in Hx. subst. unfold is_byte. lia. }
  destruct (string_quote_total (repeat 65 (N.to_nat (2^30 - 1))) (N.to_nat (2^30 - 1)) st None) as (out & rc & E).
  - exact HB.
  - unfold readable. cbn [q0term st]. rewrite repeat_length. auto.
  - exists (repeat 65 (N.to_nat (2^30 - 1))), (2^30 - 1), st, 6, out, rc.
    split; [exact HB|]. split; [lia|]. split; [reflexivity|]. split; [exact E|].
    destruct (string_quote_wrap _ _ _ _ _ _ HB E) as (o & -> & _ & _). rewrite wrap_length. cbn [omit_quotes comment st]. lia.
Qed.
Print Assumptions C13_alloc_wraps_refuted.

(** Character constants fit SPRINT_CHAR_BUFSZ. *)
Theorem C13_char_buffer : forall q w c, c < 256 -> (length (sprint_char q w c) + 1 <= 7)%nat.
Proof. intros q w c H. destruct (sprint_char_dec q w c H) as (_ & L & _). lia. Qed.
Print Assumptions C13_char_buffer.

(** C14: nothing but printable ASCII is ever printed. *)
Theorem C14_printable : forall s size st esc out rc,
  bytes_ok s -> string_quote s size st esc = Ok (out, rc) -> Forall printable_ascii out.
Proof.
  intros s size st esc out rc HB H. destruct (string_quote_wrap _ _ _ _ _ _ HB H) as (o & -> & P & _).
  apply wrap_print. exact P.
Qed.
Print Assumptions C14_printable.
Theorem C14_char_printable : forall q w c, c < 256 -> Forall printable_ascii (sprint_char q w c).
Proof. intros. apply sprint_char_dec; auto. Qed.
Print Assumptions C14_char_printable.

(** C15: strings and paths carry an ellipsis exactly when not shown completely.
    Missing: the style QUOTE_OMIT_TRAILING_0 (extended attribute values), for which
    it is false, and QUOTE_EXPECT_TRAILING_0 without QUOTE_0_TERMINATED. *)
Theorem C15_string_ellipsis_partial : forall h max m len st old,
  bytes_ok m -> bytes_ok old -> N.of_nat (length old) = max + 1 -> rule_ok h st ->
  omit0 st = false -> (expect0 st = true -> q0term st = true) ->
  exists p, printstr_ex max false m len st old = Ok p /\ shows h max st m len p.
Proof. exact printstr_shows. Qed.
Print Assumptions C15_string_ellipsis_partial.

Theorem C15_path_ellipsis : forall h xf m n old,
  bytes_ok m -> bytes_ok old -> N.of_nat (length old) = PATH_MAX ->
  (h = Two \/ xf <> HEXSTR_NON_ASCII_CHARS) -> 1 <= n ->
  exists p, printpathn xf false m n old = Ok p /\ shows_path h (N.min n PATH_MAX) m p.
Proof. exact printpath_shows. Qed.
Print Assumptions C15_path_ellipsis.

Example ex_str1 : printstr_ex 4 false (bs "abcdefg") 7 (ex_style false HEXSTR_NONE) (repeat 9 5)
  = Ok (PText (bs """abcd""") true).
Proof. reflexivity. Qed.
Example ex_str2 : printstr_ex 4 false (bs "abcd" ++ [0; 7]) (2^64 - 1) (ex_style true HEXSTR_NONE) (repeat 9 5)
  = Ok (PText (bs """abcd""") false).
Proof. reflexivity. Qed.
Example ex_path : printpathn HEXSTR_NONE false (bs "/etc" ++ [0; 7]) 5 (repeat 9 5) = Ok (PText (bs """/etc""") false)
  /\ printpathn HEXSTR_NONE false (bs "/etc" ++ [0; 7]) 4 (repeat 9 5) = Ok (PText (bs """/et""") true).
Proof. split; reflexivity. Qed.

(** An extended attribute value longer than the limit whose last byte shown is NUL
    is printed without that byte and without an ellipsis. *)
Theorem C15_omit_trailing_refuted : exists max m len st old out body b,
  bytes_ok m /\ N.of_nat (length old) = max + 1 /\ q0term st = false /\ omit0 st = true /\
  printstr_ex max false m len st old = Ok (PText out false) /\
  out = wrap st body /\ unquote AllDigits Plain body = Some b /\ N.of_nat (length b) + 1 < len /\ len = N.of_nat (length m).
Proof.
  exists 4, [65; 66; 67; 0; 68; 69], 6,
    {| q0term := false; omit_quotes := false; omit0 := true; expect0 := false; comment := false; xstyle := HEXSTR_NONE |},
    (repeat 9 5), (bs """ABC"""), (bs "ABC"), (bs "ABC").
  repeat match goal with |- _ /\ _ => split end; try reflexivity; try lia.
  - repeat constructor.
Qed.
Print Assumptions C15_omit_trailing_refuted.
