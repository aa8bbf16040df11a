(** C45: directory entries. *)
From Verif Require Import Base DentsModel DentsSpec DentsProofs.
Import ListNotations.
Local Open Scope N_scope.

(** C45: whatever is in the buffer, decoding it ends, and everything that is
    read for it lies within the [len] bytes at [addr]. *)
Theorem C45_inside : forall y ab m addr len,
  good_layout y -> addr < 2 ^ 64 -> addr + len <= 2 ^ 64 ->
  exists o f, decode_dents y ab m addr len = Some (o, f) /\
    Forall (inside addr len) f /\ Forall (inside addr len) (flat_map region o).
Proof.
  intros y ab m addr len GY HA HL. unfold decode_dents.
  destruct (loop_inside y ab m GY (S (N.to_nat len)) addr len 0 ltac:(lia) HL HA)
    as (o & f & c & l & -> & HF & HO).
  do 2 eexists. split; [reflexivity|]. split; [exact HF|].
  destruct ab; rewrite ?flat_map_app; cbn [flat_map region app].
  - rewrite app_nil_r. exact HO.
  - destruct (c =? 0); cbn [flat_map region app]; rewrite app_nil_r; exact HO.
Qed.
Print Assumptions C45_inside.

(** C45: a buffer that consists of records is shown as exactly these, each
    once and in order; abbreviated, as their number. *)
Theorem C45_records : forall y m addr rs,
  good_layout y -> rs <> [] -> buffer y m addr rs ->
  0 < addr -> addr + total rs <= 2 ^ 64 -> N.of_nat (List.length rs) < 2 ^ 32 ->
  (exists f, decode_dents y false m addr (total rs) =
     Some (DBegin :: shown_all y addr rs ++ [DEnd], f)) /\
  (exists f, decode_dents y true m addr (total rs) =
     Some ([DAddr addr; DEntries (N.of_nat (List.length rs)) false], f)).
Proof.
  intros y m addr rs GY HN HB H0 HA HC. unfold decode_dents. split.
  - destruct (loop_shown y false m GY rs (S (N.to_nat (total rs))) addr 0 HN HB ltac:(lia) H0 HA ltac:(lia)) as (f & ->).
    exists f. replace (0 + N.of_nat (List.length rs) =? 0) with false; [reflexivity|].
    symmetry. apply N.eqb_neq. destruct rs; [congruence|]. cbn [List.length]. lia.
  - destruct (loop_shown y true m GY rs (S (N.to_nat (total rs))) addr 0 HN HB ltac:(lia) H0 HA ltac:(lia)) as (f & ->).
    exists f. reflexivity.
Qed.
Print Assumptions C45_records.

(** C45: the end of a directory. *)
Theorem C45_empty : forall y m addr, good_layout y ->
  decode_dents y false m addr 0 = Some ([DBegin; DEnd], []) /\
  decode_dents y true m addr 0 = Some ([DAddr addr; DEntries 0 false], []).
Proof.
  intros y m addr GY. unfold good_layout in GY. unfold decode_dents. cbn [dents_loop N.to_nat].
  destruct (N.ltb_spec 0 (l_head y)); [|lia]. split; reflexivity.
Qed.
Print Assumptions C45_empty.

(** C45: no address below the buffer is ever used, even if the buffer would reach past
    the end of the address space. *)
Theorem C45_forward : forall y ab m addr len o f,
  decode_dents y ab m addr len = Some (o, f) -> Forall (fun p => addr <= fst p) f.
Proof.
  intros y ab m addr len o f E. unfold decode_dents in E.
  destruct (dents_loop (S (N.to_nat len)) y ab m addr len 0) as [[[[o' f'] c] l]|] eqn:EL; [|discriminate].
  injection E as <- <-. exact (loop_forward _ _ _ _ _ _ _ _ _ _ _ EL).
Qed.
Print Assumptions C45_forward.

(** C45: the array is opened at most once, and closed exactly if it was opened. *)
Theorem C45_brackets : forall y m addr len o f, good_layout y -> len + 1 < 2 ^ 32 ->
  decode_dents y false m addr len = Some (o, f) ->
  (filter is_begin o = [] /\ filter is_end o = []) \/
  (filter is_begin o = [DBegin] /\ filter is_end o = [DEnd]).
Proof.
  intros y m addr len o f GY HL E. unfold decode_dents in E.
  destruct (dents_loop (S (N.to_nat len)) y false m addr len 0) as [[[[o' f'] c] l]|] eqn:EL; [|discriminate].
  injection E as <- <-. destruct (loop_brackets _ _ GY _ _ _ _ _ _ _ _ EL ltac:(lia) ltac:(lia)) as [I1 I2].
  rewrite !filter_app, I1, I2. destruct (c =? 0); cbn; auto.
Qed.
Print Assumptions C45_brackets.

(** Concrete cases: two records of getdents64; a record that claims more, and
    one that claims less than there is. *)
Definition ex_lay : layout := mk_lay 16 19 true.
Definition ex_lay32 : layout := mk_lay 8 10 false.
Definition ex_rec (n : N) (name : list N) : list N :=
  repeat 1 16 ++ [n; 0; 8] ++ name.
Definition ex_buf : list N := ex_rec 24 [46; 0; 0; 0; 0] ++ ex_rec 24 [46; 46; 0; 0; 0].
Definition mem_of (base : N) (l : list N) : dmem :=
  mk_dmem
    (fun a n => if (base <=? a) && (a + n <=? base + N.of_nat (List.length l))
                then Some (firstn (N.to_nat n) (skipn (N.to_nat (a - base)) l)) else None)
    (fun a n => (base <=? a) && (a + n <=? base + N.of_nat (List.length l)))
    (fun a => (base <=? a) && (a <? base + N.of_nat (List.length l))).

Example ex_buffer : buffer ex_lay (mem_of 4096 ex_buf) 4096
    [ex_rec 24 [46; 0; 0; 0; 0]; ex_rec 24 [46; 46; 0; 0; 0]] /\ good_layout ex_lay /\ good_layout ex_lay32.
Proof.
  split; [|split; split; reflexivity].
  cbn [buffer]. repeat apply conj; try (vm_compute; reflexivity); try exact I.
  - vm_compute. discriminate.
  - intros a n Ha Hb. cbn [mem_of path_ok byte_ok]. 
    change (N.of_nat (List.length ex_buf)) with 48.
    change (N.of_nat (List.length (ex_rec 24 [46; 0; 0; 0; 0]))) with 24 in Hb.
    change (l_head ex_lay) with 19 in Ha.
    split; [apply andb_true_iff; split; apply N.leb_le; lia|].
    intros ->. apply andb_true_iff; split; [apply N.leb_le|apply N.ltb_lt]; lia.
  - vm_compute. discriminate.
  - intros a n Ha Hb. cbn [mem_of path_ok byte_ok].
    change (N.of_nat (List.length ex_buf)) with 48.
    change (N.of_nat (List.length (ex_rec 24 [46; 0; 0; 0; 0]))) with 24 in Ha, Hb.
    change (N.of_nat (List.length (ex_rec 24 [46; 46; 0; 0; 0]))) with 24 in Hb.
    change (l_head ex_lay) with 19 in Ha.
    split; [apply andb_true_iff; split; apply N.leb_le; lia|].
    intros ->. apply andb_true_iff; split; [apply N.leb_le|apply N.ltb_lt]; lia.
Qed.

Example ex_decode :
  decode_dents ex_lay false (mem_of 4096 ex_buf) 4096 48 =
    Some ([DBegin; DHead (firstn 19 (ex_rec 24 [])); DHeadType; DName 4115 5; DNext;
           DHead (firstn 19 (ex_rec 24 [])); DHeadType; DName 4139 5; DEnd],
          [(4096, 19); (4120, 19)]) /\
  decode_dents ex_lay true (mem_of 4096 ex_buf) 4096 48 =
    Some ([DAddr 4096; DEntries 2 false], [(4096, 19); (4120, 19)]) /\
  decode_dents ex_lay false (mem_of 4096 (ex_rec 250 [1; 2])) 4096 21 =
    Some ([DBegin; DHead (firstn 19 (ex_rec 250 [])); DOver 229; DHeadType; DName 4115 2; DEnd],
          [(4096, 19)]) /\
  decode_dents ex_lay true (mem_of 4096 (ex_rec 3 [1; 2])) 4096 21 =
    Some ([DAddr 4096; DUnder 16; DEntries 1 true], [(4096, 19)]) /\
  decode_dents ex_lay32 false (mem_of 4096 (repeat 7 8 ++ [14; 0; 97; 98; 0; 4])) 4096 14 =
    Some ([DBegin; DHead (repeat 7 8 ++ [14; 0]); DName 4106 3; DType 4109; DEnd], [(4096, 10)]).
Proof. vm_compute. repeat split. Qed.
