(** printf-style unsigned numbers (libc behaviour, used by the models of code that
    formats numbers) and the obvious way to read them back. *)
From Verif Require Import Base QuoteModel QuoteSpec QuoteProofs.
Local Open Scope N_scope.

(** digits of [n], most significant first, prepended to [acc]; fuel: one unit per digit *)
Fixpoint digits_from (base : N) (fuel : nat) (n : N) (acc : list N) : list N :=
  match fuel with
  | O => acc
  | S f => let acc' := hex_char (n mod base) :: acc in
           if n / base =? 0 then acc' else digits_from base f (n / base) acc'
  end.
Definition pr_num (base n : N) : list N := digits_from base (S (N.size_nat n)) n [].
(** %0*x: zero-padded on the left *)
Definition pr_pad (base : N) (w : nat) (n : N) : list N :=
  let d := pr_num base n in repeat 48 (w - length d) ++ d.

(** reading: value of a digit string in base 10 or 16 (lower case) *)
Fixpoint rd_num (base acc : N) (s : list N) : option N :=
  match s with
  | [] => Some acc
  | c :: r => match hex_val c with
              | Some d => if d <? base then rd_num base (base * acc + d) r else None
              | None => None
              end
  end.

Lemma rd_num_app base acc a b : rd_num base acc (a ++ b) =
  match rd_num base acc a with Some v => rd_num base v b | None => None end.
Proof.
  revert acc; induction a as [|c a IH]; intros acc; [reflexivity|]. cbn [app rd_num].
  destruct (hex_val c) as [d|]; [|reflexivity]. destruct (d <? base); [apply IH|reflexivity].
Qed.
Lemma digits_from_acc base fuel n acc : digits_from base fuel n acc = digits_from base fuel n [] ++ acc.
Proof.
  revert n acc; induction fuel as [|f IH]; intros n acc; [reflexivity|]. cbn [digits_from]. cbv zeta.
  destruct (n / base =? 0); [reflexivity|]. rewrite IH, (IH _ [_]), <- app_assoc. reflexivity.
Qed.
Lemma size_nat_bound n : n < 2 ^ N.of_nat (N.size_nat n).
Proof.
  pose proof (N.size_gt n) as H. replace (N.of_nat (N.size_nat n)) with (N.size n); [exact H|]. clear H.
  destruct n as [|p]; [reflexivity|]. cbn [N.size N.size_nat].
  induction p as [p IH|p IH|]; cbn [Pos.size Pos.size_nat]; try reflexivity; rewrite Nat2N.inj_succ, <- IH; reflexivity.
Qed.
Lemma digits_from_rd base fuel n : 2 <= base <= 16 -> n < 2 ^ N.of_nat fuel -> (0 < fuel)%nat ->
  rd_num base 0 (digits_from base fuel n []) = Some n.
Proof.
  intros Hb. revert n; induction fuel as [|f IH]; intros n Hn Hf; [lia|]. cbn [digits_from]. cbv zeta.
  assert (Hm : n mod base < base) by (apply N.mod_lt; lia).
  assert (Hd : hex_val (hex_char (n mod base)) = Some (n mod base)) by (apply hex_val_char; lia).
  pose proof (N.div_mod n base ltac:(lia)) as D.
  destruct (N.eqb_spec (n / base) 0) as [E|E].
  - cbn [rd_num]. rewrite Hd. destruct (N.ltb_spec (n mod base) base); [|lia]. f_equal. rewrite E in D. lia.
  - rewrite digits_from_acc, rd_num_app.
    assert (Hlt : n / base < 2 ^ N.of_nat f).
    { rewrite Nat2N.inj_succ, N.pow_succ_r' in Hn. apply N.div_lt_upper_bound; [lia|].
      eapply N.lt_le_trans; [exact Hn|]. apply N.mul_le_mono_r. lia. }
    destruct f as [|f]; [exfalso; apply E; apply N.lt_1_r; exact Hlt|].
    rewrite IH by (auto; lia). cbn [rd_num]. rewrite Hd. destruct (N.ltb_spec (n mod base) base); [|lia]. f_equal. lia.
Qed.
Lemma pr_num_rd base n : 2 <= base <= 16 -> rd_num base 0 (pr_num base n) = Some n.
Proof.
  intros Hb. apply digits_from_rd; auto; [|lia]. rewrite Nat2N.inj_succ, N.pow_succ_r'. pose proof (size_nat_bound n). lia.
Qed.
(** minimal length *)
Lemma digits_from_length base fuel n k : 2 <= base -> n < base ^ N.of_nat (S k) -> (length (digits_from base fuel n []) <= S k)%nat.
Proof.
  intros Hb. revert n k; induction fuel as [|f IH]; intros n k H; [cbn; lia|]. cbn [digits_from]. cbv zeta.
  destruct (N.eqb_spec (n / base) 0) as [E|E]; [cbn; lia|].
  rewrite digits_from_acc, app_length. cbn [length].
  rewrite Nat2N.inj_succ, N.pow_succ_r' in H. apply N.div_lt_upper_bound in H; [|lia].
  destruct k as [|k]; [exfalso; apply E; apply N.lt_1_r; exact H|].
  specialize (IH (n / base) k H). lia.
Qed.
Lemma digits_from_pos base fuel n : (0 < fuel)%nat -> (0 < length (digits_from base fuel n []))%nat.
Proof.
  destruct fuel; [lia|]. intros _. cbn [digits_from]. cbv zeta. destruct (_ =? 0); [cbn; lia|].
  rewrite digits_from_acc, app_length. cbn; lia.
Qed.
Lemma pr_num_length base n k : 2 <= base -> n < base ^ N.of_nat (S k) -> (1 <= length (pr_num base n) <= S k)%nat.
Proof. intros. split; [apply digits_from_pos; lia|apply digits_from_length; auto]. Qed.
Lemma rd_zeros base k s : 2 <= base -> rd_num base 0 (repeat 48 k ++ s) = rd_num base 0 s.
Proof.
  intros Hb. induction k as [|k IH]; [reflexivity|]. cbn [repeat app rd_num]. change (hex_val 48) with (Some 0). cbv iota beta.
  replace (0 <? base) with true by (symmetry; apply N.ltb_lt; lia). rewrite N.mul_0_r, N.add_0_r. exact IH.
Qed.
Lemma pr_pad_rd base w n : 2 <= base <= 16 -> rd_num base 0 (pr_pad base w n) = Some n.
Proof. intros. unfold pr_pad. rewrite rd_zeros by lia. apply pr_num_rd; auto. Qed.
Lemma pr_pad_length base w n : 2 <= base -> n < base ^ N.of_nat w -> (1 <= w)%nat -> length (pr_pad base w n) = w.
Proof.
  intros Hb Hn Hw. unfold pr_pad. rewrite app_length, repeat_length. destruct w as [|k]; [lia|].
  pose proof (pr_num_length base n k Hb Hn). lia.
Qed.
Lemma digits_from_hex base fuel n acc : 2 <= base <= 16 -> Forall (fun c => exists d, d < base /\ c = hex_char d) acc ->
  Forall (fun c => exists d, d < base /\ c = hex_char d) (digits_from base fuel n acc).
Proof.
  intros Hb. revert n acc; induction fuel as [|f IH]; intros n acc H; [exact H|]. cbn [digits_from]. cbv zeta.
  assert (Forall (fun c => exists d, d < base /\ c = hex_char d) (hex_char (n mod base) :: acc)).
  { constructor; [|exact H]. exists (n mod base). split; [apply N.mod_lt; lia|reflexivity]. }
  destruct (_ =? 0); auto.
Qed.
Lemma pr_num_digits base n : 2 <= base <= 16 -> Forall (fun c => exists d, d < base /\ c = hex_char d) (pr_num base n).
Proof. intros. apply digits_from_hex; auto. Qed.
