(** C101: the flags of the calls for memory policies. *)
From Verif Require Import Base Printf XlatModel NumaModel NumaSpec NumaThms VmSpec FlagText.
From Verif Require BitsModel TvalModel TvalSpec TvalThms.
Local Open Scope N_scope.

Definition mbind_bits : list (N * list N) := [(0, bs "MPOL_MF_STRICT"); (1, bs "MPOL_MF_MOVE"); (2, bs "MPOL_MF_MOVE_ALL")].
Definition move_bits : list (N * list N) := [(1, bs "MPOL_MF_MOVE"); (2, bs "MPOL_MF_MOVE_ALL")].
Definition get_bits : list (N * list N) := [(0, bs "MPOL_F_NODE"); (1, bs "MPOL_F_ADDR"); (2, bs "MPOL_F_MEMS_ALLOWED")].
Definition mpol_text st bits v t : Prop := flags_text st bits None (bs " /* MPOL_??? */") v t.
Lemma mbind_ok st v : mpol_text st mbind_bits v (printflags_ex v dflt st FMT_X [mbind_flags]).
Proof.
  apply (flags_ok st mbind_flags None (bs "MPOL_???") mbind_bits v); [intros g; unfold mbind_flags, mbind_bits; cbn [data]; apply (T_bit _ 0); apply (T_bit _ 1); apply (T_bit _ 2); apply T_nil| | |discriminate].
  - unfold mbind_flags. cbn [data]. split; [reflexivity|]. intros g ->. split; [reflexivity|]. destruct st; reflexivity.
  - repeat constructor; cbn; intuition discriminate.
Qed.
Lemma move_ok st v : mpol_text st move_bits v (printflags_ex v dflt st FMT_X [move_pages_flags]).
Proof.
  apply (flags_ok st move_pages_flags None (bs "MPOL_???") move_bits v); [intros g; unfold move_pages_flags, move_bits; cbn [data]; apply (T_bit _ 1); apply (T_bit _ 2); apply T_nil| | |discriminate].
  - unfold move_pages_flags. cbn [data]. split; [reflexivity|]. intros g ->. split; [reflexivity|]. destruct st; reflexivity.
  - repeat constructor; cbn; intuition discriminate.
Qed.
Lemma get_ok st v : mpol_text st get_bits v (printflags_ex v dflt st FMT_X [get_mempolicy_flags]).
Proof.
  apply (flags_ok st get_mempolicy_flags None (bs "MPOL_???") get_bits v); [intros g; unfold get_mempolicy_flags, get_bits; cbn [data]; apply (T_bit _ 0); apply (T_bit _ 1); apply (T_bit _ 2); apply T_nil| | |discriminate].
  - unfold get_mempolicy_flags. cbn [data]. split; [reflexivity|]. intros g ->. split; [reflexivity|]. destruct st; reflexivity.
  - repeat constructor; cbn; intuition discriminate.
Qed.
(** The last argument of mbind and of move_pages is 32 bits, that of get_mempolicy 64. *)
Theorem C101_flags : forall e e' pidtext a0 a1 a2 a3 a4 a5,
  (exists x l t c f, mbind e a0 a1 a2 a3 a4 a5 = commas [x; l; t; print_nodemask e a3 a4; c; f] /\ mpol_text (st e) mbind_bits (a5 mod 2 ^ 32) f /\
    TvalSpec.address x a0 /\ TvalSpec.number l a1 /\ mode_text (st e) a2 t /\ TvalSpec.number c a4) /\
  (exists r f, move_pages_entering e pidtext a0 a1 a2 a3 ++ move_pages_exiting e' a1 a4 a5 = r ++ bs ", " ++ f /\ mpol_text (st e') move_bits (a5 mod 2 ^ 32) f /\
    exists c, TvalSpec.number c a1 /\ r = commas [pidtext a0; c; print_array e print_addr a2 a1 (ws e); print_array e print_int a3 a1 4; print_array e' (print_status (st e')) a4 a1 4]) /\
  (exists p c y f, get_mempolicy e a0 a1 a2 a3 a4 = commas [p; print_nodemask e a1 a2; c; y; f] /\ mpol_text (st e) get_bits a4 f /\ TvalSpec.number c a2 /\ TvalSpec.address y a3).
Proof.
  intros. split; [|split].
  - exists (TvalModel.printaddr a0), (TvalModel.udec a1), (print_mode (st e) a2), (TvalModel.udec a4), (printflags_ex (u32 a5) dflt (st e) FMT_X [mbind_flags]).
    split; [unfold mbind; rewrite args_commas; reflexivity|]. split; [apply mbind_ok|]. split; [apply TvalThms.printaddr_ok|]. split; [apply TvalThms.udec_number|]. split; [apply C101_mode|apply TvalThms.udec_number].
  - exists (commas [pidtext a0; TvalModel.udec a1; print_array e print_addr a2 a1 (ws e); print_array e print_int a3 a1 4; print_array e' (print_status (st e')) a4 a1 4]), (printflags_ex (u32 a5) dflt (st e') FMT_X [move_pages_flags]).
    split; [|split; [apply move_ok|exists (TvalModel.udec a1); split; [apply TvalThms.udec_number|reflexivity]]].
    unfold move_pages_entering, move_pages_exiting. rewrite !args_commas. generalize (printflags_ex (u32 a5) dflt (st e') FMT_X [move_pages_flags]). intros f.
    generalize (print_array e print_addr a2 a1 (ws e)) (print_array e print_int a3 a1 4) (print_array e' (print_status (st e')) a4 a1 4) (TvalModel.udec a1) (pidtext a0). intros p q r c x.
    cbn [commas]. rewrite <- !app_assoc. reflexivity.
  - unfold get_mempolicy. rewrite args_commas. eexists _, (TvalModel.udec a2), (TvalModel.printaddr a3), (printflags_ex a4 dflt (st e) FMT_X [get_mempolicy_flags]). split; [reflexivity|]. split; [apply get_ok|]. split; [apply TvalThms.udec_number|apply TvalThms.printaddr_ok].
Qed.
Print Assumptions C101_flags.
Example C101_flags_example : mbind (ex_env []) 4096 4096 2 0 0 (2 ^ 32 + 11) = bs "0x1000, 4096, MPOL_BIND, NULL, 0, MPOL_MF_STRICT|MPOL_MF_MOVE|0x8".
Proof. vm_compute. reflexivity. Qed.
