(** The bytes of a vector I/O, as a stream of (buffer address, offset). *)
From Verif Require Import Base IovModel.
Local Open Scope N_scope.

Definition buf_bytes (v : iovec) : list (N * nat) := map (fun i => (fst v, i)) (seq 0 (N.to_nat (snd v))).
Definition stream (v : list iovec) : list (N * nat) := flat_map buf_bytes v.
Definition total (v : list iovec) : N := fold_right (fun x a => snd x + a) 0 v.
