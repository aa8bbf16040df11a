(** Bits of a byte array; what a printed signal mask denotes. *)
From Verif Require Import Base Printf BitsModel.
Local Open Scope N_scope.

(** bit [b] of the array is set; the byte of bit b is b/8, reordered within words by [xm] *)
Definition bit_set (arr : list N) (xm b : N) : Prop :=
  exists byte, nth_error arr (N.to_nat (N.lxor (b / 8) xm)) = Some byte /\ N.testbit byte (b mod 8) = true.
(** every byte of bits below [size] exists *)
Definition covers (arr : list N) (xm size : N) : Prop :=
  forall p, 8 * p < size -> (N.to_nat (N.lxor p xm) < length arr)%nat.

(** items joined by single spaces *)
Fixpoint join (l : list (list N)) : list N :=
  match l with [] => [] | [x] => x | x :: r => x ++ [32] ++ join r end.
(** signal number n (1-based) is in the mask *)
Definition sig_in (mask : list N) (xm : N) (n : nat) : Prop := bit_set mask xm (N.of_nat n - 1).

(** Linux generic signal names, src/linux/generic/signalent.h; 64-bit signal masks *)
Definition generic_sigs : sigcfg :=
  {| signalent := [bs "0"; bs "SIGHUP"; bs "SIGINT"; bs "SIGQUIT"; bs "SIGILL"; bs "SIGTRAP"; bs "SIGABRT"; bs "SIGBUS"; bs "SIGFPE"; bs "SIGKILL";
       bs "SIGUSR1"; bs "SIGSEGV"; bs "SIGUSR2"; bs "SIGPIPE"; bs "SIGALRM"; bs "SIGTERM"; bs "SIGSTKFLT"; bs "SIGCHLD"; bs "SIGCONT"; bs "SIGSTOP";
       bs "SIGTSTP"; bs "SIGTTIN"; bs "SIGTTOU"; bs "SIGURG"; bs "SIGXCPU"; bs "SIGXFSZ"; bs "SIGVTALRM"; bs "SIGPROF"; bs "SIGWINCH"; bs "SIGIO";
       bs "SIGPWR"; bs "SIGSYS"; bs "SIGRTMIN"];
     rtmin := 32; rtmax := Some 64; nsig_bytes := 8 |}.
