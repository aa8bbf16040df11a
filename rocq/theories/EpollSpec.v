(** What is claimed of epoll, without the model: epoll_ctl(2), epoll_wait(2), <linux/eventpoll.h>. *)
From Verif Require Import Base Printf InfoSpec TvalSpec NumaSpec VmSpec AioSpec.
From Verif Require BitsModel.
Local Open Scope N_scope.

Definition event_bits : list (N * list N) :=
  [(0, bs "EPOLLIN"); (1, bs "EPOLLPRI"); (2, bs "EPOLLOUT"); (3, bs "EPOLLERR"); (4, bs "EPOLLHUP"); (5, bs "EPOLLNVAL"); (6, bs "EPOLLRDNORM"); (7, bs "EPOLLRDBAND"); (8, bs "EPOLLWRNORM");
   (9, bs "EPOLLWRBAND"); (10, bs "EPOLLMSG"); (13, bs "EPOLLRDHUP"); (28, bs "EPOLLEXCLUSIVE"); (29, bs "EPOLLWAKEUP"); (30, bs "EPOLLONESHOT"); (31, bs "EPOLLET")].
Definition operation (v : N) : option (list N) := match v with 1 => Some (bs "EPOLL_CTL_ADD") | 2 => Some (bs "EPOLL_CTL_DEL") | 3 => Some (bs "EPOLL_CTL_MOD") | _ => None end.
Definition operation_text st (v : N) t : Prop := exists x, hex_or_0 x v /\ named st (operation v) (bs "EPOLL_CTL_???") x t.
(** struct epoll_event: the events and the user's data, which follow at once if it is packed *)
Definition event_size (packed : bool) : nat := if packed then 12 else 16.
Definition event_rows (packed : bool) (st : BitsModel.xstyle_t) (c : list N) : list row :=
  [(bs "events", flags_text st event_bits None (bs " /* EPOLL??? */") (number_at c 0 4)); (bs "data", fun t => hex_or_0 t (number_at c (if packed then 4 else 8) 8))].
(** The low 32 bits of an argument, signed *)
Definition int_text (a : N) (t : list N) : Prop := signed_text 4 (a mod 2 ^ 32) t.
