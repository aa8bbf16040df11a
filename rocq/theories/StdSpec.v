(** The standard descriptors. *)
From Verif Require Import Base StdModel.
Local Open Scope nat_scope.

(** a descriptor from which nothing can be read, closed by execve *)
Definition dummy : slot := Some (PipeRead, true).
Definition is_open (t : table) (i : nat) : Prop := lookup t i <> None.
(** what strace itself does with descriptors: open one, close one above 2 *)
Inductive act := Open (d : desc) (cloexec : bool) | Close (i : nat).
Definition do_act (t : table) (a : act) : table := match a with Open d c => put t (lowest t) (Some (d, c)) | Close i => close t (3 + i) end.
