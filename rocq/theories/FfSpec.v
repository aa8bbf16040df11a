(** Where the text about a process goes (C97). *)
From Verif Require Import Base LogModel LoopModel.
Local Open Scope N_scope.

(** with -ff, the file that is named after the process; without, the one log *)
Definition place (c : cfg) (p : N) : dest := if c_ff (lc c) then Own p else Shared.
(** the text that is in a file *)
Definition content (s : st) (d : dest) : list N := render (files (lg s) d).
