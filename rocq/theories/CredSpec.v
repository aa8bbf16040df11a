(** What -u promises. *)
From Verif Require Import Base StrtouSpec CredModel.
Local Open Scope N_scope.

(** UID:GID *)
Definition pair (s : list N) (u g : N) : Prop :=
  exists a b, s = a ++ [58] ++ b /\ numeral a u [] /\ numeral b g [] /\ u < 2^32 - 1 /\ g < 2^32 - 1.
(** a user: the numbers, and the groups the user is in *)
Definition denotes (db : users) (s : list N) (u g : N) (l : list N) : Prop :=
  (In 58 s /\ pair s u g /\ l = []) \/ (~ In 58 s /\ getpwnam db s = Some (u, g) /\ l = groups_of db s g).
(** the program runs as this user, apart from set-ID bits *)
Definition as_user (f : file) (u g : N) (l : list N) (c : cred) : Prop :=
  ruid c = u /\ euid c = (if set_uid f then owner f else u) /\ suid c = euid c /\
  rgid c = g /\ egid c = (if set_gid f then group f else g) /\ sgid c = egid c /\ groups c = l.
(** what a process can do about its credentials *)
Inductive becomes : cred -> cred -> Prop :=
| b_refl c : becomes c c
| b_groups c g c' c'' : k_setgroups g c = Some c' -> becomes c' c'' -> becomes c c''
| b_gid c r e c' c'' : k_setregid r e c = Some c' -> becomes c' c'' -> becomes c c''
| b_uid c r e c' c'' : k_setreuid r e c = Some c' -> becomes c' c'' -> becomes c c''.
