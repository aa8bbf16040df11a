(** What is claimed of new namespaces, without the model: namespaces(7), proc(5), clone(2). *)
From Verif Require Import Base Printf.
From Verif Require Import TvalSpec.
From Verif Require NumaSpec.
Local Open Scope N_scope.

(** The kinds of namespaces: their names in /proc/PID/ns and the bits of the flags that ask for new ones *)
Definition kinds : list (list N * list N) :=
  [(bs "cgroup", [25; 33]); (bs "ipc", [27]); (bs "mnt", [17]); (bs "net", [30]); (bs "pid", [29]); (bs "time", [7]); (bs "uts", [26]); (bs "user", [28])].
Definition asked (flags : N) (bits : list N) : bool := existsb (N.testbit flags) bits.
(** the link of a namespace of a process *)
Definition ns_path (p : Z) (name path : list N) : Prop := exists d, integer d p /\ path = bs "/proc/" ++ d ++ bs "/ns/" ++ name.
(** [t]: the namespaces of process [p] of the kinds asked for in the order of [kinds], those whose links can be read *)
Definition namespaces (link : list N -> option (list N)) (p : Z) (flags : N) (t : list (list N)) : Prop :=
  exists paths, Forall2 (fun k path => ns_path p (fst k) path) kinds paths /\
    t = flat_map (fun kp => if asked flags (snd (fst kp)) then match link (snd kp) with Some x => [x] | None => [] end else []) (combine kinds paths).
(** what is shown of them *)
Definition shown (t : list (list N)) : option (list N) := match t with [] => None | _ => Some (NumaSpec.commas t) end.

(** The links of the kernel: the name of the kind and the inode number, of at most 10 digits *)
Definition kernel_links (link : list N -> option (list N)) : Prop :=
  forall p path name t, ns_path p name path -> link path = Some t -> exists d, t = name ++ bs ":[" ++ d ++ bs "]" /\ (length d <= 10)%nat.
