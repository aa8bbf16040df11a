(** C70: descriptor sets and CPU masks.  C71: results of poll. *)
From Coq Require Import Sorted.
From Verif Require Import Base Printf RetModel BitsModel BitsSpec BitsProofs SelModel SelSpec SelProofs.
Local Open Scope N_scope.

(** On entering select, each set argument that can be read is shown as the list of exactly its
    members below the (clamped) count, in increasing order; any other one as an address. *)
Theorem C70_entering pfd paddr mem ws xm arg0 addr : layout ws xm -> readable mem ->
  let nfds := clamp_nfds arg0 in
  (nfds = 0 \/ addr = 0 \/ mem addr (fdsize nfds ws) = None -> enter_set pfd paddr mem true ws xm nfds addr = Ok (paddr addr)) /\
  (forall arr, 0 < nfds -> addr <> 0 -> mem addr (fdsize nfds ws) = Some arr ->
     exists l, members_of arr xm nfds l /\ enter_set pfd paddr mem true ws xm nfds addr = Ok (set_text (map pfd l))).
Proof.
  intros HL HR nfds. pose proof (clamp_le arg0) as CL. fold nfds in CL.
  destruct (N.eq_dec nfds 0) as [Z|NZ].
  - split; [|lia]. intros _. rewrite Z. destruct HL as [[-> | ->] _]; reflexivity.
  - destruct (enter_spec pfd paddr mem ws xm nfds addr HL ltac:(lia) ltac:(lia) HR) as [E1 E2]. split.
    + intros [H|H]; [lia|apply E1; exact H].
    + intros arr _. apply E2.
Qed.
(** which count is used: the int argument, from 0 to 1048576 *)
Theorem C70_count arg0 n : (-2^31 <= n < 2^31)%Z -> (Z.of_N (u32 arg0) = n mod 2^32)%Z ->
  Z.of_N (clamp_nfds arg0) = Z.max 0 (Z.min n 1048576).
Proof.
  intros HN E. unfold clamp_nfds.
  assert (E2 : (Z.of_N (u32 arg0) = if n <? 0 then n + 2^32 else n)%Z).
  { rewrite E. destruct (n <? 0)%Z eqn:S.
    - symmetry. apply Z.mod_unique_pos with (q := (-1)%Z); lia.
    - apply Z.mod_small. lia. }
  destruct (n <? 0)%Z eqn:S0.
  - replace (2^31 <=? u32 arg0) with true by lia. lia.
  - replace (2^31 <=? u32 arg0) with false by lia. destruct (1024 * 1024 <? u32 arg0) eqn:L; lia.
Qed.

(** On leaving, whatever the memory holds and whatever the call returned, the text is built without
    leaving its buffer. *)
Theorem C70_result_safe mem ws xm arg0 rval a1 a2 a3 left : layout ws xm -> readable mem ->
  exists t, exit_select mem ws xm (clamp_nfds arg0) rval [a1; a2; a3] left = Ok t /\ len t < 1024.
Proof. intros HL HR. apply exit_select_safe; auto. pose proof (clamp_le arg0). lia. Qed.

(** The text lists the ready descriptors of each set and the time left, provided that it is
    shorter than 999 bytes and that no empty set is passed between two sets with ready
    descriptors.  The call returned their number. *)
Theorem C70_result_partial mem ws xm arg0 a1 a2 a3 o1 o2 o3 left : layout ws xm -> readable mem ->
  let nfds := clamp_nfds arg0 in
  set_result mem (fdsize nfds ws) xm nfds a1 o1 -> set_result mem (fdsize nfds ws) xm nfds a2 o2 -> set_result mem (fdsize nfds ws) xm nfds a3 o3 ->
  let rval := Z.of_nat (length (mem_list o1 ++ mem_list o2 ++ mem_list o3)) in
  rval <> 0%Z ->
  ~ (mem_list o1 <> [] /\ o2 = Some [] /\ mem_list o3 <> []) ->
  len (select_text (mem_list o1) (mem_list o2) (mem_list o3) left) < 999 ->
  exit_select mem ws xm nfds rval [a1; a2; a3] left = Ok (select_text (mem_list o1) (mem_list o2) (mem_list o3) left).
Proof.
  intros HL HR nfds R1 R2 R3 rval NZ NG FT.
  assert (E : rval = total [o1; o2; o3]) by (unfold rval; cbn [total]; rewrite !app_length; lia).
  rewrite E in *. apply select_exact; auto. pose proof (clamp_le arg0). subst nfds. lia.
Qed.
(** Otherwise the text is wrong: with an empty set in the middle a bracket is doubled, for every such call. *)
Theorem C70_result_refuted mem ws xm arg0 a1 a2 a3 l1 l3 : layout ws xm -> readable mem ->
  let nfds := clamp_nfds arg0 in
  set_result mem (fdsize nfds ws) xm nfds a1 (Some l1) -> set_result mem (fdsize nfds ws) xm nfds a2 (Some []) -> set_result mem (fdsize nfds ws) xm nfds a3 (Some l3) ->
  l1 <> [] -> l3 <> [] -> len (select_text l1 [] l3 None) < 998 ->
  exit_select mem ws xm nfds (Z.of_nat (length (l1 ++ l3))) [a1; a2; a3] None =
    Ok (commas (ready_text (bs "in") l1) ++ bs "]" ++ bs ", " ++ commas (ready_text (bs "except") l3)) /\
  commas (ready_text (bs "in") l1) ++ bs "]" ++ bs ", " ++ commas (ready_text (bs "except") l3) <> select_text l1 [] l3 None.
Proof.
  intros HL HR nfds R1 R2 R3 N1 N3 FT. split.
  - assert (E : Z.of_nat (length (l1 ++ l3)) = total [Some l1; Some []; Some l3]) by (cbn [total mem_list length]; rewrite app_length; lia).
    rewrite E. apply select_gap; auto. pose proof (clamp_le arg0). subst nfds. lia.
  - intros E. apply (f_equal len) in E. unfold select_text in E. destruct l1; [congruence|]. destruct l3; [congruence|].
    cbn [ready_text app commas] in E. rewrite !len_app in E. change (len (bs "]")) with 1 in E. lia.
Qed.
(** With many ready descriptors, some are left out without a mark: two different results, one text. *)
Definition full_bytes (n : nat) (last : N) : list N := repeat 255 n ++ [last] ++ repeat 0 (39 - n).
Definition full_mem (n : nat) (last : N) : memory := fun a s => if (a =? 1) && (s =? 40) then Some (full_bytes n last) else None.
Theorem C70_result_cut_refuted :
  exists m1 m2 t, exit_select m1 8 0 320 312 [1; 0; 0] None = Ok t /\ exit_select m2 8 0 320 313 [1; 0; 0] None = Ok t /\
    bit_set (full_bytes 39 1) 0 312 /\ ~ bit_set (full_bytes 39 0) 0 312 /\
    m1 = full_mem 39 0 /\ m2 = full_mem 39 1 /\ skipn (length t - 5) t = bs " 276]".
Proof.
  exists (full_mem 39 0), (full_mem 39 1).
  destruct (exit_select (full_mem 39 0) 8 0 320 312 [1; 0; 0] None) as [t| |] eqn:E1.
  - exists t. split; [reflexivity|]. assert (E2 : exit_select (full_mem 39 1) 8 0 320 313 [1; 0; 0] None = Ok t).
    { rewrite <- E1. vm_compute. reflexivity. }
    split; [exact E2|]. split; [exists 1; split; reflexivity|]. split.
    + intros (y & A & B). vm_compute in A. injection A as <-. vm_compute in B. discriminate.
    + split; [reflexivity|]. split; [reflexivity|]. vm_compute in E1. injection E1 as <-. vm_compute. reflexivity.
  - vm_compute in E1. discriminate.
  - vm_compute in E1. discriminate.
Qed.

(** A CPU mask is shown as the list of exactly the CPUs in the bytes the kernel could use, with
    "..." when the caller's mask is longer than that. *)
Theorem C70_affinity paddr mem ws xm cs addr ln : layout ws xm -> readable mem -> ln < 2^32 -> 0 < cs <= 2^28 -> addr <> 0 -> 0 < ln ->
  (mem addr (N.min ln cs) = None -> affinity paddr mem true false ws xm cs addr ln = Ok (paddr addr)) /\
  (forall a, mem addr (N.min ln cs) = Some a ->
     exists l, members_of (a ++ zeros (roundup (N.min ln cs) ws - N.min ln cs)) xm (8 * roundup (N.min ln cs) ws) l /\
       (xm = 0 -> forall c, In c l <-> bit_set a 0 c) /\
       affinity paddr mem true false ws xm cs addr ln = Ok (set_text (map (pr_num 10) l ++ (if roundup (N.min ln cs) ws <? ln then [bs "..."] else [])))).
Proof.
  intros HL HR H32 HC HA H0. destruct (affinity_spec paddr mem ws xm cs addr ln HL HR H32 HC HA H0) as [E1 E2]. split; [exact E1|].
  intros a EA. destruct (E2 a EA) as (l & ML & ET). exists l. split; [exact ML|]. split; [|exact ET].
  intros -> c. destruct ML as [_ I]. rewrite I, zeros_bits. split; [tauto|]. intros B. split; [|exact B].
  destruct B as (y & B1 & _). rewrite N.lxor_0_r in B1. assert (NE : nth_error a (N.to_nat (c / 8)) <> None) by congruence.
  apply nth_error_Some in NE. rewrite (HR _ _ _ EA) in NE.
  assert (W : 0 < ws) by (destruct HL as [[-> | ->] _]; lia). pose proof (roundup_ge (N.min ln cs) ws W).
  pose proof (N.div_mod c 8 ltac:(lia)). pose proof (N.mod_lt c 8 ltac:(lia)). lia.
Qed.
(** "..." is shown exactly when the mask is longer than the kernel's *)
Theorem C70_affinity_more ws cs ln : ws = 4 \/ ws = 8 -> cs mod ws = 0 -> (roundup (N.min ln cs) ws <? ln) = (cs <? ln).
Proof.
  intros HW HC. assert (W : 0 < ws) by lia. destruct (N.le_gt_cases ln cs) as [L|G].
  - rewrite N.min_l by exact L. pose proof (roundup_ge ln ws W). lia.
  - rewrite N.min_r by lia. assert (E : roundup cs ws = cs); [|lia].
    unfold roundup. pose proof (N.div_mod cs ws ltac:(lia)) as D. rewrite HC in D.
    replace (cs + ws - 1) with (cs / ws * ws + (ws - 1)) by lia. rewrite N.div_add_l by lia. rewrite (N.div_small (ws - 1)) by lia. lia.
Qed.

(** ---- poll ---- *)
(** On leaving poll: the elements with returned events are shown in order.  Either all of them are
    shown; or a proper prefix followed by "..."; or all up to an element that cannot be read, whose
    address follows.  Then comes the time left.  The text stays within its buffer. *)
Theorem C71_result wl fl mx mem rval start nfds pts : wl = 4 \/ wl = 8 -> rval <> 0 -> start <> 0 -> 0 < nfds -> start + 8 * nfds < 2 ^ (8 * wl) ->
  (forall t, pts = Some t -> len t < 1000) ->
  let es := with_events (fst (walk mem start (N.to_nat nfds))) in
  let bad := snd (walk mem start (N.to_nat nfds)) in
  exists k tail time,
    ((tail = [] /\ k = length es /\ bad = None) \/ (tail = [bs "..."] /\ (k < length es)%nat) \/
     (exists a, tail = [bs "0x" ++ pr_num 16 a] /\ k = length es /\ bad = Some a)) /\
    (pts = None /\ time = [] \/ exists t, pts = Some t /\ (time = [bs "left " ++ t] \/ time = [bs "..."])) /\
    let text := commas (poll_list (map (poll_item fl) (firstn k es) ++ tail) ++ time) in
    exit_poll wl (2 ^ (8 * wl)) fl true mx mem rval start nfds pts = Ok (match text with [] => None | _ => Some text end) /\ len text < 1024.
Proof.
  intros HW HV HS HN HE HT es bad. destruct (exit_poll_spec wl fl mx mem rval start nfds pts HW HV HS HN HE HT) as (k & tail & K1 & K2 & K3).
  fold es bad in K1, K2, K3. cbv zeta in K3. exists k, tail, (poll_left (commas (poll_list (map (poll_item fl) (firstn k es) ++ tail))) pts).
  split; [|split; [|exact K3]].
  - destruct K2 as [K2|[(A & B & _)|(a & A & B & C)]]; [left; exact K2|right; left; auto|right; right]. exists a. split; [|auto].
    unfold alt_hex in A. replace (a =? 0) with false in A; [exact A|].
    assert (G : forall n s, snd (walk mem s n) = Some a -> s <= a).
    { clear. induction n as [|n IH]; intros s; cbn [walk]; [discriminate|]. destruct (mem s); [|cbn; intros E; injection E as <-; lia].
      destruct (walk mem (s + 8) n) as [l b] eqn:E. cbn. intros ->. specialize (IH (s + 8)). rewrite E in IH. specialize (IH eq_refl). lia. }
    specialize (G _ _ C). lia.
  - destruct pts as [t|]; cbn [poll_left]; [right; exists t; split; [reflexivity|]|left; auto]. destruct (_ <? cap); auto.
Qed.
(** Nothing is left out when the whole text is shorter than 980 bytes and the number of elements to
    show is not limited below theirs. *)
Theorem C71_complete wl fl mx mem rval start nfds pts : wl = 4 \/ wl = 8 -> rval <> 0 -> start <> 0 -> 0 < nfds -> start + 8 * nfds < 2 ^ (8 * wl) ->
  let es := with_events (fst (walk mem start (N.to_nat nfds))) in
  snd (walk mem start (N.to_nat nfds)) = None ->
  (forall m, mx = Some m -> N.of_nat (length es) <= m) ->
  let text := commas (poll_list (map (poll_item fl) es) ++ match pts with Some t => [bs "left " ++ t] | None => [] end) in
  len text < 980 ->
  exit_poll wl (2 ^ (8 * wl)) fl true mx mem rval start nfds pts = Ok (match text with [] => None | _ => Some text end).
Proof.
  intros HW HV HS HN HE es HB HM text HF.
  set (L := poll_list (map (poll_item fl) es)) in *.
  assert (FL : len (commas L) < 980) by (eapply N.le_lt_trans; [apply commas_len|exact HF]).
  assert (HT : forall t, pts = Some t -> len t < 1000).
  { intros t ->. unfold text in HF. rewrite commas_snoc, !len_app in HF. lia. }
  destruct (exit_poll_spec wl fl mx mem rval start nfds pts HW HV HS HN HE HT) as (k & tail & K1 & K2 & K3).
  fold es in K1, K2, K3. rewrite HB in K2. cbv zeta in K3.
  assert (ET : tail = [] /\ k = length es).
  { destruct K2 as [(A & B & _)|[(A & B & C)|(a & _ & _ & C)]]; [auto| |discriminate]. exfalso.
    destruct C as [(m & M1 & M2)|C].
    - specialize (HM m M1). cbn [length] in M2. lia.
    - cbn [app] in C. assert (LE : len (ltext (map (poll_item fl) (firstn (S k) es))) <= len (commas L)).
      { assert (ES : map (poll_item fl) es = map (poll_item fl) (firstn (S k) es) ++ map (poll_item fl) (skipn (S k) es)) by (rewrite <- map_app, firstn_skipn; reflexivity).
        unfold L. destruct es as [|e es']; [cbn in B; lia|].
        change (poll_list (map (poll_item fl) (e :: es'))) with [bs "[" ++ commas (map (poll_item fl) (e :: es')) ++ bs "]"].
        change (ltext (map (poll_item fl) (firstn (S k) (e :: es')))) with (bs "[" ++ commas (map (poll_item fl) (firstn (S k) (e :: es')))).
        cbn [commas]. rewrite !len_app. rewrite ES. pose proof (commas_len (map (poll_item fl) (firstn (S k) (e :: es'))) (map (poll_item fl) (skipn (S k) (e :: es')))). lia. }
      unfold room, cap in C. lia. }
  destruct ET as [-> ->]. rewrite firstn_all, app_nil_r in K3. fold L in K3. destruct K3 as [K3 _].
  replace (poll_left (commas L) pts) with (match pts with Some t => [bs "left " ++ t] | None => [] end) in K3; [exact K3|].
  destruct pts as [t|]; [|reflexivity]. cbn [poll_left]. replace (_ <? cap) with true; [reflexivity|].
  unfold text in HF. rewrite commas_snoc, !len_app in HF. change (len (bs "left ")) with 5 in HF. unfold cap. lia.
Qed.
(** The text is "Timeout" exactly when no descriptor became ready. *)
Theorem C71_timeout wl fl mx mem rval start nfds pts : wl = 4 \/ wl = 8 -> start <> 0 -> 0 < nfds -> start + 8 * nfds < 2 ^ (8 * wl) ->
  (forall t, pts = Some t -> len t < 1000) ->
  exit_poll wl (2 ^ (8 * wl)) fl true mx mem rval start nfds pts = Ok (Some (bs "Timeout")) <-> rval = 0.
Proof.
  intros HW HS HN HE HT. split; [|intros ->; reflexivity]. intros X. destruct (N.eq_dec rval 0) as [E|HV]; [exact E|exfalso].
  destruct (C71_result wl fl mx mem rval start nfds pts HW HV HS HN HE HT) as (k & tail & time & _ & TM & Y & _).
  rewrite X in Y. clear X HE HN HS HT.
  assert (Z : exists r, commas (poll_list (map (poll_item fl) (firstn k (with_events (fst (walk mem start (N.to_nat nfds))))) ++ tail) ++ time) = bs "T" ++ r).
  { destruct (commas _) as [|c r]; [discriminate|]. injection Y as <- <-. eexists. reflexivity. }
  destruct Z as (r & Z). destruct (map _ _ ++ tail) as [|x l].
  - cbn [poll_list app] in Z. destruct TM as [(_ & ->)|(t & _ & [->| ->])]; discriminate Z.
  - cbn [poll_list app] in Z. destruct time; cbn in Z; discriminate Z.
Qed.
(** When sizeof(long) is 4 but tracees may have 64-bit addresses (an x32 tracer), the buffer is
    overrun. *)
Definition x32_mem : pollmem := fun a =>
  let i := (a - 0x7fff00000000) / 8 in
  if 41 <=? i then None else Some (if i <? 20 then 3%Z else 10%Z, 1).
Theorem C71_x32_refuted :
  exists fl mem start nfds pts, fl 1 = bs "POLLIN" /\ start + 8 * nfds < 2 ^ 47 /\
    exit_poll 4 (2 ^ 64) fl true None mem 41 start nfds pts = Undef.
Proof. exists (fun _ => bs "POLLIN"), x32_mem, 0x7fff00000000, 42, (Some (bs "{tv_sec=0, tv_nsec=1}")). repeat split; vm_compute; reflexivity. Qed.

Print Assumptions C70_entering.
Print Assumptions C70_count.
Print Assumptions C70_result_safe.
Print Assumptions C70_result_partial.
Print Assumptions C70_result_refuted.
Print Assumptions C70_result_cut_refuted.
Print Assumptions C70_affinity.
Print Assumptions C70_affinity_more.
Print Assumptions C71_result.
Print Assumptions C71_complete.
Print Assumptions C71_timeout.
Print Assumptions C71_x32_refuted.

(** ---- cases ---- *)
(** three sets of one word: at address 16 {0, 3, 9}, at 32 {}, at 48 {4} *)
Definition ex_mem : memory := fun a s =>
  if negb (s =? 8) then None
  else if a =? 16 then Some [9; 2; 0; 0; 0; 0; 0; 0]
  else if a =? 32 then Some [0; 0; 0; 0; 0; 0; 0; 0]
  else if a =? 48 then Some [16; 0; 0; 0; 0; 0; 0; 0] else None.
Example ex_readable : readable ex_mem.
Proof.
  intros a n arr. unfold ex_mem. destruct (n =? 8) eqn:E; [|discriminate]. apply N.eqb_eq in E. subst n. cbn [negb].
  repeat (destruct (_ =? _); [intros X; injection X as <-; reflexivity|]). discriminate.
Qed.
Example ex_layout : layout 8 0. Proof. split; auto. Qed.
Example ex_enter : enter_set (pr_num 10) (fun _ => bs "NULL") ex_mem true 8 0 (clamp_nfds 10) 16 = Ok (bs "[0 3 9]").
Proof. reflexivity. Qed.
Example ex_members : members_of [9; 2; 0; 0; 0; 0; 0; 0] 0 10 [0; 3; 9].
Proof.
  destruct (members_ex [9; 2; 0; 0; 0; 0; 0; 0] 0 10 ltac:(lia)) as (l & E & M).
  { eapply (layout_covers 8 0 _ 8); [exact ex_layout| |reflexivity]. vm_compute. discriminate. }
  vm_compute in E. injection E as <-. exact M.
Qed.
Example ex_select : exit_select ex_mem 8 0 (clamp_nfds 10) 4 [16; 0; 48] (Some (bs "{tv_sec=1, tv_usec=5}"))
  = Ok (bs "in [0 3 9], except [4], left {tv_sec=1, tv_usec=5}").
Proof. reflexivity. Qed.
Example ex_select_spec : select_text [0; 3; 9] [] [4] (Some (bs "{tv_sec=1, tv_usec=5}")) = bs "in [0 3 9], except [4], left {tv_sec=1, tv_usec=5}".
Proof. reflexivity. Qed.
Example ex_gap : exit_select ex_mem 8 0 (clamp_nfds 10) 4 [16; 32; 48] None = Ok (bs "in [0 3 9]], except [4]").
Proof. reflexivity. Qed.
Example ex_timeout : exit_select ex_mem 8 0 (clamp_nfds 10) 0 [16; 32; 48] None = Ok (bs "Timeout").
Proof. reflexivity. Qed.
Example ex_affinity : affinity (fun _ => []) (fun a n => if n =? 4 then Some [5; 0; 0; 128] else None) true false 8 0 128 4096 4 = Ok (bs "[0 2 31]").
Proof. reflexivity. Qed.
Example ex_affinity_more : affinity (fun _ => []) (fun a n => Some (1 :: repeat 0 (N.to_nat n - 1))) true false 8 0 128 4096 256 = Ok (bs "[0 ...]").
Proof. vm_compute. reflexivity. Qed.
Definition ex_pollmem : pollmem := fun a => if a =? 4096 then Some (3%Z, 1) else if a =? 4104 then Some (4%Z, 0) else if a =? 4112 then Some (5%Z, 4) else None.
Definition ex_fl (r : N) : list N := if r =? 1 then bs "POLLIN" else bs "POLLOUT".
Example ex_poll : exit_poll 8 (2 ^ 64) ex_fl true None ex_pollmem 2 4096 3 (Some (bs "{tv_sec=0, tv_nsec=7}"))
  = Ok (Some (bs "[{fd=3, revents=POLLIN}, {fd=5, revents=POLLOUT}], left {tv_sec=0, tv_nsec=7}")).
Proof. vm_compute. reflexivity. Qed.
Example ex_poll_limit : exit_poll 8 (2 ^ 64) ex_fl true (Some 1) ex_pollmem 2 4096 3 None = Ok (Some (bs "[{fd=3, revents=POLLIN}, ...]")).
Proof. vm_compute. reflexivity. Qed.
Example ex_poll_bad : exit_poll 8 (2 ^ 64) ex_fl true None ex_pollmem 2 4096 4 None
  = Ok (Some (bs "[{fd=3, revents=POLLIN}, {fd=5, revents=POLLOUT}, 0x1018]")).
Proof. vm_compute. reflexivity. Qed.
