(** Model of what strace --kvm=vcpu keeps about the virtual cpus of a tracee and of the exit reason it shows after KVM_RUN: src/kvm.c:20-173,
    322-364.  One tracee (tcb) [t]; the cache of memory mappings is that of MmapModel (src/mmap_cache.c), which other tracees and the stack
    tracer use as well.  The text is what is put into tcp->auxstr (printed with the result, C64). *)
From Verif Require Import Base XlatModel InfoModel MmapModel.
From Verif Require StrtouModel ExtModel.
Local Open Scope N_scope.

(** struct vcpu_info, src/kvm.c:20-27.  Simplification: int fd and int cpuid are not negative; cpuid is the number of the uint32_t argument of
    KVM_CREATE_VCPU, of which only those below 2^31 exist. *)
Record vcpu := mk_vcpu { v_fd : N; v_cpuid : N; v_addr : N; v_len : N; v_resolved : bool }.

(** src/kvm.c:31-41 *)
Fixpoint vcpu_find (l : list vcpu) (fd : N) : option vcpu :=
  match l with
  | [] => None
  | v :: r => if v_fd v =? fd then Some v else vcpu_find r fd
  end.
(** assignment through the pointer vcpu_find returned *)
Fixpoint vcpu_set (l : list vcpu) (fd : N) (w : vcpu) : list vcpu :=
  match l with
  | [] => []
  | v :: r => if v_fd v =? fd then w :: r else v :: vcpu_set r fd w
  end.
(** src/kvm.c:43-55 *)
Definition vcpu_alloc (l : list vcpu) (w : vcpu) : list vcpu := w :: l.
(** src/kvm.c:70-84 *)
Definition vcpu_register (l : list vcpu) (fd cpuid : N) : list vcpu :=
  match vcpu_find l fd with
  | None => vcpu_alloc l (mk_vcpu fd cpuid 0 0 false)
  | Some v => if v_cpuid v =? cpuid then l else vcpu_set l fd (mk_vcpu fd cpuid (v_addr v) (v_len v) false)
  end.

(** VCPU_DENTRY_PREFIX, src/kvm.c:108 *)
Definition VCPU_DENTRY_PREFIX : list N := bs "anon_inode:kvm-vcpu:".
(** STR_STRIP_PREFIX, src/defs.h:883-890: None: the prefix is not there *)
Fixpoint strip_prefix (p s : list N) : option (list N) :=
  match p, s with
  | [], _ => Some s
  | a :: p', b :: s' => if a =? b then strip_prefix p' s' else None
  | _ :: _, [] => None
  end.
(** src/kvm.c:86-98 *)
Definition is_map_for_file (path : list N) (e : entry) : bool := (e_major e =? 0) && beqs (e_path e) path.
(** src/kvm.c:100-106 *)
Definition map_len (e : entry) : N := if e_start e <? e_end e then e_end e - e_start e else 0.

(** what strace knows, and the paths of the descriptors of the tracee (/proc/PID/fd), None: none *)
Record state := mk_kstate { mm : MmapModel.state; vcpus : list vcpu; fdpath : N -> option (list N) }.

Section T.
Variable t : N.            (* the tracee *)
Variable run_size : nat.   (* sizeof(struct kvm_run) *)

(** mmap_cache_search_custom, src/mmap_cache.c:203-211; the cache exists here *)
Definition search_custom (s : MmapModel.state) (path : list N) : option entry :=
  match caches s t with Some (_, es) => find (is_map_for_file path) es | None => None end.

(** The slow path, src/kvm.c:147-172; [v]: vcpu_info *)
Definition slow (s : state) (fd : N) (v : option vcpu) : state * option vcpu :=
  match fdpath s fd with
  | None => (s, None)
  | Some path =>
      match strip_prefix VCPU_DENTRY_PREFIX path with
      | None => (s, None)
      | Some cpuid_str =>
          match search_custom (mm s) path with
          | None => (s, None)
          | Some e =>
              match StrtouModel.string_to_uint cpuid_str with
              | None => (s, None)
              | Some cpuid =>
                  let w := mk_vcpu fd cpuid (e_start e) (map_len e) true in
                  (mk_kstate (mm s) (match v with None => vcpu_alloc (vcpus s) w | Some _ => vcpu_set (vcpus s) fd w end) (fdpath s), Some w)
              end
          end
      end
  end.

(** vcpu_get_info, src/kvm.c:110-173 *)
Definition vcpu_get_info (s : state) (fd : N) : res (state * option vcpu) :=
  let v := vcpu_find (vcpus s) fd in
  let (m1, st) := rebuild_if_invalid (mm s) t in
  let s1 := mk_kstate m1 (vcpus s) (fdpath s) in
  match st with
  | NOCACHE => Ok (s1, None)
  | _ =>
      match v with
      | Some w =>
          if v_resolved w then
            match st with
            | READY => Ok (s1, Some w)
            | _ =>
                let again := let w0 := mk_vcpu fd (v_cpuid w) (v_addr w) (v_len w) false in
                  Ok (slow (mk_kstate m1 (vcpu_set (vcpus s) fd w0) (fdpath s)) fd (Some w0)) in
                rlet r := mmap_cache_search (caches m1 t) (v_addr w) in
                match r with
                | None => again
                | Some e =>
                    match strip_prefix VCPU_DENTRY_PREFIX (e_path e) with
                    | None => again
                    | Some cpuid_str =>
                        match StrtouModel.string_to_uint cpuid_str with
                        | None => Ok (s1, None)
                        | Some cpuid => if v_cpuid w =? cpuid then Ok (s1, Some w) else again
                        end
                    end
                end
            end
          else Ok (slow s1 fd v)
      | None => Ok (slow s1 fd v)
      end
  end.

(** src/xlat/kvm_exit_reason.in, #value_indexed *)
Definition exit_reasons : list (list N) :=
  [bs "KVM_EXIT_UNKNOWN"; bs "KVM_EXIT_EXCEPTION"; bs "KVM_EXIT_IO"; bs "KVM_EXIT_HYPERCALL"; bs "KVM_EXIT_DEBUG"; bs "KVM_EXIT_HLT"; bs "KVM_EXIT_MMIO"; bs "KVM_EXIT_IRQ_WINDOW_OPEN"; bs "KVM_EXIT_SHUTDOWN";
   bs "KVM_EXIT_FAIL_ENTRY"; bs "KVM_EXIT_INTR"; bs "KVM_EXIT_SET_TPR"; bs "KVM_EXIT_TPR_ACCESS"; bs "KVM_EXIT_S390_SIEIC"; bs "KVM_EXIT_S390_RESET"; bs "KVM_EXIT_DCR"; bs "KVM_EXIT_NMI"; bs "KVM_EXIT_INTERNAL_ERROR";
   bs "KVM_EXIT_OSI"; bs "KVM_EXIT_PAPR_HCALL"; bs "KVM_EXIT_S390_UCONTROL"; bs "KVM_EXIT_WATCHDOG"; bs "KVM_EXIT_S390_TSCH"; bs "KVM_EXIT_EPR"; bs "KVM_EXIT_SYSTEM_EVENT"; bs "KVM_EXIT_S390_STSI"; bs "KVM_EXIT_IOAPIC_EOI";
   bs "KVM_EXIT_HYPERV"; bs "KVM_EXIT_ARM_NISV"; bs "KVM_EXIT_X86_RDMSR"; bs "KVM_EXIT_X86_WRMSR"; bs "KVM_EXIT_DIRTY_RING_FULL"; bs "KVM_EXIT_AP_RESET_HOLD"; bs "KVM_EXIT_X86_BUS_LOCK"; bs "KVM_EXIT_XEN"; bs "KVM_EXIT_RISCV_SBI";
   bs "KVM_EXIT_RISCV_CSR"; bs "KVM_EXIT_NOTIFY"; bs "KVM_EXIT_LOONGARCH_IOCSR"; bs "KVM_EXIT_MEMORY_FAULT"].
Definition kvm_exit_reason : xlat := {| ty := XT_INDEXED; data := map (fun k => (N.of_nat k, nth_error exit_reasons k)) (seq 0 (length exit_reasons)) |}.

(** kvm_ioctl_run_attach_auxstr, src/kvm.c:323-339: the text of auxstr, if any; exit_reason is at offset 8 of struct kvm_run *)
Definition attach_auxstr (mem : ExtModel.memory) (w : vcpu) : option (list N) :=
  if v_len w <? N.of_nat run_size then None
  else match ExtModel.umoven mem (v_addr w) run_size with
       | None => None
       | Some b => match xlookup kvm_exit_reason (ld b 8 4) with Some n => Some n | None => Some (bs "KVM_EXIT_???") end
       end.

(** kvm_ioctl_decode_run at the exit of a call that did not fail, src/kvm.c:341-364, with --kvm=vcpu *)
Definition decode_run (s : state) (arg0 : N) (mem : ExtModel.memory) : res (state * option (list N)) :=
  rlet r := vcpu_get_info s (u32 arg0) in
  Ok (fst r, match snd r with Some w => attach_auxstr mem w | None => None end).

(** What happens: the mapping cache and the maps files (MmapModel.event; a dropped tcb also loses its vcpus, src/strace.c:1132); the descriptors
    of the tracee change; the exit of a KVM_CREATE_VCPU that gave [fd] (src/kvm.c:175-190); the exit of a KVM_RUN that did not fail, with the
    memory of the tracee at that moment *)
Inductive event :=
| Mm (e : MmapModel.event)
| Fds (p : N -> option (list N))
| Create (fd cpuid : N)
| Run (arg0 : N) (mem : ExtModel.memory).

Definition step (s : state) (e : event) : res (state * option (list N)) :=
  match e with
  | Mm e => Ok (mk_kstate (MmapModel.step (mm s) e) (match e with EDrop t' => if t' =? t then [] else vcpus s | _ => vcpus s end) (fdpath s), None)
  | Fds p => Ok (mk_kstate (mm s) (vcpus s) p, None)
  | Create fd cpuid => Ok (mk_kstate (mm s) (vcpu_register (vcpus s) fd (u32 cpuid)) (fdpath s), None)
  | Run arg0 mem => decode_run s arg0 mem
  end.
Fixpoint run (s : state) (h : list event) : res state :=
  match h with
  | [] => Ok s
  | e :: h' => rlet r := step s e in run (fst r) h'
  end.
(** kvm_run_structure_decoder_init, src/kvm.c:415-420 *)
Definition init (f : N -> option (list (option line))) (p : N -> option (list N)) : state := mk_kstate (MmapModel.enable (MmapModel.init f)) [] p.
End T.
