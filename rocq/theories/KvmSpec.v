(** What is claimed of the exit reason shown after KVM_RUN. *)
From Verif Require Import Base.
From Verif Require Import MmapModel KvmModel.
From Verif Require StrtouSpec.
Local Open Scope N_scope.

(** the path of a descriptor and of a mapping of the virtual cpu number [c] *)
Definition of_vcpu (path : list N) (c : N) : Prop := exists s, path = bs "anon_inode:kvm-vcpu:" ++ s /\ StrtouSpec.numeral s c [] /\ c <= 2^31 - 1.

(** all the maps files and all the descriptor tables there have been *)
Fixpoint maps_ever (f : N -> option (list (option line))) (h : list event) : list (N -> option (list (option line))) :=
  f :: match h with
       | [] => []
       | Mm (EFiles f') :: h' => maps_ever f' h'
       | _ :: h' => maps_ever f h'
       end.
Fixpoint paths_ever (p : N -> option (list N)) (h : list event) : list (N -> option (list N)) :=
  p :: match h with
       | [] => []
       | Fds p' :: h' => paths_ever p' h'
       | _ :: h' => paths_ever p h'
       end.
(** what concerns the cache of mappings; a KVM_RUN uses it *)
Definition mm_events (t : N) (h : list event) : list MmapModel.event :=
  flat_map (fun e => match e with Mm e => [e] | Run _ _ => [EUse t] | _ => [] end) h.

(** the name of a reason *)
Definition reasons : list (list N) :=
  [bs "UNKNOWN"; bs "EXCEPTION"; bs "IO"; bs "HYPERCALL"; bs "DEBUG"; bs "HLT"; bs "MMIO"; bs "IRQ_WINDOW_OPEN"; bs "SHUTDOWN"; bs "FAIL_ENTRY"; bs "INTR"; bs "SET_TPR"; bs "TPR_ACCESS"; bs "S390_SIEIC"; bs "S390_RESET"; bs "DCR"; bs "NMI";
   bs "INTERNAL_ERROR"; bs "OSI"; bs "PAPR_HCALL"; bs "S390_UCONTROL"; bs "WATCHDOG"; bs "S390_TSCH"; bs "EPR"; bs "SYSTEM_EVENT"; bs "S390_STSI"; bs "IOAPIC_EOI"; bs "HYPERV"; bs "ARM_NISV"; bs "X86_RDMSR"; bs "X86_WRMSR"; bs "DIRTY_RING_FULL";
   bs "AP_RESET_HOLD"; bs "X86_BUS_LOCK"; bs "XEN"; bs "RISCV_SBI"; bs "RISCV_CSR"; bs "NOTIFY"; bs "LOONGARCH_IOCSR"; bs "MEMORY_FAULT"].
Definition reason (n : N) : list N := bs "KVM_EXIT_" ++ nth (N.to_nat n) reasons (bs "???").
