(** C30: the preference between names of one function *)
From Coq Require Import List Bool Ascii String ZArith Lia Permutation.
From Verif Require Import PyBase M_Utils M_Elf M_Syscall M_Arch M_Kernel S_Kernel S_Rank L_Rank L_Rank2 P_Kernel.
Import ListNotations.
Open Scope Z_scope.

(** The name with the higher rank is preferred, whichever comes first. *)
Theorem C30_rank : forall a x y, rank a (sym_name y) < rank a (sym_name x) ->
  preferred_symbol a x y = x /\ preferred_symbol a y x = x.
Proof. exact preferred_rank. Qed.
Print Assumptions C30_rank.

(** No symbol at the address of a syscall has a higher rank than the one it is reported with. *)
Theorem C30_best : forall t a e v kdir r,
  (forall l, Permutation (v_ni_order t l) l) -> annotates (v_annotate t) ->
  extract_syscalls t a e v kdir = Ok r ->
  forall s, In s r -> of_table s = true -> forall y, symbol_at e (sym_vaddr (sc_symbol s)) y ->
  rank (adjust_abi a e) (sym_name y) <= rank (adjust_abi a e) (sym_name (sc_symbol s)).
Proof. exact result_best. Qed.
Print Assumptions C30_best.

Example C30_ranks :
  match arch_new KX86 [5;0] $"ia32" false, arch_new KPowerPC [5;0] $"ppc64" false, arch_new KArm64 [5;0] $"aarch32" false with
  | Ok a, Ok p, Ok c =>
      map (rank a) [$"__ia32_sys_a"; $"__x64_sys_a"; $"sys_a"; $"compat_sys_a"; $"ksys_a"; $"__SYS_A"] = [6; 5; 3; 2; 1; 0] /\
      map (rank p) [$".sys_a"; $".compat_sys_a"; $".ksys_a"; $"sys_a"; $"compat_sys_a"; $"a"] = [5; 4; 3; 2; 1; 0] /\
      map (rank c) [$"__arm64_compat_sys_a"; $"compat_sys_a"; $"__arm64_sys_a"; $"sys_a"] = [7; 5; 3; 2]
  | _, _, _ => False
  end.
Proof. vm_compute. repeat split. Qed.
(** __x64_sys_read and __se_sys_read at one address *)
Example C30_choice :
  map (fun s => map (fun y => (sym_name y, rank (adjust_abi ex_a ex_e) (sym_name y)))
    (filter (fun y => sym_vaddr y =? sym_vaddr (sc_symbol s)) (map snd (e_symbols ex_e))))
    (match extract_syscalls ex_env ex_a ex_e [5;10] None with Ok l => l | _ => [] end) =
  [[($"__x64_sys_read", 5); ($"__se_sys_read", 1)]; [($"__x64_sys_write", 5)]] /\
  (forall l, Permutation (v_ni_order ex_env l) l) /\ annotates (v_annotate ex_env).
Proof. split; [vm_compute; reflexivity|]. split; [exact ex_order|exact ex_annotates]. Qed.
