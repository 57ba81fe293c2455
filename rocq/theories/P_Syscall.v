(** Properties C07, C08 (syscall.py). *)
From Coq Require Import List Bool Ascii String ZArith Sorting.Sorted.
From Verif Require Import PyBase PyFacts M_Utils M_Syscall S_Syscall L_Syscall.
Import ListNotations.
Open Scope Z_scope.
Open Scope list_scope.

(** ** C07 *)

Theorem C07_common_prefixes_exact : forall names t, names <> [] -> 1 <= t ->
  exists ps, common_syscall_symbol_prefixes names t = Ok ps /\
    NoDup ps /\ StronglySorted (fun a b => len b <= len a) ps /\
    forall p, In p ps <-> common_prefix names t p.
Proof. exact prefixes_exact. Qed.
Print Assumptions C07_common_prefixes_exact.

Theorem C07_no_names : forall t, common_syscall_symbol_prefixes [] t = Raise ValueError.
Proof. exact prefixes_empty. Qed.
Print Assumptions C07_no_names.

Example C07_example :
  common_syscall_symbol_prefixes
    [$"__x64_sys_read"; $"__x64_sys_sched_yield"; $"__x64_sys_sched_getparam"; $"__x64_fork"] 3
  = Ok [$"__x64_sys_"; $"__x64_"; $"__"] /\
  common_prefix [$"__x64_sys_read"; $"__x64_fork"] 2 $"__x64_".
Proof.
  split; [reflexivity|]. split; [exists $"__x64"; now split|].
  exists 2. split; [|reflexivity].
  exact (sw_yes $"__x64_" $"sys_read" [$"__x64_fork"] 1
          (sw_yes $"__x64_" $"fork" [] 0 (sw_nil _))).
Qed.

(** ** C08 *)

Theorem C08_longest_prefix_stripped : forall names t s, names <> [] -> 1 <= t ->
  exists ps, common_syscall_symbol_prefixes names t = Ok ps /\
  ((exists p, common_prefix names t p /\ s = p ++ noprefix s ps /\
      forall q u, common_prefix names t q -> s = q ++ u -> len q <= len p) \/
   ((forall p u, common_prefix names t p -> s <> p ++ u) /\ noprefix s ps = s)).
Proof. exact strip_longest. Qed.
Print Assumptions C08_longest_prefix_stripped.

Example C08_example :
  noprefix $"__x64_sys_open" [$"__x64_sys_"; $"__x64_"; $"__"] = $"open" /\
  noprefix $"__do_open" [$"__x64_sys_"; $"__x64_"; $"__"] = $"do_open".
Proof. split; reflexivity. Qed.
