(** Property C05, exact form: what the instances of a class ask for after any history. *)
From Coq Require Import List Bool Ascii String ZArith.
From Verif Require Import PyBase PyFacts M_Utils S_Utils M_KconfigTables M_Arch S_Arch S_Isolation L_Isolation.
Import ListNotations.
Open Scope Z_scope.
Open Scope list_scope.

(** After any history the options of an instance for version [v] are those of its class that hold
    for [v], and those that came with any instance of the class (of whatever ABI or bitness)
    before somebody first asked an instance of the class for [v].  Nothing else counts: neither
    instances of other classes nor, once the question was asked, any later instance. *)
Theorem C05_exact_options : forall h a v key,
  (exists deps, dget str_eqb key (fst (arch_kconfig a v (p_world (run_process h)))) = Some deps) <->
  exists lo hi deps, within (lo, hi) v /\
    (In (lo, hi, key, deps) (class_kconfig (a_class a)) \/ came_before (a_class a) v h lo hi key deps).
Proof. exact kconfig_keys. Qed.
Print Assumptions C05_exact_options.

(** The dependencies listed with each option: the last ones given in the applicable range first
    used last (see C01), over the additions made to the class before the question. *)
Theorem C05_exact_dependencies : forall h a v key deps,
  dget str_eqb key (fst (arch_kconfig a v (p_world (run_process h)))) = Some deps <->
  applicable_value (class_kconfig (a_class a) ++ adds_before_look ver_eqb v (events (a_class a) [] h)) v key deps.
Proof. exact kconfig_values. Qed.
Print Assumptions C05_exact_dependencies.

(** A 32-bit x86 instance made first adds HIGHMEM64G to what a 64-bit one asks for; made after
    the question it no longer does for this version, but does for others. *)
Example C05_ex_exact :
  let has h a v key := dmem str_eqb key (fst (arch_kconfig a v (p_world (run_process h)))) in
  let n32 := New KX86 [5;0] $"ia32" true in
  let n64 := New KX86 [5;0] $"x64" false in
  match arch_new KX86 [5;0] $"x64" false with
  | Ok a =>
      has [n64] a [5;0] $"HIGHMEM64G=y" = false /\
      has [n32; n64] a [5;0] $"HIGHMEM64G=y" = true /\
      has [n64; Ask 0 [5;0]; n32] a [5;0] $"HIGHMEM64G=y" = false /\
      has [n64; Ask 0 [5;0]; n32] a [5;1] $"HIGHMEM64G=y" = true /\
      has [n64; New KArm [5;0] $"eabi" true] a [5;0] $"HIGHMEM64G=y" = false
  | _ => False
  end.
Proof. vm_compute. repeat split. Qed.
Example C05_ex_came :
  came_before KX86 [5;0] [New KX86 [5;0] $"ia32" true; New KX86 [5;0] $"x64" false] VERSION_ZERO VERSION_INF $"HIGHMEM64G=y" [] /\
  within (VERSION_ZERO, VERSION_INF) [5;0].
Proof.
  split.
  - destruct (arch_new KX86 [5;0] $"ia32" true) as [b| | |] eqn:E; [|vm_compute in E; discriminate E..].
    exists [New KX86 [5;0] $"ia32" true], [New KX86 [5;0] $"x64" false], b.
    split; [reflexivity|]. injection E as <-. split; [vm_compute; auto|]. split; [reflexivity|]. split.
    + intros ([|y [|z h1]] & i & h2 & c & [=] & _).
    + vm_compute. tauto.
  - split; [right; apply lex_lt; reflexivity|apply lex_lt; reflexivity].
Qed.
