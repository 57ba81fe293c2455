(** Which of several names of one function is preferred (C30): a rank per name, by the documented
    preferences (arch_base.py 112-130 and the comments of the architectures). *)
From Coq Require Import List Bool Ascii String ZArith.
From Verif Require Import PyBase M_Utils M_Elf M_Arch.
Import ListNotations.
Open Scope Z_scope.

Definition classic (n : str) : Z :=
  if startswith n $"sys_" then 2 else if startswith n $"compat_sys_" then 1 else 0.
(** Names in capitals are not those of functions one looks for. *)
Definition ordinary (n : str) : Z := if islower n then 1 + classic n else 0.
(** The names of the wanted kind come first: with "compat" for a compat ABI, without for others. *)
Definition suits (a : arch) (n : str) : Z := if Bool.eqb (contains n $"compat") (a_compat a) then 4 else 0.

Definition rank (a : arch) (n : str) : Z :=
  match a_class a with
  | KX86 =>
      if str_eqb (a_abi a) $"ia32" then
        if startswith n $"__ia32_" then 6 else if startswith n $"__x64_" then 5 else ordinary n
      else if str_eqb (a_abi a) $"x32" && startswith n $"__x32_" then 6
      else if startswith n $"__x64_" then 5
      else if startswith n $"__ia32_" then -1 else ordinary n
  | KPowerPC =>
      if a_bits32 a then classic n
      else match n with
           | "."%char :: n' => 3 + classic n'
           | _ => classic n
           end
  | KArm | KMips => suits a n + classic n
  | KArm64 => suits a n + (if startswith n $"__arm64_" then 3 else classic n)
  | KRiscV => suits a n + (if startswith n $"__riscv_" then 3 else classic n)
  end.
