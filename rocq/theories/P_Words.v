(** Property C92 (the word size and the ABIs of the configured kernel). *)
From Coq Require Import List Bool Ascii String ZArith.
From Verif Require Import PyBase M_Utils M_KconfigTables M_Elf M_Syscall M_Arch S_Utils S_Arch S_Words L_Words.
Import ListNotations.
Open Scope Z_scope.
Open Scope list_scope.

(** The options of a new architecture object that concern the word size or an ABI are
    exactly the ones it takes. *)
Theorem C92_word_size a v opts o : fresh_kconfig a v = Some opts ->
  (exists n, In n word_options /\ (o = yes n \/ o = no n)) ->
  In o (dkeys opts) <-> asked (a_class a) (a_abi a) (a_bits32 a) v o.
Proof. exact (words a v opts o). Qed.
Print Assumptions C92_word_size.

Definition has_options (k : klass) (v : version) (abi : str) (bits32 : bool) (os : list str) : bool :=
  match arch_new k v abi bits32 with
  | Ok a => match fresh_kconfig a v with
            | Some opts => forallb (fun o => existsb (str_eqb o) (dkeys opts)) os
            | None => false
            end
  | _ => false
  end.
Example C92_mips : has_options KMips [5;10] $"n32" false [$"64BIT=y"; $"MIPS32_N32=y"] = true /\
  has_options KMips [5;10] $"o32" true [$"64BIT=n"; $"32BIT=y"] = true.
Proof. vm_compute. auto. Qed.
Example C92_x32 : has_options KX86 [5;17] $"x32" false [$"X86_X32=y"] = true /\
  has_options KX86 [5;18] $"x32" false [$"X86_X32_ABI=y"] = true /\
  has_options KX86 [5;18] $"x32" false [$"X86_X32=y"] = false.
Proof. vm_compute. auto. Qed.
Example C92_asked : asked KMips $"n32" false [5;10] $"64BIT=y" /\ ~ asked KMips $"n32" false [5;10] $"64BIT=n".
Proof.
  split.
  - exists always. split; [cbn; auto|]. split; [right; constructor; reflexivity|constructor; reflexivity].
  - intros (r & I & _). cbn in I. repeat destruct I as [I|I]; try discriminate; exact I.
Qed.
