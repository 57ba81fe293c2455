(** Specification for C109: when and why extracting syscalls gives nothing. *)
From Coq Require Import List Bool Ascii String ZArith.
From Verif Require Import PyBase M_Utils M_Elf M_Syscall M_Arch M_Kernel S_Elf S_Arch S_Kernel S_Warn.
Import ListNotations.
Open Scope Z_scope.
Open Scope list_scope.

Definition width (bits32 : bool) : str := if bits32 then $"32" else $"64".
(** No entry of the table can be read: the first is no pointer into the section or not before the
    next symbol, or the file ends where the table starts. *)
Inductive unreadable (e : elf) (tbl : symbol) (text : section) : Prop :=
| un_first p : sym_size tbl <= 128 -> pointers_at e (sym_vaddr tbl) [p] -> ~ good_entry e tbl text 0 p -> unreadable e tbl text
| un_end off : 128 < sym_size tbl -> place e (sym_vaddr tbl) off -> len (e_file e) <= off -> unreadable e tbl text.

(** [hopeless t a e lines]: nothing can be extracted, for the reason that [lines] tell. *)
Inductive hopeless (t : env) (a : arch) (e : elf) : list str -> Prop :=
| hp_bits : a_bits32 a <> e_bits32 e ->
    hopeless t a e [$"Selected arch is " ++ width (a_bits32 a) ++ $"-bit, but kernel is " ++ width (e_bits32 e) ++ $"-bit"]
| hp_symbol name : a_table (adjust_abi a e) = Some name -> ~ sym_present e name ->
    hopeless t a e [$"Unable to find " ++ name ++ $" symbol!"; $"Unable to extract any syscall vaddr, giving up!"]
| hp_opd name tbl text p : a_table (adjust_abi a e) = Some name -> In (name, tbl) (e_symbols e) -> In ($".text", text) (e_sections e) ->
    a_fdesc (adjust_abi a e) = true -> pointers_at e (sym_vaddr tbl) [p] -> ~ inside text p ->
    (forall s, ~ In ($".opd", s) (e_sections e)) ->
    hopeless t a e [$"Arch uses function descriptors, but vmlinux has no .opd section!"; $"Unable to extract any syscall vaddr, giving up!"]
| hp_table name tbl text : a_table (adjust_abi a e) = Some name -> In (name, tbl) (e_symbols e) -> In ($".text", text) (e_sections e) ->
    unreadable e tbl text ->
    hopeless t a e [$"Could not extract any valid function pointer from " ++ name ++ $", giving up!";
                    $"Is the kernel relocatable? Relocation entries for the syscall table are not supported.";
                    $"Unable to extract any syscall vaddr, giving up!"]
| hp_dispatcher : a_table (adjust_abi a e) = None -> syscall_vaddrs t (adjust_abi a e) e = Ok [] ->
    hopeless t a e [$"Unable to extract any syscall vaddr, giving up!"]
| hp_ni : (forall v, ~ not_implemented e v) -> hopeless t a e [$"No ni_syscall found!"].

(** Every entry of the table that is implemented, of this ABI and no dummy was located in
    kernel/sys_ni.c. *)
Definition all_dropped (t : env) (k : klass) (ver : version) (abi : str) (b : bool) (a : arch) (e : elf) (kdir : option path) : Prop :=
  exists vaddrs choice ref code located,
    syscall_vaddrs t (adjust_abi a e) e = Ok vaddrs /\ vaddrs <> [] /\ (exists v, not_implemented e v) /\
    chooses e vaddrs choice /\ reference e vaddrs choice ref code /\ Forall (dropped kdir) located /\
    forall i v x, In (i, v) vaddrs -> 0 <= i < 2 ^ 30 -> choice v = Some x ->
      ~ not_implemented e v -> ~ foreign k ver abi b i -> is_dummy_syscall (adjust_abi a e) x e ref code = Ok false ->
      exists s, In s located /\ sc_index s = Some i /\ sc_symbol s = x.
