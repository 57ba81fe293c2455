(** Specification of the search through the sources (C87), stated without the functions of the model. *)
From Coq Require Import List Bool Ascii String ZArith.
From Verif Require Import PyBase M_Utils M_Elf M_Syscall M_Arch S_Elf S_Signature S_Location M_Search.
Import ListNotations.
Open Scope Z_scope.
Open Scope list_scope.

(** ** Files *)

(** [rel] names a file with that content. *)
Inductive file_at : node -> list str -> bytes -> Prop :=
| fa_file content : file_at (NFile content) [] content
| fa_dir entries name m rel content : In (name, m) entries -> file_at m rel content -> file_at (NDir entries) (name :: rel) content.
(** Names differ within a directory. *)
Inductive tree_ok : node -> Prop :=
| to_file content : tree_ok (NFile content)
| to_other : tree_ok NOther
| to_dir entries : NoDup (map fst entries) -> Forall (fun x => tree_ok (snd x)) entries -> tree_ok (NDir entries).
(** Names that a path is made of; without a colon, which separates the fields of the result. *)
Definition plain_name (s : str) : Prop := s <> [] /\ s <> $"." /\ ~ In "/"%char s /\ ~ In ":"%char s.
Definition tidy (sources : node) : Prop := forall rel content, file_at sources rel content -> Forall plain_name rel.

(** The directory of an architecture below "arch". *)
Definition arch_dir (k : klass) : str :=
  match k with
  | KArm => $"arm" | KArm64 => $"arm64" | KMips => $"mips" | KPowerPC => $"powerpc" | KRiscV => $"riscv" | KX86 => $"x86"
  end.
(** Which files are searched: C sources, nothing hidden, not those of some directories, not those
    of other architectures. *)
Definition unsearched (d : str) : Prop :=
  In d [$"Documentation"; $"drivers"; $"lib"; $"samples"; $"sound"; $"tools"; $"usr"].
Definition searched (k : klass) (rel : list str) : Prop :=
  (exists dirs name, rel = dirs ++ [name ++ $".c"]) /\
  (forall c x, In c rel -> c <> "."%char :: x) /\
  (forall d m l, rel = d :: m :: l -> ~ unsearched d) /\
  (forall x m l, rel = $"arch" :: x :: m :: l -> x = arch_dir k).
(** Without the blanks at the end. *)
Definition stripped (l s : bytes) : Prop :=
  exists w, l = s ++ w /\ bblanks w /\ forall x c, s = x ++ [c] -> is_bspace c = false.

(** ** Lines *)

Definition after_word (p : str) : Prop := exists x c, p = x ++ [c] /\ is_bword c = true.
(** [q] is the head of a definition up to the parenthesis, then [t]. *)
Definition macro_head (a : arch) (q t : str) : Prop :=
  exists c b d w, (if a_compat a then maybe $"COMPAT_" c else c = []) /\
    (if a_compat a || a_bits32 a then maybe $"32" b else b = []) /\ is_dec d = true /\ bblanks w /\
    q = c ++ $"SYSCALL" ++ b ++ $"_DEFINE" ++ [d] ++ w ++ $"(" ++ t.
Definition asm_call (prefixes : list str) (q t : str) : Prop :=
  exists w1 u ty w2 pre f w, bblanks w1 /\ (u = [] \/ exists v, u = $"unsigned" ++ v /\ v <> [] /\ bblanks v) /\
    some_of is_bword ty /\ bblanks w2 /\ In pre prefixes /\ some_of is_bword f /\ bblanks w /\
    q = $"asmlinkage" ++ w1 ++ u ++ ty ++ w2 ++ pre ++ f ++ w ++ $"(" ++ t.
Inductive odd_head (a : arch) (q t : str) : Prop :=
| oh_arm : a_class a = KArm -> a_abi a = $"oabi" -> asm_call [$"sys_oabi_"] q t -> odd_head a q t
| oh_mips : a_class a = KMips -> asm_call [$"sysm_"; $"mipsmt_sys_"] q t -> odd_head a q t
| oh_n32 : a_class a = KMips -> a_abi a = $"n32" -> asm_call [$"sysn32_"] q t -> odd_head a q t
| oh_x32 : a_class a = KX86 -> a_abi a = $"x32" -> asm_call [$"sys32_x32_"] q t -> odd_head a q t
| oh_ppc d w : a_class a = KPowerPC -> a_abi a = $"ppc32" -> is_dec d = true -> bblanks w ->
    q = $"PPC32_SYSCALL_DEFINE" ++ [d] ++ w ++ $"(" ++ t -> odd_head a q t.
(** A line that may be the definition of a syscall. *)
Definition candidate (a : arch) (text : bytes) : Prop :=
  exists p q t w x t', text = p ++ q /\ ~ after_word p /\ (macro_head a q t \/ odd_head a q t) /\
    t = w ++ [x] ++ t' /\ bblanks w /\ is_bword x = true.

(** A line of the sources with its place. *)
Definition source_line (sources : node) (k : klass) (rel : list str) (n : Z) (text : bytes) : Prop :=
  exists content ls, file_at sources rel content /\ searched k rel /\ lines_of content ls /\
    1 <= n /\ nth_error ls (Z.to_nat (n - 1)) = Some text.
(** What is reported for it. *)
Definition report (rel : list str) (n : Z) (s : bytes) : str :=
  join $"/" rel ++ $":" ++ str_of_int n ++ $":" ++ s.

(** The line has a definition of what [name] stands for at its beginning or after a colon. *)
Definition macro_line (blank : str -> Prop) (a : arch) (name text : str) : Prop :=
  exists p c b d w n e t, stands_for name n /\ (p = [] \/ exists x, p = x ++ $":") /\ (if a_compat a then maybe $"COMPAT_" c else c = []) /\
    (if a_compat a || a_bits32 a then maybe $"32" b else b = []) /\ is_dec d = true /\ blank w /\
    (e = $"," \/ e = $")") /\
    text = p ++ c ++ $"SYSCALL" ++ b ++ $"_DEFINE" ++ [d] ++ w ++ $"(" ++ n ++ e ++ t.
