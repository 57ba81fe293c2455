(** Specification for the list of architectures (C107): how a reader takes the text. *)
From Coq Require Import List Bool Ascii String ZArith.
From Verif Require Import PyBase M_Utils M_Arch S_Utils S_Elf S_Arch.
Import ListNotations.
Open Scope Z_scope.
Open Scope list_scope.

(** ** Tables in texts: cells stand two or more spaces apart. *)
Definition SPACE : ascii := " "%char.
Definition DQUOTE : ascii := """"%char.
Record cell (c : str) : Prop := Cell {
  ce_some : c <> [];
  ce_first : forall s, c <> SPACE :: s;
  ce_last : forall s, c <> s ++ [SPACE];
  ce_inner : forall s t, c <> s ++ SPACE :: SPACE :: t
}.
Inductive cells : str -> list str -> Prop :=
| cs_one c : cell c -> cells c [c]
| cs_more c n rest cs : cell c -> (2 <= n)%nat -> cells rest cs -> cells (c ++ repeat SPACE n ++ rest) (c :: cs).
(** A line with these cells, indented *)
Definition table_line (line : str) (cs : list str) : Prop := exists body, line = $"    " ++ body /\ cells body cs.
Definition columns : list str :=
  [$"Value"; $"Aliases"; $"Arch"; $"Kernel"; $"Syscall ABI"; $"Build based on"; $"Notes"].

(** ** Rows *)
Record row := Row {
  r_value : str; r_aliases : list str; r_arch : str; r_kernel32 : bool;
  r_abi32 : bool; r_abi : str; r_build : list str; r_notes : list str
}.
Definition bits (b : bool) : str := if b then $"32-bit" else $"64-bit".
(** The items of a cell: not empty, and without the separating character *)
Definition items (sep : ascii) (l : list str) : Prop := l <> [] /\ Forall (fun x => x <> [] /\ ~ In sep x) l.
(** A row printed as cells; the last one is missing if there are no notes. *)
Inductive row_cells (r : row) : list str -> Prop :=
| rc_plain : r_notes r = [] -> items ","%char (r_aliases r) -> items "+"%char (r_build r) ->
    row_cells r [r_value r; join $", " (r_aliases r); r_arch r; bits (r_kernel32 r);
                 bits (r_abi32 r) ++ $" " ++ r_abi r; join $" + " (r_build r)]
| rc_notes : items ","%char (r_notes r) -> items ","%char (r_aliases r) -> items "+"%char (r_build r) ->
    row_cells r [r_value r; join $", " (r_aliases r); r_arch r; bits (r_kernel32 r);
                 bits (r_abi32 r) ++ $" " ++ r_abi r; join $" + " (r_build r);
                 $"[" ++ join $"," (r_notes r) ++ $"]"].
(** The text has a table with these columns and this row. *)
Definition shown (text : str) (r : row) : Prop :=
  exists first header after line cs, text = unlines (first ++ header :: after) /\
    Forall (fun l => ~ In NL l) (first ++ header :: after) /\
    table_line header columns /\ In line after /\ table_line line cs /\ row_cells r cs.
Definition row_names (r : row) : list str := r_value r :: r_aliases r.

(** ** What the cells mean *)
Inductive arch_label : klass -> str -> Prop :=
| ab_arm : arch_label KArm $"ARM" | ab_arm64 : arch_label KArm64 $"ARM" | ab_mips : arch_label KMips $"MIPS"
| ab_ppc : arch_label KPowerPC $"PowerPC" | ab_riscv : arch_label KRiscV $"RISC-V" | ab_x86 : arch_label KX86 $"x86".
(** ABIs: the label in small letters, possibly in quotes; x86-64 is the one called x64. *)
Inductive abi_label : str -> str -> Prop :=
| al_plain l abi : lower l = abi -> abi_label abi l
| al_quoted l abi : lower l = abi -> abi_label abi ([DQUOTE] ++ l ++ [DQUOTE])
| al_x64 : abi_label $"x64" $"x86-64".

(** A footnote of the text *)
Definition footnote (text : str) (n note : str) : Prop :=
  exists first after, text = unlines (first ++ ($"    [" ++ n ++ $"] " ++ note) :: after).
(** What a row says about the targets that a version is configured from.  Linux <= v3.7 are the
    releases before v3.8, and so on. *)
Definition note_2 : str := $"Build based on ""defconfig"" for Linux <= v3.7.".
Definition note_3 : str := $"Build based on ""rv32_defconfig"" for Linux <= v6.7 and ""defconfig"" for Linux <= v5.0.".
Inductive based (text : str) (r : row) (v : list Z) : list str -> Prop :=
| ba_arm : In $"2" (r_notes r) -> footnote text $"2" note_2 -> before [3;8] v -> based text r v [$"defconfig"]
| ba_rv32 : In $"3" (r_notes r) -> footnote text $"3" note_3 -> before [5;1] v -> based text r v [$"defconfig"]
| ba_rv32_later : In $"3" (r_notes r) -> footnote text $"3" note_3 -> since [5;1] v -> before [6;8] v ->
    based text r v [$"rv32_defconfig"]
| ba_cell : (In $"2" (r_notes r) -> since [3;8] v) -> (In $"3" (r_notes r) -> since [6;8] v) -> based text r v (r_build r).

(** Rows of ABIs that one kernel can have *)
Definition same_kernel (r r' : row) : Prop := r_arch r = r_arch r' /\ r_kernel32 r = r_kernel32 r'.
