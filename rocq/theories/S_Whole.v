(** Specification for C98: inputs for which the analysis succeeds, stated without the functions of
    the model (only its record types). *)
From Coq Require Import List Bool Ascii String ZArith.
From Verif Require Import PyBase M_Utils M_Elf M_Syscall M_Arch S_Elf S_Arch S_Dummy S_Kernel S_Signature S_Pattern S_Location S_Declared.
Import ListNotations.
Open Scope Z_scope.
Open Scope list_scope.

(** The lines in the debug information exist in the sources. *)
Definition answers_fit (file : path -> option str) (ans : Z -> answer) (elfdir kdir : path) (rdir : option path) : Prop :=
  forall v f n content ls, place_of elfdir kdir rdir (ans v) f n -> file f = Some content -> lines_of content ls -> n <= len ls.

(** The places that the debug information and the search through the sources lead to. *)
Inductive referred (file : path -> option str) (ans : Z -> answer) (elfdir kdir : path) (rdir : option path) (out : list str)
    (f : path) (l : Z) : Prop :=
| ref_debug v n content ls : place_of elfdir kdir rdir (ans v) f n -> file f = Some content -> lines_of content ls ->
    adjusted ls n l -> referred file ans elfdir kdir rdir out f l
| ref_search line : In line out -> grep_place kdir line f l -> referred file ans elfdir kdir rdir out f l.

(** A definition at such a place is one of the kinds that [declares] lists (the lines before the
    first count as the first). *)
Definition definitions_fine (file : path -> option str) (ans : Z -> answer) (elfdir kdir : path) (rdir : option path)
    (out : list str) (a : arch) (big : bool) : Prop :=
  forall f l content text name, referred file ans elfdir kdir rdir out f l -> file f = Some content ->
    line_text content l text -> dotted name -> accepts a name text ->
    exists sig, declares content (Z.max 1 l) big sig.

(** The image has no metadata, or a complete table. *)
Definition metadata_fine (e : elf) : Prop :=
  dget str_eqb $"__start_syscalls_metadata" (e_symbols e) = None \/ exists rs, metadata e rs /\ Forall clean_rec rs.

(** The addresses in the table of the architecture: the entries, or what their descriptors hold. *)
Inductive table_of (a : arch) (e : elf) (name : str) : list Z -> Prop :=
| table_no_descriptors tbl text ps : dget str_eqb name (e_symbols e) = Some tbl -> dget str_eqb $".text" (e_sections e) = Some text ->
    a_fdesc a = false -> table_entries e tbl text ps -> table_of a e name ps
| table_no_need tbl text p ps : dget str_eqb name (e_symbols e) = Some tbl -> dget str_eqb $".text" (e_sections e) = Some text ->
    pointers_at e (sym_vaddr tbl) [p] -> S_Kernel.inside text p -> table_entries e tbl text ps -> table_of a e name ps
| table_followed tbl text opd p ds vs : dget str_eqb name (e_symbols e) = Some tbl -> dget str_eqb $".text" (e_sections e) = Some text ->
    a_fdesc a = true -> pointers_at e (sym_vaddr tbl) [p] -> ~ S_Kernel.inside text p ->
    dget str_eqb $".opd" (e_sections e) = Some opd -> table_entries e tbl opd ds -> ds <> [] ->
    Forall2 (fun d v => pointers_at e d [v]) ds vs -> table_of a e name vs.

(** ** Images *)

(** The code of the symbol is in the file, all of it. *)
Definition whole_code (a : arch) (e : elf) (s : symbol) : Prop :=
  (exists x, image_has e (sym_real s) x /\ len x = sym_size s) /\ (a_class a = KPowerPC -> (4 | sym_size s)).
(** [vs] are the addresses of the table. *)
Record sound_input (a : arch) (e : elf) (vs : list Z) : Prop := SoundInput {
  sn_ni : forall v f, ni_at e v f -> image_has e (sym_real f) [];
  sn_table : forall v s, In v vs -> symbol_at e v s -> whole_code a e s;
  sn_arm : a_class a = KArm -> fun_present e $"arm_syscall" ->
    exists s, dget str_eqb $"arm_syscall" (e_symbols e) = Some s /\ whole_code a e s;
  sn_switch : forall exc, a_class a = KPowerPC -> a_abi a = $"ppc64" -> S_Arch.before [6;12] (a_version a) ->
    dget str_eqb $"exc_real_0xc00_system_call" (e_symbols e) = Some exc ->
    sym_name exc = $"exc_real_0xc00_system_call" /\ whole_code a e exc /\ exists ws, Forall is_word32 ws /\
      vaddr_read e (sym_vaddr exc) (match next_symbol e exc with Some s => sym_vaddr s - sym_vaddr exc | None => 128 end) =
        Ok (ppc_code (e_big e) ws)
}.
