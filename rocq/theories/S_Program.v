(** Specification for C103: what a run of the program on a computer shows, in terms of the files there
    and of what other programs print. *)
From Coq Require Import List Bool Ascii String ZArith Permutation.
From Verif Require Import PyBase M_Utils M_Elf M_Syscall M_Arch M_Emu M_Kernel M_Search M_Config M_Command M_Main M_Program
  S_Dummy S_Elf S_Emu S_Kernel S_Location S_Search S_Declared S_Whole S_Blind S_Main.
Import ListNotations.
Open Scope Z_scope.
Open Scope list_scope.

(** Started in the directory, the program is found, succeeds and prints [out]. *)
Definition prints (c : computer) (h : list action) (cmd : M_Command.command) (cwd : option path) (out : str) : Prop :=
  (forall d, cwd = Some d -> exists l, pc_look c h d = Some (NDir l)) /\ pc_found c h cwd (program cmd) = true /\
  exists err, pc_run c h cmd cwd = Some (0, out, err).
Definition file_at (c : computer) (h : list action) (p : path) : option str :=
  match pc_look c h p with Some (NFile b) => Some b | _ => None end.

(** [e] is the ELF at [p] with the sections and symbols that readelf lists. *)
Definition image_read (c : computer) (h : list action) (p : path) (e : elf) : Prop :=
  exists file sections symbols, file_at c h p = Some file /\
    prints c h (Argv [$"readelf"; $"-WS"; str_of_path p]) None sections /\
    prints c h (Argv [$"readelf"; $"-Ws"; str_of_path p]) None symbols /\
    elf_open file sections symbols = Ok e.

(** Entry [i] of the table [name] in the file is [v], or the address of a descriptor that holds it. *)
Inductive entry_at (e : elf) (name : str) (i v : Z) : Prop :=
| en_direct tbl ps : dget str_eqb name (e_symbols e) = Some tbl -> pointers_at e (sym_vaddr tbl) ps ->
    0 <= i -> nth_error ps (Z.to_nat i) = Some v -> entry_at e name i v
| en_descriptor tbl ps d : dget str_eqb name (e_symbols e) = Some tbl -> pointers_at e (sym_vaddr tbl) ps ->
    0 <= i -> nth_error ps (Z.to_nat i) = Some d -> pointers_at e d [v] -> entry_at e name i v.

(** Sets have some order, and instructions that are the same do the same. *)
Definition regular (c : computer) : Prop :=
  (forall l, Permutation (pc_ni_order c l) l) /\ (forall l, Permutation (pc_insn_order c l) l) /\
  (forall i, pc_same c i i = true) /\ forall i j, pc_same c i j = true -> i_kind i = i_kind j.
(** [prog]: the code of a dispatcher from [start] to [stop], that the image has instead of a table. *)
Inductive dispatches (c : computer) (b : arch) (e : elf) (start stop : Z) (prog : list insn) : Prop :=
| dispatches_ sym reg code : a_table b = None -> a_class b = KX86 -> dget str_eqb (a_abi b ++ $"_sys_call") (e_functions e) = Some sym ->
    16 <= sym_size sym -> image_has e (sym_real sym) code -> len code = sym_size sym ->
    start = sym_real sym -> stop = sym_real sym + sym_size sym -> prog = pc_decode c (a_bits32 b) code start ->
    dispatcher reg start stop prog -> dispatches c b e start stop prog.
(** [a]: the architecture before adjust_abi, [b] after it *)
Record founded (c : computer) (h : list action) (e : elf) (a b : arch) (s : syscall) : Prop := Founded {
  fd_entry : of_table s = true ->
    exists i v, sc_index s = Some i /\ number_at (a_class a) (a_version a) (a_abi a) (a_bits32 a) i (sc_number s) /\
      symbol_at e v (sc_symbol s) /\ ~ not_implemented e v /\
      (forall name, a_table b = Some name -> entry_at e name i v) /\
      (forall start stop prog, dispatches c b e start stop prog -> leads_to start stop prog i v);
  fd_place : sc_good s = true -> fit_names s -> well_located (file_at c h) b s;
  fd_signature : sc_good s = true -> of_table s = true ->
    exists f l content, sc_file s = Some f /\ sc_line s = Some l /\ file_at c h f = Some content /\
      forall sig, declares content l (e_big e) sig -> sc_signature s = Some sig
}.
(** Why entry [i] of [vs], of the function at [u], may be missing: not implemented, of another ABI,
    judged to be a dummy (C31-C35) next to the most frequent one that is not implemented, or, where no
    definition was found for it, located in kernel/sys_ni.c. *)
Inductive excused (g : args) (e : elf) (a b : arch) (vs : list (Z * Z)) (i u : Z) : Prop :=
| ex_not_implemented : not_implemented e u -> excused g e a b vs i u
| ex_foreign : foreign (a_class a) (a_version a) (a_abi a) (a_bits32 a) i -> excused g e a b vs i u
| ex_dummy choice ref code x : chooses e vs choice -> reference e vs choice ref code ->
    choice u = Some x -> is_dummy_syscall b x e ref code <> Ok false -> excused g e a b vs i u
| ex_sys_ni s : sc_index s = Some i -> symbol_at e u (sc_symbol s) -> sc_good s = false -> in_sys_ni (path_arg (g_kdir g)) s ->
    excused g e a b vs i u.
Definition listed (e : elf) (scs : list syscall) (i u : Z) : Prop :=
  exists s, In s scs /\ of_table s = true /\ sc_index s = Some i /\ symbol_at e u (sc_symbol s).
Record complete (c : computer) (g : args) (e : elf) (a b : arch) (scs : list syscall) : Prop := Complete {
  cp_table : forall name us i u, a_table b = Some name -> table_of b e name us -> 0 <= i < 2 ^ 30 -> nth_error us (Z.to_nat i) = Some u ->
    listed e scs i u \/ excused g e a b (enum_from 0 us) i u;
  cp_code : forall start stop prog, dispatches c b e start stop prog ->
    exists vs, NoDup (map fst vs) /\ (forall i u, In (i, u) vs <-> leads_to start stop prog i u) /\
      forall i u, leads_to start stop prog i u -> listed e scs i u \/ excused g e a b vs i u
}.

(** Why nothing is found: no function is known for "not implemented", or all entries are excused, or the
    dispatcher is unclear. *)
Inductive barren (c : computer) (g : args) (e : elf) (a b : arch) : Prop :=
| br_no_ni : (forall u, ~ not_implemented e u) -> barren c g e a b
| br_table name us : a_table b = Some name -> table_of b e name us ->
    (forall i u, 0 <= i < 2 ^ 30 -> nth_error us (Z.to_nat i) = Some u -> excused g e a b (enum_from 0 us) i u) -> barren c g e a b
| br_code start stop prog vs : dispatches c b e start stop prog -> (forall i u, In (i, u) vs <-> leads_to start stop prog i u) ->
    (forall i u, In (i, u) vs -> excused g e a b vs i u) -> barren c g e a b
| br_muddled start stop prog : dispatches c b e start stop prog -> muddled (pc_same c) start stop prog -> barren c g e a b.

(** ** Runs that end well *)

(** addr2line answers for the image, address by address; what it does without an address is left open. *)
Definition debug_lines (c : computer) (h : list action) (p : path) (ans : Z -> answer) : Prop :=
  (forall v, answer_ok (ans v)) /\
  forall addrs, addrs <> [] ->
    prints c h (Argv ($"addr2line" :: $"-e" :: str_of_path p :: map hex addrs)) None (unlines (map (fun v => answer_text (ans v)) addrs)).
(** The lines that a search of the sources gives: those of ripgrep if there is one, else those of the
    files, which are where their names say. *)
Inductive searches (c : computer) (h : list action) (a : arch) (kdir : path) (out : list str) : Prop :=
| se_ripgrep : pc_which c h $"rg" = true -> prints c h (Argv (rg_argv a)) (Some kdir) (unlines out) ->
    Forall row out -> Forall (honest_line (file_at c h) kdir) out -> searches c h a kdir out
| se_own entries archs : pc_which c h $"rg" = false -> pc_look c h kdir = Some (NDir entries) ->
    tree_ok (NDir entries) -> tidy (NDir entries) -> In ($"arch", NDir archs) entries ->
    (forall rel content, S_Search.file_at (NDir entries) rel content -> file_at c h (path_join kdir (Path [] rel)) = Some content) ->
    (forall line, In line out <-> exists rel n text s, source_line (NDir entries) (a_class a) rel n text /\ candidate a text /\
       stripped text s /\ line = S_Search.report rel n s) -> searches c h a kdir out.
(** The sources belong to the image. *)
Inductive sources_fit (c : computer) (h : list action) (b : arch) (e : elf) (p kdir : path) (rdir : option path) : Prop :=
| sources_ ans dir out : parent_of p dir -> debug_lines c h p ans -> searches c h b kdir out ->
    answers_fit (file_at c h) ans dir kdir rdir -> definitions_fine (file_at c h) ans dir kdir rdir out b (e_big e) ->
    (forall s, In s (map snd (e_symbols e)) -> steady_symbol (file_at c h) ans dir kdir rdir s /\ ~ no_inner s) ->
    sources_fit c h b e p kdir rdir.
(** The image is complete: a table (or a dispatcher) of functions that have symbols, one of them
    implemented; the names found in it are words, and there are some if there is a ni_syscall. *)
Inductive image_fine (c : computer) (b : arch) (e : elf) (v : version) : Prop :=
| image_table name us : a_table b = Some name -> table_of b e name us -> sound_input b e us ->
    (exists u, In u us /\ has_symbol e u /\ ~ not_implemented e u) ->
    (forall u, In u us -> has_symbol e u \/ not_implemented e u) -> metadata_fine e ->
    (forall found, M_Kernel.candidates (pc_ni_order c) b e v (enum_from 0 us) = Ok found ->
       Forall fit_names found /\ (found = [] -> forall u, ~ not_implemented e u)) ->
    image_fine c b e v
| image_code start stop prog : dispatches c b e start stop prog ->
    (forall us, (forall u, In u us -> exists n, leads_to start stop prog n u) -> sound_input b e us) ->
    (exists n u, leads_to start stop prog n u /\ has_symbol e u /\ ~ not_implemented e u) ->
    (forall n u, leads_to start stop prog n u -> has_symbol e u \/ not_implemented e u) -> metadata_fine e ->
    (forall vs found, NoDup (map fst vs) -> (forall n u, In (n, u) vs <-> leads_to start stop prog n u) -> M_Kernel.candidates (pc_ni_order c) b e v vs = Ok found ->
       Forall fit_names found /\ (found = [] -> forall u, ~ not_implemented e u)) ->
    image_fine c b e v.
Inductive remap_of (g : args) : option path -> Prop :=
| rm_none : ~ present (g_remap g) -> remap_of g None
| rm_given s : g_remap g = Some s -> s <> [] -> remap_of g (Some (path_of_str s)).
(** What the program needs from the computer, whatever was said so far. *)
Inductive prepared (c : computer) (g : args) (p : path) (e : elf) (b : arch) (h : list action) : Prop :=
| prepared_sources kdir rdir : pc_which c h $"readelf" = true -> image_read c h p e -> kdir_of g kdir -> remap_of g rdir ->
    sources_fit c h b e p kdir rdir -> prepared c g p e b h
| prepared_image ans : pc_which c h $"readelf" = true -> image_read c h p e -> ~ present (g_kdir g) ->
    debug_lines c h p ans -> prepared c g p e b h.
