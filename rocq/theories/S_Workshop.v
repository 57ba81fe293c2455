(** Specification for preparing sources (C108): what is to be done, in which order, and with which
    commands. *)
From Coq Require Import List Bool Ascii String ZArith.
From Verif Require Import PyBase M_Utils M_Arch M_Kernel M_Kconfig M_Config M_Command M_Search M_Main M_Program M_Workshop
  S_Utils S_Output S_Arch S_Config S_Main.
From Verif Require S_Build.
Import ListNotations.
Open Scope Z_scope.
Open Scope list_scope.

(** ** Commands *)

(** A command that is started (its directory and its program are there) and ends with status 0 *)
Definition went_well (w : workshop) (D : list doing) (c : M_Config.command) : Prop :=
  (exists l, ws_look w D (c_cwd c) = Some (NDir l)) /\
  (exists p args, c_argv c = p :: args /\ ws_found w D (Some (c_cwd c)) p = true) /\
  exists out err, ws_run w D (Argv (c_argv c)) (Some (c_cwd c)) = (0, out, err).
(** What make says about the version of the sources in [k] *)
Definition told (w : workshop) (D : list doing) (k : path) (v : version) : Prop :=
  exists out err, ws_run w D (Shell $"make kernelversion") (Some k) = (0, out, err) /\ version_from_str out = Some v.

(** The arguments of make, in any order: all processors but one, the architecture, sources relative to
    their directory in debug information, toolchain and output directory if given. *)
Inductive make_arg (w : workshop) (g : args) (k : path) (a : arch) : str -> Prop :=
| ma_jobs n : (1 < ws_ncpu w -> n = ws_ncpu w - 1) -> (ws_ncpu w <= 1 -> n = 1) -> make_arg w g k a ($"-j" ++ str_of_int n)
| ma_arch : make_arg w g k a ($"ARCH=" ++ class_name (a_class a))
| ma_map : make_arg w g k a ($"KCFLAGS='-fdebug-prefix-map=" ++ str_of_path (seen_from (ws_cwd w) k) ++ $"=.'")
| ma_cross c : g_cross g = Some c -> c <> [] -> make_arg w g k a ($"CROSS_COMPILE=" ++ c)
| ma_out o : g_out g = Some o -> o <> [] -> make_arg w g k a ($"O=" ++ str_of_path (path_of_str o)).
Definition makes (w : workshop) (g : args) (k : path) (a : arch) (target : str) (c : M_Config.command) : Prop :=
  c_cwd c = k /\ c_stdin c = None /\
  exists l, c_argv c = $"make" :: l ++ [target] /\ NoDup l /\ forall x, In x l <-> make_arg w g k a x.

(** ** The steps *)

(** The configuration file *)
Inductive dotconfig (g : args) (k : path) : path -> Prop :=
| dc_out o : g_out g = Some o -> o <> [] -> dotconfig g k (seen_from (path_of_str o) (Path [] [$".config"]))
| dc_in : ~ present (g_out g) -> dotconfig g k (seen_from k (Path [] [$".config"])).
Definition makefile (k : path) : path := seen_from k (Path [] [$"Makefile"]).
Definition cleaned (w : workshop) (g : args) (k : path) (a : arch) (L : list doing) : Prop :=
  exists c, L = [Prep (Ran c)] /\ makes w g k a $"distclean" c.
(** Options applied with one command, if there are any *)
Definition applied (k f : path) (options : list str) (l : list event) : Prop :=
  (options = [] /\ l = []) \/ (options <> [] /\ exists c, l = [Ran c] /\ applies k f options c).
(** ... after reports on their dependencies and queries *)
Definition examined (k f : path) (options : list str) (l : list event) : Prop :=
  exists mid l', l = mid ++ l' /\ applied k f options l' /\ forall c, In (Ran c) mid -> is_query k f c.
Definition synced (w : workshop) (g : args) (k : path) (a : arch) (v : version) (e : event) : Prop :=
  exists c, e = Ran c /\ ((since [3;7] v /\ makes w g k a $"olddefconfig" c) \/ (before [3;7] v /\ makes w g k a $"oldconfig" c)).
(** First the base targets, then the options for the version [v] in four rounds.  The version is asked
    for after the base targets. *)
Definition configured (w : workshop) (g : args) (k : path) (a : arch) (v : version) (D L : list doing) : Prop :=
  exists f base dbg s1 compat s2 more s3 own s4 opts,
    dotconfig g k f /\ fresh_kconfig a v = Some opts /\ told w (D ++ map Prep base) k v /\
    L = map Prep (base ++ dbg ++ [s1] ++ compat ++ [s2] ++ more ++ [s3] ++ own ++ [s4]) /\
    Forall2 (fun t e => exists c, e = Ran c /\ makes w g k a t c) (a_targets a) base /\
    applied k f (kconfig_debugging v) dbg /\ applied k f (kconfig_compatibility v) compat /\
    examined k f (dkeys (kconfig_more_syscalls v)) more /\ examined k f (dkeys opts) own /\
    Forall (synced w g k a v) [s1; s2; s3; s4].
(** A file read as text: whatever ends a line becomes NL. *)
Inductive reads : str -> str -> Prop :=
| re_nil : reads [] []
| re_char c s t : c <> CR -> reads s t -> reads (c :: s) (c :: t)
| re_crnl s t : reads s t -> reads (CR :: NL :: s) (NL :: t)
| re_cr s t : (forall s', s <> NL :: s') -> reads s t -> reads (CR :: s) (NL :: t).
Definition has_text (w : workshop) (D : list doing) (p : path) (t : str) : Prop :=
  exists s, content_of (ws_look w D p) = Some s /\ reads s t.
(** Building, with and without the level of optimisation lowered: at most three runs of make, the last
    one and no other successful; around the runs with another level the Makefile is changed and restored. *)
Definition trial (k : path) (mk p : str) (c : M_Config.command) : list doing :=
  [Wrote (makefile k) p; Prep (Ran c); Wrote (makefile k) []; Wrote (makefile k) mk].
Inductive built (w : workshop) (g : args) (k : path) (a : arch) (D : list doing) : list doing -> Prop :=
| bu_plain c : g_disable_opt g = false -> makes w g k a $"vmlinux" c -> went_well w D c -> built w g k a D [Prep (Ran c)]
| bu_none mk c : g_disable_opt g = true -> has_text w D (makefile k) mk -> ~ S_Build.has_flag mk ->
    makes w g k a $"vmlinux" c -> went_well w D c -> built w g k a D [Prep (Ran c)]
| bu_first mk p0 c : g_disable_opt g = true -> has_text w D (makefile k) mk -> S_Build.patched mk 0 p0 ->
    makes w g k a $"vmlinux" c -> went_well w (D ++ [Wrote (makefile k) p0]) c -> built w g k a D (trial k mk p0 c)
| bu_second mk p0 p1 c : g_disable_opt g = true -> has_text w D (makefile k) mk -> S_Build.patched mk 0 p0 -> S_Build.patched mk 1 p1 ->
    makes w g k a $"vmlinux" c -> ~ went_well w (D ++ [Wrote (makefile k) p0]) c ->
    went_well w (D ++ trial k mk p0 c ++ [Wrote (makefile k) p1]) c -> built w g k a D (trial k mk p0 c ++ trial k mk p1 c)
| bu_third mk p0 p1 c : g_disable_opt g = true -> has_text w D (makefile k) mk -> S_Build.patched mk 0 p0 -> S_Build.patched mk 1 p1 ->
    makes w g k a $"vmlinux" c -> ~ went_well w (D ++ [Wrote (makefile k) p0]) c ->
    ~ went_well w (D ++ trial k mk p0 c ++ [Wrote (makefile k) p1]) c ->
    went_well w (D ++ trial k mk p0 c ++ trial k mk p1 c) c ->
    built w g k a D (trial k mk p0 c ++ trial k mk p1 c ++ [Prep (Ran c)]).

(** ** All that is done *)

Definition messages (D : list doing) : Prop := Forall (fun x => exists s, x = Main (Said s)) D.
(** Without messages *)
Inductive quiet : list doing -> list doing -> Prop :=
| qu_nil : quiet [] []
| qu_said s D L : quiet D L -> quiet (Main (Said s) :: D) L
| qu_done x D L : (forall s, x <> Main (Said s)) -> quiet D L -> quiet (x :: D) (x :: L).
(** Before cleaning: git checkout, and the output directory *)
Definition start (g : args) (k : path) (D : list doing) : Prop :=
  exists co out, quiet D (co ++ out) /\
    ((exists ref, g_checkout g = Some ref /\ ref <> [] /\ ref <> $"auto" /\ co = [Main (CheckedOut (Some k) ref)]) \/
     ((~ present (g_checkout g) \/ g_checkout g = Some $"auto") /\ co = [])) /\
    ((exists o, g_out g = Some o /\ o <> [] /\ out = [Main (MadeDir (path_of_str o))]) \/ (~ present (g_out g) /\ out = [])).
(** The architecture that was named *)
Definition chosen (g : args) (a : arch) : Prop := exists n d, g_arch g = Some n /\ named n d /\
  a_class a = d_class d /\ a_abi a = d_abi d /\ a_bits32 a = d_kernel32 d /\ since (d_since d) (a_version a).
(** The version [v] that make tells after the base targets are made is the one that counts for options; the
    version of [a] is what it told in the beginning. *)
Inductive prepared (w : workshop) (g : args) (k : path) (a : arch) (v : version) : list doing -> Prop :=
| pr_clean S M C M' : g_build g = false -> g_config g = false -> v = a_version a ->
    start g k S -> told w S k (a_version a) -> messages M -> cleaned w g k a C -> messages M' ->
    prepared w g k a v (S ++ M ++ C ++ M')
| pr_config S M C M' F M'' : g_build g = false -> g_config g = true ->
    start g k S -> told w S k (a_version a) -> messages M -> cleaned w g k a C -> messages M' ->
    configured w g k a v (S ++ M ++ C ++ M') F -> messages M'' ->
    prepared w g k a v (S ++ M ++ C ++ M' ++ F ++ M'')
| pr_build S M C M' F M'' B M3 : g_build g = true ->
    start g k S -> told w S k (a_version a) -> messages M -> cleaned w g k a C -> messages M' ->
    configured w g k a v (S ++ M ++ C ++ M') F -> messages M'' ->
    built w g k a (S ++ M ++ C ++ M' ++ F ++ M'') B -> messages M3 ->
    prepared w g k a v (S ++ M ++ C ++ M' ++ F ++ M'' ++ B ++ M3).

(** A run of make that may fail, because something follows *)
Definition attempt (g : args) (c : M_Config.command) (rest : list doing) : Prop :=
  g_build g = true /\ g_disable_opt g = true /\ (exists l, c_argv c = l ++ [$"vmlinux"]) /\ rest <> [].
(** All that may be done *)
Inductive proper (w : workshop) (g : args) (k : path) : doing -> Prop :=
| po_said s : proper w g k (Main (Said s))
| po_checkout ref : g_checkout g = Some ref -> proper w g k (Main (CheckedOut (Some k) ref))
| po_mkdir o : g_out g = Some o -> o <> [] -> proper w g k (Main (MadeDir (path_of_str o)))
| po_distclean a c : chosen g a -> makes w g k a $"distclean" c -> proper w g k (Prep (Ran c))
| po_target a t c : g_config g = true \/ g_build g = true -> chosen g a ->
    In t (a_targets a) \/ t = $"olddefconfig" \/ t = $"oldconfig" -> makes w g k a t c -> proper w g k (Prep (Ran c))
| po_script f options : g_config g = true \/ g_build g = true -> dotconfig g k f -> proper w g k (Prep (Ran (script k f options)))
| po_report e : (forall c, e <> Ran c) -> proper w g k (Prep e)
| po_vmlinux a c : g_build g = true -> chosen g a -> makes w g k a $"vmlinux" c -> proper w g k (Prep (Ran c))
| po_makefile t : g_build g = true -> g_disable_opt g = true -> proper w g k (Wrote (makefile k) t).

(** ** Files *)

(** Only writing and git change the Makefile; what is written is there. *)
Record lasting (w : workshop) (k : path) : Prop := {
  la_wrote D t : content_of (ws_look w (D ++ [Wrote (makefile k) t]) (makefile k)) = Some t;
  la_kept D x : (forall p t, x <> Wrote p t) -> (forall d r, x <> Main (CheckedOut d r)) ->
    content_of (ws_look w (D ++ [x]) (makefile k)) = content_of (ws_look w D (makefile k))
}.
(** The version is in the Makefile. *)
Definition version_there (w : workshop) (k : path) : Prop := forall D D' v v',
  content_of (ws_look w D (makefile k)) = content_of (ws_look w D' (makefile k)) -> told w D k v -> told w D' k v' -> v = v'.
(** The Makefile afterwards: as it was, or, if it had the flag and another level was to be tried, with
    other ends of lines at most *)
Definition restored (g : args) (before after : option bytes) : Prop :=
  after = before \/
  exists s t, before = Some s /\ after = Some t /\ reads s t /\ S_Build.has_flag t /\ g_build g = true /\ g_disable_opt g = true.

(** ** A computer on which nothing fails

    The sources stay where they are and are recent enough, commands run there succeed, there is a compiler,
    the output directory can be made, the configuration can be read, and so can the Makefile if it is to be
    changed. *)
Record willing (w : workshop) (g : args) (k : path) (d : doc_arch) : Prop := {
  wi_dir D : exists l, ws_look w D k = Some (NDir l);
  wi_found D p : ws_found w D (Some k) p = true;
  wi_run D argv : exists out err, ws_run w D (Argv argv) (Some k) = (0, out, err);
  wi_version D : exists v, told w D k v /\ since (d_since d) v;
  wi_gcc D gcc : gcc = match g_cross g with Some c => c | None => [] end ++ $"gcc" ->
    ws_which w D gcc = true /\ ws_found w D None gcc = true /\
    exists out err, ws_run w D (Argv [gcc; $"--version"]) None = (0, out, err) /\ out <> [];
  wi_out D o : g_out g = Some o -> o <> [] ->
    (ws_look w D (path_of_str o) = None \/ exists l, ws_look w D (path_of_str o) = Some (NDir l)) /\ ws_mkdir w D (path_of_str o) = true;
  wi_config D f : dotconfig g k f -> exists s ls, content_of (ws_look w D f) = Some s /\ text_lines s ls /\
    Forall (fun l => ignored l \/ exists n v, line_sets l n v) ls;
  wi_makefile D : g_disable_opt g = true -> content_of (ws_look w D (makefile k)) <> None
}.
