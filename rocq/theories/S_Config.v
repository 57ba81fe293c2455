(** Specifications for configuring a kernel (C61-C64, C76-C78), stated without the functions of
    the model: options as text, lines of a file, dependencies, commands. *)
From Coq Require Import List Bool Ascii String ZArith.
From Verif Require Import PyBase M_Utils M_Config S_Utils.
Import ListNotations.
Open Scope Z_scope.
Open Scope list_scope.

(** The option [o] asks for the value [val] of [name]: the first '=' separates them. *)
Definition asks (o name val : str) : Prop := o = name ++ "="%char :: val /\ ~ In "="%char name.

(** How an option is written for scripts/config. *)
Inductive written : str -> list str -> Prop :=
| wr_y o name : asks o name $"y" -> written o [$"-e"; name]
| wr_n o name : asks o name $"n" -> written o [$"-d"; name]
| wr_m o name : asks o name $"m" -> written o [$"-m"; name]
| wr_val o name val : asks o name val -> val <> $"y" -> val <> $"n" -> val <> $"m" ->
    written o [$"--set-val"; name; val].

(** A run of scripts/config in [kdir] on [file], which receives nothing on its input. *)
Definition script (kdir file : path) (args : list str) : command :=
  Command ($"./scripts/config" :: $"--file" :: str_of_path file :: args) kdir None.

(** The command that applies [options]. *)
Definition applies (kdir file : path) (options : list str) (c : command) : Prop :=
  exists argss, Forall2 written options argss /\ c = script kdir file (List.concat argss).

(** How a command that must succeed ends. *)
Definition must_succeed {A} (r : option (Z * str)) (x : A) (res : outcome A) : Prop :=
  match r with
  | None => res = Exit 127
  | Some (rc, _) => (rc = 0 /\ res = Ok x) \/ (rc <> 0 /\ res = Exit 1)
  end.

(** ** Lines of a text file (C63) *)

(** The lines of a file, whichever way they are terminated. *)
Inductive text_lines : str -> list str -> Prop :=
| tl_nil : text_lines [] []
| tl_last l : l <> [] -> ~ In NL l -> ~ In CR l -> text_lines l [l]
| tl_nl l t ls : ~ In NL l -> ~ In CR l -> text_lines t ls -> text_lines (l ++ NL :: t) (l :: ls)
| tl_crnl l t ls : ~ In NL l -> ~ In CR l -> text_lines t ls -> text_lines (l ++ CR :: NL :: t) (l :: ls)
| tl_cr l t ls : ~ In NL l -> ~ In CR l -> hd_error t <> Some NL -> text_lines t ls ->
    text_lines (l ++ CR :: t) (l :: ls).

Definition blank (s : str) : Prop := Forall (fun c => is_space c = true) s.
(** [s] does not end with white space *)
Definition tight_end (s : str) : Prop := forall t c, s = t ++ [c] -> is_space c = false.

(** A line that says nothing. *)
Inductive ignored : str -> Prop :=
| ig_blank l : blank l -> ignored l
| ig_comment b t : blank b -> ignored (b ++ "#"%char :: t).
(** A line that sets [name]. *)
Inductive line_sets : str -> str -> str -> Prop :=
| ls_sets b name val b' : blank b -> blank b' -> ~ In "="%char name -> tight_end val ->
    line_sets (b ++ $"CONFIG_" ++ name ++ "="%char :: val ++ b') name val.

(** The last line about [name] sets it to [val]. *)
Definition file_sets (ls : list str) (name val : str) : Prop :=
  exists l1 l l2, ls = l1 ++ l :: l2 /\ line_sets l name val /\
    forall l' val', In l' l2 -> ~ line_sets l' name val'.

(** A line without '=', and one with '=' that is not about a CONFIG_ option. *)
Definition line_unsplit (l : str) : Prop := ~ ignored l /\ ~ In "="%char l.
Definition line_foreign (l : str) : Prop :=
  ~ ignored l /\ In "="%char l /\ forall name val, ~ line_sets l name val.

(** ** Dependencies (C62) *)

(** Last request for [name] among the options. *)
Definition requests (options : list str) (name val : str) : Prop :=
  exists l1 o l2, options = l1 ++ o :: l2 /\ asks o name val /\
    forall o' val', In o' l2 -> ~ asks o' name val'.

(** What scripts/config -s says about an option: [s], blanks around it ignored. *)
Definition default_value (s : str) (r : option str) : Prop :=
  exists b x b', s = b ++ x ++ b' /\ blank b /\ blank b' /\
    (forall c t, x = c :: t -> is_space c = false) /\ tight_end x /\
    ((x = $"undef" /\ r = None) \/ (x <> $"undef" /\ r = Some x)).

(** The value a dependency will have: requested (not empty), else in the file, else the default. *)
Inductive effective (options ls : list str) (answer : str -> str) (name : str) : option str -> Prop :=
| ef_requested val : requests options name val -> val <> [] ->
    effective options ls answer name (Some val)
| ef_file val : (forall val', requests options name val' -> val' = []) -> file_sets ls name val ->
    effective options ls answer name (Some val)
| ef_default r : (forall val', requests options name val' -> val' = []) ->
    (forall val', ~ file_sets ls name val') -> default_value (answer name) r ->
    effective options ls answer name r.

(** A dependency on the architecture that is just not there *)
Definition unsupported (name wanted : str) (actual : option str) : Prop :=
  wanted = $"y" /\ (actual = Some $"n" \/ actual = None) /\
  exists rest, name = $"HAVE_" ++ rest \/ name = $"ARCH_HAS_" ++ rest.
Definition as_wanted (wanted : str) (actual : option str) : Prop :=
  actual = Some wanted \/ (wanted = $"n" /\ actual = None).

(** [opt] depends on [name] being [wanted]. *)
Definition depends (options : list (str * list str)) (opt name wanted : str) : Prop :=
  exists deps dep, In (opt, deps) options /\ In dep deps /\ asks dep name wanted.

Definition is_query (kdir file : path) (c : command) : Prop :=
  exists name, c = script kdir file [$"-s"; name].

(** ** Tables (C77) *)

(** Two lists of options ask for different values of the same name. *)
Definition contradict (l m : list str) : Prop :=
  exists o o' name val val', In o l /\ In o' m /\ asks o name val /\ asks o' name val' /\ val <> val'.
Definition well_formed (o : str) : Prop := exists name val, asks o name val /\ name <> [] /\ val <> [].

(** ** Where the configuration is (C76)

    Paths as the operating system resolves them: relative to the directory of the process. *)
Definition seen_from (dir p : path) : path := path_join dir p.
Definition absolute (p : path) : Prop := root p <> [].
Definition no_dotdot (p : path) : Prop := ~ In $".." (parts p).
(** The file in which make, run in the source directory, keeps the configuration: in the
    directory given as O= (relative to the source directory), else in the source directory. *)
Definition used_by_make (k : kern) : path :=
  let kdir := seen_from (k_cwd k) (k_kdir k) in
  seen_from (match k_outdir k with Some o => seen_from kdir o | None => kdir end) (Path [] [$".config"]).
(** The file that a command on [file], run in [dir], works on. *)
Definition worked_on (k : kern) (dir file : path) : path := seen_from (seen_from (k_cwd k) dir) file.
(** The file that systrack itself sees as [file]. *)
Definition seen_by_systrack (k : kern) (file : path) : path := seen_from (k_cwd k) file.

(** ** The kconfig of a syscall (C64)

    [o] is the option for [name] in version [v]: of the architecture's table if there is one, else
    of the general table. *)
Definition option_for (arch_table table : list (addition str str)) (v : list Z) (name o : str) : Prop :=
  applicable_value arch_table v name o \/
  ((forall o', ~ applicable_value arch_table v name o') /\ applicable_value table v name o).
(** ... for a syscall: its name comes before its original name. *)
Inductive kconfig_for (arch_table table : list (addition str str)) (v : list Z) (name origname : str)
  : option str -> Prop :=
| kf_name o : option_for arch_table table v name o ->
    kconfig_for arch_table table v name origname (Some ($"CONFIG_" ++ o))
| kf_orig o : (forall o', ~ option_for arch_table table v name o') -> option_for arch_table table v origname o ->
    kconfig_for arch_table table v name origname (Some ($"CONFIG_" ++ o))
| kf_none : (forall o', ~ option_for arch_table table v name o') ->
    (forall o', ~ option_for arch_table table v origname o') ->
    kconfig_for arch_table table v name origname None.

(** ** Commands of configure() (C78) *)

(** A run of make for [target], in the source directory, which is given [stdin]. *)
Definition runs_make (k : kern) (target : str) (stdin : option str) (e : event) : Prop :=
  exists c args, e = Ran c /\ c_argv c = $"make" :: args ++ [target] /\ c_cwd c = k_kdir k /\ c_stdin c = stdin /\
    In ($"ARCH=" ++ class_name (M_Arch.a_class (k_arch k))) args /\
    (k_cross k <> [] -> In ($"CROSS_COMPILE=" ++ k_cross k) args) /\
    (forall o, k_outdir k = Some o -> In ($"O=" ++ str_of_path o) args) /\
    exists n, 1 <= n /\ In ($"-j" ++ str_of_int n) args.

(** The events of applying [options]: nothing if there are none. *)
Definition applying (k : kern) (file : path) (options : list str) (l : list event) : Prop :=
  (options = [] /\ l = []) \/ (options <> [] /\ exists c, l = [Ran c] /\ applies (k_kdir k) file options c).
(** ... after checking dependencies: reports and queries first. *)
Definition checking (k : kern) (file : path) (options : list str) (l : list event) : Prop :=
  exists mid l', l = mid ++ l' /\ applying k file options l' /\
    forall c, In (Ran c) mid -> is_query (k_kdir k) file c.
