(** Specification of the command line (C100): how options are written and what they mean. *)
From Coq Require Import List Bool Ascii String ZArith.
From Verif Require Import PyBase M_Main M_Args S_Elf S_Signature.
Import ListNotations.
Open Scope Z_scope.
Open Scope list_scope.

(** ** The options *)

(** Letter (if there is one), name, and whether a value follows *)
Definition option_list : list (opt * option ascii * string * bool) :=
  [(OAbsolute, None, "absolute-paths"%string, false);
   (OArch, Some "a"%char, "arch"%string, true);
   (OBuild, Some "b"%char, "build"%string, false);
   (OCheckout, None, "checkout"%string, true);
   (OClean, Some "C"%char, "clean"%string, false);
   (OConfig, Some "c"%char, "config"%string, false);
   (OCross, Some "x"%char, "cross"%string, true);
   (ODisableOpt, None, "disable-opt"%string, false);
   (OFormat, Some "f"%char, "format"%string, true);
   (OHelp, Some "h"%char, "help"%string, false);
   (OKdir, Some "k"%char, "kdir"%string, true);
   (OOut, Some "o"%char, "out"%string, true);
   (OQuiet, Some "q"%char, "quiet"%string, false);
   (ORemap, None, "remap"%string, true);
   (OVerbose, Some "v"%char, "verbose"%string, false);
   (OVersion, Some "V"%char, "version"%string, false)].
Definition letter (o : opt) (c : ascii) : Prop := exists n b, In (o, Some c, n, b) option_list.
Definition named (o : opt) (n : str) : Prop := exists c s b, In (o, c, s, b) option_list /\ n = $s.
Definition valued (o : opt) : Prop := exists c n, In (o, c, n, true) option_list.
Definition flag (o : opt) : Prop := exists c n, In (o, c, n, false) option_list.

(** ** Words *)

Definition no_equals (p : str) : Prop := ~ In "="%char p.
(** A name of which [p] is the beginning *)
Definition begins (p : str) (o : opt) : Prop := exists r, named o (p ++ r).
(** The name, or the beginning of no other one *)
Definition abbreviates (p : str) (o : opt) : Prop :=
  no_equals p /\ (named o p \/ begins p o /\ forall o', begins p o' -> o' = o).
(** The beginning of the names of several options *)
Definition several (p : str) : Prop := (forall o, ~ named o p) /\ exists o o', begins p o /\ begins p o' /\ o <> o'.
Definition ambiguous (w : str) : Prop :=
  exists p t, w = $"--" ++ p ++ t /\ no_equals p /\ (t = [] /\ p <> [] \/ exists v, t = $"=" ++ v) /\ several p.

(** A negative number, also with a newline after it *)
Definition number (w : str) : Prop :=
  exists a b n, w = $"-" ++ a ++ b ++ n /\ (n = [] \/ n = [NL]) /\ forallb is_dec a = true /\
    (a <> [] /\ b = [] \/ exists d, b = $"." ++ d /\ some_of is_dec d).
Definition spaced (w : str) : Prop := In " "%char w.
(** Nothing an option begins with: "-" and another character, or "--" and the beginning of a name *)
Definition strange (w : str) : Prop :=
  (exists c t, w = $"-" ++ c :: t /\ c <> "-"%char /\ forall o, ~ letter o c) \/
  (exists p t, w = $"--" ++ p ++ t /\ no_equals p /\ (t = [] /\ p <> [] \/ exists v, t = $"=" ++ v) /\ forall o, ~ begins p o).
(** Words that are no options *)
Inductive argument : str -> Prop :=
| arg_empty : argument []
| arg_plain c t : c <> "-"%char -> argument (c :: t)
| arg_dash : argument $"-"
| arg_odd w : strange w -> number w \/ spaced w -> argument w.
(** Words that look like options, but are not *)
Definition unknown (w : str) : Prop := strange w /\ ~ number w /\ ~ spaced w.

(** ** Options as they are written *)

Inductive event := Switch (o : opt) | Set_ (o : opt) (v : str).
(** Flags of one letter each *)
Definition cluster (cs : str) (os : list opt) : Prop := Forall2 (fun c o => letter o c /\ flag o) cs os.
(** The value of a letter in the same word *)
Definition attached (t v : str) : Prop := t = $"=" ++ v \/ t = v /\ v <> [] /\ forall x, v <> $"=" ++ x.
Inductive spells : list str -> list event -> Prop :=
| sp_flags cs os : cs <> [] -> cluster cs os -> spells [$"-" ++ cs] (map Switch os)
| sp_attached cs os c o t v : cluster cs os -> letter o c -> valued o -> attached t v ->
    spells [$"-" ++ cs ++ c :: t] (map Switch os ++ [Set_ o v])
| sp_next cs os c o v : cluster cs os -> letter o c -> valued o -> argument v ->
    spells [$"-" ++ cs ++ [c]; v] (map Switch os ++ [Set_ o v])
| sp_name p o : abbreviates p o -> flag o -> spells [$"--" ++ p] [Switch o]
| sp_name_equals p o v : abbreviates p o -> valued o -> spells [$"--" ++ p ++ $"=" ++ v] [Set_ o v]
| sp_name_next p o v : abbreviates p o -> valued o -> argument v -> spells [$"--" ++ p; v] [Set_ o v].
Inductive options : list str -> list event -> Prop :=
| ops_nil : options [] []
| ops_cons ws evs ws' evs' : spells ws evs -> options ws' evs' -> options (ws ++ ws') (evs ++ evs').

(** ** Command lines *)

(** Options and at most one other word.  "--" may come before or after it at the end, but only if
    no option follows the word. *)
Inductive line : list str -> list event -> option str -> Prop :=
| line_options ws evs : options ws evs -> line ws evs None
| line_word ws evs w ws' evs' : options ws evs -> argument w -> options ws' evs' -> line (ws ++ w :: ws') (evs ++ evs') (Some w)
| line_dashes ws evs : options ws evs -> line (ws ++ [$"--"]) evs None
| line_dashes_word ws evs w : options ws evs -> line (ws ++ [$"--"; w]) evs (Some w)
| line_word_dashes ws evs w : options ws evs -> argument w -> line (ws ++ [w; $"--"]) evs (Some w).

(** What the options mean: the last value counts. *)
Definition last_value (o : opt) (evs : list event) (r : option str) : Prop :=
  match r with
  | Some v => exists a b, evs = a ++ Set_ o v :: b /\ forall x, ~ In (Set_ o x) b
  | None => forall x, ~ In (Set_ o x) evs
  end.
Definition switched (o : opt) (evs : list event) (b : bool) : Prop := b = true <-> In (Switch o) evs.
Inductive times (o : opt) : list event -> Z -> Prop :=
| times_nil : times o [] 0
| times_same evs n : times o evs n -> times o (Switch o :: evs) (n + 1)
| times_other x evs n : times o evs n -> x <> Switch o -> times o (x :: evs) n.
(** Neither help nor version, and formats there are *)
Definition harmless (evs : list event) : Prop :=
  ~ In (Switch OHelp) evs /\ ~ In (Switch OVersion) evs /\
  forall v, In (Set_ OFormat v) evs -> v = $"text" \/ v = $"json" \/ v = $"html".
Record means (evs : list event) (w : option str) (g : args) : Prop := {
  mn_vmlinux : g_vmlinux g = w;
  mn_kdir : last_value OKdir evs (g_kdir g);
  mn_arch : last_value OArch evs (g_arch g);
  mn_build : switched OBuild evs (g_build g);
  mn_config : switched OConfig evs (g_config g);
  mn_clean : switched OClean evs (g_clean g);
  mn_cross : last_value OCross evs (g_cross g);
  mn_out : last_value OOut evs (g_out g);
  mn_format : last_value OFormat evs (Some (g_format g)) \/ last_value OFormat evs None /\ g_format g = $"text";
  mn_absolute : switched OAbsolute evs (g_absolute g);
  mn_remap : last_value ORemap evs (g_remap g);
  mn_checkout : last_value OCheckout evs (g_checkout g);
  mn_disable_opt : switched ODisableOpt evs (g_disable_opt g);
  mn_quiet : times OQuiet evs (g_quiet g);
  mn_verbose : times OVerbose evs (g_verbose g)
}.
Definition asks (argv : list str) (g : args) : Prop :=
  exists evs w, line argv evs w /\ harmless evs /\ means evs w g.

(** ** Help and version *)

(** They are shown as soon as the option is reached, whatever follows, if what comes before has no
    option with a wrong value; words too many and unknown options do not matter. *)
Inductive loose_word : list str -> list event -> Prop :=
| lw_spells ws evs : spells ws evs -> loose_word ws evs
| lw_partly cs os c t : cs <> [] -> cluster cs os -> (forall o, ~ letter o c) -> c <> "="%char -> c <> "-"%char ->
    loose_word [$"-" ++ cs ++ c :: t] (map Switch os)
| lw_unknown w : unknown w -> loose_word [w] []
| lw_argument w : argument w -> loose_word [w] [].
Inductive loose : list str -> list event -> Prop :=
| ls_nil : loose [] []
| ls_cons ws evs ws' evs' : loose_word ws evs -> loose ws' evs' -> loose (ws ++ ws') (evs ++ evs').
(** No ambiguous word, at least up to "--" *)
Inductive clear : list str -> Prop :=
| clear_nil : clear []
| clear_dashes ws : clear ($"--" :: ws)
| clear_cons w ws : ~ ambiguous w -> clear ws -> clear (w :: ws).
Definition shows (o : opt) (argv : list str) : Prop :=
  clear argv /\ exists ws rest evs evs', argv = ws ++ rest /\ loose ws (evs ++ Switch o :: evs') /\ harmless evs.
