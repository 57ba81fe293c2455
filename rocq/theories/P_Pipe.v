(** Property C117 (bytes from programs, the banner, the configuration and the Makefile that are no text). *)
From Coq Require Import List Bool Ascii String ZArith Lia.
From Verif Require Import PyBase PyFacts M_Utils M_Kernel M_Build M_Text M_Command M_Pipe S_Text S_Build S_Command S_Pipe L_Text L_Pipe.
From Verif Require M_Config.
Import ListNotations.
Open Scope Z_scope.
Open Scope list_scope.

(** ** What programs print *)

(** A program that prints bytes which are no UTF-8 to a pipe is an exception, whether it succeeds or not;
    the standard error counts even if the output is not wanted. *)
Theorem C117_output_bad : forall w c cwd capture st out err, S_Command.starts w c cwd -> sys_run w c cwd = (st, out, err) ->
  capture = true /\ not_text out \/ not_text err ->
  ensure_bytes w c cwd capture false = Raise UnicodeDecodeError.
Proof. intros w c cwd capture st out err S R. apply (output_bad w c cwd capture false st out err S R); [apply andb_false_r|reflexivity]. Qed.
Print Assumptions C117_output_bad.

(** Otherwise the output is its text with all line ends made LF, and a failure ends the program. *)
Theorem C117_output : forall w c cwd capture console st out err, S_Command.starts w c cwd -> sys_run w c cwd = (st, out, err) ->
  capture && console = false -> ~ (console = false /\ (capture = true /\ not_text out \/ not_text err)) ->
  ensure_bytes w c cwd capture console = Exit 1 /\ st <> 0 \/
  (st = 0 /\ (capture = false /\ ensure_bytes w c cwd capture console = Ok None \/
   capture = true /\ exists u, reads_as out u /\ ensure_bytes w c cwd capture console = Ok (Some u))).
Proof. exact output_good. Qed.
Print Assumptions C117_output.

(** The model of the other theorems is this one where programs print Latin-1 characters as UTF-8. *)
Theorem C117_output_model : forall wb w c cwd capture console, sys_entry wb = sys_entry w -> sys_found wb = sys_found w ->
  (forall st out err, sys_run w c cwd = (st, out, err) ->
     exists bo be, sys_run wb c cwd = (st, bo, be) /\ reads_latin bo out /\ reads_latin be err) ->
  ensure_bytes wb c cwd capture console = (o <- snd (M_Command.ensure_command w c cwd capture console) ;; Ok (option_map (map code) o)).
Proof. exact ensure_model. Qed.
Print Assumptions C117_output_model.

Definition ex_e9 : ascii := ascii_of_N 233.
Definition ex_printer (out err : str) : system := System (fun _ => Dir) (fun _ _ => true) (fun _ _ => (0, out, err)).
Definition ex_utf8 : str := save (map code ($"caf" ++ [ex_e9; CR; NL])).
Lemma ex_no_text p q : (forall z r, scalar z -> map code q <> encode z ++ r) -> q <> [] -> (exists t, written p t) -> not_text (p ++ q).
Proof. intros N Q (t & W). apply (breaks_not_text _ t). exists p, q. auto. Qed.
Lemma ex_ascii p : Forall (fun c => code c < 128) p -> exists t, written p t.
Proof.
  intros F. exists (map code p). split; [apply latin_scalar|]. induction F as [|c p L _ IH]; [reflexivity|].
  cbn [map List.concat]. unfold encode at 1. destruct (Z.ltb_spec (code c) 128); [|lia]. cbn [app]. now rewrite <- IH.
Qed.
Lemma ex_lonely c r : code c = 233 -> (forall d r', r = d :: r' -> code d < 128) -> forall z r', scalar z -> map code (c :: r) <> encode z ++ r'.
Proof.
  intros C R z r' S. cbn [map]. rewrite C. unfold encode, scalar in *.
  destruct (Z.ltb_spec z 128); [intros E; assert (233 = z) as X by (apply (f_equal (fun l => nth 0 l 0)) in E; exact E); lia|].
  destruct (Z.ltb_spec z 2048); [intros E; assert (233 = 192 + z / 64) as X by (apply (f_equal (fun l => nth 0 l 0)) in E; exact E); clear R E; Z.div_mod_to_equations; lia|].
  destruct (Z.ltb_spec z 65536).
  - destruct r as [|d r]; [intros E; cbn in E; discriminate E|]. specialize (R d r eq_refl). intros E; cbn [app map] in E.
    assert (code d = 128 + z / 64 mod 64) as X by (apply (f_equal (fun l => nth 1 l 0)) in E; exact E). clear E. Z.div_mod_to_equations; lia.
  - intros E; cbn [app] in E; assert (233 = 240 + z / 262144) as X by (apply (f_equal (fun l => nth 0 l 0)) in E; exact E). clear E. Z.div_mod_to_equations; lia.
Qed.
Ltac no_text p c r := change (not_text (p ++ c :: r)); apply ex_no_text;
  [apply ex_lonely; [reflexivity | intros ? ? E; vm_compute in E; try discriminate E; injection E as <- _; reflexivity]
  | discriminate | apply ex_ascii; repeat (apply Forall_cons; [reflexivity|]); apply Forall_nil].
Example C117_example_bad : not_text ($"caf" ++ ex_e9 :: [NL]) /\
  ensure_bytes (ex_printer [] ($"caf" ++ ex_e9 :: [NL])) (Argv [$"git"]) None false false = Raise UnicodeDecodeError /\
  ensure_bytes (ex_printer [] ($"caf" ++ ex_e9 :: [NL])) (Argv [$"git"]) None false true = Ok None.
Proof. split; [no_text ($"caf") ex_e9 [NL]|split; reflexivity]. Qed.
Example C117_example_output :
  ensure_bytes (ex_printer ex_utf8 []) (Argv [$"gcc"; $"--version"]) None true false = Ok (Some [99; 97; 102; 233; 10]) /\
  reads_latin ex_utf8 ($"caf" ++ [ex_e9; NL]).
Proof. split; [reflexivity|]. apply read_text_iff. reflexivity. Qed.

(** ** The banner *)

(** A byte that is no text anywhere in the banner is an exception; if it is text, what is behind
    "Linux version " is the version. *)
Theorem C117_banner : forall f b,
  (not_text b -> banner_bytes f b = Raise UnicodeDecodeError) /\
  (forall u, written b (map code $"Linux version " ++ u) -> banner_bytes f b = Ok (f u)) /\
  (forall t, written b t -> (forall u, t <> map code $"Linux version " ++ u) -> banner_bytes f b = Ok None).
Proof.
  intros f b. split; [exact (banner_bad f b)|]. split; [intros u W; now apply (proj1 (banner_good f b _ W))|].
  intros t W. exact (proj2 (banner_good f b t W)).
Qed.
Print Assumptions C117_banner.

Theorem C117_banner_model : forall f b s, (forall s, f (map code s) = version_from_str s) -> written b (map code s) ->
  banner_bytes f b = Ok (version_from_banner s).
Proof. exact banner_model. Qed.
Print Assumptions C117_banner_model.

Definition ex_from (t : text) : option version := version_from_str (map chr t).
Lemma ex_chars s : map chr (map code s) = s.
Proof. rewrite map_map. rewrite <- (map_id s) at 2. apply map_ext. exact chr_code. Qed.
Example C117_example_banner :
  (forall s, ex_from (map code s) = version_from_str s) /\
  banner_bytes ex_from $"Linux version 5.10.4 (me@home)" = Ok (Some [5; 10; 4]) /\
  not_text ($"Linux version 5.10.4 (jos" ++ ex_e9 :: $"@home)") /\
  banner_bytes ex_from ($"Linux version 5.10.4 (jos" ++ ex_e9 :: $"@home)") = Raise UnicodeDecodeError /\
  version_from_banner ($"Linux version 5.10.4 (jos" ++ ex_e9 :: $"@home)") = Some [5; 10; 4].
Proof.
  split; [intros s; unfold ex_from; now rewrite ex_chars|]. split; [reflexivity|].
  split; [no_text ($"Linux version 5.10.4 (jos") ex_e9 ($"@home)")|]. split; reflexivity.
Qed.

(** ** The configuration *)

(** Whatever the lines are, comments included *)
Theorem C117_config : forall parse b,
  (not_text b -> config_bytes parse b = Raise UnicodeDecodeError) /\
  (forall u, reads_as b u -> config_bytes parse b = parse u).
Proof. intros parse b. split; [exact (config_bad parse b)|exact (config_good parse b)]. Qed.
Print Assumptions C117_config.

Definition ex_parse (t : text) : outcome (dict str str) := M_Config.parse_config_text (map chr t).
Example C117_example_config :
  config_bytes ex_parse (save (map code ($"# " ++ ex_e9 :: NL :: $"CONFIG_A=y"))) = Ok [($"A", $"y")] /\
  not_text ($"# " ++ ex_e9 :: NL :: $"CONFIG_A=y").
Proof. split; [reflexivity|no_text ($"# ") ex_e9 (NL :: $"CONFIG_A=y")]. Qed.

(** ** The Makefile *)

(** A Makefile that is no text is an exception before anything is written or built. *)
Theorem C117_makefile_bad : forall set make b, not_text b -> build_bytes set make true b = Built b [] (Raise UnicodeDecodeError).
Proof. exact build_bad. Qed.
Print Assumptions C117_makefile_bad.

(** One that is text, in any characters, is at the end byte for byte what it was if its lines end with LF,
    whatever make does and whatever is put in for the level. *)
Theorem C117_makefile : forall set make o b t, written b t -> t <> [] -> ~ In 13 t -> bd_file (build_bytes set make o b) = b.
Proof. exact build_exact. Qed.
Print Assumptions C117_makefile.

(** With other line ends it is the text with LF, unless there is no level to change. *)
Theorem C117_makefile_ends : forall set make b u, reads_as b u -> u <> [] ->
  (set u 0 = None -> build_bytes set make true b = Built b [b] (last_build (make 0%nat))) /\
  (set u 0 <> None -> written (bd_file (build_bytes set make true b)) u).
Proof.
  intros set make b u R NE. destruct (build_good set make b u R NE) as (N & Y). split; [exact N|]. intros H. rewrite (Y H).
  apply save_written. destruct R as (t & (F & _) & T). exact (translated_scalar t u T F).
Qed.
Print Assumptions C117_makefile_ends.

(** The model of C65 and C66 is this one on Latin-1 characters: the Makefile at the end and at each run of
    make is the one of that model, as UTF-8. *)
Theorem C117_makefile_model : forall set make o s b,
  (forall s level, set (map code s) level = option_map (map code) (set_level s level)) -> written b (map code s) ->
  exists file makes e, build_bytes set make o b = Built file makes e /\
    r_end (run_build make o s None) = Some e /\
    written file (map code (b_file (r_state (run_build make o s None)))) /\
    Forall2 (fun x y => written x (map code y)) makes (r_makes (run_build make o s None)).
Proof.
  intros set make o s b F W. destruct (build_model set make o s b F W) as (E & X). cbv zeta in E.
  eexists _, _, _. split; [exact E|]. split; [exact X|]. split; [apply save_written, latin_scalar|].
  clear E. induction (r_makes (run_build make o s None)) as [|x l IH]; cbn [map]; constructor; [apply save_written, latin_scalar|exact IH].
Qed.
Print Assumptions C117_makefile_model.

Definition ex_set (t : text) (level : Z) : option text := option_map (map code) (set_level (map chr t) level).
Definition ex_mk : str := $"# Ren" ++ ex_e9 :: NL :: $"KBUILD_CFLAGS += -O2" ++ [NL].
Example C117_example_makefile :
  (forall s level, ex_set (map code s) level = option_map (map code) (set_level s level)) /\
  written (save (map code ex_mk)) (map code ex_mk) /\
  build_bytes ex_set (fun _ => Some 0) true (save (map code ex_mk)) =
    Built (save (map code ex_mk)) [save (map code ($"# Ren" ++ ex_e9 :: NL :: $"KBUILD_CFLAGS += -O0" ++ [NL]))] (Ok tt) /\
  not_text ex_mk.
Proof.
  split; [intros s level; unfold ex_set; now rewrite ex_chars|]. split; [apply save_written, latin_scalar|].
  split; [vm_compute; reflexivity|]. no_text ($"# Ren") ex_e9 (NL :: $"KBUILD_CFLAGS += -O2" ++ [NL]).
Qed.
