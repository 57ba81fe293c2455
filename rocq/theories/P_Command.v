(** C96: commands that fail end the run with a reason *)
From Coq Require Import List Bool Ascii String ZArith.
From Verif Require Import PyBase M_Utils M_Command S_Command L_Command.
Import ListNotations.
Open Scope Z_scope.
Open Scope list_scope.

(** With a directory, or a program that is there: the output comes from a run with status 0; otherwise
    the run ends with status 1 and the status, the command and its standard error, or with status 127
    and the true reason why the command did not start. *)
Theorem C96_ensure : forall w c cwd capture console,
  names_program c -> usable w c cwd -> capture && console = false ->
  ensured w c cwd capture console (ensure_command w c cwd capture console).
Proof. exact ensure_ok. Qed.
Print Assumptions C96_ensure.

(** A program that is missing, without a directory: an exception without a reason *)
Theorem C96_ensure_refuted : exists w c, names_program c /\ sys_found w None (program c) = false /\
  ensure_command w c None true false = ([], Raise AttributeError).
Proof. exact missing_readelf. Qed.
Print Assumptions C96_ensure_refuted.
(** ... and that always *)
Theorem C96_missing : forall w c capture console, sys_found w None (program c) = false -> capture && console = false ->
  ensure_command w c None capture console = ([], Raise AttributeError) /\
  run_command w c None = ([], Raise AttributeError).
Proof. exact missing_program. Qed.
Print Assumptions C96_missing.

Theorem C96_run : forall w c cwd, names_program c -> usable w c cwd ->
  (starts w c cwd /\ exists status out err, sys_run w c cwd = (status, out, err) /\ run_command w c cwd = ([], Ok status)) \/
  (~ starts w c cwd /\ exists m, trouble w c cwd m /\ run_command w c cwd = ([m], Ok 127)).
Proof. exact run_ok. Qed.
Print Assumptions C96_run.

(** The version of the compiler is the first line it prints, without the blanks around it; a compiler
    that prints nothing is an IndexError. *)
Theorem C96_gcc : forall w (gcc : str), sys_found w None gcc = true ->
  exists status out err, sys_run w (Argv [gcc; $"--version"]) None = (status, out, err) /\
  ((status = 0 /\ out = [] /\ gcc_version w gcc = ([], Raise IndexError)) \/
   (status = 0 /\ exists line v, first_line out line /\ trimmed line v /\ gcc_version w gcc = ([], Ok v)) \/
   (status <> 0 /\ exists part, error_part err part /\
      gcc_version w gcc = ([LFailed status (Argv [gcc; $"--version"]) part], Exit 1))).
Proof. exact gcc_ok. Qed.
Print Assumptions C96_gcc.

Theorem C96_git : forall w repo (ref : str),
  (starts w (Argv [$"git"; $"checkout"; ref]) (Some repo) /\
   exists status out err, sys_run w (Argv [$"git"; $"checkout"; ref]) (Some repo) = (status, out, err) /\
   ((status = 0 /\ git_checkout w repo ref = ([], Ok tt)) \/
    (status <> 0 /\ exists part, error_part err part /\
      git_checkout w repo ref = ([LFailed status (Argv [$"git"; $"checkout"; ref]) part], Exit 1)))) \/
  (~ starts w (Argv [$"git"; $"checkout"; ref]) (Some repo) /\
   exists m, trouble w (Argv [$"git"; $"checkout"; ref]) (Some repo) m /\ git_checkout w repo ref = ([m], Exit 127)).
Proof. exact git_ok. Qed.
Print Assumptions C96_git.

(** ** Concrete cases *)
Definition linux : path := path_of_str $"/src/linux".
Definition gone : path := path_of_str $"/src/gone".
Definition errors : str := $"error: pathspec 'v9' did not match" ++ [NL; NL] ++ $"hint: no" ++ [NL].
Definition box : system := System
  (fun d => if path_eqb d linux then Dir else Missing)
  (fun _ p => negb (str_eqb p $"rg"))
  (fun c _ => match c with
              | Argv [_; _; ref] => if str_eqb ref $"v9" then (1, [], errors) else (0, [], [])
              | _ => (0, $" gcc (Debian) 12.2.0 " ++ [NL] ++ $"Copyright", [])
              end).
Example C96_good : git_checkout box linux $"v5.0" = ([], Ok tt) /\ gcc_version box $"gcc" = ([], Ok $"gcc (Debian) 12.2.0").
Proof. vm_compute. split; reflexivity. Qed.
Example C96_bad : git_checkout box linux $"v9" =
  ([LFailed 1 (Argv [$"git"; $"checkout"; $"v9"])
      ([NL; TAB] ++ $"error: pathspec 'v9' did not match" ++ [NL; NL; TAB] ++ $"hint: no" ++ [NL])], Exit 1).
Proof. vm_compute. reflexivity. Qed.
Example C96_gone : git_checkout box gone $"v5.0" = ([LNoDir (Some gone)], Exit 127) /\
  ensure_command box (Argv [$"rg"; $"x"]) (Some linux) true false = ([LNotFound $"rg"], Exit 127).
Proof. vm_compute. split; reflexivity. Qed.
Example C96_usable : names_program (Shell $"make kernelversion") /\ usable box (Shell $"make kernelversion") (Some linux) /\
  first_word (Shell $"make kernelversion") $"make".
Proof.
  split; [exists "m"%char; split; [now left|reflexivity]|]. split; [left; discriminate|].
  apply (fw_shell [] $"make" $" kernelversion").
  - constructor.
  - discriminate.
  - repeat constructor.
  - right. exists " "%char, $"kernelversion". split; reflexivity.
Qed.
