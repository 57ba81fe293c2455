(** Property C100: the command line. *)
From Coq Require Import List Bool Ascii String ZArith Lia.
From Verif Require Import PyBase PyFacts M_Main M_Args S_Elf S_Signature S_Args L_Args L_Args4 L_Args7 L_Args8.
Import ListNotations.
Open Scope Z_scope.
Open Scope list_scope.

(** The settings accepted are those the words ask for, and all that are asked for are accepted. *)
Theorem C100_accepts : forall argv g, parse_args argv = inr g <-> asks argv g.
Proof. exact accepts. Qed.
Print Assumptions C100_accepts.

(** Help and version are shown exactly when their option is reached. *)
Theorem C100_help : forall argv, parse_args argv = inl SHelp <-> shows OHelp argv.
Proof. exact (fun argv => shows_stop OHelp SHelp argv (or_introl (conj eq_refl eq_refl))). Qed.
Print Assumptions C100_help.
Theorem C100_version : forall argv, parse_args argv = inl SVersion <-> shows OVersion argv.
Proof. exact (fun argv => shows_stop OVersion SVersion argv (or_intror (conj eq_refl eq_refl))). Qed.
Print Assumptions C100_version.

(** The program: main is run on what is asked for, help and version end with status 0, and every
    other command line with status 2 before anything is done. *)
Theorem C100_program : forall m argv,
  (forall g, asks argv g -> systrack m argv = main m g) /\
  (shows OHelp argv \/ shows OVersion argv -> systrack m argv = ret (Exit 0)) /\
  ((forall g, ~ asks argv g) -> ~ shows OHelp argv -> ~ shows OVersion argv -> systrack m argv = ret (Exit 2)).
Proof. exact program. Qed.
Print Assumptions C100_program.

(** A command line has one meaning. *)
Theorem C100_one_meaning : forall argv g, asks argv g -> (forall g', asks argv g' -> g' = g) /\ ~ shows OHelp argv /\ ~ shows OVersion argv.
Proof. exact one_meaning. Qed.
Print Assumptions C100_one_meaning.

(** The settings that can be asked for, whatever the texts are (also those that begin with "-") *)
Theorem C100_expressible : forall g,
  (exists argv, asks argv g) <-> (g_format g = $"text" \/ g_format g = $"json" \/ g_format g = $"html") /\ 0 <= g_quiet g /\ 0 <= g_verbose g.
Proof. exact expressible_iff. Qed.
Print Assumptions C100_expressible.

(** Examples *)
Definition run_line (l : list string) : result args := parse_args (map list_ascii_of_string l).
Example C100_ex_usual : run_line ["-k"; "/src/linux"; "-bfjson"; "/b/vmlinux"; "-qqv"; "--remap=/old"]%string =
  inr (Args (Some $"/b/vmlinux") (Some $"/src/linux") None true false false None None $"json" false (Some $"/old") None false 2 1).
Proof. vm_compute. reflexivity. Qed.
Example C100_ex_asks : asks (map list_ascii_of_string ["-k"; "/src/linux"; "-bfjson"; "/b/vmlinux"; "-qqv"; "--remap=/old"]%string)
  (Args (Some $"/b/vmlinux") (Some $"/src/linux") None true false false None None $"json" false (Some $"/old") None false 2 1).
Proof. exact (proj1 (C100_accepts _ _) C100_ex_usual). Qed.
Example C100_ex_short_name : run_line ["--ch=v5.0"; "-k=/k"; "--form"; "html"; "-f"; "text"]%string =
  inr (Args None (Some $"/k") None false false false None None $"text" false None (Some $"v5.0") false 0 0).
Proof. vm_compute. reflexivity. Qed.
Example C100_ex_ambiguous : run_line ["--v"]%string = inl SError /\ run_line ["--c=x"]%string = inl SError /\ run_line ["-h"; "--v"]%string = inl SError.
Proof. vm_compute. auto. Qed.
Example C100_ex_errors : run_line ["-f"; "yaml"]%string = inl SError /\ run_line ["-k"]%string = inl SError /\ run_line ["-k"; "-b"]%string = inl SError /\ run_line ["a"; "b"]%string = inl SError /\ run_line ["--build=yes"]%string = inl SError.
Proof. vm_compute. auto. Qed.
(** Version after an unknown letter, words too many and unknown options *)
Example C100_ex_version : run_line ["-bz"; "a"; "b"; "--what"; "-V"; "-f"; "yaml"]%string = inl SVersion /\ run_line ["-f"; "yaml"; "-V"]%string = inl SError.
Proof. vm_compute. auto. Qed.
Example C100_ex_shows : shows OVersion (map list_ascii_of_string ["-bz"; "a"; "b"; "--what"; "-V"; "-f"; "yaml"]%string).
Proof. exact (proj1 (C100_version _) (proj1 C100_ex_version)). Qed.
(** "--": a file called -b; but after an option that follows the file, "--" is one word too many. *)
Example C100_ex_dashes : run_line ["-b"; "--"; "-b"]%string = inr (Args (Some $"-b") None None true false false None None $"text" false None None false 0 0) /\
  run_line ["vm"; "-b"; "--"]%string = inl SError /\ run_line ["-b"; "vm"; "--"]%string = inr (Args (Some $"vm") None None true false false None None $"text" false None None false 0 0).
Proof. vm_compute. auto. Qed.
(** A number or a word with a space is a value although it begins with "-". *)
Example C100_ex_number : run_line ["-k"; "-1.5"; "-o"; "-n m"]%string = inr (Args None (Some $"-1.5") None false false false None (Some $"-n m") $"text" false None None false 0 0).
Proof. vm_compute. reflexivity. Qed.
