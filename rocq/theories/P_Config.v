(** Properties C61-C64, C76-C78 (configuring a kernel). *)
From Coq Require Import List Bool Ascii String ZArith Lia.
From Verif Require Import PyBase PyFacts M_Utils M_KconfigTables M_Elf M_Syscall M_Arch S_Arch M_Kconfig M_Build M_Kernel S_Kernel
  M_Config S_Utils S_Config L_Utils L_Config L_Config2 L_Config3 L_Config4.
Import ListNotations.
Open Scope Z_scope.
Open Scope list_scope.

(** ** C61 *)

Theorem C61_nothing ev kdir file h : edit_config ev kdir file [] h = (h, Ok tt).
Proof. exact (edit_nothing ev kdir file h). Qed.
Print Assumptions C61_nothing.

(** One command is run, the one that asks for the options in order; it must succeed. *)
Theorem C61_one_command ev kdir file options c h : options <> [] -> applies kdir file options c ->
  exists res, edit_config ev kdir file options h = (h ++ [Ran c], res) /\ must_succeed (e_run ev h c) tt res.
Proof. exact (edit_command ev kdir file options c h). Qed.
Print Assumptions C61_one_command.

(** There is such a command unless an option has no '='; then nothing is run. *)
Theorem C61_malformed ev kdir file options h :
  (exists c, applies kdir file options c) \/
  ((exists o, In o options /\ ~ In "="%char o) /\ edit_config ev kdir file options h = (h, Raise ValueError)).
Proof.
  exact (match applies_or kdir file options with
         | or_introl H => or_introl H
         | or_intror (ex_intro _ o (conj X N)) => or_intror (conj (ex_intro _ o (conj X N)) (edit_malformed ev kdir file options o h X N))
         end).
Qed.
Print Assumptions C61_malformed.

Definition ex_kd : path := path_of_str $"/k".
Definition ex_cf : path := path_of_str $"/k/.config".
Example C61_ex : applies ex_kd ex_cf [$"A=y"; $"B=n"; $"C=m"; $"D=64"; $"E="]
  (Command [$"./scripts/config"; $"--file"; $"/k/.config"; $"-e"; $"A"; $"-d"; $"B"; $"-m"; $"C"; $"--set-val"; $"D"; $"64"; $"--set-val"; $"E"; []] ex_kd None).
Proof.
  exists [[$"-e"; $"A"]; [$"-d"; $"B"]; [$"-m"; $"C"]; [$"--set-val"; $"D"; $"64"]; [$"--set-val"; $"E"; []]]. split; [|reflexivity].
  assert (forall c, "="%char <> c -> ~ In "="%char [c]) as N by (intros c H [E|[]]; congruence).
  repeat constructor; try discriminate; apply N; discriminate.
Qed.

(** ** C62 *)

(** Whatever is found out about dependencies: if it ends well, the last thing done was applying
    all the options, and before that only queries were run. *)
Theorem C62_all_applied ev kdir file options h h' : options <> [] ->
  edit_config_check_deps ev kdir file options h = (h', Ok tt) ->
  exists mid c, h' = h ++ mid ++ [Ran c] /\ applies kdir file (dkeys options) c /\
    Forall (fun e => match e with Ran c => is_query kdir file c | _ => True end) mid.
Proof. exact (check_applies ev kdir file options h h'). Qed.
Print Assumptions C62_all_applied.

(** Which dependencies are reported, given what the queries answer and what the file says. *)
Theorem C62_reports ev kdir file options (answer : str -> str) text ls c h :
  options <> [] ->
  Forall (fun x => (exists n v, asks (fst x) n v) /\ Forall (fun d => exists n v, asks d n v) (snd x)) options ->
  (forall h n, e_run ev h (script kdir file [$"-s"; n]) = Some (0, answer n)) ->
  e_file ev h file = Some text -> text_lines text ls ->
  Forall (fun l => ignored l \/ exists n v, line_sets l n v) ls ->
  applies kdir file (dkeys options) c ->
  exists mid res, edit_config_check_deps ev kdir file options h = (h ++ mid ++ [Ran c], res) /\
    must_succeed (e_run ev (h ++ mid) c) tt res /\
    (forall opt n w actual, In (Errored opt n w actual) mid <->
       depends options opt n w /\ effective (dkeys options) ls answer n actual /\
       ~ as_wanted w actual /\ ~ unsupported n w actual) /\
    (forall opt n actual, In (Warned opt n actual) mid <->
       exists w, depends options opt n w /\ effective (dkeys options) ls answer n actual /\
       ~ as_wanted w actual /\ unsupported n w actual) /\
    (forall c', In (Ran c') mid -> is_query kdir file c').
Proof. exact (check_deps_reports ev kdir file options answer text ls c h). Qed.
Print Assumptions C62_reports.

(** A case with every kind of dependency. *)
Definition ex_opts : dict str (list str) :=
  [($"A=y", [$"B=y"; $"C=n"; $"D=y"]); ($"B=n", [$"HAVE_X=y"; $"C=y"; $"E=n"; $"F=7"])].
Definition ex_answer (n : str) : str :=
  if str_eqb n $"D" then $"y" ++ [NL] else if str_eqb n $"F" then $"7" ++ [NL] else $"undef" ++ [NL].
Definition ex_script_answer (c : command) : str :=
  match c_argv c with [_; _; _; _; n] => ex_answer n | _ => [] end.
Definition ex_env : env :=
  Env (fun _ c => Some (0, ex_script_answer c)) (fun _ p => Some ($"# x" ++ [NL] ++ $"CONFIG_C=y" ++ [NL])).
Example C62_ex : fst (edit_config_check_deps ex_env ex_kd ex_cf ex_opts []) =
  [Errored $"A=y" $"B" $"y" (Some $"n"); Errored $"A=y" $"C" $"n" (Some $"y");
   Ran (script ex_kd ex_cf [$"-s"; $"D"]);
   Ran (script ex_kd ex_cf [$"-s"; $"HAVE_X"]); Warned $"B=n" $"HAVE_X" None;
   Ran (script ex_kd ex_cf [$"-s"; $"E"]); Ran (script ex_kd ex_cf [$"-s"; $"F"]);
   Ran (script ex_kd ex_cf [$"-e"; $"A"; $"-d"; $"B"])].
Proof. vm_compute. reflexivity. Qed.

(** ** C63 *)

Theorem C63_has_lines text : exists ls, text_lines text ls.
Proof. exact (text_lines_total text). Qed.
Print Assumptions C63_has_lines.

Theorem C63_parsed text ls : text_lines text ls ->
  Forall (fun l => ignored l \/ exists n v, line_sets l n v) ls ->
  exists d, parse_config_text text = Ok d /\ forall n v, dget str_eqb n d = Some v <-> file_sets ls n v.
Proof. exact (config_parsed text ls). Qed.
Print Assumptions C63_parsed.

(** It is not parsed otherwise. *)
Theorem C63_only text ls d : text_lines text ls -> parse_config_text text = Ok d ->
  Forall (fun l => ignored l \/ exists n v, line_sets l n v) ls.
Proof. exact (config_ok_meaning text ls d). Qed.
Print Assumptions C63_only.
Theorem C63_without_equals text l1 l l2 : text_lines text (l1 ++ l :: l2) ->
  Forall (fun l => ignored l \/ exists n v, line_sets l n v) l1 -> line_unsplit l ->
  parse_config_text text = Raise ValueError.
Proof. exact (config_unsplit text l1 l l2). Qed.
Print Assumptions C63_without_equals.
Theorem C63_not_an_option text l1 l l2 : text_lines text (l1 ++ l :: l2) ->
  Forall (fun l => ignored l \/ exists n v, line_sets l n v) l1 -> line_foreign l ->
  parse_config_text text = Raise AssertionError.
Proof. exact (config_foreign text l1 l l2). Qed.
Print Assumptions C63_not_an_option.
Theorem C63_every_line l : ignored l \/ (exists n v, line_sets l n v) \/ line_unsplit l \/ line_foreign l.
Proof. exact (line_cases l). Qed.
Print Assumptions C63_every_line.

Example C63_ex : exists d,
  parse_config_text ($"# Automatically generated" ++ NL :: NL :: $"CONFIG_A=y" ++ NL :: $"# CONFIG_B is not set" ++ NL ::
                     $"CONFIG_C=""a=b """ ++ CR :: NL :: $"CONFIG_A=m  " ++ [NL]) = Ok d /\
  dget str_eqb $"A" d = Some $"m" /\ dget str_eqb $"B" d = None /\ dget str_eqb $"C" d = Some $"""a=b """.
Proof. eexists. split; [vm_compute; reflexivity|]. vm_compute. auto. Qed.
Example C63_ex_bad : parse_config_text ($"CONFIG_A=y" ++ NL :: $"oops" ++ [NL]) = Raise ValueError /\
  parse_config_text ($"CONFIG_A=y" ++ NL :: $"B=y" ++ NL :: $"oops" ++ [NL]) = Raise AssertionError.
Proof. split; vm_compute; reflexivity. Qed.

(** ** C64 *)

Theorem C64_kconfig_of_name name v a s : kconfig_syscall_deps name v a = Some s <->
  exists o, s = $"CONFIG_" ++ o /\ option_for (arch_syscall_deps (a_class a)) tbl_kconfig_syscall_deps v name o.
Proof. exact (syscall_deps_iff name v a s). Qed.
Print Assumptions C64_kconfig_of_name.

(** For every syscall of the table that is extracted. *)
Theorem C64_extracted t a e v kdir r s : annotates (v_annotate t) -> extract_syscalls t a e v kdir = Ok r ->
  In s r -> of_table s = true ->
  kconfig_for (arch_syscall_deps (a_class a)) tbl_kconfig_syscall_deps v (sc_name s) (sc_origname s) (sc_kconfig s).
Proof. exact (extracted_kconfig t a e v kdir r s). Qed.
Print Assumptions C64_extracted.

(** There is at most one option for a name. *)
Theorem C64_one_option k v n o o' : option_for (arch_syscall_deps k) tbl_kconfig_syscall_deps v n o ->
  option_for (arch_syscall_deps k) tbl_kconfig_syscall_deps v n o' -> o = o'.
Proof. exact (option_for_fun k v n o o'). Qed.
Print Assumptions C64_one_option.

(** The tables of the architectures: PowerPC and x86 have one, for protection keys. *)
Theorem C64_tables k lo hi n o : In (lo, hi, n, o) (arch_syscall_deps k) <->
  lo = VERSION_ZERO /\ hi = VERSION_INF /\ In n [$"pkey_alloc"; $"pkey_free"; $"pkey_mprotect"] /\
  (k = KPowerPC /\ o = $"PPC_MEM_KEYS" \/ k = KX86 /\ o = $"X86_INTEL_MEMORY_PROTECTION_KEYS").
Proof.
  split.
  - destruct k; cbn [arch_syscall_deps]; intros H;
      repeat (destruct H as [H|H]; [injection H as <- <- <- <-; cbn; tauto|]); destruct H.
  - intros (-> & -> & N & [(-> & ->)|(-> & ->)]); cbn [In] in N; destruct N as [<-|[<-|[<-|[]]]]; cbn; tauto.
Qed.
Print Assumptions C64_tables.

(** The architecture's own table, the global one, and no table. *)
Definition ex_arch (k : klass) : arch := Arch k [5;10] $"x64" false false false false [$"x86_64_defconfig"] None 0 None [].
Example C64_ex_own : kconfig_syscall_deps $"pkey_alloc" [5;10] (ex_arch KX86) = Some $"CONFIG_X86_INTEL_MEMORY_PROTECTION_KEYS" /\
  kconfig_syscall_deps $"pkey_alloc" [5;10] (ex_arch KPowerPC) = Some $"CONFIG_PPC_MEM_KEYS" /\
  kconfig_syscall_deps $"pkey_alloc" [5;10] (ex_arch KArm64) = None /\
  kconfig_syscall_deps $"bpf" [5;10] (ex_arch KX86) = Some $"CONFIG_BPF_SYSCALL" /\
  kconfig_syscall_deps $"read" [5;10] (ex_arch KX86) = None.
Proof. repeat split; vm_compute; reflexivity. Qed.

(** ** C76 *)

(** Every command of configure() is a make, or scripts/config run on [config_file k]. *)
Theorem C76_commands ev k opts h : exists l r, configure ev k opts h = (h ++ l, r) /\
  forall c, In (Ran c) l ->
    (exists target, runs_make k target None (Ran c)) \/ (exists args, c = script (k_kdir k) (config_file k) args).
Proof.
  exact (match careful_configure ev k opts h with
         | ex_intro _ l (ex_intro _ r (conj E (conj F _))) =>
             ex_intro _ l (ex_intro _ r (conj E (fun c X => proj1 (Forall_forall _ _) F _ X c eq_refl)))
         end).
Qed.
Print Assumptions C76_commands.

(** ... and that file is the only one it reads. *)
Theorem C76_only_file ev ev' k opts h :
  (forall h c, e_run ev h c = e_run ev' h c) /\ (forall h, e_file ev h (config_file k) = e_file ev' h (config_file k)) ->
  configure ev k opts h = configure ev' k opts h.
Proof. exact (configure_ext ev ev' k opts h). Qed.
Print Assumptions C76_only_file.

(** Exactly when it is the file that make uses. *)
Theorem C76_edited k : absolute (k_cwd k) ->
  (worked_on k (k_kdir k) (config_file k) = used_by_make k <->
   k_outdir k <> None \/ absolute (k_kdir k) \/ parts (k_kdir k) = []).
Proof. exact (edited_used k). Qed.
Print Assumptions C76_edited.
Theorem C76_read k : seen_by_systrack k (config_file k) = used_by_make k <->
  (forall o, k_outdir k = Some o -> absolute o \/ seen_from (k_cwd k) (k_kdir k) = k_cwd k).
Proof. exact (read_used k). Qed.
Print Assumptions C76_read.

Definition ex_kern (kdir : str) (out : option str) (v : version) : kern :=
  Kern (path_of_str kdir) (option_map path_of_str out) [] (ex_arch KX86) v (path_of_str $"/home/u") 4.
(** With a relative source directory (and no O=) another file is edited ... *)
Theorem C76_edited_refuted : exists k args ev l r,
  absolute (k_cwd k) /\ no_dotdot (k_kdir k) /\ configure ev k [] [] = (l, r) /\
  In (Ran (script (k_kdir k) (config_file k) args)) l /\
  worked_on k (k_kdir k) (config_file k) <> used_by_make k.
Proof.
  exists (ex_kern $"linux" None [5;10]). eexists _, ex_env, _, _. split; [discriminate|]. split; [intros [H|[]]; discriminate H|].
  split; [vm_compute; reflexivity|]. split; [right; left; vm_compute; reflexivity|]. vm_compute. discriminate.
Qed.
Print Assumptions C76_edited_refuted.
(** ... and with a relative output directory another file is read. *)
Theorem C76_read_refuted : exists k, absolute (k_cwd k) /\ absolute (k_kdir k) /\
  seen_by_systrack k (config_file k) <> used_by_make k.
Proof.
  exists (ex_kern $"/src/linux" (Some $"build") [5;10]). split; [discriminate|]. split; [discriminate|]. vm_compute. discriminate.
Qed.
Print Assumptions C76_read_refuted.
Example C76_ex : let k := ex_kern $"/src/linux" (Some $"/tmp/build") [5;10] in
  str_of_path (used_by_make k) = $"/tmp/build/.config" /\ worked_on k (k_kdir k) (config_file k) = used_by_make k /\
  seen_by_systrack k (config_file k) = used_by_make k.
Proof. vm_compute. auto. Qed.

(** ** C77 *)

Theorem C77_consistent a v opts : fresh_kconfig a v = Some opts ->
  let all := kconfig_debugging v ++ kconfig_compatibility v ++ dkeys (kconfig_more_syscalls v) ++ dkeys opts in
  let deps := List.concat (map snd (kconfig_more_syscalls v) ++ map snd opts) in
  Forall well_formed all /\ Forall well_formed deps /\ ~ contradict all all /\ ~ contradict all deps.
Proof. exact (options_consistent a v opts). Qed.
Print Assumptions C77_consistent.
Definition nonempty {A} (l : list A) : bool := match l with [] => false | _ => true end.
Example C77_ex : exists a opts, arch_new KX86 [5;10] $"x64" false = Ok a /\ fresh_kconfig a [5;10] = Some opts /\
  nonempty opts && nonempty (kconfig_debugging [5;10]) && nonempty (kconfig_compatibility [5;10]) &&
  nonempty (kconfig_more_syscalls [5;10]) && existsb (fun x => nonempty (snd x)) opts = true.
Proof. eexists _, _. split; [vm_compute; reflexivity|]. split; vm_compute; reflexivity. Qed.
Example C77_ex_contradict : contradict [$"A=y"] [$"B=y"; $"A=n"].
Proof.
  exists $"A=y", $"A=n", $"A", $"y", $"n". split; [now left|]. split; [right; now left|].
  assert (~ In "="%char $"A") by (intros [H|[]]; discriminate H). repeat split; auto. discriminate.
Qed.

(** ** C78 *)

(** The steps of a configuration that ends well. *)
Theorem C78_steps ev k opts h h' : configure ev k opts h = (h', Ok tt) ->
  exists base dbg s1 compat s2 more s3 arch s4,
    h' = h ++ base ++ dbg ++ [s1] ++ compat ++ [s2] ++ more ++ [s3] ++ arch ++ [s4] /\
    Forall2 (fun t e => runs_make k t None e) (a_targets (k_arch k)) base /\
    applying k (config_file k) (kconfig_debugging (k_version k)) dbg /\
    applying k (config_file k) (kconfig_compatibility (k_version k)) compat /\
    checking k (config_file k) (dkeys (kconfig_more_syscalls (k_version k))) more /\
    checking k (config_file k) (dkeys opts) arch /\
    Forall (runs_make k (sync_target k) None) [s1; s2; s3; s4].
Proof. exact (configure_Ok ev k opts h h'). Qed.
Print Assumptions C78_steps.
Theorem C78_target k : (lexle [3;7] (k_version k) /\ sync_target k = $"olddefconfig") \/
  (~ lexle [3;7] (k_version k) /\ sync_target k = $"oldconfig").
Proof. exact (sync_target_cases k). Qed.
Print Assumptions C78_target.
(** It stops at the first command that fails, and then does not end well. *)
Theorem C78_stops ev k opts h : exists l r, configure ev k opts h = (h ++ l, r) /\
  forall l1 c l2, l = l1 ++ Ran c :: l2 ->
    (exists out, e_run ev (h ++ l1) c = Some (0, out)) \/ (l2 = [] /\ exists n, r = Exit n).
Proof.
  exact (match careful_configure ev k opts h with
         | ex_intro _ l (ex_intro _ r (conj E (conj _ D))) => ex_intro _ l (ex_intro _ r (conj E D))
         end).
Qed.
Print Assumptions C78_stops.
(** The newlines meant for oldconfig do not reach it. *)
Theorem C78_answers_refuted : exists ev k opts h', configure ev k opts [] = (h', Ok tt) /\
  sync_target k = $"oldconfig" /\
  exists e, In e h' /\ runs_make k $"oldconfig" None e /\
    forall c, In (Ran c) h' -> c_stdin c = None.
Proof.
  exists ex_env, (ex_kern $"/src/linux" None [2;6;39]). eexists [], _. split; [vm_compute; reflexivity|]. split; [reflexivity|].
  eexists. split; [do 2 right; left; reflexivity|]. split; [exact (make_runs (ex_kern $"/src/linux" None [2;6;39]) $"oldconfig")|].
  intros c H. repeat (destruct H as [H|H]; [first [discriminate H | injection H as <-; reflexivity]|]). destruct H.
Qed.
Print Assumptions C78_answers_refuted.
Definition step_name (e : event) : str := match e with Ran c => last (c_argv c) [] | _ => [] end.
Definition is_make (e : event) : bool := match e with Ran c => str_eqb (hd [] (c_argv c)) $"make" | _ => false end.
Example C78_ex : exists h', configure ex_env (ex_kern $"/src/linux" None [5;10]) [($"A=y", [$"B=y"])] [] = (h', Ok tt) /\
  map step_name (filter is_make h') = [$"x86_64_defconfig"; $"olddefconfig"; $"olddefconfig"; $"olddefconfig"; $"olddefconfig"].
Proof. eexists. split; vm_compute; reflexivity. Qed.
