(** The command line (C46, C69, C70, C80, C81). *)
From Coq Require Import List Bool Ascii String ZArith Lia.
From Verif Require Import PyBase PyFacts M_Utils M_Elf M_Syscall M_Arch M_Kernel M_Output M_Main S_Utils S_Output S_Arch S_Main
  L_Utils L_Arch L_Output L_Main L_Main2 P_Output.
Import ListNotations.
Open Scope Z_scope.
Open Scope list_scope.

(** * Examples *)

Definition ex_image : elf :=
  Elf ($"Linux version 5.10.0 (x)" ++ [chr 0]) false false 62 0 [($".rodata", Section_ $".rodata" 4096 0 25)]
    [($"linux_banner", Symbol 4096 4096 25 $"OBJECT" $"linux_banner")] [].
Definition ex_found : list syscall :=
  [ex_read; Syscall (Some 1) 1 $"write" $"write" (ex_sym $"sys_write") None (Some (path_of_str $"/src/linux/fs/read_write.c")) (Some 643) None false true true; ex_fork].
Definition ex_machine (found : list syscall) : machine :=
  Machine (fun _ _ => Ok tt) (fun _ _ => false) (fun _ _ => false) (fun _ _ => true) (fun _ _ => true) (fun _ _ => true)
    (fun _ _ => Ok $"gcc 12") (fun _ _ => Ok ex_image) (fun _ => Ok (Some [5;10;0])) (fun _ _ => Ok tt) (fun _ _ => Ok tt)
    (fun _ _ _ => Ok (75, 1)) (fun _ _ _ _ => Ok found) $"0.5".
Definition ex_args (vmlinux kdir arch checkout : option str) (build config clean : bool) (fmt : str) (q v : Z) : args :=
  Args vmlinux kdir arch build config clean None None fmt false None checkout false q v.
Lemma ex_steady found : steady (ex_machine found).
Proof. split; intros; left; eexists; reflexivity. Qed.

(** * C46 *)

(** Writing a name in another case changes nothing. *)
Definition with_arch (g : args) (n : str) : args :=
  Args (g_vmlinux g) (g_kdir g) (Some n) (g_build g) (g_config g) (g_clean g) (g_cross g) (g_out g) (g_format g) (g_absolute g)
    (g_remap g) (g_checkout g) (g_disable_opt g) (g_quiet g) (g_verbose g).
Theorem C46_case_insensitive m g n n' h : Forall2 same_letter n n' -> main m (with_arch g n) h = main m (with_arch g n') h.
Proof. exact (fun S => main_case m g n n' h S). Qed.
Print Assumptions C46_case_insensitive.
Example C46_ex_case : Forall2 same_letter $"X86-64-Ia32" $"x86-64-ia32" /\ known_arch $"X86-64-Ia32" /\
  snd (main (ex_machine ex_found) (ex_args (Some $"vmlinux") None (Some $"X86-64") None false false false $"text" 0 0) []) = Ok 0.
Proof.
  assert (Forall2 same_letter $"X86-64-Ia32" $"x86-64-ia32") as S.
  { repeat (apply Forall2_cons; [first [left; reflexivity | right; left; split; [split; vm_compute; discriminate|reflexivity]]|]). apply Forall2_nil. }
  split; [exact S|]. split; [|vm_compute; reflexivity]. eexists (nth 18 documented _). split; [|exists $"x86-64-ia32"; split; [now left|exact S]].
  apply nth_In. vm_compute. lia.
Unshelve. exact (DocArch [] KX86 false [] false []).
Qed.

(** * C69 *)

(** Which messages are logged *)
Theorem C69_levels q v level : 0 <= q -> 0 <= v -> 0 <= level ->
  (logged (setup_logging q v) level = true <->
   (v = 0 /\ 30 + 10 * Z.max (q - 1) 0 <= level) \/ (0 < v /\ 30 - 10 * v <= level)).
Proof. exact (logged_iff q v level). Qed.
Print Assumptions C69_levels.
(** -qqqq: nothing at all, not even critical messages (level 50) *)
Theorem C69_nothing_logged q level : 4 <= q -> 0 <= level <= 50 -> logged (setup_logging q 0) level = false.
Proof. exact (logged_nothing q level). Qed.
Print Assumptions C69_nothing_logged.
(** Progress is silent with -q and without -v; then nothing is said in any run. *)
Theorem C69_silent q v : lc_silent (setup_logging q v) = true <-> 0 < q /\ v <= 0.
Proof. exact (silent_iff q v). Qed.
Print Assumptions C69_silent.
Theorem C69_nothing_said m g h r : 0 < g_quiet g -> g_verbose g <= 0 -> main m g [] = (h, r) -> forall l, ~ In (Said l) h.
Proof. exact (main_silent m g h r). Qed.
Print Assumptions C69_nothing_said.
Theorem C69_commands_logged q v : lc_high (setup_logging q v) = true <-> 3 <= v.
Proof. exact (high_iff q v). Qed.
Print Assumptions C69_commands_logged.
Example C69_ex :
  (* warnings by default and with -q, info with -v, debug with -vv, no warning with -qq, no error with -qqq, nothing with -qqqq *)
  map (fun '(q, v) => map (logged (setup_logging q v)) [10; 20; 30; 40; 50]) [(0,0); (1,0); (0,1); (0,2); (2,0); (3,0); (4,0); (4,1)] =
  [[false;false;true;true;true]; [false;false;true;true;true]; [false;true;true;true;true]; [true;true;true;true;true];
   [false;false;false;true;true]; [false;false;false;false;true]; [false;false;false;false;false]; [false;true;true;true;true]] /\
  exists h, main (ex_machine ex_found) (ex_args (Some $"vmlinux") None None None false false false $"text" 1 0) [] = (h, Ok 0) /\ h <> [].
Proof. split; [vm_compute; reflexivity|]. eexists. split; [vm_compute; reflexivity|discriminate]. Qed.

(** * C70 *)

(** Whatever is done was asked for, with a source directory and an architecture where needed. *)
Theorem C70_allowed m g h r : main m g [] = (h, r) -> Forall (allowed m g) h.
Proof. exact (main_allowed m g h r). Qed.
Print Assumptions C70_allowed.
(** What lacks something ends with status 1 before anything is done. *)
Theorem C70_misuse m g : (forall n, g_arch g = Some n -> known_arch n) -> misuse g -> main m g [] = ([], Ok 1).
Proof. exact (main_misuse m g). Qed.
Print Assumptions C70_misuse.
Theorem C70_unknown_arch m g n : g_arch g = Some n -> ~ known_arch n ->
  (asks_help n -> main m g [] = ([], Ok 0)) /\ (~ asks_help n -> main m g [] = ([], Ok 1)).
Proof. exact (main_unknown m g n). Qed.
Print Assumptions C70_unknown_arch.
(** Preparing does the steps asked for, in order, and stops early only without success. *)
Theorem C70_steps m g k h r : (forall n, g_arch g = Some n -> known_arch n) -> ~ misuse g -> preparing g -> kdir_of g k ->
  main m g [] = (h, r) ->
  exists a d, deeds h d /\ (exists rest, preparation g k a = d ++ rest) /\ (r = Ok 0 -> d = preparation g k a) /\
    (forall c, r = Ok c -> c = 0 \/ c = 1 \/ c = 127).
Proof. exact (main_steps m g k h r). Qed.
Print Assumptions C70_steps.
(** Without sources, at most the output directory is made, and it is not a success. *)
Theorem C70_no_sources m g h r : ~ present (g_kdir g) -> preparing g -> (forall n, g_arch g = Some n -> known_arch n) -> main m g [] = (h, r) ->
  (exists d, deeds h d /\ forall x, In x d -> exists p, x = MadeDir p) /\ forall c, r = Ok c -> c = 1 \/ c = 127.
Proof. exact (main_nowhere m g h r). Qed.
Print Assumptions C70_no_sources.
(** The exceptions that escape, when nothing else fails *)
Theorem C70_exceptions m g h x : steady m -> main m g [] = (h, Raise x) ->
  (preparing g /\ escapes_preparing m g h x) \/ (~ preparing g /\ escapes_analysing m g x).
Proof. exact (main_raises m g h x). Qed.
Print Assumptions C70_exceptions.
(** --clean needs an architecture, and sources, but is not refused without. *)
Theorem C70_clean_refuted : exists m g g', steady m /\
  g_clean g = true /\ present (g_kdir g) /\ g_arch g = None /\ main m g [] = ([], Raise ValueError) /\
  g_clean g' = true /\ g_arch g' = Some $"x86" /\ present (g_vmlinux g') /\ ~ present (g_kdir g') /\ main m g' [] = ([], Raise ValueError).
Proof.
  exists (ex_machine ex_found), (ex_args None (Some $"linux") None None false false true $"text" 0 0),
    (ex_args (Some $"vmlinux") None (Some $"x86") None false false true $"text" 0 0).
  split; [apply ex_steady|]. split; [reflexivity|]. split; [eexists; split; [reflexivity|discriminate]|]. split; [reflexivity|].
  split; [vm_compute; reflexivity|]. split; [reflexivity|]. split; [reflexivity|]. split; [eexists; split; [reflexivity|discriminate]|].
  split; [intros (s & X & _); discriminate X|vm_compute; reflexivity].
Qed.
Print Assumptions C70_clean_refuted.
Example C70_ex : let g := ex_args None (Some $"linux") (Some $"x86-64") (Some $"v5.10") true false false $"text" 0 0 in
  ~ misuse g /\ exists a h, main (ex_machine ex_found) g [] = (h, Ok 0) /\
    filter (fun x => match x with Said _ => false | _ => true end) h =
    [CheckedOut (Some (path_of_str $"linux")) $"v5.10"; Cleaned (Some (path_of_str $"linux")) a;
     Configured (Some (path_of_str $"linux")) a; Built (Some (path_of_str $"linux")) a false] /\ a_abi a = $"x64" /\
    In (Said $"Build took 1m 15s") h.
Proof.
  split. { intros [K _|K _|A _]; [destruct K|destruct K|discriminate A]; (eexists; split; [reflexivity|discriminate]). }
  eexists _, _. split; [vm_compute; reflexivity|]. split; [vm_compute; reflexivity|]. split; [reflexivity|]. vm_compute. auto 20.
Qed.
Example C70_ex_misuse : misuse (ex_args (Some $"vmlinux") (Some []) (Some $"x86") None true false false $"text" 0 0).
Proof. apply mu_no_kdir; [intros (s & [= <-] & X); now destruct X|right; now right]. Qed.

(** * C80 *)

(** What is printed: the syscalls that were extracted, all of them and in order, with their
    files shown relative to KDIR; before it, the right numbers. *)
Theorem C80_result m g h : main m g [] = (h, Ok 0) -> ~ preparing g -> (forall n, g_arch g = Some n -> ~ asks_help n) ->
  exists p e v a scs shown d lines h0 h1 h2,
    image_of g p /\ mc_elf m h0 p = Ok e /\ version_from_vmlinux e = Ok (Some v) /\
    kernel_init (option_map lower (g_arch g)) (Some e) (match path_arg (g_kdir g) with Some _ => true | None => false end) (Ok v) = Ok a /\
    mc_syscalls m h1 a e v = Ok scs /\ scs <> [] /\ Forall2 (shown_as g) scs shown /\
    output_syscalls (mc_version m) (version_tag v) $"vmlinux" (adjust_abi a e) shown (g_format g) = Ok d /\
    report g scs lines /\ says g lines h2 /\ h = h1 ++ h2 ++ [Printed d] /\
    exists co, deeds h1 co /\ checked g v co.
Proof. exact (main_result m g h). Qed.
Print Assumptions C80_result.
(** A result is printed once, as the last thing, and only if the status is 0. *)
Theorem C80_printed m g h r d : main m g [] = (h, r) -> In (Printed d) h ->
  r = Ok 0 /\ exists h1, h = h1 ++ [Printed d] /\ forall d', ~ In (Printed d') h1.
Proof. exact (main_printed m g h r d). Qed.
Print Assumptions C80_printed.
(** Nothing is printed, and the status is not 0, if no syscalls are found. *)
Theorem C80_no_syscalls m g h r : main m g [] = (h, r) -> ~ preparing g ->
  (forall h' a e v scs, mc_syscalls m h' a e v = Ok scs -> scs = []) -> (forall n, g_arch g = Some n -> ~ asks_help n) ->
  r <> Ok 0 /\ forall d, ~ In (Printed d) h.
Proof. exact (main_empty m g h r). Qed.
Print Assumptions C80_no_syscalls.
Definition said (x : action) : list str := match x with Said l => [l] | _ => [] end.
Definition printed (x : action) : list document := match x with Printed d => [d] | _ => [] end.
Example C80_ex : exists h, main (ex_machine ex_found) (ex_args (Some $"vmlinux") (Some $"/src/linux") None None false false false $"text" 0 0) [] = (h, Ok 0) /\
  flat_map said h = [$"Detected kernel version: 5.10.0 (from vmlinux)"; $"Found 3 implemented syscalls";
    $"Found 1 definition location through grepping"; $"Could not find definition location for 1 syscall";
    $"Could not extract signature for 1 syscall"; []] /\
  flat_map printed h = [TextDoc [
    $"INDEX  NUMBER  NAME   ORIG NAME  SYMBOL     LOCATION             KCONFIG  SIGNATURE                               ";
    $"  0    0x0     read              sys_read   fs/read_write.c:613           unsigned int fd, char *buf, size_t count";
    $"  1    0x1     write             sys_write  fs/read_write.c:643           ?                                       ";
    [];
    $" 57    0x39    fork              sys_fork                                 void                                    "]].
Proof. eexists. split; [vm_compute; reflexivity|]. split; vm_compute; reflexivity. Qed.
Example C80_ex_empty : exists h, main (ex_machine []) (ex_args (Some $"vmlinux") None None None false false false $"text" 0 0) [] = (h, Ok 1).
Proof. eexists. vm_compute. reflexivity. Qed.

(** * C81 *)

(** Sources are checked out at most once in a run, before everything else that is done to them;
    with "auto" to the tag of the version of the image, before they are used. *)
Theorem C81_once m g h r : main m g [] = (h, r) -> exists co rest,
  deeds h (co ++ rest) /\ (forall k ref, ~ In (CheckedOut k ref) rest) /\ (co = [] \/ exists k ref, co = [CheckedOut (Some k) ref] /\ kdir_of g k).
Proof. exact (main_checkout_once m g h r). Qed.
Print Assumptions C81_once.
Theorem C81_reference m g h r k ref : main m g [] = (h, r) -> In (CheckedOut k ref) h ->
  (g_checkout g = Some ref /\ ref <> [] /\ ref <> $"auto") \/
  (g_checkout g = Some $"auto" /\ ~ preparing g /\
   exists p e h0 v, image_of g p /\ mc_elf m h0 p = Ok e /\ version_from_vmlinux e = Ok (Some v) /\ version_tag v = Ok ref).
Proof. exact (main_checkout_ref m g h r k ref). Qed.
Print Assumptions C81_reference.
Example C81_ex : exists h, main (ex_machine ex_found) (ex_args (Some $"vmlinux") (Some $"/src/linux") None (Some $"auto") false false false $"text" 0 0) [] = (h, Ok 0) /\
  In (CheckedOut (Some (path_of_str $"/src/linux")) $"v5.10") h.
Proof. eexists. split; [vm_compute; reflexivity|]. vm_compute. auto 10. Qed.
