(** Property C111: the programs that an analysis needs. *)
From Coq Require Import List Bool Ascii String ZArith Lia Permutation.
From Verif Require Import PyBase PyFacts M_Utils M_Elf M_Syscall M_Arch M_Emu M_Kernel M_Search M_Command M_Output M_Json M_Main M_Args M_Program
  S_Utils S_Elf S_Output S_Json S_Main S_Args S_Whole S_Program S_Needs L_Args7 L_Needs P_Kernel P_Emu P_Program.
Import ListNotations.
Open Scope Z_scope.
Open Scope list_scope.

(** An analysis is the same on two computers with the same files and the same readelf, addr2line and
    ripgrep, whatever their other programs are; addr2line and ripgrep need not be there. *)
Theorem C111_programs : forall c c' argv g h, enough_alike c c' -> asks argv g -> ~ preparing g -> ~ present (g_checkout g) ->
  on_computer c argv h = on_computer c' argv h.
Proof. exact (fun c c' argv g h A P NP NC => run_same c c' argv g A (proj2 (L_Args7.accepts argv g) P) NP NC h). Qed.
Print Assumptions C111_programs.

(** Without readelf the status is 127, and nothing is printed. *)
Theorem C111_readelf : forall c argv g p h, asks argv g -> (forall n, g_arch g = Some n -> known_arch n) -> ~ preparing g -> ~ present (g_checkout g) ->
  S_Main.image_of g p -> (exists b, S_Program.file_at c h p = Some b) -> pc_which c h $"readelf" = false ->
  on_computer c argv h = (h, Ok 127).
Proof. exact (fun c argv g p h P => readelf_needed c argv g p h (proj2 (L_Args7.accepts argv g) P)). Qed.
Print Assumptions C111_readelf.

(** Without addr2line, no document says where a syscall is defined. *)
Theorem C111_no_places : forall c argv g h, asks argv g -> ~ preparing g -> (forall n, g_arch g = Some n -> ~ asks_help n) -> no_addr2line c ->
  on_computer c argv [] = (h, Ok 0) ->
  exists e a v shown d h1, h = h1 ++ [Printed d] /\ shown <> [] /\ Forall placeless shown /\
    output_syscalls (pc_version c) (version_tag v) $"vmlinux" (adjust_abi a e) shown (g_format g) = Ok d.
Proof. exact (fun c argv g h P => run_placeless c argv g h (proj2 (L_Args7.accepts argv g) P)). Qed.
Print Assumptions C111_no_places.
Theorem C111_null : forall c argv g h, asks argv g -> g_format g = $"json" -> ~ preparing g -> (forall n, g_arch g = Some n -> ~ asks_help n) -> no_addr2line c ->
  on_computer c argv [] = (h, Ok 0) ->
  exists doc j objects h1, h = h1 ++ [Printed (JsonDoc doc)] /\ json_read (dumps 0 doc) = Some j /\ at_key [$"syscalls"] j (JList objects) /\ objects <> [] /\
    Forall (fun o => at_key [$"file"] o JNull /\ at_key [$"line"] o JNull) objects.
Proof. exact (fun c argv g h P => run_null c argv g h (proj2 (L_Args7.accepts argv g) P)). Qed.
Print Assumptions C111_null.

(** With readelf and an image that is complete, a run needs no other program, and ends with status 0,
    or 1 if nothing is found.  In format html it may fail. *)
Theorem C111_succeeds : forall c argv g p e a v, asks argv g -> g_format g = $"text" \/ (g_format g = $"json" \/ g_format g = $"html") /\ List.length v = 3%nat ->
  (forall n, g_arch g = Some n -> known_arch n) -> ~ preparing g -> ~ present (g_checkout g) -> S_Main.image_of g p -> version_from_vmlinux e = Ok (Some v) ->
  kernel_init (option_map lower (g_arch g)) (Some e) (match path_arg (g_kdir g) with Some _ => true | None => false end) (Ok v) = Ok a ->
  regular c -> image_fine c (adjust_abi a e) e v -> no_addr2line c ->
  (forall h, Forall is_said h -> pc_which c h $"readelf" = true /\ image_read c h p e) ->
  exists h, Forall is_said h /\
    ((on_computer c argv [] = (h, Ok 1) /\ barren c g e a (adjust_abi a e)) \/
     (exists d, on_computer c argv [] = (h ++ [Printed d], Ok 0)) \/
     (g_format g = $"html" /\ on_computer c argv [] = (h, Raise ValueError))).
Proof. exact (fun c argv g p e a v P => blind_succeeds c argv g p e a v (proj2 (L_Args7.accepts argv g) P)). Qed.
Print Assumptions C111_succeeds.

(** ** A computer on which only readelf is left, and one with broken programs *)

Definition with_programs (c : computer) (which : str -> bool) (run : M_Command.command -> option (Z * str * str)) : computer :=
  Computer (pc_look c) (pc_resolve c) (fun _ => which) (fun _ _ => which) (fun _ cmd _ => run cmd) (pc_decode c) (pc_same c) (pc_insn_order c) (pc_ni_order c)
    (fun _ _ => false) (fun _ _ => Exit 1) (fun _ _ => Exit 1) (fun _ _ _ => Exit 1) (pc_version c).
Definition ex_bare : computer := with_programs ex_pc (fun x => str_eqb x $"readelf") ex_pc_run.
Definition ex_broken : computer :=
  Computer (pc_look ex_pc) (pc_resolve ex_pc) (pc_which ex_pc) (pc_found ex_pc)
    (fun h cmd cwd => match cmd with Argv (x :: _) => if str_eqb x $"readelf" || str_eqb x $"addr2line" then pc_run ex_pc h cmd cwd else None | _ => None end)
    (pc_decode ex_pc) (pc_same ex_pc) (pc_insn_order ex_pc) (pc_ni_order ex_pc)
    (fun _ _ => false) (fun _ _ => Exit 1) (fun _ _ => Exit 1) (fun _ _ _ => Exit 1) (pc_version ex_pc).
Example C111_ex_alike : enough_alike ex_pc ex_broken.
Proof.
  constructor; try (repeat split; reflexivity).
  - intros h d _ H. vm_compute in H. discriminate H.
Qed.
Example C111_ex_runs : ex_pc_shown (on_computer ex_broken ex_pc_argv []) = Some [($"fork", Some $"kernel/fork.c", Some 3)] /\
  ex_pc_shown (on_computer ex_bare ex_pc_argv []) = Some [($"fork", None, None)].
Proof. split; vm_compute; reflexivity. Qed.
Example C111_ex_bare : no_addr2line ex_bare /\ forall h, pc_which ex_bare h $"readelf" = true /\ image_read ex_bare h (path_of_str $"/b/vmlinux") ex_pc_e.
Proof.
  split; [intros h; reflexivity|]. intros h. split; [reflexivity|]. exists ex_pc_file, ex_sections, (unlines ex_pc_lines). split; [reflexivity|].
  split; [|split; [|exact ex_pc_open]]; (split; [discriminate|]; split; [reflexivity|]; exists []; reflexivity).
Qed.
Example C111_ex_image : regular ex_bare /\ image_fine ex_bare ex_pc_b ex_pc_e [5;10;3].
Proof.
  split; [exact C103_example_regular|]. destruct C103_example_image as [name us H1 H2 H3 H4 H5 H6 H7|start stop prog [sym reg code H _ _ _ _ _ _ _ _ _] _ _ _ _ _].
  - exact (image_table ex_bare ex_pc_b ex_pc_e [5;10;3] name us H1 H2 H3 H4 H5 H6 H7).
  - vm_compute in H. discriminate H.
Qed.
Example C111_ex_nothing : on_computer (with_programs ex_pc (fun _ => false) ex_pc_run) ex_pc_argv [] = ([], Ok 127).
Proof. vm_compute. reflexivity. Qed.

(** The README calls addr2line optional; yet with --format html a run that works with it fails without
    it (C79), with an error about an empty sequence. *)
Definition ex_html_argv : list str := [$"--arch"; $"x86-64"; $"--kdir"; $"/k"; $"--format"; $"html"; $"/b/vmlinux"].
Theorem C111_html_refuted : exists c c' argv, (forall h, pc_which c h $"addr2line" = true) /\ no_addr2line c' /\
  pc_look c = pc_look c' /\ (forall h, same_program c c' h None $"readelf") /\
  (exists h d, on_computer c argv [] = (h ++ [Printed d], Ok 0)) /\ exists h, on_computer c' argv [] = (h, Raise ValueError).
Proof.
  exists ex_pc, ex_bare, ex_html_argv. split; [reflexivity|]. split; [intros h; reflexivity|]. split; [reflexivity|]. split; [intros h; split; reflexivity|]. split.
  - destruct (on_computer ex_pc ex_html_argv []) as [h r] eqn:E. vm_compute in E. injection E as <- <-. eexists (_ :: _ :: _ :: []), _. cbn [app]. reflexivity.
  - destruct (on_computer ex_bare ex_html_argv []) as [h r] eqn:E. vm_compute in E. injection E as <- <-. eexists. reflexivity.
Qed.
Print Assumptions C111_html_refuted.
