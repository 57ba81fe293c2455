(** A failing run says why (C109). *)
From Coq Require Import List Bool Ascii String ZArith Lia Permutation.
From Verif Require Import PyBase PyFacts M_Utils M_Elf M_Syscall M_Arch M_Config M_Kernel M_Output M_Main M_Program M_Explain M_Giveup
  S_Utils S_Output S_Elf S_Arch S_Init S_Kernel S_Warn S_Main S_Explain S_Giveup L_Main L_Main2 L_Explain L_Explain3 L_Explain4 L_Giveup P_Kernel P_Main P_Program.
Import ListNotations.
Open Scope Z_scope.
Open Scope list_scope.

(** ** The run *)

(** [main_saying] is [main] with the messages: it does the same, ends in the same way, and says
    more only at the end. *)
Theorem C109_same_run : forall o m g h r, main m g [] = (h, r) -> exists lines s, says g lines s /\ main_saying o m g [] = (h ++ s, r).
Proof.
  intros o m g h r E. destruct (main_same o m g []) as (lines & S). rewrite E in S. cbn [fst snd] in S.
  exists lines, (told (silence g) lines). split; [apply told_says|exact S].
Qed.
Print Assumptions C109_same_run.

(** A run that ends without success has one of the reasons, and says so (unless silent); or a
    command that it runs failed. *)
Theorem C109_says : forall o m g h r, frank m -> In (g_format g) [$"text"; $"json"; $"html"] ->
  main_saying o m g [] = (h, r) -> (exists c, c <> 0 /\ r = Ok c) \/ (exists c, r = Exit c) ->
  (exists h0 f lines s, because o m g h0 f r lines /\ says g lines s /\ h = h0 ++ s) \/ exists c, r = Exit c /\ gave_up m c.
Proof.
  intros o m g h r F Fm E D. pose proof (main_accounted o m g F) as A. unfold post in A. rewrite E in A. cbn [fst snd] in A.
  assert (explained o m g h r) as [(h0 & f & lines & B & ->)|G].
  { destruct D as [(c & N & ->)|(c & ->)]; cbn [accounted] in A; [exact (A N)|]. destruct A as [A|A]; [exact A|contradiction]. }
  - left. exists h0, f, lines, (told (silence g) lines). split; [exact B|]. split; [apply told_says|reflexivity].
  - right. exact G.
Qed.
Print Assumptions C109_says.

(** The messages tell the reasons apart, and only an empty result has none. *)
Theorem C109_distinct : forall o m g h f r o' m' g' h' f' r' lines,
  because o m g h f r lines -> because o' m' g' h' f' r' lines -> f = f' /\ r = r' /\ (lines = [] <-> f = NothingFound).
Proof.
  intros o m g h f r o' m' g' h' f' r' lines B B'. pose proof (because_kind _ _ _ _ _ _ _ B) as K. pose proof (because_kind _ _ _ _ _ _ _ B') as K'.
  assert (f = f') as <- by congruence. split; [reflexivity|].
  rewrite (because_fails _ _ _ _ _ _ _ B), (because_fails _ _ _ _ _ _ _ B'). split; [reflexivity|].
  split; [intros ->; exact (eq_sym K)|]. intros ->. clear - B. inversion B. reflexivity.
Qed.
Print Assumptions C109_distinct.

(** The hypothesis holds for the computers of C103. *)
Theorem C109_frank : forall c g, frank (M_Program.machine_of c g).
Proof. exact computer_frank. Qed.
Print Assumptions C109_frank.

(** ** Extracting *)

(** [extract_telling] is [extract_syscalls] with its critical messages. *)
Theorem C109_same_result : forall t a e v kdir, extract_syscalls t a e v kdir = (x <- extract_telling t a e v kdir ;; Ok (fst x)).
Proof. exact extract_same. Qed.
Print Assumptions C109_same_result.

(** A critical message is logged only if nothing can be extracted, and tells the reason; if nothing is
    found without one, then all of the table is not implemented, of another ABI, a dummy or
    located in kernel/sys_ni.c. *)
Theorem C109_giving_up : forall t k ver abi b a e v kdir r lines,
  arch_new k ver abi b = Ok a -> loaded e -> (forall l, Permutation (v_ni_order t l) l) -> annotates (v_annotate t) ->
  extract_telling t a e v kdir = Ok (r, lines) ->
  (lines <> [] -> r = [] /\ hopeless t a e lines) /\ (r = [] -> lines = [] -> all_dropped t k ver abi b a e kdir).
Proof.
  intros t k ver abi b a e v kdir r lines A L P An E. split.
  - intros N. destruct (extract_reason t a e v kdir r lines L P E) as [(_ & H)|(H & _)]; [exact H|contradiction].
  - intros -> ->. exact (silent_empty t k ver abi b a e v kdir A L P An E).
Qed.
Print Assumptions C109_giving_up.

(** ** Failures without a reason *)

(** With -q nothing is said at all. *)
Theorem C109_quiet_refuted : exists o m g, frank m /\ g_quiet g = 1 /\ main_saying o m g [] = ([], Ok 127).
Proof.
  exists (Voice $"systrack" (fun _ _ => [])),
    (Machine (fun _ _ => Ok tt) (fun _ _ => false) (fun _ _ => false) (fun _ _ => true) (fun _ _ => true) (fun _ _ => false)
      (fun _ _ => Ok []) (fun _ _ => Ok ex_image) (fun _ => Ok (Some [5;10;0])) (fun _ _ => Ok tt) (fun _ _ => Ok tt)
      (fun _ _ _ => Ok (75, 1)) (fun _ _ _ _ => Ok ex_found) $"0.5"),
    (ex_args (Some $"vmlinux") None None None false false false $"text" 1 0).
  split; [split; intros; discriminate|]. split; [reflexivity|]. vm_compute. reflexivity.
Qed.
Print Assumptions C109_quiet_refuted.

(** A run that finds nothing because all was located in kernel/sys_ni.c fails without a reason:
    nothing critical is logged, and main says the version only. *)
Definition at_sys_ni (s : syscall) : syscall :=
  Syscall (sc_index s) (sc_number s) (sc_name s) (sc_origname s) (sc_symbol s) (sc_kconfig s) (Some (path_of_str $"/k/kernel/sys_ni.c")) (Some 10)
    (sc_signature s) (sc_esoteric s) false (sc_grepped s).
Definition ex_ni_env : env := Env (fun _ _ _ => []) (fun _ _ => false) (fun l => l) (fun l => l) (fun l => Ok (map at_sys_ni l)).
Theorem C109_empty_refuted : exists t a e v o m g, (forall l, Permutation (v_ni_order t l) l) /\ annotates (v_annotate t) /\ loaded e /\ frank m /\
  g_quiet g = 0 /\ (forall h, mc_syscalls m h a e v = extract_syscalls t a e v None) /\ extract_telling t a e v None = Ok ([], []) /\
  main_saying o m g [] = ([Said $"Detected kernel version: 5.10.3 (from vmlinux)"], Ok 1).
Proof.
  exists ex_ni_env, ex_pc_arch, ex_pc_e, [5;10;3], (Voice $"systrack" (fun _ _ => [])),
    (Machine (fun _ _ => Ok tt) (fun _ _ => false) (fun _ _ => false) (fun _ _ => true) (fun _ _ => true) (fun _ _ => true)
      (fun _ _ => Ok []) (fun _ _ => Ok ex_pc_e) (fun _ => Ok (Some [5;10;0])) (fun _ _ => Ok tt) (fun _ _ => Ok tt)
      (fun _ _ _ => Ok (75, 1)) (fun _ a e v => extract_syscalls ex_ni_env a e v None) $"0.5"),
    (ex_args (Some $"vmlinux") None (Some $"x86-64") None false false false $"text" 0 0).
  split; [intros l; apply Permutation_refl|].
  split. { intros l r E. cbn in E. injection E as <-. induction l; constructor; [repeat split|exact IHl]. }
  split; [exists ex_pc_file, ex_sections, (unlines ex_pc_lines); exact ex_pc_open|].
  split; [split; intros; discriminate|]. split; [reflexivity|]. split; [reflexivity|]. split; [vm_compute; reflexivity|].
  vm_compute. reflexivity.
Qed.
Print Assumptions C109_empty_refuted.

(** ** Examples *)

Definition ex_voice : voice := Voice $"systrack" (fun _ _ => $"[Errno 13] Permission denied: '/out'").
Definition ex_says (m : machine) (g : args) : list str * outcome Z :=
  let '(h, r) := main_saying ex_voice m g [] in (flat_map (fun x => match x with Said l => [l] | _ => [] end) h, r).
(** A machine without cross compiler, whose image supports two ABIs. *)
Definition ex_poor : machine :=
  let e := Elf (M_Elf.e_file ex_image) false false 62 0 (e_sections ex_image)
             (e_symbols ex_image ++ [($"ia32_sys_call_table", Symbol 8192 8192 8 $"OBJECT" $"ia32_sys_call_table")]) [] in
  Machine (fun _ _ => Ok tt) (fun _ _ => true) (fun _ _ => false) (fun _ _ => false) (fun _ _ => true) (fun _ x => str_eqb x $"readelf")
    (fun _ _ => Ok []) (fun _ _ => Ok e) (fun _ => Ok None) (fun _ _ => Ok tt) (fun _ _ => Ok tt)
    (fun _ _ _ => Ok (75, 1)) (fun _ _ _ _ => Ok ex_found) $"0.5".
Example C109_ex_frank : frank ex_poor.
Proof. split; intros; discriminate. Qed.
Example C109_ex_abis : ex_says ex_poor (ex_args (Some $"vmlinux") None None None false false false $"text" 0 0) =
  ([$"Detected architecture: x86"; $"Detected ABIs: x64, ia32"; $"This kernel was built with support for multiple syscall ABIs.";
    $"Select one using --arch NAME (see --arch HELP for more info)."], Exit 1).
Proof. vm_compute. reflexivity. Qed.
Definition ex_prep (out : option str) (cross : option str) : args :=
  Args None (Some $"linux") (Some $"arm64") false true false cross out $"text" false None None false 0 0.
Example C109_ex_out : ex_says ex_poor (ex_prep (Some $"/out") None) =
  ([$"Output directory " ++ quoted $"/out" ++ $" already exists and is not a directory"], Ok 1).
Proof. vm_compute. reflexivity. Qed.
Example C109_ex_gcc : ex_says ex_poor (ex_prep None (Some $"aarch64-linux-gnu-")) =
  ([$"Command " ++ quoted $"aarch64-linux-gnu-gcc" ++ $" not found"; $"Make sure your cross-compilation toolchain is in $PATH"], Ok 127).
Proof. vm_compute. reflexivity. Qed.
Example C109_ex_other : ex_says ex_poor (ex_args (Some $"vmlinux") None (Some $"Arm64") None false false false $"text" 0 0) =
  ([$"Architecture arm64 does not match provided vmlinux"; $"See 'systrack --arch help' for more information"], Exit 1).
Proof. vm_compute. reflexivity. Qed.
Example C109_ex_because : because ex_voice ex_poor (ex_prep None (Some $"aarch64-linux-gnu-")) [] NoCompiler (Ok 127)
  [$"Command " ++ quoted $"aarch64-linux-gnu-gcc" ++ $" not found"; $"Make sure your cross-compilation toolchain is in $PATH"].
Proof. apply bc_gcc; [now right; left|reflexivity]. Qed.
Example C109_ex_gave_up : exists m h, frank m /\ gave_up m 1 /\
  main_saying ex_voice m (ex_args (Some $"vmlinux") (Some $"linux") None (Some $"v9") false false false $"text" 0 0) [] = (h, Exit 1).
Proof.
  exists (Machine (fun _ _ => Exit 1) (fun _ _ => false) (fun _ _ => false) (fun _ _ => true) (fun _ _ => true) (fun _ _ => true)
    (fun _ _ => Ok []) (fun _ _ => Ok ex_image) (fun _ => Ok None) (fun _ _ => Ok tt) (fun _ _ => Ok tt)
    (fun _ _ _ => Ok (75, 1)) (fun _ _ _ _ => Ok ex_found) $"0.5").
  eexists. split; [split; intros; discriminate|]. split; [now apply (gu_checkout _ _ [] [])|]. vm_compute. reflexivity.
Qed.

(** The table is not found; its first entry is no address of code; no function is a "not implemented" one. *)
Definition ex_tells (table : list Z) (lines : list str) : option (list str) :=
  match ex_open table lines with
  | Ok e => match extract_telling ex_env ex_a e [5;10] None with Ok ([], l) => Some l | _ => None end
  | _ => None
  end.
Example C109_ex_giving_up :
  ex_tells ex_table [ex_line "0000000000001000" "16" "FUNC" "sys_ni_syscall"] =
    Some [$"Unable to find sys_call_table symbol!"; $"Unable to extract any syscall vaddr, giving up!"] /\
  ex_tells [0; 4112; 4096] ex_lines =
    Some [$"Could not extract any valid function pointer from sys_call_table, giving up!";
          $"Is the kernel relocatable? Relocation entries for the syscall table are not supported.";
          $"Unable to extract any syscall vaddr, giving up!"] /\
  ex_tells ex_table [ex_line "0000000000002000" "0" "OBJECT" "sys_call_table"; ex_line "0000000000001010" "16" "FUNC" "__x64_sys_read"] =
    Some [$"No ni_syscall found!"] /\
  (exists r, extract_telling ex_env ex_a ex_e [5;10] None = Ok (r, []) /\ List.length r = 2%nat) /\
  arch_new KX86 [5;10] $"x64" false = Ok ex_a /\ loaded ex_e /\ annotates (v_annotate ex_env).
Proof.
  do 3 (split; [vm_compute; reflexivity|]). split; [eexists; split; vm_compute; reflexivity|].
  split; [exact ex_arch_ok|]. split; [exact ex_loaded|exact ex_annotates].
Qed.
