(** Property C103: the program on a computer. *)
From Coq Require Import List Bool Ascii String ZArith Lia Permutation.
From Verif Require Import PyBase PyFacts M_Utils M_Elf M_Syscall M_Arch M_Emu M_Kernel M_Location M_Annotate M_Search M_Config M_Command M_Output M_Json M_Main M_Args M_Program
  S_Utils S_Dummy S_Elf S_Emu S_Kernel S_Location S_Search S_Declared S_Output S_Json S_Main S_Args S_Whole S_Blind S_Program
  L_Kernel L_Kernel4 L_Location L_Search2 L_Args7 L_Program L_Program2 L_Program3 P_Kernel P_Emu P_Declared P_Whole.
Import ListNotations.
Open Scope Z_scope.
Open Scope list_scope.

(** What an output captured from a program is, and what an image read is. *)
Theorem C103_captured : forall c h cmd cwd out, capture c h cmd cwd = Ok out <-> prints c h cmd cwd out.
Proof. exact capture_prints. Qed.
Print Assumptions C103_captured.
Theorem C103_image : forall c h p e, open_elf c h p = Ok e <-> image_read c h p e.
Proof. exact open_elf_read. Qed.
Print Assumptions C103_image.

(** What the program takes for existing, for a directory and for a file. *)
Theorem C103_files : forall c g h p,
  (mc_exists (machine_of c g) h p = true <-> exists n, pc_look c h p = Some n) /\
  (mc_is_dir (machine_of c g) h p = true <-> exists entries, pc_look c h p = Some (NDir entries)) /\
  (mc_is_file (machine_of c g) h p = true <-> exists content, S_Program.file_at c h p = Some content).
Proof.
  intros c g h p. unfold S_Program.file_at. cbn [machine_of mc_exists mc_is_dir mc_is_file].
  destruct (pc_look c h p) as [[content|entries|]|]; (split; [|split]); (split; [intros H; try discriminate H; eauto|intros [x H]; try discriminate H; reflexivity]).
Qed.
Print Assumptions C103_files.

(** A successful run prints one document, last.  Read back, it holds the keys documented in the README
    for the kernel of the image that was asked for, and an object for each of the syscalls, none twice;
    each is an entry of the table in the file, with the place and the parameters that the sources have
    for it.  No entry of the table is missing without excuse. *)
Theorem C103_result : forall c argv g h, asks argv g -> g_format g = $"json" -> ~ preparing g -> (forall n, g_arch g = Some n -> ~ asks_help n) ->
  regular c -> on_computer c argv [] = (h, Ok 0) ->
  exists p e a v tag scs shown doc j objects h0 h1 h2,
    S_Main.image_of g p /\ image_read c h0 p e /\ version_from_vmlinux e = Ok (Some v) /\ version_tag v = Ok tag /\
    h = h1 ++ h2 ++ [Printed (JsonDoc doc)] /\ json_read (dumps 0 doc) = Some j /\
    (forall ks x, (at_key ks j x /\ forall d, x <> JObj d) <-> S_Output.documented (pc_version c) tag $"vmlinux" (adjust_abi a e) objects ks x) /\
    Forall2 (fun s o => exists d d', object_of s d /\ Permutation d d' /\ o = JObj d') shown objects /\
    Forall2 (shown_as g) scs shown /\ scs <> [] /\
    NoDup (map sc_number (filter of_table scs)) /\ Forall (founded c h1 e a (adjust_abi a e)) scs /\ complete c g e a (adjust_abi a e) scs.
Proof. exact (fun c argv g h A => program_result c argv g h (proj2 (L_Args7.accepts argv g) A)). Qed.
Print Assumptions C103_result.

(** A run without an error, on an image with a table or a dispatcher and, if a directory is given, with
    its sources: the status is 0, or 1 if nothing is found.  The exception (C79) is the format html
    if no parameters are known. *)
Theorem C103_succeeds : forall c argv g p e a v, asks argv g -> g_format g = $"text" \/ (g_format g = $"json" \/ g_format g = $"html") /\ List.length v = 3%nat ->
  (forall n, g_arch g = Some n -> known_arch n) -> ~ preparing g -> ~ present (g_checkout g) -> S_Main.image_of g p -> version_from_vmlinux e = Ok (Some v) ->
  kernel_init (option_map lower (g_arch g)) (Some e) (match path_arg (g_kdir g) with Some _ => true | None => false end) (Ok v) = Ok a ->
  regular c -> image_fine c (adjust_abi a e) e v ->
  (forall h, Forall is_said h -> prepared c g p e (adjust_abi a e) h) ->
  exists h, Forall is_said h /\
    ((on_computer c argv [] = (h, Ok 1) /\ barren c g e a (adjust_abi a e)) \/
     (exists d, on_computer c argv [] = (h ++ [Printed d], Ok 0)) \/
     (g_format g = $"html" /\ on_computer c argv [] = (h, Raise ValueError) /\ exists h1 scs, scs <> [] /\
        Forall (founded c h1 e a (adjust_abi a e)) scs /\ complete c g e a (adjust_abi a e) scs /\ Forall (fun s => sc_signature s = None) scs)).
Proof. exact (fun c argv g p e a v A => program_succeeds c argv g p e a v (proj2 (L_Args7.accepts argv g) A)). Qed.
Print Assumptions C103_succeeds.

(** ** A computer with an image, its source, readelf and addr2line, and no ripgrep *)

Definition ex_pc_file : bytes := ex_header ++ ex_code ++ ex_words [4112; 4096; 0] ++ $"Linux version 5.10.3 (gcc)" ++ [chr 0].
Definition ex_pc_lines : list str :=
  [ex_line "0000000000002000" "0" "OBJECT" "sys_call_table"; ex_line "0000000000001000" "16" "FUNC" "sys_ni_syscall";
   ex_line "0000000000001010" "16" "FUNC" "stub_fork"; ex_line "0000000000002018" "0" "OBJECT" "linux_banner"].
Definition ex_pc_e : elf := from_ok (elf_open ex_pc_file ex_sections (unlines ex_pc_lines)) ex_e.
Definition ex_pc_entries : list (str * node) :=
  [($"arch", NDir [($"x86", NDir []); ($"arm", NDir [])]); ($"kernel", NDir [($"fork.c", NFile ex_fork_c)])].
Definition ex_pc_root : node := NDir [($"b", NDir [($"vmlinux", NFile ex_pc_file)]); ($"k", NDir ex_pc_entries)].
Fixpoint walk (n : node) (ps : list str) : option node :=
  match ps, n with
  | [], _ => Some n
  | p :: ps, NDir l => match find (fun x => str_eqb (fst x) p) l with Some x => walk (snd x) ps | None => None end
  | _, _ => None
  end.
Definition unhex (s : str) : Z := match s with "-"%char :: _ => -1 | _ => int_hex (skipn 2 s) end.
Definition ex_pc_run (cmd : M_Command.command) : option (Z * str * str) :=
  match cmd with
  | Argv [prog; flag; f] =>
      if str_eqb prog $"readelf" && str_eqb f $"/b/vmlinux"
      then Some (0, if str_eqb flag $"-WS" then ex_sections else unlines ex_pc_lines, []) else None
  | Argv (prog :: _ :: _ :: addrs) =>
      if str_eqb prog $"addr2line" then Some (0, unlines (map (fun x => answer_text (ex_fork_ans (unhex x))) addrs), []) else None
  | _ => None
  end.
Definition ex_pc : computer :=
  Computer (fun _ p => if str_eqb (root p) $"/" then walk ex_pc_root (parts p) else None) (fun _ p => p)
    (fun _ x => negb (str_eqb x $"rg")) (fun _ _ _ => true) (fun _ cmd _ => ex_pc_run cmd)
    (fun _ _ _ => []) same_kind (fun l => l) (fun l => l) (fun _ _ => true) (fun _ _ => Ok tt) (fun _ _ => Ok tt) (fun _ _ _ => Ok (0, 0)) $"0.7".
Definition ex_pc_argv : list str := [$"--arch"; $"x86-64"; $"--kdir"; $"/k"; $"--format"; $"json"; $"/b/vmlinux"].
Definition ex_pc_shown (r : list action * outcome Z) : option (list (str * option str * option Z)) :=
  match r with
  | (h, Ok 0) => match rev h with
                 | Printed (JsonDoc (JObj d)) :: _ => match dget str_eqb $"syscalls" d with Some (JList l) => Some (map (fun o => match o with JObj d =>
        (match dget str_eqb $"name" d with Some (JStr n) => n | _ => [] end,
         match dget str_eqb $"file" d with Some (JStr n) => Some n | _ => None end,
         match dget str_eqb $"line" d with Some (JInt n) => Some n | _ => None end) | _ => ([], None, None) end) l) | _ => None end
                 | _ => None end
  | _ => None
  end.
Example C103_example_runs : ex_pc_shown (on_computer ex_pc ex_pc_argv []) = Some [($"fork", Some $"kernel/fork.c", Some 3)].
Proof. vm_compute. reflexivity. Qed.

(** It meets the hypotheses. *)
Example C103_example_regular : regular ex_pc.
Proof. split; [reflexivity|]. split; [reflexivity|]. split; [|exact same_kind_kind]. intros i. cbn. unfold same_kind. now destruct (ikind_eq_dec _ _). Qed.
Definition ex_pc_g : args := match parse_args ex_pc_argv with inr g => g | inl _ => namespace0 end.
Definition ex_pc_arch : arch := from_ok (arch_new KX86 [5;10;3] $"x64" false) ex_a.
Definition ex_pc_b : arch := adjust_abi ex_pc_arch ex_pc_e.
Lemma ex_pc_open : elf_open ex_pc_file ex_sections (unlines ex_pc_lines) = Ok ex_pc_e.
Proof. vm_compute. reflexivity. Qed.
Example C103_example_asked : asks ex_pc_argv ex_pc_g /\ g_format ex_pc_g = $"json" /\ (forall n, g_arch ex_pc_g = Some n -> known_arch n) /\
  ~ preparing ex_pc_g /\ ~ present (g_checkout ex_pc_g) /\ S_Main.image_of ex_pc_g (path_of_str $"/b/vmlinux") /\
  version_from_vmlinux ex_pc_e = Ok (Some [5;10;3]) /\ kernel_init (option_map lower (g_arch ex_pc_g)) (Some ex_pc_e) true (Ok [5;10;3]) = Ok ex_pc_arch.
Proof.
  split; [apply L_Args7.accepts; vm_compute; reflexivity|]. split; [vm_compute; reflexivity|].
  split. { intros n E. vm_compute in E. injection E as <-. apply L_Main.known_lower. vm_compute. reflexivity. }
  split. { intros [H|[H|H]]; vm_compute in H; discriminate. }
  split. { intros (s & E & _). vm_compute in E. discriminate. }
  split. { apply im_given; [vm_compute; reflexivity|discriminate]. }
  split; vm_compute; reflexivity.
Qed.
Example C103_example_image : image_fine ex_pc ex_pc_b ex_pc_e [5;10;3].
Proof.
  assert (has_symbol ex_pc_e 4112) as H1.
  { exists (Symbol 4112 4112 16 $"FUNC" $"stub_fork"). split; [vm_compute; auto 10|reflexivity]. }
  assert (forall v f, ni_at ex_pc_e v f -> f = Symbol 4096 4096 16 $"FUNC" $"sys_ni_syscall") as Ni.
  { intros v f N. assert (ni_at ex_pc_e (sym_vaddr f) f) as N' by (destruct N as (N1 & N2 & N3 & N4); split; [exact N1|split; [exact N2|split; [exact N3|reflexivity]]]).
    apply ni_functions_iff in N'. vm_compute in N'. destruct N' as [<-|[]]. reflexivity. }
  apply (image_table _ _ _ _ $"sys_call_table" [4112; 4096]).
  - vm_compute. reflexivity.
  - apply (table_no_descriptors _ _ _ (Symbol 8192 8192 0 $"OBJECT" $"sys_call_table") (Section_ $".text" 4096 64 64)); [vm_compute; reflexivity|vm_compute; reflexivity|vm_compute; reflexivity|].
    right. split; [vm_compute; discriminate|]. apply C20_unsized_table; [|vm_compute; discriminate|vm_compute; reflexivity].
    eexists _, _, _. exact ex_pc_open.
  - constructor; [| |intros; exfalso; match goal with H : a_class _ = _ |- _ => vm_compute in H; discriminate H end|intros; exfalso; match goal with H : a_class _ = _ |- _ => vm_compute in H; discriminate H end].
    + intros v f N. rewrite (Ni v f N). eexists _, _. split; vm_compute; reflexivity.
    + intros v s J (I & E). split; [|discriminate]. destruct J as [<-|[<-|[]]]; vm_compute in I; 
      repeat destruct I as [<-|I]; try contradiction; try discriminate E; [exists (firstn 16 (skipn 80 (M_Elf.e_file ex_pc_e)))|exists (firstn 16 (skipn 64 (M_Elf.e_file ex_pc_e)))];
        (split; [eexists _, _; split; vm_compute; reflexivity|vm_compute; reflexivity]).
  - exists 4112. split; [now left|]. split; [exact H1|]. intros (f & F). pose proof (Ni _ _ F) as ->. destruct F as (_ & _ & _ & V). discriminate.
  - intros v' [<-|[<-|[]]]; [now left|]. left. exists (Symbol 4096 4096 16 $"FUNC" $"sys_ni_syscall"). split; [vm_compute; auto 10|reflexivity].
  - left. vm_compute. reflexivity.
  - intros found H. vm_compute in H. injection H as <-. split; [|discriminate]. constructor; [|constructor]. apply L_Location2.word_fit. split; (split; [discriminate|reflexivity]).
Qed.
Lemma unhex_hex v : unhex (hex v) = if v <? 0 then -1 else v.
Proof. unfold hex. destruct (Z.ltb_spec v 0) as [H|H]; [reflexivity|]. cbn [unhex app]. change (int_hex (digits 16 v) = v). now apply int_hex_digits. Qed.
Definition ex_pc_line : str := $"kernel/fork.c:3:" ++ ex_fork_l1.
Lemma ex_pc_file_at h f content : S_Program.file_at ex_pc h f = Some content -> f = ex_fork_f -> content = ex_fork_c.
Proof. intros H ->. vm_compute in H. injection H as <-. reflexivity. Qed.
Example C103_example_prepared : forall h, prepared ex_pc ex_pc_g (path_of_str $"/b/vmlinux") ex_pc_e ex_pc_b h.
Proof.
  intros h. apply (prepared_sources _ _ _ _ _ _ (path_of_str $"/k") None).
  - reflexivity.
  - exists ex_pc_file, ex_sections, (unlines ex_pc_lines). split; [reflexivity|]. split; [|split; [|exact ex_pc_open]]; (split; [discriminate|]; split; [reflexivity|]; exists []; reflexivity).
  - exists $"/k". split; [vm_compute; reflexivity|]. split; [discriminate|reflexivity].
  - apply rm_none. intros (s & E & _). vm_compute in E. discriminate.
  - assert (tree_ok (NDir ex_pc_entries)) as T by (repeat constructor; cbn; intuition discriminate).
    assert (python_search ex_pc_b (NDir ex_pc_entries) = Ok [ex_pc_line]) as Ps by (vm_compute; reflexivity).
    assert (forall rel content, S_Search.file_at (NDir ex_pc_entries) rel content -> rel = [$"kernel"; $"fork.c"] /\ content = ex_fork_c) as Fa.
    { intros rel content H. inversion H as [|es name m r' c' I Fb]; subst. repeat destruct I as [I|I]; try contradiction; injection I as <- <-.
      - inversion Fb as [|es name m r2 c2 I Fc]; subst. repeat destruct I as [I|I]; try contradiction; injection I as <- <-; inversion Fc as [|? ? ? ? ? I]; destruct I.
      - inversion Fb as [|es name m r2 c2 I Fc]; subst. destruct I as [I|[]]; injection I as <- <-. inversion Fc; subst. auto. }
    apply (sources_ _ _ _ _ _ _ _ ex_fork_ans (path_of_str $"/b") [ex_pc_line]).
    + now exists $"vmlinux".
    + destruct C97_example_says as ((O & _) & _). split; [exact O|]. intros addrs N. split; [discriminate|]. split; [reflexivity|]. exists [].
      assert (forall l, map (fun x => answer_text (ex_fork_ans (unhex x))) (map hex l) = map (fun v => answer_text (ex_fork_ans v)) l) as E.
      { intros l. rewrite map_map. apply map_ext. intros v. rewrite unhex_hex. destruct (Z.ltb_spec v 0); [|reflexivity]. unfold ex_fork_ans. destruct (Z.eqb_spec v 4112); [lia|reflexivity]. }
      transitivity (Some (0, unlines (map (fun x => answer_text (ex_fork_ans (unhex x))) (map hex addrs)), @nil ascii)); [|now rewrite E].
      destruct addrs as [|x addrs]; [congruence|]. reflexivity.
    + apply (se_own _ _ _ _ _ ex_pc_entries [($"x86", NDir []); ($"arm", NDir [])]); [reflexivity|reflexivity|exact T| |now left| |].
      * intros rel content H. apply Fa in H as (-> & _). repeat constructor; try discriminate; cbn; intuition discriminate.
      * intros rel content H. apply Fa in H as (-> & ->). reflexivity.
      * intros line. apply (search_all ex_pc_b (NDir ex_pc_entries) [ex_pc_line] T Ps line).
    + intros v f n content ls P W L. apply ex_fork_places in P as (-> & -> & E). rewrite (ex_pc_file_at h f content W (E eq_refl)) in L. rewrite <- (lines_of_keep _ _ L). vm_compute. discriminate.
    + intros f l content text name R W _ _ _. assert (f = ex_fork_f /\ l = 3) as (-> & ->); [|exists [$"int flags"; $"char *p"]; rewrite (ex_pc_file_at h _ content W eq_refl); exact C97_example_declares].
      destruct R as [v n c ls P W' L A|line [<-|[]] G].
      * apply ex_fork_places in P as (-> & -> & E). rewrite (E eq_refl) in *. split; [reflexivity|]. rewrite (ex_pc_file_at h _ c W' eq_refl) in *.
        assert (w_file ex_fork_w ex_fork_f = Some ex_fork_c) as W2 by reflexivity.
        pose proof (adjust_line_spec ex_fork_w ex_fork_f ex_fork_c ls 6 W2 L) as X. rewrite <- (lines_of_keep _ _ L) in X, A. specialize (X ltac:(vm_compute; discriminate) l). apply X in A.
        vm_compute in A. now injection A as <-.
      * change ex_pc_line with (S_Search.report [$"kernel"; $"fork.c"] 3 ex_fork_l1) in G. apply report_place in G as (-> & ->); [auto| |discriminate|lia].
        repeat constructor; try discriminate; cbn; intuition discriminate.
    + intros s I. split.
      * intros v f n B P _. apply ex_fork_places in P as (-> & _). exfalso. vm_compute in I. repeat destruct I as [<-|I]; cbn in B; lia || contradiction.
      * vm_compute in I. repeat destruct I as [<-|I]; try contradiction; unfold no_inner; cbn; discriminate.
Qed.

(** ** A computer with an image that has a dispatcher *)

Definition ex_px_prog : list insn :=
  [Insn 4128 4134 (ITest [OReg 1; OReg 1]); Insn 4134 4140 (IJcc CE 4112); Insn 4140 4144 (IJmp 4096)].
Definition ex_px_file : bytes := ex_header ++ ex_code ++ $"Linux version 6.10.0 (gcc)" ++ [chr 0].
Definition ex_px_lines : list str :=
  [ex_line "0000000000001000" "16" "FUNC" "sys_ni_syscall"; ex_line "0000000000001010" "16" "FUNC" "__x64_sys_fork";
   ex_line "0000000000001020" "16" "FUNC" "x64_sys_call"; ex_line "0000000000002000" "0" "OBJECT" "linux_banner"].
Definition ex_px_e : elf := from_ok (elf_open ex_px_file ex_sections (unlines ex_px_lines)) ex_e.
Definition ex_px_run (cmd : M_Command.command) : option (Z * str * str) :=
  match cmd with
  | Argv [prog; flag; f] =>
      if str_eqb prog $"readelf" && str_eqb f $"/b/vmlinux"
      then Some (0, if str_eqb flag $"-WS" then ex_sections else unlines ex_px_lines, []) else None
  | Argv (prog :: _ :: _ :: addrs) =>
      if str_eqb prog $"addr2line" then Some (0, unlines (map (fun _ => answer_text Nowhere) addrs), []) else None
  | _ => None
  end.
Definition ex_px : computer :=
  Computer (fun _ p => if str_eqb (root p) $"/" then walk (NDir [($"b", NDir [($"vmlinux", NFile ex_px_file)])]) (parts p) else None) (fun _ p => p)
    (fun _ x => negb (str_eqb x $"rg")) (fun _ _ _ => true) (fun _ cmd _ => ex_px_run cmd)
    (fun _ _ _ => ex_px_prog) same_kind (fun l => l) (fun l => l) (fun _ _ => true) (fun _ _ => Ok tt) (fun _ _ => Ok tt) (fun _ _ _ => Ok (0, 0)) $"0.7".
Definition ex_px_argv : list str := [$"--arch"; $"x86-64"; $"--format"; $"json"; $"/b/vmlinux"].
Example C103_code_runs : ex_pc_shown (on_computer ex_px ex_px_argv []) = Some [($"__x64_sys_fork", None, None)].
Proof. vm_compute. reflexivity. Qed.

Definition ex_px_arch : arch := from_ok (arch_new KX86 [6;10;0] $"x64" false) ex_a.
Definition ex_px_b : arch := adjust_abi ex_px_arch ex_px_e.
Lemma ex_px_open : elf_open ex_px_file ex_sections (unlines ex_px_lines) = Ok ex_px_e.
Proof. vm_compute. reflexivity. Qed.
Lemma ex_px_dispatcher : dispatcher 1 4128 4144 ex_px_prog.
Proof.
  unfold ex_px_prog. split.
  - repeat match goal with |- code_from _ (?i :: _) _ => apply (cf_cons i); [cbn; lia|cbn [i_next]] end. apply cf_nil.
  - repeat constructor; unfold supported; cbn; eauto; discriminate.
  - intros pre j post E (c & t & K). destruct pre as [|x pre]; [injection E as <- <-; discriminate K|]. injection E as <- E.
    destruct pre as [|y pre]; [|injection E as <- E; destruct pre as [|z pre]; [injection E as <- <-; discriminate K|injection E as _ E; destruct pre; discriminate]].
    injection E as <- <-. eexists [], _, []. split; [reflexivity|]. split; [exact I|]. split; [constructor|].
    intros k i [<-|[]] Ii B. cbn [i_ip] in B. repeat destruct Ii as [<-|Ii]; destruct B as [B|[B|(c' & B)]]; cbn in B; discriminate || contradiction.
  - eexists. split; [now left|exact I].
  - intros a i j b E (ops & K). destruct a as [|x a]; [injection E as <- <- <-; exists 4112; now left|]. injection E as _ E. destruct a as [|y a]; [injection E as <- _ _; discriminate K|].
    injection E as _ E. destruct a as [|z [|? a]]; discriminate.
Qed.
Example C103_code_dispatches : dispatches ex_px ex_px_b ex_px_e 4128 4144 ex_px_prog.
Proof.
  apply (dispatches_ _ _ _ _ _ _ (Symbol 4128 4128 16 $"FUNC" $"x64_sys_call") 1 (repeat (chr 2) 16)); try (vm_compute; reflexivity); [vm_compute; discriminate| |exact ex_px_dispatcher].
  eexists _, _. split; vm_compute; reflexivity.
Qed.
Example C103_code_regular : regular ex_px.
Proof. split; [reflexivity|]. split; [reflexivity|]. split; [|exact same_kind_kind]. intros i. cbn. unfold same_kind. now destruct (ikind_eq_dec _ _). Qed.
Lemma ex_px_leads n u : leads_to 4128 4144 ex_px_prog n u <-> n = 0 /\ u = 4112.
Proof.
  destruct (dispatched ex_px (match parse_args ex_px_argv with inr g => g | inl _ => namespace0 end) [] ex_px_arch ex_px_e _ _ _ C103_code_regular C103_code_dispatches)
    as (r & V & _ & I1 & I2 & _). vm_compute in V. injection V as <-. split.
  - intros L. apply I2 in L; [|discriminate]. destruct L as [[= <- <-]|[]]. auto.
  - intros (-> & ->). apply I1. now left.
Qed.
Example C103_code_image : image_fine ex_px ex_px_b ex_px_e [6;10;0].
Proof.
  assert (forall v f, ni_at ex_px_e v f -> f = Symbol 4096 4096 16 $"FUNC" $"sys_ni_syscall") as Ni.
  { intros v f N. assert (ni_at ex_px_e (sym_vaddr f) f) as N' by (destruct N as (N1 & N2 & N3 & N4); split; [exact N1|split; [exact N2|split; [exact N3|reflexivity]]]).
    apply ni_functions_iff in N'. vm_compute in N'. destruct N' as [<-|[]]. reflexivity. }
  assert (has_symbol ex_px_e 4112) as Hs.
  { exists (Symbol 4112 4112 16 $"FUNC" $"__x64_sys_fork"). split; [vm_compute; auto 10|reflexivity]. }
  apply (image_code _ _ _ _ 4128 4144 ex_px_prog).
  - exact C103_code_dispatches.
  - intros us Hu. constructor; [| |intros; exfalso; match goal with H : a_class _ = _ |- _ => vm_compute in H; discriminate H end|intros; exfalso; match goal with H : a_class _ = _ |- _ => vm_compute in H; discriminate H end].
    + intros v f N. rewrite (Ni v f N). eexists _, _. split; vm_compute; reflexivity.
    + intros v s J (I & E). apply Hu in J as (n & J). apply ex_px_leads in J as (-> & ->). split; [|intros X; vm_compute in X; discriminate X]. vm_compute in I.
      repeat destruct I as [<-|I]; try contradiction; try discriminate E. exists (firstn 16 (skipn 80 (M_Elf.e_file ex_px_e))). split; [eexists _, _; split; vm_compute; reflexivity|vm_compute; reflexivity].
  - exists 0, 4112. split; [now apply ex_px_leads|]. split; [exact Hs|]. intros (f & F). pose proof (Ni _ _ F) as ->. destruct F as (_ & _ & _ & V). discriminate.
  - intros n u L. apply ex_px_leads in L as (-> & ->). now left.
  - left. vm_compute. reflexivity.
  - intros vs found Nd Iv H. assert (vs = [(0, 4112)]) as ->.
    { assert (forall x, In x vs -> x = (0, 4112)) as A by (intros (n & u) I; apply Iv, ex_px_leads in I as (-> & ->); reflexivity).
      assert (In (0, 4112) vs) as B by (apply Iv, ex_px_leads; split; reflexivity). destruct vs as [|x vs]; [destruct B|]. rewrite (A x (or_introl eq_refl)) in *. f_equal. destruct vs as [|y vs]; [reflexivity|].
      exfalso. rewrite (A y (or_intror (or_introl eq_refl))) in Nd. cbn [map fst] in Nd. inversion Nd as [|? ? Q]. apply Q. now left. }
    vm_compute in H. injection H as <-. split; [|discriminate]. constructor; [|constructor]. apply L_Location2.word_fit. split; (split; [discriminate|reflexivity]).
Qed.
Example C103_code_prepared : forall h, prepared ex_px (match parse_args ex_px_argv with inr g => g | inl _ => namespace0 end) (path_of_str $"/b/vmlinux") ex_px_e ex_px_b h.
Proof.
  intros h. apply (prepared_image _ _ _ _ _ _ (fun _ => Nowhere)).
  - reflexivity.
  - exists ex_px_file, ex_sections, (unlines ex_px_lines). split; [reflexivity|]. split; [|split; [|exact ex_px_open]]; (split; [discriminate|]; split; [reflexivity|]; exists []; reflexivity).
  - intros (s & E & _). vm_compute in E. discriminate.
  - split; [intros v; exact I|]. intros addrs N. split; [discriminate|]. split; [reflexivity|]. exists [].
    transitivity (Some (0, unlines (map (fun _ => answer_text Nowhere) (map hex addrs)), @nil ascii)); [|now rewrite map_map]. destruct addrs as [|x addrs]; [congruence|]. reflexivity.
Qed.
