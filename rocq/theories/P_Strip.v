(** C116: symbols that have nothing to do with syscalls do not change the result. *)
From Coq Require Import List Bool Ascii String ZArith Lia.
From Verif Require Import PyBase PyFacts M_Utils M_Config M_Command M_Elf M_Syscall M_Arch M_Kernel M_Signature M_Location M_Annotate M_Search M_Main M_Args M_Program
  S_Arch S_Elf S_Kernel S_Args S_Strip L_Arch2 L_Strip P_Kernel P_Program.
From Verif Require L_Args7 L_Kernel4 P_Emu.
Import ListNotations.
Open Scope Z_scope.
Open Scope list_scope.

(** The architecture, the ABIs and the version are told by few symbols. *)
Theorem C116_image gone e : loaded e ->
  (forall s, In s (map snd (e_symbols e)) \/ In s (map snd (e_functions e)) -> gone s = true -> mute s) ->
  arch_from_vmlinux (stripped gone e) = arch_from_vmlinux e /\ version_from_vmlinux (stripped gone e) = version_from_vmlinux e /\
  read_metadata (stripped gone e) = read_metadata e /\
  forall n kdir v, (exists s, left_in gone e s) -> kernel_init n (Some (stripped gone e)) kdir v = kernel_init n (Some e) kdir v.
Proof.
  intros L M. pose proof (loaded_names e L) as BN. split; [now apply detect_same|]. split; [now apply banner_same|]. split; [now apply metadata_same|].
  intros. now apply init_same.
Qed.
Print Assumptions C116_image.

(** The syscalls of an image, with any search for locations and signatures *)
Theorem C116_syscalls t a gone e v kdir : loaded e ->
  all_needless gone e (a_table (adjust_abi a e)) (a_abi (adjust_abi a e) ++ $"_sys_call") (starts_syscall t a e) ->
  extract_syscalls t a (stripped gone e) v kdir = extract_syscalls t a e v kdir.
Proof. intros L. exact (extract_strip t a gone e v kdir (loaded_names e L)). Qed.
Print Assumptions C116_syscalls.

(** The whole program: what is done, said and printed, and the status *)
Theorem C116_program c g gone : strippable c g gone ->
  main (image_without gone (M_Program.machine_of c g)) g [] = main (M_Program.machine_of c g) g [].
Proof. exact (main_strip c g gone). Qed.
Print Assumptions C116_program.

(** ** An example: the computer of C103, where the image also has a function and a variable *)
Definition ex_st_lines : list str :=
  ex_line "0000000000001020" "16" "FUNC" "memcpy" :: ex_pc_lines ++ [ex_line "0000000000002800" "8" "OBJECT" "jiffies"].
Definition ex_st_run (cmd : M_Command.command) : option (Z * str * str) :=
  match cmd with
  | Argv [prog; flag; f] => if str_eqb prog $"readelf" && str_eqb flag $"-Ws" then Some (0, unlines ex_st_lines, []) else ex_pc_run cmd
  | _ => ex_pc_run cmd
  end.
Definition ex_st : computer :=
  Computer (fun _ p => if str_eqb (root p) $"/" then walk ex_pc_root (parts p) else None) (fun _ p => p)
    (fun _ x => negb (str_eqb x $"rg")) (fun _ _ _ => true) (fun _ cmd _ => ex_st_run cmd)
    (fun _ _ _ => []) P_Emu.same_kind (fun l => l) (fun l => l) (fun _ _ => true) (fun _ _ => Ok tt) (fun _ _ => Ok tt) (fun _ _ _ => Ok (0, 0)) $"0.7".
Definition ex_st_e : elf := from_ok (elf_open ex_pc_file ex_sections (unlines ex_st_lines)) ex_e.
Definition ex_gone (s : symbol) : bool := str_eqb (sym_name s) $"memcpy" || str_eqb (sym_name s) $"jiffies".
Example C116_example_runs : ex_pc_shown (main (M_Program.machine_of ex_st ex_pc_g) ex_pc_g []) = Some [($"fork", Some $"kernel/fork.c", Some 3)] /\
  map fst (e_symbols ex_st_e) = [$"memcpy"; $"sys_call_table"; $"sys_ni_syscall"; $"stub_fork"; $"linux_banner"; $"jiffies"] /\
  map fst (e_symbols (stripped ex_gone ex_st_e)) = [$"sys_call_table"; $"sys_ni_syscall"; $"stub_fork"; $"linux_banner"].
Proof. vm_compute. repeat split; reflexivity. Qed.
Lemma ex_st_open h e : open_elf ex_st h (image_path ex_pc_g) = Ok e -> e = ex_st_e.
Proof.
  assert (open_elf ex_st h (image_path ex_pc_g) = Ok ex_st_e) as -> by (vm_compute; reflexivity). congruence.
Qed.
Lemma ex_st_symbols : map snd (e_symbols ex_st_e) =
  [Symbol 4128 4128 16 $"FUNC" $"memcpy"; Symbol 8192 8192 0 $"OBJECT" $"sys_call_table"; Symbol 4096 4096 16 $"FUNC" $"sys_ni_syscall";
   Symbol 4112 4112 16 $"FUNC" $"stub_fork"; Symbol 8216 8216 0 $"OBJECT" $"linux_banner"; Symbol 10240 10240 8 $"OBJECT" $"jiffies"] /\
  forall s, In s (map snd (e_functions ex_st_e)) -> In s (map snd (e_symbols ex_st_e)).
Proof.
  split; [vm_compute; reflexivity|]. intros s I. assert (forallb (fun s => existsb (symbol_eqb s) (map snd (e_symbols ex_st_e))) (map snd (e_functions ex_st_e)) = true) as F by (vm_compute; reflexivity).
  rewrite forallb_forall in F. specialize (F s I). apply existsb_exists in F as (y & IY & E). apply L_Kernel4.symbol_eqb_eq in E as ->. exact IY.
Qed.
Lemma ex_st_gone s : In s (map snd (e_symbols ex_st_e)) \/ In s (map snd (e_functions ex_st_e)) -> ex_gone s = true ->
  s = Symbol 4128 4128 16 $"FUNC" $"memcpy" \/ s = Symbol 10240 10240 8 $"OBJECT" $"jiffies".
Proof.
  destruct ex_st_symbols as [E F]. intros [I|I] G; [|apply F in I]; rewrite E in I; repeat destruct I as [<-|I]; auto; try discriminate G; destruct I.
Qed.
Lemma ex_mute s : s = Symbol 4128 4128 16 $"FUNC" $"memcpy" \/ s = Symbol 10240 10240 8 $"OBJECT" $"jiffies" -> mute s.
Proof.
  intros [E|E]; subst s; (split; [intros H; cbn [sym_name telling_names In] in H; repeat destruct H as [H|H]; try discriminate H; destruct H|]);
    intros u v H; cbn [sym_name] in H; apply (f_equal (@List.length ascii)) in H; rewrite !app_length in H; cbn in H; lia.
Qed.
Example C116_example_strippable : strippable ex_st ex_pc_g ex_gone.
Proof.
  intros h e O. apply ex_st_open in O as ->. destruct ex_st_symbols as [E F].
  split. { exists (Symbol 8192 8192 0 $"OBJECT" $"sys_call_table"). split; [rewrite E; right; left; reflexivity|reflexivity]. }
  split. { intros s I G. apply ex_mute, (ex_st_gone s I G). }
  intros a v kd V K. assert (v = [5;10;3]) as ->. { vm_compute in V. congruence. }
  assert (a = ex_pc_arch) as ->. { destruct kd; vm_compute in K; injection K as <-; vm_compute; reflexivity. }
  intros s I G. apply ex_st_gone in I; [|exact G].
  constructor.
  - now apply ex_mute.
  - destruct I as [I|I]; subst s; vm_compute; discriminate.
  - destruct I as [I|I]; subst s; vm_compute; discriminate.
  - intros X. apply ni_symbol_iff in X. destruct I as [I|I]; subst s; vm_compute in X; discriminate X.
  - intros (l & X & IN). vm_compute in X. injection X as <-. destruct I as [I|I]; subst s; cbn in IN; repeat destruct IN as [IN|IN]; try discriminate IN; destruct IN.
  - intros y [IY GY] OE. assert (sym_name y = $"sys_call_table") as N.
    { destruct OE as [[T _]|T]; [assert (a_table (adjust_abi ex_pc_arch ex_st_e) = Some $"sys_call_table") as TN by (vm_compute; reflexivity); congruence|]. rewrite E in IY. repeat destruct IY as [<-|IY]; try discriminate T; destruct IY. }
    assert (sym_real y = 8192) as R by (rewrite E in IY; repeat destruct IY as [<-|IY]; try discriminate N; [reflexivity|destruct IY]).
    destruct I as [I|I]; subst s; [left; cbn; lia|right]. exists (Symbol 8216 8216 0 $"OBJECT" $"linux_banner"). cbn [sym_real sym_vaddr]. rewrite R.
    split; [split; [rewrite E; do 4 right; left; reflexivity|reflexivity]|]. lia.
Qed.

(** The conditions are needed: a symbol within the table ends it, one at the address of a syscall gives it
    another name, and x86 finds an ABI by symbols. *)
Example C116_example_needed :
  ex_show (ex_run ex_env ex_table ex_lines) = Ok [(Some 0, 0, $"__x64_sys_read"); (Some 2, 2, $"__x64_sys_write")] /\
  ex_show (ex_run ex_env ex_table (ex_lines ++ [ex_line "0000000000002008" "0" "OBJECT" "inside"])) = Ok [(Some 0, 0, $"__x64_sys_read")] /\
  ex_show (ex_run ex_env ex_table (ex_lines ++ [ex_line "0000000000001020" "0" "FUNC" "__x64_sys_zzz"])) = Ok [(Some 0, 0, $"__x64_sys_read"); (Some 2, 2, $"__x64_sys_zzz")].
Proof. vm_compute. repeat split; reflexivity. Qed.
Example C116_example_abi : arch_from_vmlinux ex_e = Ok (Some (KX86, false, [$"x64"])) /\ bind (ex_open ex_table (ex_lines ++ [ex_line "0000000000001038" "0" "FUNC" "ia32_sys_call"])) arch_from_vmlinux = Ok (Some (KX86, false, [$"x64"; $"ia32"])).
Proof. vm_compute. split; reflexivity. Qed.
