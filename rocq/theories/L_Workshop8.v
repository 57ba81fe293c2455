(** Lemmas about preparing sources (C108): it succeeds if nothing fails. *)
From Coq Require Import List Bool Ascii String ZArith Lia.
From Verif Require Import PyBase PyFacts M_Utils M_Elf M_Syscall M_Arch M_Kernel M_Kconfig M_Build M_Config M_Command M_Search M_Main M_Program M_Workshop
  S_Utils S_Output S_Arch S_Config S_Main L_Utils L_Config L_Config2 L_Config3 L_Config4 L_Arch L_Arch3 L_Main L_Main2 S_Workshop L_Workshop L_Workshop2 L_Workshop3 L_Workshop6 L_Workshop7.
From Verif Require S_Build L_Build.
Import ListNotations.
Open Scope Z_scope.
Open Scope list_scope.

Definition fine {A} (x : io A) : Prop := forall h, exists h' a, x h = (h', Ok a).
Lemma fine_ret {A} (a : A) : fine (io_ret (Ok a)).
Proof. intros h. eexists _, _. reflexivity. Qed.
Lemma fine_bind {A B} (x : io A) (f : A -> io B) : fine x -> (forall a, fine (f a)) -> fine (io_bind x f).
Proof. intros X F h. unfold io_bind. destruct (X h) as (h' & a & ->). apply F. Qed.
Lemma fine_each {A} (f : A -> io unit) l : (forall a, In a l -> fine (f a)) -> fine (io_each f l).
Proof.
  induction l as [|x l IH]; intros F; [apply fine_ret|]. cbn [io_each]. apply fine_bind; [apply F; now left|]. intros _. apply IH. intros a I. apply F. now right.
Qed.
Lemma fine_emit e : fine (io_emit e).
Proof. intros h. eexists _, _. reflexivity. Qed.

Lemma doc_no_empty : forallb (fun d => forallb (fun n => match n with [] => false | _ => true end) (d_names d)) documented = true.
Proof. vm_compute. reflexivity. Qed.

Section Willing.
  Context (w : workshop) (g : args) (k : path) (d : doc_arch) (K : path_arg (g_kdir g) = Some k) (W : willing w g k d).
  Lemma all_start D p args : exists out, started w D (p :: args) k = Some (0, out).
  Proof.
    apply (well_started w D (Command (p :: args) k None)). split; [apply (wi_dir _ _ _ _ W)|]. split.
    - exists p, args. split; [reflexivity|]. apply (wi_found _ _ _ _ W).
    - apply (wi_run _ _ _ _ W).
  Qed.
  Lemma fine_ensure D p args stdin : fine (ensure (env_from w D) (p :: args) k stdin).
  Proof.
    intros h. unfold ensure. cbv zeta. cbn [e_run env_from c_argv c_cwd]. destruct (all_start (D ++ map Prep h) p args) as [out ->]. cbn [M_Utils.ensure_command].
    eexists _, _. reflexivity.
  Qed.
  Lemma fine_script D f args : fine (run_config_script (env_from w D) k f args).
  Proof. apply fine_ensure. Qed.
  Lemma fine_make D a v target stdin : fine (make (env_from w D) (kern_of w g a v) target stdin).
  Proof.
    unfold make. rewrite (kern_kdir w g k a K v). apply fine_bind; [apply fine_ensure|]. intros _. apply fine_ret.
  Qed.
  Lemma fine_edit D f options : Forall well_formed options -> fine (edit_config (env_from w D) k f options).
  Proof.
    intros F h. destruct options as [|o l]; [eexists _, _; reflexivity|].
    destruct (applies_or k f (o :: l)) as [[c C]|(o' & I & N)].
    - assert (o :: l <> []) as NE by discriminate. destruct (edit_command (env_from w D) k f (o :: l) c h NE C) as (res & -> & M).
      destruct C as (argss & _ & ->).
      destruct (all_start (D ++ map Prep h) $"./scripts/config" ([$"--file"; str_of_path f] ++ List.concat argss)) as [out E].
      assert (e_run (env_from w D) h (script k f (List.concat argss)) = Some (0, out)) as E' by exact E. rewrite E' in M.
      destruct M as [[_ ->]|[X _]]; [|congruence]. eexists _, _. reflexivity.
    - exfalso. rewrite Forall_forall in F. destruct (F o' I) as (n & v & A & _). now apply N, (asks_in o' n v).
  Qed.
  Lemma fine_check D f toset config opt dep : well_formed dep -> fine (check_dep (env_from w D) k f toset config opt dep).
  Proof.
    intros (n & v & A & _). apply asks_iff in A. unfold check_dep. rewrite A. apply fine_bind.
    - unfold dep_value. destruct (match dget str_eqb n toset with Some (c :: s) => Some (c :: s) | _ => dget str_eqb n config end); [apply fine_ret|].
      apply fine_bind; [apply fine_script|]. intros out. cbv zeta. apply fine_ret.
    - intros x. repeat match goal with |- fine (if ?b then _ else _) => destruct b end; first [apply fine_ret|apply fine_emit].
  Qed.
  Lemma fine_deps D f options : dotconfig g k f -> Forall well_formed (dkeys options) -> Forall well_formed (List.concat (map snd options)) ->
    fine (edit_config_check_deps (env_from w D) k f options).
  Proof.
    intros DC FO FD. destruct options as [|o l] eqn:E; [apply fine_ret|]. rewrite <- E in *. unfold edit_config_check_deps. rewrite E at 1. cbv match.
    destruct (to_set_ok (dkeys options)) as (ts & TS & _). { apply Forall_forall. intros x I. rewrite Forall_forall in FO. destruct (FO x I) as (n & v & A & _). eauto. }
    apply fine_bind; [rewrite TS; apply fine_ret|]. intros toset. apply fine_bind.
    - intros h. unfold parse_config. cbn [e_file env_from]. destruct (wi_config _ _ _ _ W (D ++ map Prep h) f DC) as (s & ls & -> & TL & F).
      destruct (config_parsed s ls TL F) as (c & -> & _). eexists _, _. reflexivity.
    - intros config. apply fine_bind; [|intros _; now apply fine_edit]. apply fine_each. intros [opt deps] I. apply fine_each. intros dep J. apply fine_check.
      rewrite Forall_forall in FD. apply FD. apply in_concat. exists deps. split; [|exact J]. apply in_map_iff. exists (opt, deps). auto.
  Qed.
  Lemma lift_fine {A} (x : M_Config.env -> io A) D : fine (x (env_from w D)) -> exists D' a, lift w x D = (D', Ok a).
  Proof. intros F. unfold lift. destruct (F []) as (h & a & ->). eauto. Qed.

  Lemma version_fine D : exists v, version_now w D (Some k) = Ok (Some v) /\ since (d_since d) v.
  Proof.
    destruct (wi_version _ _ _ _ W D) as (v & (out & err & R & V) & S). destruct (wi_dir _ _ _ _ W D) as [l DI]. exists v. split; [|exact S].
    assert (popen_ (shop_at w D) (Shell $"make kernelversion") (Some k) = Child 0 out err) as P.
    { unfold popen_. cbn [sys_entry sys_found sys_run shop_at]. rewrite DI. cbn [entry_of]. rewrite (wi_found _ _ _ _ W), R. reflexivity. }
    unfold version_now, M_Command.ensure_command, do_popen. rewrite P. cbn - [version_from_str]. now rewrite V.
  Qed.
  Lemma clean_fine a D : exists D', clean_at w g a D = (D', Ok tt).
  Proof. destruct (lift_fine (fun ev => clean ev (kern_of w g a [])) D) as (D' & [] & E); [apply fine_make|eauto]. Qed.
  Lemma configure_fine a D : (forall v, fresh_kconfig a v = Some (only_kconfig a v)) -> exists D', configure_at w g a D = (D', Ok tt).
  Proof.
    intros FK. unfold configure_at. destruct (lift_fine (fun ev => io_each (fun t => make ev (kern_of w g a []) t None) (a_targets a)) D) as (D1 & u & ->).
    { apply fine_each. intros t _. apply fine_make. }
    rewrite K. destruct (version_fine D1) as (v & -> & _). cbn [get_version vstate0 vs_version fst].
    destruct (lift_fine (fun ev => settle ev (kern_of w g a v) (only_kconfig a v)) D1) as (D2 & [] & E); [|eauto].
    unfold settle. cbv zeta. change (k_version (kern_of w g a v)) with v. rewrite (kern_kdir w g k a K v). pose proof (kern_config w g k a K v) as DC.
    destruct (options_consistent a v _ (FK v)) as (OA & OD & _). rewrite concat_app in OD. apply Forall_app in OD as [OD1 OD2].
    apply Forall_app in OA as [O1 OA]. apply Forall_app in OA as [O2 OA]. apply Forall_app in OA as [O3 O4].
    repeat (apply fine_bind; [first [now apply fine_edit | now apply fine_deps | unfold sync_config; destruct (ver_geb _ _); apply fine_make]|intros _]).
    unfold sync_config. destruct (ver_geb _ _); apply fine_make.
  Qed.
  Lemma all_well a D : went_well w D (Command (make_argv (kern_of w g a []) $"vmlinux") k None).
  Proof.
    split; [apply (wi_dir _ _ _ _ W)|]. split; [|apply (wi_run _ _ _ _ W)]. eexists _, _. split; [reflexivity|]. apply (wi_found _ _ _ _ W).
  Qed.
  Lemma build_fine a D : exists D' t, build_at w g a (g_disable_opt g) D = (D', Ok t).
  Proof.
    assert (exists D', work w (kern_of w g a []) (build (g_disable_opt g)) None D = (D', Ok tt)) as [D' E].
    { assert (forall b D0, exists D', work w (kern_of w g a []) normal_build b D0 = (D', Ok tt)) as N.
      { intros b D0. destruct (work_normal w g k a K b D0) as (r & -> & R). destruct R as [[-> _]|[X _]]; [eauto|]. now destruct (X (all_well a D0)). }
      unfold build. destruct (g_disable_opt g) eqn:O; [|apply N]. unfold try_set_level at 1. rewrite (work_read w g k a K).
      destruct (content_of (ws_look w D (makefile k))) as [s|] eqn:C; [|now destruct (wi_makefile _ _ _ _ W D O)].
      rewrite (work_backup w g a). set (mk := universal s). destruct (set_level mk 0) as [p0|] eqn:S0; [|apply N].
      rewrite (work_write w g k a K), (work_register w g a), (work_make w g k a K).
      destruct mk as [|x mk'] eqn:MK; [discriminate S0|]. rewrite (work_restore w g k a K).
      rewrite (proj2 (good_run w g k a _) (all_well a (D ++ [Wrote (makefile k) p0]))). cbn [work]. eauto. }
    unfold build_at. rewrite E. cbn [bind]. eauto.
  Qed.

  (** ** main *)
  Local Notation m := (M_Program.machine_of (computer_of w g) g).
  Definition goes {A} (a : A) (x : mio A) : Prop := forall h, exists h', x h = (h', Ok a).
  Lemma goes_bind {A B} a b (x : mio A) (f : A -> mio B) : goes a x -> goes b (f a) -> goes b (mbind x f).
  Proof. intros X F h. unfold mbind. destruct (X h) as [h' ->]. apply F. Qed.
  Lemma goes_some {A B} b (x : mio A) (f : A -> mio B) (P : A -> Prop) : (forall h, exists h' a, x h = (h', Ok a) /\ P a) -> (forall a, P a -> goes b (f a)) -> goes b (mbind x f).
  Proof. intros X F h. unfold mbind. destruct (X h) as (h' & a & -> & Q). now apply F. Qed.
  Lemma goes_ret {A} (a : A) : goes a (ret (Ok a)).
  Proof. intros h. now exists h. Qed.
  Lemma goes_said s l : goes tt (eprint s l).
  Proof. intros h. unfold eprint. destruct s; eexists; reflexivity. Qed.

  Lemma run_in_k D argv p args : argv = p :: args -> exists out err, popen_ (shop_at w D) (Argv argv) (Some k) = Child 0 out err.
  Proof.
    intros ->. destruct (wi_run _ _ _ _ W D (p :: args)) as (out & err & R). destruct (wi_dir _ _ _ _ W D) as [l DI]. exists out, err.
    unfold popen_. cbn [sys_entry sys_found sys_run shop_at]. rewrite DI. cbn [entry_of]. rewrite (wi_found _ _ _ _ W), R. reflexivity.
  Qed.
  Lemma no_wait h c cwd : waits (computer_of w g) h c cwd = false.
  Proof. unfold waits. cbn [computer_of pc_run]. now destruct (popen_ _ _ _). Qed.
  Lemma same_system h : system_at (computer_of w g) h = shop_at w (doings w g h).
  Proof. reflexivity. Qed.
  Lemma checkout_fine h ref : mc_checkout m h ref = Ok tt.
  Proof.
    cbn [M_Program.machine_of mc_checkout]. rewrite K. unfold checkout. rewrite no_wait, same_system. unfold git_checkout, M_Command.ensure_command, do_popen.
    destruct (run_in_k (doings w g h) [$"git"; $"checkout"; ref] _ _ eq_refl) as (out & err & ->). reflexivity.
  Qed.
  Lemma gcc_fine h gcc : gcc = match g_cross g with Some c => c | None => [] end ++ $"gcc" -> mc_available m h gcc = true /\ exists v, mc_gcc_version m h gcc = Ok v.
  Proof.
    intros G. destruct (wi_gcc _ _ _ _ W (doings w g h) gcc G) as (A & F & out & err & R & N). split; [exact A|].
    cbn [M_Program.machine_of mc_gcc_version]. unfold ask_gcc. rewrite no_wait, same_system. unfold gcc_version, M_Command.ensure_command, do_popen.
    match goal with |- context [popen_ ?a ?b ?c] => assert (popen_ a b c = Child 0 out err) as -> end.
    { unfold popen_. transitivity (let '(status, o, e) := ws_run w (doings w g h) (Argv [gcc; $"--version"]) None in Child status o e); [|now rewrite R].
      change (sys_found (shop_at w (doings w g h)) None (program (Argv [gcc; $"--version"]))) with (ws_found w (doings w g h) None gcc). now rewrite F. }
    cbn - [splitlines]. destruct (splitlines out) as [|x l] eqn:S; [|eauto]. exfalso. revert S. destruct out as [|c out]; [congruence|]. cbn [splitlines].
    destruct (is_break c); [discriminate|]. destruct (splitlines out); discriminate.
  Qed.
  Lemma make_version_fine h : exists v, mc_make_version m h = Ok (Some v) /\ since (d_since d) v.
  Proof.
    destruct (version_fine (doings w g h)) as (v & E & S). exists v. split; [|exact S]. rewrite <- E. cbn [M_Program.machine_of mc_make_version]. rewrite K. unfold capture. rewrite no_wait, same_system.
    unfold version_now. destruct (snd (M_Command.ensure_command _ _ _ _ _)) as [[o|]|x|z|]; reflexivity.
  Qed.
  Lemma init_fine n h : g_arch g = Some n -> named n d -> exists a, instantiate_kernel (kernel_init (option_map lower (g_arch g)) None true (fst (get_version None (Some (mc_make_version m h)) vstate0))) = Ok a /\
    forall v, fresh_kconfig a v = Some (only_kconfig a v).
  Proof.
    intros GA (DD & mm & MM & S). destruct (make_version_fine h) as (v & -> & Q). rewrite GA. cbn [option_map get_version vstate0 vs_version fst]. unfold kernel_init. cbn [negb andb bind].
    pose proof (lower_names _ _ S) as L. rewrite (lower_plain mm (name_plain d mm DD MM)) in L. rewrite L.
    destruct (arch_name_supported d mm v DD MM Q) as (a & A & _ & V & _). rewrite A. cbn [bind instantiate_kernel]. exists a. split; [reflexivity|]. intros v'. apply (only_fresh a mm). now rewrite V.
  Qed.
  Lemma prepare_goes n : g_arch g = Some n -> named n d -> goes 0 (prepare m g (silence g) (option_map lower (g_arch g)) (Some k)).
  Proof.
    intros GA N. unfold prepare. cbv zeta. apply (goes_bind true).
    { destruct (path_arg (g_out g)) as [o|] eqn:O; [|apply goes_ret]. apply path_arg_Some in O as (s & O & NS & ->). apply (goes_bind false).
      - intros h. exists h. unfold ask. cbn [M_Program.machine_of mc_exists mc_is_dir computer_of pc_look]. destruct (wi_out _ _ _ _ W (doings w g h) s O NS) as [[->|[l ->]] _]; reflexivity.
      - intros h. eexists. unfold act. cbn [M_Program.machine_of mc_mkdir computer_of pc_mkdir]. destruct (wi_out _ _ _ _ W (doings w g h) s O NS) as [_ ->]. reflexivity. }
    cbn [negb]. apply (goes_bind true). { intros h. exists h. unfold ask. f_equal. f_equal. exact (proj1 (gcc_fine h _ eq_refl)). }
    cbn [negb]. apply (goes_bind tt).
    { destruct (g_config g || g_build g); [|apply goes_ret]. apply (goes_some _ _ _ (fun _ => True)); [|intros v _; apply goes_said].
      intros h. destruct (gcc_fine h _ eq_refl) as (_ & v & E). exists h, v. split; [|exact I]. unfold try_. f_equal. exact E. }
    apply (goes_some _ _ _ (fun a => forall v, fresh_kconfig a v = Some (only_kconfig a v))).
    { intros h. destruct (init_fine n h GA N) as (a & E & F). exists h, a. unfold try_. now rewrite E. }
    intros a FK.
    assert (goes tt (_ <-- eprint (silence g) $"Cleaning kernel sources" ;; act (Cleaned (Some k) a) (fun h => mc_clean m h a))) as CL.
    { apply (goes_bind tt); [apply goes_said|]. intros h. eexists. unfold act. cbn [M_Program.machine_of mc_clean computer_of pc_clean]. destruct (clean_fine a (doings w g h)) as [D' ->]. reflexivity. }
    assert (goes tt (v <-- try_ (fun h => let '(r, s) := get_version None (Some (mc_make_version m h)) vstate0 in
                       v <- r ;; Ok (version_str v (match vs_source s with Some x => x | None => $"None" end))) ;;
        _ <-- eprint (silence g) ($"Detected kernel version: " ++ v) ;;
        _ <-- eprint (silence g) $"Configuring kernel" ;;
        act (Configured (Some k) a) (fun h => mc_configure m h a))) as CF.
    { apply (goes_some _ _ _ (fun _ => True)).
      - intros h. destruct (make_version_fine h) as (v & E & _). eexists h, _. unfold try_. rewrite E. cbn [get_version vstate0 vs_version bind]. split; [reflexivity|exact I].
      - intros v _. apply (goes_bind tt); [apply goes_said|]. apply (goes_bind tt); [apply goes_said|]. intros h. eexists. unfold act. cbn [M_Program.machine_of mc_configure computer_of pc_configure].
        destruct (configure_fine a (doings w g h) FK) as [D' ->]. reflexivity. }
    destruct (g_build g); [|destruct (g_config g)].
    - apply (goes_bind tt); [exact CL|]. apply (goes_bind tt); [exact CF|]. apply (goes_bind tt); [apply goes_said|].
      apply (goes_some _ _ _ (fun _ => True)); [|intros t _; apply (goes_bind tt); [apply goes_said|apply goes_ret]].
      intros h. unfold act. cbn [M_Program.machine_of mc_build computer_of pc_build]. destruct (build_fine a (doings w g h)) as (D' & t & ->). eexists _, t. split; [reflexivity|exact I].
    - apply (goes_bind tt); [exact CL|]. apply (goes_bind tt); [exact CF|]. apply (goes_bind tt); [apply goes_said|apply goes_ret].
    - apply (goes_bind tt); [exact CL|]. apply (goes_bind tt); [apply goes_said|apply goes_ret].
  Qed.
  Lemma main_goes n : g_arch g = Some n -> named n d -> preparing g -> goes 0 (main m g).
  Proof.
    intros GA N P. unfold main. cbv zeta. fold (silence g). assert (check_arch (option_map lower (g_arch g)) = None) as CA.
    { rewrite GA. cbn [option_map check_arch]. rewrite (proj1 (known_lower n) (ex_intro _ d N)). reflexivity. }
    rewrite CA. assert (given (g_kdir g) = true) as GK. { apply path_arg_Some in K as (s & E & NS & _). rewrite E. now destruct s. }
    rewrite GK. cbn [negb andb].
    replace (negb (given (option_map lower (g_arch g))) && (g_config g || g_build g)) with false.
    2:{ rewrite GA. cbn [option_map]. destruct N as (DD & mm & MM & S). pose proof (lower_names _ _ S) as L. rewrite (lower_plain mm (name_plain d mm DD MM)) in L. rewrite L.
        destruct mm as [|c mm]; [|reflexivity]. exfalso. revert DD MM. clear. intros DD MM. pose proof doc_no_empty as F. rewrite forallb_forall in F. specialize (F d DD).
        rewrite forallb_forall in F. now specialize (F [] MM). }
    rewrite K. apply (goes_bind tt).
    { destruct (g_checkout g) as [[|c s]|]; try apply goes_ret. destruct (str_eqb (c :: s) $"auto"); [apply goes_ret|]. apply (goes_bind tt); [apply goes_said|].
      intros h. eexists. unfold act. rewrite checkout_fine. reflexivity. }
    replace (g_clean g || g_config g || g_build g) with true; [now apply (prepare_goes n)|].
    destruct P as [E|[E|E]]; rewrite E, ?orb_true_r; reflexivity.
  Qed.
End Willing.
Lemma run_succeeds w g k n d : kdir_of g k -> g_arch g = Some n -> named n d -> preparing g -> willing w g k d -> exists D, run_in w g = (D, Ok 0).
Proof.
  intros KD GA N P W. unfold run_in. destruct (main_goes w g k d (kdir_arg g k KD) W n GA N P []) as [h ->]. eauto.
Qed.
