(** C108: preparing sources, as part of the whole program. *)
From Coq Require Import List Bool Ascii String ZArith Lia.
From Verif Require Import PyBase PyFacts M_Utils M_Elf M_Syscall M_Arch M_Kernel M_Kconfig M_Build M_Config M_Command M_Search M_Main M_Program M_Workshop
  S_Utils S_Output S_Arch S_Config S_Main L_Main S_Workshop L_Workshop L_Workshop7 L_Workshop8 L_Took.
From Verif Require S_Build L_Config4.
Import ListNotations.
Open Scope Z_scope.
Open Scope list_scope.

(** A run that succeeds has done all that was to be done, in that order: git checkout, the output
    directory, make distclean, base targets, options in four rounds, make vmlinux. *)
Theorem C108_finished w g D : preparing g -> (forall n, g_arch g = Some n -> ~ asks_help n) -> run_in w g = (D, Ok 0) ->
  (forall k, kdir_of g k -> g_build g = true -> g_disable_opt g = true -> lasting w k) ->
  exists k a v, kdir_of g k /\ chosen g a /\ prepared w g k a v D.
Proof. exact (run_done w g D). Qed.
Print Assumptions C108_finished.

(** If the version is in the Makefile, then options are for the version the architecture is for. *)
Theorem C108_version w g D : preparing g -> (forall n, g_arch g = Some n -> ~ asks_help n) -> run_in w g = (D, Ok 0) ->
  (forall k, kdir_of g k -> lasting w k /\ version_there w k) ->
  exists k a, kdir_of g k /\ chosen g a /\ prepared w g k a (a_version a) D.
Proof. exact (run_done_version w g D). Qed.
Print Assumptions C108_version.

(** Every command ended with status 0, unless it was a run with another level of optimisation, after
    which something follows, or nothing follows and the program fails. *)
Theorem C108_stops w g D r D1 c D2 : preparing g -> run_in w g = (D, r) -> D = D1 ++ Prep (Ran c) :: D2 ->
  went_well w D1 c \/ attempt g c D2 \/ (D2 = [] /\ exists n, r = Exit n /\ n <> 0).
Proof. exact (run_stops w g D r D1 c D2). Qed.
Print Assumptions C108_stops.

(** However it ends, nothing else was done. *)
Theorem C108_only w g D r x : preparing g -> run_in w g = (D, r) -> In x D ->
  (exists k, kdir_of g k /\ proper w g k x) \/
  (~ present (g_kdir g) /\ ((exists s, x = Main (Said s)) \/ exists o, g_out g = Some o /\ o <> [] /\ x = Main (MadeDir (path_of_str o)))).
Proof. intros P E. pose proof (run_permitted w g D r P E) as F. rewrite Forall_forall in F. exact (F x). Qed.
Print Assumptions C108_only.
Theorem C108_only_without w g D r x : ~ preparing g -> run_in w g = (D, r) -> In x D ->
  exists y, x = Main y /\ ((exists s, y = Said s) \/ (exists d ref, y = CheckedOut d ref) \/ exists d, y = Printed d).
Proof. exact (run_plain w g D r x). Qed.
Print Assumptions C108_only_without.

(** However it ends, the Makefile is afterwards what it was after git checkout (if there was one), but for
    the ends of lines. *)
Theorem C108_makefile w g k D r : kdir_of g k -> lasting w k -> run_in w g = (D, r) ->
  exists S L, D = S ++ L /\ (S = [] \/ exists S' d ref, S = S' ++ [Main (CheckedOut d ref)]) /\
    (forall d ref, ~ In (Main (CheckedOut d ref)) L) /\
    restored g (content_of (ws_look w S (makefile k))) (content_of (ws_look w D (makefile k))).
Proof. intros K LA. exact (run_makefile w g k K LA D r). Qed.
Print Assumptions C108_makefile.

(** If nothing fails, then it succeeds. *)
Theorem C108_succeeds w g k n d : kdir_of g k -> g_arch g = Some n -> named n d -> preparing g -> willing w g k d ->
  exists D, run_in w g = (D, Ok 0).
Proof. exact (run_succeeds w g k n d). Qed.
Print Assumptions C108_succeeds.

(** Commands end as M_Command.v says, output captured or not. *)
Theorem C108_ensure w D p args cwd : M_Utils.ensure_command (started w D (p :: args) cwd) =
  (out <- snd (M_Command.ensure_command (shop_at w D) (Argv (p :: args)) (Some cwd) true false) ;;
   match out with Some s => Ok s | None => Raise AttributeError end).
Proof. exact (ensure_same w D p args cwd). Qed.
Print Assumptions C108_ensure.
Theorem C108_ensure_shown w D p args cwd console : (_ <- M_Utils.ensure_command (started w D (p :: args) cwd) ;; Ok tt) =
  (_ <- snd (M_Command.ensure_command (shop_at w D) (Argv (p :: args)) (Some cwd) false console) ;; Ok tt).
Proof. exact (ensure_quiet_same w D p args cwd console). Qed.
Print Assumptions C108_ensure_shown.
Theorem C108_run w D p args cwd : Ok (M_Utils.run_command (option_map fst (started w D (p :: args) cwd))) =
  snd (M_Command.run_command (shop_at w D) (Argv (p :: args)) (Some cwd)).
Proof. exact (run_same w D p args cwd). Qed.
Print Assumptions C108_run.

(** What is said in the end is how long all from the message about building up to it took, in seconds. *)
Theorem C108_took w g D : preparing g -> (forall n, g_arch g = Some n -> ~ asks_help n) -> g_build g = true -> ~ (0 < g_quiet g /\ g_verbose g <= 0) ->
  run_in w g = (D, Ok 0) ->
  exists D0 B t, let D1 := D0 ++ [Main (Said $"Building kernel (might take a while)")] in
    D = (D1 ++ B) ++ [Main (Said ($"Build took " ++ t))] /\
    let '(n, d) := ws_elapsed w D1 (D1 ++ B) in 0 < d -> 0 <= n -> exists z, nearest_even n d z /\ read_duration t = Some z.
Proof. exact (run_took w g D). Qed.
Print Assumptions C108_took.

(** ** An example: sources of 6.1 in /k; with -O0 make fails, with -O1 it does not *)
Definition ex_mk : str := $"VERSION = 6" ++ [NL] ++ $"KBUILD_CFLAGS += -O2" ++ [NL].
Definition ex_k : path := path_of_str $"/k".
Definition ex_mk_path : path := makefile ex_k.
Definition ex_step (mk : str) (x : doing) : str := match x with Wrote p t => if path_eqb p ex_mk_path then t else mk | _ => mk end.
Definition ex_text (D : list doing) : str := fold_left ex_step D ex_mk.
Definition ex_shop_look (D : list doing) (p : path) : option node :=
  if path_eqb p ex_mk_path then Some (NFile (ex_text D)) else
  if path_eqb p ex_k then Some (NDir []) else if path_eqb p (path_of_str $"/o/.config") then Some (NFile []) else None.
Definition ex_shop_run (D : list doing) (c : M_Command.command) : Z * str * str :=
  match c with
  | Shell _ => (0, $"6.1.0" ++ [NL], [])
  | Argv l =>
      if existsb (fun x => str_eqb x $"--version") l then (0, $"gcc (GCC) 12.2.0" ++ [NL], []) else
      if existsb (fun x => str_eqb x $"vmlinux") l && contains (ex_text D) $"-O0" then (2, [], []) else
      if existsb (fun x => str_eqb x $"-s") l then (0, flat_map (fun x => if str_eqb x $"-s" then $"y" ++ [NL] else []) l, []) else (0, [], [])
  end.
Definition ex_shop : workshop :=
  Workshop ex_shop_look (fun _ p => p) (fun _ _ => true) (fun _ _ _ => true) (fun D c _ => ex_shop_run D c) (fun _ _ => true)
    (fun D D' => (Z.of_nat (List.length D' - List.length D), 2)) (path_of_str $"/") 4 (fun _ _ _ => []) (fun _ _ => true) (fun l => l) (fun l => l) $"0.7".
Definition ex_shop_g : args :=
  Args None (Some $"/k") (Some $"arm64") true false false (Some $"aarch64-linux-gnu-") (Some $"/o") $"text" false None (Some $"v6.1") true 0 0.
(** The last words of the commands, and what else is done, but for messages *)
Definition ex_sketch (x : doing) : list str :=
  match x with
  | Main (CheckedOut _ r) => [$"git " ++ r]
  | Main (MadeDir p) => [$"mkdir " ++ str_of_path p]
  | Prep (Ran c) => match c_argv c with p :: args => [if str_eqb p $"make" then p ++ $" " ++ last args [] else p] | [] => [] end
  | Wrote p [] => [$"empty " ++ str_of_path p]
  | Wrote p t => [$"write " ++ str_of_path p]
  | _ => []
  end.
Example C108_example : let '(D, r) := run_in ex_shop ex_shop_g in
  r = Ok 0 /\ filter (fun s => negb (str_eqb s $"./scripts/config")) (flat_map ex_sketch D) =
    [$"git v6.1"; $"mkdir /o"; $"make distclean"; $"make defconfig"; $"make olddefconfig"; $"make olddefconfig"; $"make olddefconfig"; $"make olddefconfig";
     $"write /k/Makefile"; $"make vmlinux"; $"empty /k/Makefile"; $"write /k/Makefile";
     $"write /k/Makefile"; $"make vmlinux"; $"empty /k/Makefile"; $"write /k/Makefile"].
Proof. vm_compute. split; reflexivity. Qed.
(** Eight doings, half a second each *)
Example C108_example_took : let '(D, r) := run_in ex_shop ex_shop_g in last D (Wrote ex_k []) = Main (Said $"Build took 4s").
Proof. vm_compute. reflexivity. Qed.
Lemma Some_same {A} (x y : A) : Some x = Some y -> x = y.
Proof. congruence. Qed.
Lemma Forall2_len {A B} (R : A -> B -> Prop) l m : Forall2 R l m -> List.length l = List.length m.
Proof. induction 1; cbn; congruence. Qed.
Lemma ex_text_last D x : ex_text (D ++ [x]) = ex_step (ex_text D) x.
Proof. unfold ex_text. now rewrite fold_left_app. Qed.
Lemma ex_text_at D : content_of (ws_look ex_shop D (makefile ex_k)) = Some (ex_text D).
Proof. reflexivity. Qed.
Example C108_example_premises : preparing ex_shop_g /\ (forall n, g_arch ex_shop_g = Some n -> ~ asks_help n) /\
  forall k, kdir_of ex_shop_g k -> lasting ex_shop k /\ version_there ex_shop k.
Proof.
  split; [cbv [preparing]; cbn; tauto|]. split.
  - intros n E. apply Some_same in E as <-. intros [X|X]; [apply Forall2_len in X; vm_compute in X; discriminate X|vm_compute in X; discriminate X].
  - intros k (s & E & _ & ->). apply Some_same in E as <-. fold ex_k. split.
    + constructor.
      * intros D t. rewrite ex_text_at, ex_text_last. reflexivity.
      * intros D x NW _. rewrite !ex_text_at, ex_text_last. destruct x; try reflexivity. now destruct (NW p text).
    + intros D D' v v' _ (o & e & R & V) (o' & e' & R' & V'). cbn in R, R'. injection R as <- _. injection R' as <- _. congruence.
Qed.
(** A step fails: nothing follows. *)
Definition ex_shop_bad : workshop :=
  Workshop ex_shop_look (fun _ p => p) (fun _ _ => true) (fun _ _ _ => true)
    (fun D c _ => match c with Argv l => if existsb (fun x => str_eqb x $"defconfig") l then (2, [], []) else ex_shop_run D c | _ => ex_shop_run D c end) (fun _ _ => true)
    (fun _ _ => (65, 0)) (path_of_str $"/") 4 (fun _ _ _ => []) (fun _ _ => true) (fun l => l) (fun l => l) $"0.7".
Example C108_example_fails : let '(D, r) := run_in ex_shop_bad ex_shop_g in
  r = Exit 1 /\ flat_map ex_sketch D = [$"git v6.1"; $"mkdir /o"; $"make distclean"; $"make defconfig"].
Proof. vm_compute. split; reflexivity. Qed.
(** Nothing fails. *)
Definition ex_willing : workshop :=
  Workshop ex_shop_look (fun _ p => p) (fun _ _ => true) (fun _ _ _ => true)
    (fun D c _ => match c with Argv _ => (0, $"y" ++ [NL], []) | _ => ex_shop_run D c end) (fun _ _ => true)
    (fun _ _ => (65, 0)) (path_of_str $"/") 4 (fun _ _ _ => []) (fun _ _ => true) (fun l => l) (fun l => l) $"0.7".
Definition ex_arm64 : doc_arch := match find (fun d => existsb (str_eqb $"arm64") (d_names d)) documented with Some d => d | None => DocArch [] KArm true [] true [] end.
Example C108_example_willing : kdir_of ex_shop_g ex_k /\ g_arch ex_shop_g = Some $"arm64" /\ named $"arm64" ex_arm64 /\ preparing ex_shop_g /\ willing ex_willing ex_shop_g ex_k ex_arm64.
Proof.
  split; [exists $"/k"; split; [reflexivity|]; split; [discriminate|reflexivity]|]. split; [reflexivity|]. split.
  { split; [vm_compute; tauto|]. exists $"arm64". split; [vm_compute; tauto|]. repeat (constructor; [now left|]). constructor. }
  split; [cbv [preparing]; cbn; tauto|]. constructor.
  - intros D. exists []. reflexivity.
  - reflexivity.
  - intros D argv. eexists _, _. reflexivity.
  - intros D. exists [6;1;0]. split; [eexists _, _; split; [reflexivity|vm_compute; reflexivity]|]. apply L_Config4.geb_lexle; vm_compute; reflexivity.
  - intros D gcc _. split; [reflexivity|]. split; [reflexivity|]. eexists _, _. split; [reflexivity|discriminate].
  - intros D o E _. apply Some_same in E as <-. split; [now left|reflexivity].
  - intros D f H. assert (f = path_of_str $"/o/.config") as ->.
    { destruct H as [o E N|N]; [apply Some_same in E as <-; reflexivity|]. destruct N. exists $"/o". split; [reflexivity|discriminate]. }
    exists [], []. split; [reflexivity|]. split; [constructor|constructor].
  - discriminate.
Qed.
