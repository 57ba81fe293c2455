(** Lemmas about the command line (C100): every settings can be asked for. *)
From Coq Require Import List Bool Ascii String ZArith Lia.
From Verif Require Import PyBase PyFacts M_Main M_Args S_Elf S_Signature S_Args L_Args L_Args4 L_Args5 L_Args6 L_Args7.
Import ListNotations.
Open Scope Z_scope.
Open Scope list_scope.

Definition one_value (o : opt) (v : option str) : list event := match v with Some v => [Set_ o v] | None => [] end.
Definition one_flag (o : opt) (b : bool) : list event := if b then [Switch o] else [].
Definition some_flags (o : opt) (n : Z) : list event := repeat (Switch o) (Z.to_nat n).
Definition events_of (g : args) : list event :=
  one_value OKdir (g_kdir g) ++ one_value OArch (g_arch g) ++ one_flag OBuild (g_build g) ++ one_flag OConfig (g_config g) ++ one_flag OClean (g_clean g) ++
  one_value OCross (g_cross g) ++ one_value OOut (g_out g) ++ one_value OFormat (Some (g_format g)) ++ one_flag OAbsolute (g_absolute g) ++
  one_value ORemap (g_remap g) ++ one_value OCheckout (g_checkout g) ++ one_flag ODisableOpt (g_disable_opt g) ++ some_flags OQuiet (g_quiet g) ++ some_flags OVerbose (g_verbose g).

Lemma options_app a e b f : options a e -> options b f -> options (a ++ b) (e ++ f).
Proof. intros O1 O2. induction O1 as [|ws evs ws' evs' S O IH]; [exact O2|]. rewrite <- !app_assoc. now apply ops_cons. Qed.
Definition name_of (o : opt) : string :=
  match o with
  | OHelp => "help" | OKdir => "kdir" | OArch => "arch" | OBuild => "build" | OConfig => "config" | OClean => "clean" | OCross => "cross" | OOut => "out" | OFormat => "format"
  | OAbsolute => "absolute-paths" | ORemap => "remap" | OCheckout => "checkout" | ODisableOpt => "disable-opt" | OQuiet => "quiet" | OVerbose => "verbose" | OVersion => "version"
  end.
Lemma name_of_abbreviates o : abbreviates $(name_of o) o.
Proof.
  assert (named o $(name_of o)) as N.
  { destruct o; unfold named, option_list; cbn [name_of]; repeat (match goal with |- _ => eexists _, _, _; split; [|reflexivity]; cbn [In]; intuition reflexivity end). }
  split; [now apply named_ok in N|now left].
Qed.
Lemma write_event x : proper x -> exists ws, options ws [x].
Proof.
  destruct x as [o|o v]; intros P.
  - exists ([$"--" ++ $(name_of o)] ++ []). apply (ops_cons _ [Switch o] _ []); [|constructor]. apply sp_name; [apply name_of_abbreviates|exact P].
  - exists ([$"--" ++ $(name_of o) ++ $"=" ++ v] ++ []). apply (ops_cons _ [Set_ o v] _ []); [|constructor]. apply sp_name_equals; [apply name_of_abbreviates|exact P].
Qed.
Lemma write_events evs : Forall proper evs -> exists ws, options ws evs.
Proof.
  intros P. induction P as [|x evs P Ps (ws & IH)]; [exists []; constructor|]. destruct (write_event x P) as (w & O). exists (w ++ ws). exact (options_app _ _ _ _ O IH).
Qed.
Lemma value_proper o v : stores o = true -> Forall proper (one_value o v).
Proof. intros S. destruct v; repeat constructor. now apply valued_stores. Qed.
Lemma flag_proper o b : stores o = false -> Forall proper (one_flag o b).
Proof. intros S. destruct b; repeat constructor. now apply flag_stores. Qed.
Lemma flags_proper o n : stores o = false -> Forall proper (some_flags o n).
Proof. intros S. unfold some_flags. induction (Z.to_nat n); constructor; [now apply flag_stores|exact IHn0]. Qed.
Lemma events_proper g : Forall proper (events_of g).
Proof. unfold events_of. repeat (apply Forall_app; split); try (apply value_proper; reflexivity); try (apply flag_proper; reflexivity); apply flags_proper; reflexivity. Qed.
Lemma value_harmless o v : o <> OFormat -> harmless (one_value o v).
Proof.
  intros N. destruct v as [v|]; [|apply harmless_nil]. split; [|split]; [intros [H|[]]; discriminate H|intros [H|[]]; discriminate H|]. intros x [H|[]]. injection H as H _. now elim N.
Qed.
Lemma flag_harmless o b : o <> OHelp -> o <> OVersion -> harmless (one_flag o b).
Proof.
  intros N N'. destruct b; [|apply harmless_nil]. split; [|split]; [intros [H|[]]; injection H as H; now elim N|intros [H|[]]; injection H as H; now elim N'|]. intros x [H|[]]. discriminate H.
Qed.
Lemma flags_harmless o n : o <> OHelp -> o <> OVersion -> harmless (some_flags o n).
Proof.
  intros N N'. unfold some_flags. induction (Z.to_nat n) as [|m IH]; [apply harmless_nil|]. cbn [repeat]. apply harmless_cons. split; [|exact IH]. exact (flag_harmless o true N N').
Qed.
Lemma events_harmless g : format_ok (g_format g) -> harmless (events_of g).
Proof.
  intros F. unfold events_of. rewrite !harmless_app. repeat split; try (apply value_harmless; discriminate); try (apply flag_harmless; discriminate); try (apply flags_harmless; discriminate); try (intros [H|[]]; discriminate H).
  intros x [H|[]]. injection H as <-. exact F.
Qed.
Lemma run_quiet vm kd ar bu co cl cr ou fo ab re ch di qu ve n : 0 <= n ->
  run (some_flags OQuiet n) (Args vm kd ar bu co cl cr ou fo ab re ch di qu ve) = Args vm kd ar bu co cl cr ou fo ab re ch di (qu + n) ve.
Proof.
  intros H. unfold some_flags. rewrite <- (Z2Nat.id n H) at 2. generalize (Z.to_nat n) as m. clear. intros m. revert qu. induction m as [|m IH]; intros qu; [cbn; now rewrite Z.add_0_r|].
  cbn [repeat]. change (run (Switch OQuiet :: repeat (Switch OQuiet) m)) with (fun g => run (repeat (Switch OQuiet) m) (run1 g (Switch OQuiet))). cbv beta.
  change (run1 (Args vm kd ar bu co cl cr ou fo ab re ch di qu ve) (Switch OQuiet)) with (Args vm kd ar bu co cl cr ou fo ab re ch di (qu + 1) ve). rewrite IH. f_equal. lia.
Qed.
Lemma run_verbose vm kd ar bu co cl cr ou fo ab re ch di qu ve n : 0 <= n ->
  run (some_flags OVerbose n) (Args vm kd ar bu co cl cr ou fo ab re ch di qu ve) = Args vm kd ar bu co cl cr ou fo ab re ch di qu (ve + n).
Proof.
  intros H. unfold some_flags. rewrite <- (Z2Nat.id n H) at 2. generalize (Z.to_nat n) as m. clear. intros m. revert ve. induction m as [|m IH]; intros ve; [cbn; now rewrite Z.add_0_r|].
  cbn [repeat]. change (run (Switch OVerbose :: repeat (Switch OVerbose) m)) with (fun g => run (repeat (Switch OVerbose) m) (run1 g (Switch OVerbose))). cbv beta.
  change (run1 (Args vm kd ar bu co cl cr ou fo ab re ch di qu ve) (Switch OVerbose)) with (Args vm kd ar bu co cl cr ou fo ab re ch di qu (ve + 1)). rewrite IH. f_equal. lia.
Qed.
Lemma run_events g : format_ok (g_format g) -> 0 <= g_quiet g -> 0 <= g_verbose g -> run (events_of g) namespace0 = set_vmlinux None g.
Proof.
  destruct g as [vm kd ar bu co cl cr ou fo ab re ch di qu ve]. unfold events_of. cbn [M_Main.g_vmlinux M_Main.g_kdir M_Main.g_arch M_Main.g_build M_Main.g_config M_Main.g_clean M_Main.g_cross M_Main.g_out M_Main.g_format M_Main.g_absolute M_Main.g_remap M_Main.g_checkout M_Main.g_disable_opt M_Main.g_quiet M_Main.g_verbose set_vmlinux].
  intros F Q V. rewrite !run_app. unfold namespace0.
  assert (forall a b c d e f g h i j k l m n o, run (one_value OKdir o) (Args a None b c d e f g h i j k l m n) = Args a o b c d e f g h i j k l m n) as -> by (intros; destruct o; reflexivity).
  assert (forall a b c d e f g h i j k l m n o, run (one_value OArch o) (Args a b None c d e f g h i j k l m n) = Args a b o c d e f g h i j k l m n) as -> by (intros; destruct o; reflexivity).
  assert (forall a b c d e f g h i j k l m n o, run (one_flag OBuild o) (Args a b c false d e f g h i j k l m n) = Args a b c o d e f g h i j k l m n) as -> by (intros; destruct o; reflexivity).
  assert (forall a b c d e f g h i j k l m n o, run (one_flag OConfig o) (Args a b c d false e f g h i j k l m n) = Args a b c d o e f g h i j k l m n) as -> by (intros; destruct o; reflexivity).
  assert (forall a b c d e f g h i j k l m n o, run (one_flag OClean o) (Args a b c d e false f g h i j k l m n) = Args a b c d e o f g h i j k l m n) as -> by (intros; destruct o; reflexivity).
  assert (forall a b c d e f g h i j k l m n o, run (one_value OCross o) (Args a b c d e f None g h i j k l m n) = Args a b c d e f o g h i j k l m n) as -> by (intros; destruct o; reflexivity).
  assert (forall a b c d e f g h i j k l m n o, run (one_value OOut o) (Args a b c d e f g None h i j k l m n) = Args a b c d e f g o h i j k l m n) as -> by (intros; destruct o; reflexivity).
  assert (forall a b c d e f g h i j k l m n, run (one_value OFormat (Some fo)) (Args a b c d e f g h $"text" i j k l m n) = Args a b c d e f g h fo i j k l m n) as -> by (intros; destruct F as [->|[->| ->]]; reflexivity).
  assert (forall a b c d e f g h i j k l m n o, run (one_flag OAbsolute o) (Args a b c d e f g h i false j k l m n) = Args a b c d e f g h i o j k l m n) as -> by (intros; destruct o; reflexivity).
  assert (forall a b c d e f g h i j k l m n o, run (one_value ORemap o) (Args a b c d e f g h i j None k l m n) = Args a b c d e f g h i j o k l m n) as -> by (intros; destruct o; reflexivity).
  assert (forall a b c d e f g h i j k l m n o, run (one_value OCheckout o) (Args a b c d e f g h i j k None l m n) = Args a b c d e f g h i j k o l m n) as -> by (intros; destruct o; reflexivity).
  assert (forall a b c d e f g h i j k l m n o, run (one_flag ODisableOpt o) (Args a b c d e f g h i j k l false m n) = Args a b c d e f g h i j k l o m n) as -> by (intros; destruct o; reflexivity).
  now rewrite run_quiet, run_verbose, !Z.add_0_l.
Qed.
Lemma expressible g : format_ok (g_format g) -> 0 <= g_quiet g -> 0 <= g_verbose g -> exists argv, parse_args argv = inr g.
Proof.
  intros F Q V. destruct (write_events (events_of g) (events_proper g)) as (ws & O). pose proof (run_events g F Q V) as R. pose proof (events_harmless g F) as H. destruct (g_vmlinux g) as [w|] eqn:E.
  - exists (ws ++ [$"--"; w]). etransitivity; [exact (line_complete _ _ _ (line_dashes_word _ _ w O) H)|]. rewrite R, set_set. destruct g. cbn in E. now rewrite E.
  - exists ws. rewrite (line_complete _ _ _ (line_options _ _ O) H), R, set_set. destruct g. cbn in E. now rewrite E.
Qed.
Lemma asked_ok argv g : asks argv g -> format_ok (g_format g) /\ 0 <= g_quiet g /\ 0 <= g_verbose g.
Proof.
  intros (evs & w & L & (_ & _ & H) & [M1 M2 M3 M4 M5 M6 M7 M8 M9 M10 M11 M12 M13 M14 M15]). assert (forall o n, times o evs n -> 0 <= n) as T by (intros o n X; clear -X; induction X; lia).
  split; [|split; [exact (T _ _ M14)|exact (T _ _ M15)]]. destruct M9 as [(a & b & E & _)|(_ & ->)]; [|now left]. apply H. rewrite E. apply in_or_app. right. now left.
Qed.
Lemma expressible_iff g : (exists argv, asks argv g) <-> (g_format g = $"text" \/ g_format g = $"json" \/ g_format g = $"html") /\ 0 <= g_quiet g /\ 0 <= g_verbose g.
Proof.
  split.
  - intros (argv & A). exact (asked_ok argv g A).
  - intros (F & Q & V). destruct (expressible g F Q V) as (argv & E). exists argv. now apply accepts.
Qed.
Lemma program m argv :
  (forall g, asks argv g -> systrack m argv = main m g) /\
  (shows OHelp argv \/ shows OVersion argv -> systrack m argv = ret (Exit 0)) /\
  ((forall g, ~ asks argv g) -> ~ shows OHelp argv -> ~ shows OVersion argv -> systrack m argv = ret (Exit 2)).
Proof.
  pose proof (shows_stop OHelp SHelp argv (or_introl (conj eq_refl eq_refl))) as H. pose proof (shows_stop OVersion SVersion argv (or_intror (conj eq_refl eq_refl))) as V. unfold systrack. split; [|split].
  - intros g A. apply accepts in A. now rewrite A.
  - intros [S|S]; [apply H in S|apply V in S]; now rewrite S.
  - intros A Nh Nv. pose proof (never_list argv) as L. pose proof (fun g => proj1 (accepts argv g)) as Ac. destruct (parse_args argv) as [[]|g]; [now elim Nh; apply H|now elim Nv; apply V|reflexivity|now elim L|]. elim (A g). now apply Ac.
Qed.
Lemma one_meaning argv g : asks argv g -> (forall g', asks argv g' -> g' = g) /\ ~ shows OHelp argv /\ ~ shows OVersion argv.
Proof.
  intros A. apply accepts in A. split; [|split].
  - intros g' A'. apply accepts in A'. rewrite A in A'. now injection A'.
  - intros S. apply (shows_stop OHelp SHelp argv (or_introl (conj eq_refl eq_refl))) in S. rewrite A in S. discriminate.
  - intros S. apply (shows_stop OVersion SVersion argv (or_intror (conj eq_refl eq_refl))) in S. rewrite A in S. discriminate.
Qed.
