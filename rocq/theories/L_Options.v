(** Lemmas for C115. *)
From Coq Require Import List Bool Ascii String ZArith Lia.
From Verif Require Import PyBase PyFacts M_Utils M_Elf M_Syscall M_Arch M_Kernel M_Annotate M_Search M_Config M_Command M_Output M_Main M_Args M_Program
  S_Main S_Args S_Options L_Main L_Main2 L_Args4 L_Args8 L_Needs.
Import ListNotations.
Open Scope Z_scope.
Open Scope list_scope.

(** * Messages *)

(** Two computations with the same outcome and the same deeds *)
Definition matched {A} (p p' : list action * outcome A) : Prop :=
  snd p = snd p' /\ exists d, deeds (fst p) d /\ deeds (fst p') d.
Definition matching {A} (x x' : mio A) : Prop :=
  forall h h' d, deeds h d -> deeds h' d -> matched (x h) (x' h').
Lemma matching_bind {A B} (x x' : mio A) (f f' : A -> mio B) :
  matching x x' -> (forall a, matching (f a) (f' a)) -> matching (mbind x f) (mbind x' f').
Proof.
  intros X F h h' d D D'. destruct (X h h' d D D') as [E (d1 & D1 & D1')]. unfold mbind.
  destruct (x h) as [h1 r]; destruct (x' h') as [h1' r']. cbn [fst snd] in *. subst r'.
  destruct r as [y| | |]; try (split; [reflexivity|eauto]). exact (F y h1 h1' d1 D1 D1').
Qed.
Lemma matching_ret {A} (r : outcome A) : matching (ret r) (ret r).
Proof. intros h h' d D D'. split; [reflexivity|exists d; auto]. Qed.
Lemma matching_ask {A} (f f' : list action -> A) : (forall h h' d, deeds h d -> deeds h' d -> f h = f' h') -> matching (M_Main.ask f) (M_Main.ask f').
Proof. intros F h h' d D D'. split; [cbn; f_equal; eauto|exists d; auto]. Qed.
Lemma matching_try {A} (f f' : list action -> outcome A) : (forall h h' d, deeds h d -> deeds h' d -> f h = f' h') -> matching (try_ f) (try_ f').
Proof. intros F h h' d D D'. split; [cbn; eauto|exists d; auto]. Qed.
Lemma matching_act {A} x (f f' : list action -> outcome A) : ~ is_said x -> (forall h h' d, deeds h d -> deeds h' d -> f h = f' h') ->
  matching (act x f) (act x f').
Proof.
  intros N F h h' d D D'. split; [cbn; eauto|]. exists (d ++ [x]). split; cbn [act fst]; apply deeds_app; auto using deeds_one.
Qed.
Lemma matching_eprint s s' l : matching (M_Main.eprint s l) (M_Main.eprint s' l).
Proof.
  intros h h' d D D'. unfold M_Main.eprint.
  assert (forall h0, deeds h0 d -> deeds (h0 ++ [Said l]) d) as X.
  { intros h0 D0. rewrite <- (app_nil_r d). apply deeds_app; [exact D0|]. apply deeds_said. constructor; [now exists l|constructor]. }
  destruct s, s'; (split; [reflexivity|]); exists d; cbn [ret act fst]; auto.
Qed.
Lemma matching_eprints s s' l : matching (eprints s l) (eprints s' l).
Proof. induction l as [|x l IH]; [apply matching_ret|]. cbn [eprints]. apply matching_bind; [apply matching_eprint|intros _; exact IH]. Qed.

(** Machines that hear no messages *)
Record deaf (m : machine) : Prop := {
  df_checkout h h' d ref : deeds h d -> deeds h' d -> mc_checkout m h ref = mc_checkout m h' ref;
  df_exists h h' d p : deeds h d -> deeds h' d -> mc_exists m h p = mc_exists m h' p;
  df_is_dir h h' d p : deeds h d -> deeds h' d -> mc_is_dir m h p = mc_is_dir m h' p;
  df_mkdir h h' d p : deeds h d -> deeds h' d -> mc_mkdir m h p = mc_mkdir m h' p;
  df_is_file h h' d p : deeds h d -> deeds h' d -> mc_is_file m h p = mc_is_file m h' p;
  df_available h h' d x : deeds h d -> deeds h' d -> mc_available m h x = mc_available m h' x;
  df_gcc h h' d x : deeds h d -> deeds h' d -> mc_gcc_version m h x = mc_gcc_version m h' x;
  df_elf h h' d p : deeds h d -> deeds h' d -> mc_elf m h p = mc_elf m h' p;
  df_make h h' d : deeds h d -> deeds h' d -> mc_make_version m h = mc_make_version m h';
  df_clean h h' d a : deeds h d -> deeds h' d -> mc_clean m h a = mc_clean m h' a;
  df_configure h h' d a : deeds h d -> deeds h' d -> mc_configure m h a = mc_configure m h' a;
  df_build h h' d a o : deeds h d -> deeds h' d -> mc_build m h a o = mc_build m h' a o;
  df_syscalls h h' d a e v : deeds h d -> deeds h' d -> mc_syscalls m h a e v = mc_syscalls m h' a e v
}.

Ltac not_said := let H := fresh in intros [? H]; discriminate H.
Ltac hears DF :=
  intros; cbv beta;
  first [ eapply (df_checkout _ DF); eassumption | eapply (df_is_file _ DF); eassumption | eapply (df_available _ DF); eassumption
        | eapply (df_gcc _ DF); eassumption | eapply (df_clean _ DF); eassumption | eapply (df_configure _ DF); eassumption
        | eapply (df_build _ DF); eassumption | eapply (df_syscalls _ DF); eassumption
        | reflexivity ].
Ltac pair_up DF :=
  repeat first
    [ apply matching_ret | apply matching_eprint | apply matching_eprints
    | apply matching_bind; [|intros ?]
    | apply matching_act; [not_said|hears DF]
    | apply matching_ask; hears DF
    | apply matching_try; hears DF ].

Lemma prepare_deaf m g g' s s' n k : deaf m -> same_work g g' -> matching (prepare m g s n k) (prepare m g' s' n k).
Proof.
  intros DF (E1 & E2 & E3 & E4 & E5 & E6 & E7 & E8 & E9 & E10 & E11 & E12 & E13). unfold prepare. rewrite E4, E5, E7, E8, E13. cbv zeta.
  apply matching_bind.
  { destruct (path_arg (g_out g')) as [o|]; [|apply matching_ret]. apply matching_bind.
    - apply matching_ask. intros h h' d D D'. now rewrite (df_exists _ DF h h' d o D D'), (df_is_dir _ DF h h' d o D D').
    - intros []; [apply matching_ret|]. apply matching_act; [not_said|]. intros h h' d D D'. now rewrite (df_mkdir _ DF h h' d o D D'). }
  intros []; cbn [negb]; [|apply matching_ret]. apply matching_bind; [apply matching_ask; hears DF|]. intros []; cbn [negb]; [|apply matching_ret].
  apply matching_bind. { destruct (g_config g' || g_build g'); [|apply matching_ret]. pair_up DF. }
  intros []. apply matching_bind. { apply matching_try. intros h h' d D D'. now rewrite (df_make _ DF h h' d D D'). }
  intros a.
  assert (forall X Y, @matching str (try_ X) (try_ Y) -> True) as _ by auto.
  assert (matching
    (v <-- try_ (fun h => let '(r, s0) := get_version None (Some (mc_make_version m h)) vstate0 in
                          v <- r ;; Ok (version_str v match vs_source s0 with Some x => x | None => $"None" end)) ;;
     _ <-- M_Main.eprint s ($"Detected kernel version: " ++ v) ;; _ <-- M_Main.eprint s $"Configuring kernel" ;;
     act (Configured k a) (fun h => mc_configure m h a))
    (v <-- try_ (fun h => let '(r, s0) := get_version None (Some (mc_make_version m h)) vstate0 in
                          v <- r ;; Ok (version_str v match vs_source s0 with Some x => x | None => $"None" end)) ;;
     _ <-- M_Main.eprint s' ($"Detected kernel version: " ++ v) ;; _ <-- M_Main.eprint s' $"Configuring kernel" ;;
     act (Configured k a) (fun h => mc_configure m h a))) as C.
  { apply matching_bind. { apply matching_try. intros h h' d D D'. now rewrite (df_make _ DF h h' d D D'). } intros v. pair_up DF. }
  destruct (g_build g'); [|destruct (g_config g')].
  - apply matching_bind; [pair_up DF|]. intros _. apply matching_bind; [exact C|]. intros _. pair_up DF.
  - apply matching_bind; [pair_up DF|]. intros _. apply matching_bind; [exact C|]. intros _. pair_up DF.
  - pair_up DF.
Qed.
Lemma analyse_deaf m g g' s s' n k : deaf m -> same_work g g' -> matching (analyse m g s n k) (analyse m g' s' n k).
Proof.
  intros DF (E1 & E2 & E3 & E4 & E5 & E6 & E7 & E8 & E9 & E10 & E11 & E12 & E13). unfold analyse. rewrite E1, E9, E10, E12. cbv zeta.
  destruct (_ && _); [apply matching_ret|]. apply matching_bind; [apply matching_ret|]. intros p. apply matching_bind; [apply matching_ask; hears DF|].
  intros []; cbn [negb]; [|apply matching_ret]. apply matching_bind; [apply matching_ask; hears DF|]. intros []; cbn [negb]; [|apply matching_ret].
  apply matching_bind. { apply matching_try. intros h h' d D D'. now rewrite (df_elf _ DF h h' d p D D'). }
  intros e. destruct (get_version _ _ _) as [r st]. apply matching_bind; [apply matching_ret|]. intros a. apply matching_bind; [apply matching_ret|]. intros v.
  apply matching_bind; [apply matching_eprint|]. intros _. apply matching_bind. { destruct (match g_checkout g' with Some c => _ | None => _ end); pair_up DF. }
  intros _. apply matching_bind; [apply matching_try; hears DF|]. intros scs. destruct scs as [|x scs]; [apply matching_ret|]. pair_up DF.
Qed.
Lemma main_deaf m g g' : deaf m -> same_work g g' -> matching (main m g) (main m g').
Proof.
  intros DF S. pose proof S as (E1 & E2 & E3 & E4 & E5 & E6 & E7 & E8 & E9 & E10 & E11 & E12 & E13). unfold main. cbv zeta.
  generalize (lc_silent (setup_logging (g_quiet g) (g_verbose g))) (lc_silent (setup_logging (g_quiet g') (g_verbose g'))). intros s s'.
  rewrite E1, E2, E3, E4, E5, E6, E12. destruct (check_arch _); [apply matching_ret|].
  destruct (_ && _); [apply matching_ret|]. destruct (_ && _); [apply matching_ret|]. destruct (_ && _); [apply matching_ret|].
  apply matching_bind.
  { destruct (g_checkout g') as [[|c t]|]; try apply matching_ret. destruct (str_eqb _ _); [apply matching_ret|]. pair_up DF. }
  intros []. destruct (g_clean g' || g_config g' || g_build g'); [now apply prepare_deaf|now apply analyse_deaf].
Qed.

Lemma capture_deaf c h h' : pc_look c h = pc_look c h' -> pc_found c h = pc_found c h' -> pc_run c h = pc_run c h' ->
  system_at c h = system_at c h' /\ waits c h = waits c h' /\ capture c h = capture c h'.
Proof. intros L F R. unfold capture, waits, system_at. now rewrite L, F, R. Qed.
Lemma computer_deaf c g : unmoved c -> deaf (machine_of c g).
Proof.
  intros U. constructor; intros h h' d; intros; destruct (U h h' d ltac:(assumption) ltac:(assumption)) as (L & RS & W & F & R & MK & CL & CF & BD);
    destruct (capture_deaf c h h' L F R) as (SY & WT & CP); cbn [machine_of mc_checkout mc_exists mc_is_dir mc_mkdir mc_is_file mc_available mc_gcc_version mc_elf
      mc_make_version mc_clean mc_configure mc_build mc_syscalls].
  - destruct (path_arg (g_kdir g)); [|reflexivity]. unfold checkout. now rewrite SY, WT.
  - now rewrite L.
  - now rewrite L.
  - now rewrite MK.
  - now rewrite L.
  - now rewrite W.
  - unfold ask_gcc. now rewrite SY, WT.
  - unfold open_elf. now rewrite L, CP.
  - now rewrite CP.
  - now rewrite CL.
  - now rewrite CF.
  - now rewrite BD.
  - unfold env_at, world_at, run_search, run_addr2line. now rewrite L, RS, W, CP.
Qed.
Lemma machine_work c g g' : same_work g g' -> machine_of c g = machine_of c g'.
Proof.
  intros (E1 & E2 & E3 & E4 & E5 & E6 & E7 & E8 & E9 & E10 & E11 & E12 & E13). unfold machine_of, env_at, image_path. now rewrite E1, E2, E11.
Qed.
Lemma run_deaf c argv argv' g g' : unmoved c -> parse_args argv = inr g -> parse_args argv' = inr g' -> same_work g g' ->
  snd (on_computer c argv []) = snd (on_computer c argv' []) /\
  exists d, deeds (fst (on_computer c argv [])) d /\ deeds (fst (on_computer c argv' [])) d.
Proof.
  intros U P P' S. unfold on_computer. rewrite P, P', (machine_work c g g' S). apply (main_deaf _ g g' (computer_deaf c g' U) S [] [] []); constructor.
Qed.

(** * The form of the result *)

Lemma machine_search c g g' : same_search g g' -> machine_of c g = machine_of c g'.
Proof. intros (E1 & E2 & E3 & E4 & E5 & E6 & E7 & E8 & E9 & E10). unfold machine_of, env_at, image_path. now rewrite E1, E2, E7. Qed.

(** Two runs are the same, or end in two ways. *)
Lemma split_bind {A B} (x : mio A) (f f' : A -> mio B) h (Q : list action * outcome B -> list action * outcome B -> Prop) :
  (forall p, Q p p) -> (forall a h1, x h = (h1, Ok a) -> Q (f a h1) (f' a h1)) -> Q (mbind x f h) (mbind x f' h).
Proof. intros R F. unfold mbind. destruct (x h) as [h1 [a| | |]] eqn:E; auto. Qed.

Lemma output_ends sv tag source a scs fmt : scs <> [] -> format_ok fmt -> ((exists t, tag = Ok t) \/ tag = Raise ValueError) ->
  (exists d, output_syscalls sv tag source a scs fmt = Ok d) \/ (fmt <> $"text" /\ output_syscalls sv tag source a scs fmt = Raise ValueError).
Proof.
  intros N F T. destruct F as [E|[E|E]]; subst fmt.
  - left. destruct scs as [|s scs]; [now destruct N|]. eexists. reflexivity.
  - destruct T as [[t ->]| ->]; [left; eexists; reflexivity|right; split; [discriminate|reflexivity]].
  - unfold output_syscalls. change (str_eqb $"html" $"text") with false. change (str_eqb $"html" $"json") with false. change (str_eqb $"html" $"html") with true. cbv iota.
    unfold output_syscalls_html, max_args. destruct (flat_map _ scs) as [|n l]; [right; split; [discriminate|reflexivity]|].
    destruct T as [[t ->]| ->]; [left; eexists; reflexivity|right; split; [discriminate|reflexivity]].
Qed.
Lemma tag_ends v : (exists t, version_tag v = Ok t) \/ version_tag v = Raise ValueError.
Proof. unfold version_tag. destruct v as [|x [|y [|z [|w v]]]]; eauto. Qed.

Definition two_ways (c : computer) (g g' : args) (p p' : list action * outcome Z) : Prop :=
  p = p' \/ exists v a scs shown shown' h, scs <> [] /\ Forall2 (shown_as g) scs shown /\ Forall2 (shown_as g') scs shown' /\
    closes c v a shown (g_format g) h p /\ closes c v a shown' (g_format g') h p'.

Lemma mbind_ret {A B} (a : A) (f : A -> mio B) h : mbind (ret (Ok a)) f h = f a h.
Proof. reflexivity. Qed.
Lemma finish_ways c g v a scs shown h : scs <> [] -> format_ok (g_format g) -> mapM (show_path (path_arg (g_kdir g)) (g_absolute g)) scs = Ok shown ->
  closes c v a shown (g_format g) h
   ((d <-- ret (output_syscalls (pc_version c) (version_tag v) $"vmlinux" a shown (g_format g)) ;;
     _ <-- act (Printed d) (fun _ => Ok tt) ;; ret (Ok 0)) h).
Proof.
  intros N F MP.
  assert (shown <> []) as N'. { intros ->. destruct scs as [|s scs]; [now destruct N|]. apply mapM_Ok in MP. inversion MP. }
  destruct (output_ends (pc_version c) (version_tag v) $"vmlinux" a shown (g_format g) N' F (tag_ends v)) as [[d O]|[NT O]].
  - unfold mbind. cbn [ret]. rewrite O. cbn [ret act]. now constructor.
  - unfold mbind. cbn [ret]. rewrite O. now constructor.
Qed.
Lemma shown_paths g scs shown : mapM (show_path (path_arg (g_kdir g)) (g_absolute g)) scs = Ok shown -> Forall2 (shown_as g) scs shown.
Proof. intros MP. apply mapM_Ok in MP. rename MP into X. clear - X. induction X as [|s s' scs shown X M IH]; constructor; [now apply show_path_shown|exact IH]. Qed.

Lemma analyse_ways c g g' silent n h : same_search g g' -> format_ok (g_format g) -> format_ok (g_format g') ->
  two_ways c g g' (analyse (machine_of c g) g silent n (path_arg (g_kdir g)) h) (analyse (machine_of c g) g' silent n (path_arg (g_kdir g)) h).
Proof.
  intros S F F'. pose proof S as (E1 & E2 & E3 & E4 & E5 & E6 & E7 & E8 & E9 & E10). unfold analyse. rewrite <- E1, <- E8. cbv zeta.
  assert (forall p, two_ways c g g' p p) as RE by (intros p; now left).
  destruct (_ && _); [apply RE|]. apply split_bind; [exact RE|]. intros p h1 _. apply split_bind; [exact RE|]. intros there h2 _. destruct (negb there); [apply RE|].
  apply split_bind; [exact RE|]. intros re h3 _. destruct (negb re); [apply RE|]. apply split_bind; [exact RE|]. intros e h4 _.
  destruct (get_version (Some (version_from_vmlinux e)) None vstate0) as [r st] eqn:GV.
  apply split_bind; [exact RE|]. intros a h5 _. apply split_bind; [exact RE|]. intros v h6 V.
  assert (vs_source st = Some $"vmlinux") as SRC.
  { cbn in V. injection V as _ ->. unfold get_version in GV. cbn [vs_version vstate0] in GV. destruct (version_from_vmlinux e) as [[w|]|x|x|]; injection GV as R <-; try discriminate R. reflexivity. }
  rewrite SRC. apply split_bind; [exact RE|]. intros _ h7 _. apply split_bind; [exact RE|]. intros _ h8 _. apply split_bind; [exact RE|]. intros scs h9 _.
  destruct scs as [|sc scs]; [apply RE|]. set (l := sc :: scs) in *.
  destruct (show_paths_total (path_arg (g_kdir g)) (g_absolute g) l) as [shown MP]. destruct (show_paths_total (path_arg (g_kdir g')) (g_absolute g') l) as [shown' MP'].
  pose proof MP' as MP''. rewrite <- E2 in MP''. rewrite MP, MP''.
  rewrite !mbind_ret. cbv beta. apply split_bind; [exact RE|]. intros _ h10 _.
  right. exists v, (adjust_abi a e), l, shown, shown', h10. split; [discriminate|]. split; [now apply shown_paths|]. split; [now apply shown_paths|].
  split; [now apply (finish_ways c g v _ l)|now apply (finish_ways c g' v _ l)].
Qed.
Lemma run_ways c argv argv' g g' h : parse_args argv = inr g -> parse_args argv' = inr g' -> format_ok (g_format g) -> format_ok (g_format g') ->
  same_search g g' -> ~ preparing g -> two_ways c g g' (on_computer c argv h) (on_computer c argv' h).
Proof.
  intros P P' F F' S NP. pose proof S as (E1 & E2 & E3 & E4 & E5 & E6 & E7 & E8 & E9 & E10). unfold on_computer. rewrite P, P', <- (machine_search c g g' S).
  unfold main. rewrite <- E1, <- E2, <- E3, <- E4, <- E5, <- E6, <- E8, <- E9, <- E10. cbv zeta.
  assert (forall p, two_ways c g g' p p) as RE by (intros p; now left).
  destruct (check_arch _); [apply RE|]. destruct (_ && _); [apply RE|]. destruct (_ && _); [apply RE|]. destruct (_ && _); [apply RE|].
  apply split_bind; [exact RE|]. intros [] h1 _. destruct (g_clean g || g_config g || g_build g) eqn:Pr.
  { destruct NP. unfold preparing. destruct (g_clean g), (g_config g), (g_build g); try discriminate; tauto. }
  now apply analyse_ways.
Qed.

(** * Options without effect *)

Lemma silence_same g g' : ((0 < g_quiet g /\ g_verbose g <= 0) <-> (0 < g_quiet g' /\ g_verbose g' <= 0)) ->
  lc_silent (setup_logging (g_quiet g) (g_verbose g)) = lc_silent (setup_logging (g_quiet g') (g_verbose g')).
Proof. intros E. apply eq_true_iff_eq. now rewrite !silent_iff. Qed.
Lemma run_loud c argv argv' g g' h : parse_args argv = inr g -> parse_args argv' = inr g' -> same_work g g' ->
  ((0 < g_quiet g /\ g_verbose g <= 0) <-> (0 < g_quiet g' /\ g_verbose g' <= 0)) -> on_computer c argv h = on_computer c argv' h.
Proof.
  intros P P' S E. unfold on_computer. rewrite P, P', (machine_work c g g' S). pose proof (silence_same g g' E) as SI.
  unfold main. rewrite SI. destruct S as (E1 & E2 & E3 & E4 & E5 & E6 & E7 & E8 & E9 & E10 & E11 & E12 & E13).
  unfold prepare, analyse. now rewrite E1, E2, E3, E4, E5, E6, E7, E8, E9, E10, E12, E13.
Qed.
Lemma mapM_same {A B} (f f' : A -> outcome B) l : (forall x, f x = f' x) -> mapM f l = mapM f' l.
Proof. intros E. induction l as [|x l IH]; [reflexivity|]. cbn. rewrite E. destruct (f' x); try reflexivity. cbn [bind]. now rewrite IH. Qed.
Lemma run_unused c argv argv' g g' h : parse_args argv = inr g -> parse_args argv' = inr g' -> same_search g g' -> ~ preparing g ->
  g_format g = g_format g' -> g_absolute g = g_absolute g' \/ ~ present (g_kdir g) -> on_computer c argv h = on_computer c argv' h.
Proof.
  intros P P' S NP F A. pose proof S as (E1 & E2 & E3 & E4 & E5 & E6 & E7 & E8 & E9 & E10). unfold on_computer. rewrite P, P', <- (machine_search c g g' S).
  unfold main. rewrite <- E1, <- E2, <- E3, <- E4, <- E5, <- E6, <- E8, <- E9, <- E10. cbv zeta.
  destruct (check_arch _); [reflexivity|]. destruct (_ && _); [reflexivity|]. destruct (_ && _); [reflexivity|]. destruct (_ && _); [reflexivity|].
  apply mbind_same; [reflexivity|]. intros [] h1. destruct (g_clean g || g_config g || g_build g) eqn:Pr.
  { destruct NP. unfold preparing. destruct (g_clean g), (g_config g), (g_build g); try discriminate; tauto. }
  unfold analyse. rewrite <- E1, <- E8, <- F. cbv zeta. destruct (_ && _); [reflexivity|]. apply mbind_same; [reflexivity|]. intros p h2.
  apply mbind_same; [reflexivity|]. intros there h3. destruct (negb there); [reflexivity|]. apply mbind_same; [reflexivity|]. intros re h4. destruct (negb re); [reflexivity|].
  apply mbind_same; [reflexivity|]. intros e h5. destruct (get_version _ _ _) as [r st]. apply mbind_same; [reflexivity|]. intros a h6. apply mbind_same; [reflexivity|]. intros v h7.
  apply mbind_same; [reflexivity|]. intros _ h8. apply mbind_same; [reflexivity|]. intros _ h9. apply mbind_same; [reflexivity|]. intros scs h10. destruct scs as [|s scs]; [reflexivity|].
  apply mbind_same; [|reflexivity]. unfold ret. f_equal. destruct A as [A|A]; [now rewrite A|]. apply path_arg_None in A. rewrite A. apply mapM_same.
  intros x. unfold show_path. now destruct (sc_file x).
Qed.

(** Without sources nothing is remapped. *)
Lemma annotate_unmapped w have a e elf r r' kres : annotate w have a e elf None r kres = annotate w have a e elf None r' kres.
Proof. reflexivity. Qed.
Lemma run_unmapped c argv argv' g r h : parse_args argv = inr g -> parse_args argv' = inr (remapped r g) -> ~ present (g_kdir g) ->
  on_computer c argv h = on_computer c argv' h.
Proof.
  intros P P' K. apply path_arg_None in K. unfold on_computer. rewrite P, P'.
  assert (machine_of c g = machine_of c (remapped r g)) as ->.
  { unfold machine_of, env_at, image_path. cbn [remapped g_vmlinux g_kdir g_remap]. rewrite K. f_equal. }
  reflexivity.
Qed.
