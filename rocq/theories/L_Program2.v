(** Lemmas for C103: runs that end well. *)
From Coq Require Import List Bool Ascii String ZArith Lia Permutation.
From Verif Require Import PyBase PyFacts M_Utils M_Elf M_Syscall M_Arch M_Emu M_Kernel M_Location M_Annotate M_Search M_Config M_Command M_Output M_Json M_Main M_Args M_Program
  S_Utils S_Elf S_Kernel S_Location S_Declared S_Output S_Json S_Main S_Whole S_Program L_Main L_Main2 L_Program.
Import ListNotations.
Open Scope Z_scope.
Open Scope list_scope.

(** What is left to do with a document *)
Definition printing (h : list action) (o : outcome document) : list action * outcome Z :=
  match o with Ok d => (h ++ [Printed d], Ok 0) | Raise x => (h, Raise x) | Exit z => (h, Exit z) | Diverge => (h, Diverge) end.
Lemma main_succeeds m g p e v a : arch_fine g -> ~ preparing g -> ~ present (g_checkout g) -> image_of g p ->
  (forall h, Forall is_said h -> mc_is_file m h p = true /\ mc_available m h $"readelf" = true /\ mc_elf m h p = Ok e /\ exists scs, mc_syscalls m h a e v = Ok scs) ->
  version_from_vmlinux e = Ok (Some v) ->
  kernel_init (option_map lower (g_arch g)) (Some e) (match path_arg (g_kdir g) with Some _ => true | None => false end) (Ok v) = Ok a ->
  exists h1 scs, Forall is_said h1 /\ mc_syscalls m h1 a e v = Ok scs /\
    ((scs = [] /\ main m g [] = (h1, Ok 1)) \/
     (scs <> [] /\ exists h2 shown, Forall is_said h2 /\ Forall2 (shown_as g) scs shown /\
        main m g [] = printing (h1 ++ h2) (output_syscalls (mc_version m) (version_tag v) $"vmlinux" (adjust_abi a e) shown (g_format g)))).
Proof.
  intros AF NP NC IM H V K. set (o := fun shown => output_syscalls (mc_version m) (version_tag v) $"vmlinux" (adjust_abi a e) shown (g_format g)).
  assert (check_arch (option_map lower (g_arch g)) = None) as CA.
  { unfold check_arch. destruct (g_arch g) as [n|] eqn:A; [|reflexivity]. cbn [option_map]. now rewrite (proj1 (known_lower n) (AF n A)). }
  assert (exists h1 scs, Forall is_said h1 /\ mc_syscalls m h1 a e v = Ok scs /\ post (main m g) [] (fun h r =>
     (scs = [] /\ h = h1 /\ r = Ok 1) \/ (scs <> [] /\ exists h2 shown, Forall is_said h2 /\ Forall2 (shown_as g) scs shown /\ (h, r) = printing (h1 ++ h2) (o shown))))
    as (h1 & scs & S1 & S2 & S3); cycle 1.
  { exists h1, scs. split; [exact S1|]. split; [exact S2|]. unfold post in S3. destruct (main m g []) as [h r]. cbn [fst snd] in S3.
    destruct S3 as [(E1 & -> & ->)|(N & h2 & shown & E2 & E3 & E4)]; [left; auto|right; split; [exact N|]; exists h2, shown; auto]. }
  set (silent := lc_silent (setup_logging (g_quiet g) (g_verbose g))).
  set (line := $"Detected kernel version: " ++ version_str v $"vmlinux"). set (h1 := told silent [line]).
  assert (Forall is_said h1) as Sh by (unfold h1, told; destruct silent; constructor; [eexists; reflexivity|constructor]).
  destruct (H h1 Sh) as (_ & _ & _ & scs & X). exists h1, scs. split; [exact Sh|]. split; [exact X|].
  assert (given (g_checkout g) = false) as GC by now apply given_false.
  assert (g_clean g = false /\ g_config g = false /\ g_build g = false) as (P1 & P2 & P3).
  { unfold preparing in NP. destruct (g_clean g), (g_config g), (g_build g); try (exfalso; apply NP; tauto). auto. }
  assert (match path_arg (g_vmlinux g), path_arg (g_kdir g) with
          | Some v, _ => Ok v
          | None, Some k => Ok (path_join k (Path [] [$"vmlinux"]))
          | None, None => Raise TypeError
          end = Ok p /\ negb (given (g_kdir g)) && negb (given (g_vmlinux g)) = false) as (VM & GV).
  { destruct IM as [s E N|k N Kd].
    - rewrite E. destruct s as [|c s]; [contradiction|]. cbn. split; [reflexivity|apply andb_false_r].
    - destruct Kd as (s & E & Ne & ->). apply path_arg_None in N. rewrite N, E. destruct s as [|c s]; [contradiction|]. cbn. auto. }
  unfold main. fold silent. rewrite CA, GV, P1, P2, P3, GC. cbn [orb]. rewrite !andb_false_r. cbv zeta.
  assert (match g_checkout g with Some c => str_eqb c $"auto" | None => false end = false) as AU.
  { destruct (g_checkout g) as [[|c s]|]; [reflexivity|discriminate GC|reflexivity]. }
  replace (match g_checkout g with Some (c :: s) => _ | _ => ret (Ok tt) end) with (@ret unit (Ok tt)) by (destruct (g_checkout g) as [[|c s]|]; [reflexivity|discriminate GC|reflexivity]).
  apply post_bind, post_ret. cbn [after]. unfold analyse. rewrite AU. cbn [andb]. apply post_bind, post_ret. rewrite VM. cbn [after].
  destruct (H [] (Forall_nil _)) as (H1 & H2 & H3 & _).
  apply post_bind, post_ask. cbn [after]. rewrite H1. cbn [negb]. apply post_bind, post_ask. cbn [after]. rewrite H2. cbn [negb].
  apply post_bind, post_try. rewrite H3. cbn [instantiate_kernel after]. rewrite V. change (get_version (Some (Ok (Some v))) None vstate0) with (@Ok version v, VState (Some v) (Some $"vmlinux")). cbv beta iota zeta. cbn [vs_source].
  apply post_bind, post_ret. rewrite K. cbn [instantiate_kernel after]. apply post_bind, post_ret. cbn [after].
  change ($"Detected kernel version: " ++ version_str v $"vmlinux") with line.
  assert (forall Q : list action -> outcome unit -> Prop, Q h1 (Ok tt) -> post (eprint silent line) [] Q) as Ep.
  { intros Q HQ. apply post_eprint; intros E; unfold h1, told in HQ; rewrite E in HQ; exact HQ. }
  apply post_bind, Ep. cbn [after]. apply post_bind, post_ret. cbn [after]. apply post_bind, post_try. rewrite X. cbn [after].
  assert (scs = [] \/ scs <> []) as [->|N] by (destruct scs; [now left|right; discriminate]); [apply post_ret; left; auto|].
  replace (match scs with [] => ret (Ok 1) | _ => _ end) with
      (shown <-- ret (mapM (show_path (path_arg (g_kdir g)) (g_absolute g)) scs) ;;
       _ <-- eprints silent (summary (path_arg (g_kdir g)) scs) ;;
       d <-- ret (output_syscalls (mc_version m) (version_tag v) $"vmlinux" (adjust_abi a e) shown (g_format g)) ;;
       _ <-- act (Printed d) (fun _ => Ok tt) ;;
       ret (Ok 0)) by (destruct scs; [now destruct N|reflexivity]).
  destruct (show_paths_total (path_arg (g_kdir g)) (g_absolute g) scs) as (shown & MP). apply post_bind, post_ret. rewrite MP. cbn [after].
  apply post_bind, post_eprints. cbn [after]. apply post_bind, post_ret. apply mapM_Ok in MP.
  assert (Forall2 (shown_as g) scs shown) as Sw by (clear - MP; induction MP as [|s s' scs shown X MP IH]; constructor; [now apply show_path_shown|exact IH]).
  fold (o shown). set (told2 := told silent (summary (path_arg (g_kdir g)) scs)). assert (Forall is_said told2) as S2.
  { unfold told2, told. destruct silent; [constructor|]. apply Forall_forall. intros x Ix. apply in_map_iff in Ix as (l & <- & _). now exists l. }
  destruct (o shown) as [dd|x|z|] eqn:Eo; cbn [after].
  - apply post_bind, post_act. cbn [after]. apply post_ret. right. split; [exact N|]. exists told2, shown. rewrite Eo. auto.
  - right. split; [exact N|]. exists told2, shown. rewrite Eo. auto.
  - right. split; [exact N|]. exists told2, shown. rewrite Eo. auto.
  - right. split; [exact N|]. exists told2, shown. rewrite Eo. auto.
Qed.
