(** Lemmas about preparing sources (C108): every command of building, and of the whole program. *)
From Coq Require Import List Bool Ascii String ZArith Lia.
From Verif Require Import PyBase PyFacts M_Utils M_Elf M_Syscall M_Arch M_Kernel M_Kconfig M_Build M_Config M_Command M_Search M_Main M_Program M_Workshop
  S_Utils S_Output S_Arch S_Config S_Main L_Utils L_Config L_Config2 L_Config4 L_Arch L_Arch3 L_Main S_Workshop L_Workshop L_Workshop2 L_Workshop3 L_Workshop4.
From Verif Require S_Build L_Build.
Import ListNotations.
Open Scope Z_scope.
Open Scope list_scope.

(** Where a command is in a list *)
Ltac where_is E L1 :=
  cbn [app] in E; destruct L1 as [|? L1];
  [ first [ discriminate E | injection E as <- <- ]
  | cbn [app] in E; first [ discriminate E | injection E as <- E; first [ discriminate E | where_is E L1 ] ] ].

Section Building.
  Context (w : workshop) (g : args) (k : path) (a : arch) (K : path_arg (g_kdir g) = Some k) (CH : chosen g a) (GB : g_build g = true).
  Local Notation kern := (kern_of w g a []).
  Let c := Command (make_argv kern $"vmlinux") k None.
  Let F := makefile k.

  Lemma vmlinux_last : exists l, c_argv c = l ++ [$"vmlinux"].
  Proof. destruct (vmlinux_makes w g k a K) as (_ & _ & l & E & _). exists ($"make" :: l). exact E. Qed.
  Lemma vmlinux_proper : proper w g k (Prep (Ran c)).
  Proof. apply (po_vmlinux w g k a); [exact GB|exact CH|]. exact (vmlinux_makes w g k a K). Qed.
  Lemma attempt_rest rest : g_disable_opt g = true -> rest <> [] -> attempt g c rest.
  Proof. intros O N. split; [exact GB|]. split; [exact O|]. split; [exact vmlinux_last|exact N]. Qed.
  Lemma wrote_proper t : g_disable_opt g = true -> proper w g k (Wrote F t).
  Proof. intros O. now apply po_makefile. Qed.
  Ltac all_proper := repeat (apply Forall_cons; [first [exact vmlinux_proper|now apply wrote_proper]|]); apply Forall_nil.
  Lemma sound_normal b D D' r : work w kern normal_build b D = (D', r) -> sound w g (proper w g k) D D' r.
  Proof.
    intros E. destruct (work_normal w g k a K b D) as (r' & E' & R). fold c in E'. rewrite E' in E. injection E as <- <-. exists [Prep (Ran c)].
    split; [reflexivity|]. split; [all_proper|]. split.
    - intros L1 c0 L2 EL. where_is EL L1. rewrite app_nil_r. destruct R as [[_ W]|[_ (n & -> & _)]]; eauto.
    - intros n ->. destruct R as [[X _]|[_ (n' & X & N)]]; [discriminate X|]. now injection X as ->.
  Qed.
  Lemma sound_work D D' r : work w kern (build (g_disable_opt g)) None D = (D', r) -> sound w g (proper w g k) D D' r.
  Proof.
    unfold build. destruct (g_disable_opt g) eqn:O; [|apply sound_normal].
    unfold try_set_level at 1. rewrite (work_read w g k a K). fold F. destruct (content_of (ws_look w D F)) as [s|]; [|intros [= <- <-]; now apply sound_nil].
    rewrite (work_backup w g a). set (mk := universal s). destruct (set_level mk 0) as [p0|] eqn:S0; [|apply sound_normal].
    rewrite (work_write w g k a K), (work_register w g a), (work_make w g k a K). fold F c.
    destruct mk as [|x mk'] eqn:MK; [discriminate S0|]. rewrite <- MK in *.
    assert (forall p D0, work w kern (restore p) (Some mk) D0 = work w kern p (Some mk) (D0 ++ [Wrote F []; Wrote F mk])) as RS.
    { intros p D0. rewrite MK. apply (work_restore w g k a K). }
    rewrite RS. rewrite <- !app_assoc. set (T := [Wrote F p0] ++ [Prep (Ran c)] ++ [Wrote F []; Wrote F mk]).
    assert (sound w g (proper w g k) D (D ++ T) (Ok tt)) as ST.
    { exists T. split; [reflexivity|]. split; [unfold T; cbn [app]; all_proper|]. split; [|discriminate].
      intros L1 c0 L2 EL. unfold T in EL. where_is EL L1. right. left. apply attempt_rest; [exact O|discriminate]. }
    destruct (M_Utils.run_command _ =? 0); [intros [= <- <-]; exact ST|].
    intros E. eapply sound_trans; [exact ST|]. revert E. generalize (D ++ T). clear D T ST. intros D.
    unfold try_set_level. rewrite (work_read w g k a K). fold F. destruct (content_of (ws_look w D F)) as [s1|]; [|intros [= <- <-]; now apply sound_nil].
    rewrite (work_backup w g a). set (mk1 := universal s1).
    (* what is written, then make, and restoring *)
    assert (forall D0, (forall D1 r1, sound w g (proper w g k) D0 D1 r1 -> sound w g (proper w g k) D D1 (r1 : outcome unit)) ->
      work w kern (PMake (fun rc => restore (if M_Utils.run_command rc =? 0 then PRet (Ok tt) else normal_build))) (Some mk1) D0 = (D', r) ->
      sound w g (proper w g k) D D' r) as GO.
    { intros D0 UP. rewrite (work_make w g k a K). fold c. intros E. apply UP. revert E. clear UP.
      destruct mk1 as [|y mk1'] eqn:M1.
      - unfold restore. cbn [work]. destruct (M_Utils.run_command (status_at w g k a D0) =? 0) eqn:R0.
        + intros [= <- <-]. apply (good_run w g k a) in R0. exists [Prep (Ran c)]. split; [reflexivity|]. split; [all_proper|].
          split; [|discriminate]. intros L1 c0 L2 EL. where_is EL L1. rewrite app_nil_r. left. exact R0.
        + intros E. destruct (work_normal w g k a K (Some []) (D0 ++ [Prep (Ran c)])) as (r' & E' & R). fold c in E'. pose proof (eq_trans (eq_sym E') E) as X. injection X as <- <-. clear E E'.
          exists [Prep (Ran c); Prep (Ran c)]. split; [now rewrite <- app_assoc|]. split; [all_proper|]. split.
          * intros L1 c0 L2 EL. where_is EL L1; [right; left; apply attempt_rest; [exact O|discriminate]|].
            destruct R as [[_ W]|[_ (n & -> & _)]]; [left; exact W|right; right; eauto].
          * intros n ->. destruct R as [[X _]|[_ (n' & X & N)]]; [discriminate X|]. now injection X as ->.
      - rewrite (work_restore w g k a K). fold F. rewrite <- app_assoc. set (T := [Prep (Ran c)] ++ [Wrote F []; Wrote F (y :: mk1')]).
        assert (sound w g (proper w g k) D0 (D0 ++ T) (Ok tt)) as ST.
        { exists T. split; [reflexivity|]. split; [unfold T; cbn [app]; all_proper|]. split; [|discriminate].
          intros L1 c0 L2 EL. unfold T in EL. where_is EL L1. right. left. apply attempt_rest; [exact O|discriminate]. }
        destruct (M_Utils.run_command _ =? 0); [intros [= <- <-]; exact ST|]. intros E. apply sound_normal in E. eapply sound_trans; eassumption. }
    destruct (set_level mk1 1) as [p1|].
    - rewrite (work_write w g k a K). fold F. apply GO. intros D1 r1 S1.
      eapply sound_trans; [|exact S1]. apply (sound_one w g (A := unit) _ _ _ (Ok tt)); [now apply wrote_proper|discriminate|discriminate].
    - apply GO. auto.
  Qed.
  Lemma sound_build D D' r : build_at w g a (g_disable_opt g) D = (D', r) -> sound w g (proper w g k) D D' r.
  Proof.
    unfold build_at. destruct (work w kern (build (g_disable_opt g)) None D) as [D1 r1] eqn:E. apply sound_work in E. intros [= <- <-].
    destruct r1 as [[]|x|n|]; cbn [bind].
    - eapply sound_trans; [exact E|]. now apply sound_nil.
    - eapply sound_fail; [exact E|discriminate|split; discriminate].
    - eapply sound_fail; [exact E|discriminate|]. intros m. split; intros [= ->]; reflexivity.
    - eapply sound_fail; [exact E|discriminate|split; discriminate].
  Qed.
End Building.

(** ** The whole program *)

Section Program.
  Context (w : workshop) (g : args).
  Let m := M_Program.machine_of (computer_of w g) g.

  Lemma doings_app h l : doings w g (h ++ l) = fold_left (perform w g) l (doings w g h).
  Proof. unfold doings. apply fold_left_app. Qed.
  Lemma doings_plain h l : (forall x, In x l -> match x with Cleaned _ _ | Configured _ _ | Built _ _ _ => False | _ => True end) ->
    doings w g (h ++ l) = doings w g h ++ map Main l.
  Proof.
    intros H. rewrite doings_app. generalize (doings w g h). induction l as [|x l IH]; intros D; [now rewrite app_nil_r|]. cbn [fold_left map].
    rewrite IH by (intros y I; apply H; now right). specialize (H x (or_introl eq_refl)).
    replace (perform w g D x) with (D ++ [Main x]) by (destruct x; try reflexivity; destruct H). now rewrite <- app_assoc.
  Qed.
  Lemma doings_said silent h l : sayings silent l -> doings w g (h ++ l) = doings w g h ++ map Main l.
  Proof. intros [F _]. apply doings_plain. intros x I. rewrite Forall_forall in F. now destruct (F x I) as [s ->]. Qed.

  Definition safe {A} (P : doing -> Prop) (x : mio A) : Prop := forall h, sound w g P (doings w g h) (doings w g (fst (x h))) (snd (x h)).
  Lemma safe_ret {A} P (r : outcome A) : (forall n, r = Exit n -> n <> 0) -> safe P (ret r).
  Proof. intros N h. now apply sound_nil. Qed.
  Lemma safe_ask {A} P (f : list action -> A) : safe P (ask f).
  Proof. intros h. now apply sound_nil. Qed.
  Lemma safe_try {A} P (f : list action -> outcome A) : (forall h n, f h = Exit n -> n <> 0) -> safe P (try_ f).
  Proof. intros N h. apply sound_nil. apply N. Qed.
  Lemma safe_bind {A B} P (x : mio A) (f : A -> mio B) : safe P x -> (forall h a, snd (x h) = Ok a -> safe P (f a)) -> safe P (mbind x f).
  Proof.
    intros X F h. unfold mbind. specialize (X h). specialize (F h). destruct (x h) as [h' [a|e|n|]]; cbn [fst snd] in *.
    - eapply sound_trans; [exact X|]. apply (F a eq_refl h').
    - eapply sound_fail; [exact X|discriminate|split; discriminate].
    - eapply sound_fail; [exact X|discriminate|]. intros c. split; intros [= ->]; reflexivity.
    - eapply sound_fail; [exact X|discriminate|split; discriminate].
  Qed.
  Lemma safe_plain {A} (P : doing -> Prop) x (f : list action -> outcome A) : P (Main x) ->
    match x with Cleaned _ _ | Configured _ _ | Built _ _ _ => False | _ => True end -> (forall h n, f h = Exit n -> n <> 0) -> safe P (act x f).
  Proof.
    intros H N Z h. unfold act. cbn [fst snd]. rewrite doings_plain by now intros y [<-|[]]. apply sound_one; [exact H|discriminate|apply Z].
  Qed.
  Lemma safe_eprint (P : doing -> Prop) silent s : (forall s, P (Main (Said s))) -> safe P (eprint silent s).
  Proof. intros H. unfold eprint. destruct silent; [now apply safe_ret|]. apply safe_plain; [apply H|exact I|discriminate]. Qed.

  Lemma capture_Exit c h cmd cwd n : capture c h cmd cwd = Exit n -> n <> 0.
  Proof.
    unfold capture. destruct (waits c h cmd cwd); [discriminate|]. destruct (snd (M_Command.ensure_command _ _ _ _ _)) as [[s|]|x|z|] eqn:E; cbn [bind]; try discriminate.
    intros [= <-]. now apply ensure_Exit in E.
  Qed.
  Lemma gcc_Exit h s n : mc_gcc_version m h s = Exit n -> n <> 0.
  Proof.
    cbn [m M_Program.machine_of mc_gcc_version]. unfold ask_gcc. destruct (waits _ _ _ _); [discriminate|]. unfold gcc_version.
    destruct (M_Command.ensure_command _ _ _ _ _) as [l [[s'|]|x|z|]] eqn:E; cbn [bind snd]; try discriminate.
    - destruct (splitlines s'); discriminate.
    - intros [= <-]. assert (snd (M_Command.ensure_command (system_at (computer_of w g) h) (Argv [s; $"--version"]) None true false) = Exit z) as X by (rewrite E; reflexivity).
      now apply ensure_Exit in X.
  Qed.
  Lemma checkout_Exit h ref n : mc_checkout m h ref = Exit n -> n <> 0.
  Proof.
    cbn [m M_Program.machine_of mc_checkout]. destruct (path_arg (g_kdir g)) as [k|]; [|discriminate]. unfold checkout. destruct (waits _ _ _ _); [discriminate|]. unfold git_checkout.
    destruct (M_Command.ensure_command _ _ _ _ _) as [l [s'|x|z|]] eqn:E; cbn [bind snd]; try discriminate.
    intros [= <-]. assert (snd (M_Command.ensure_command (system_at (computer_of w g) h) (Argv [$"git"; $"checkout"; ref]) (Some k) false false) = Exit z) as X by (rewrite E; reflexivity).
    now apply ensure_Exit in X.
  Qed.
  Lemma version_Exit h n : fst (get_version None (Some (mc_make_version m h)) vstate0) = Exit n -> n <> 0.
  Proof.
    cbn [m M_Program.machine_of mc_make_version get_version vstate0 vs_version]. destruct (capture _ _ _ _) as [s|x|z|] eqn:E; cbn [bind]; try discriminate.
    - destruct (version_from_str s); discriminate.
    - cbn [fst]. intros [= <-]. now apply capture_Exit in E.
  Qed.
  Lemma init_Exit b h n : arch_fine g ->
    instantiate_kernel (kernel_init (option_map lower (g_arch g)) None b (fst (get_version None (Some (mc_make_version m h)) vstate0))) = Exit n -> n <> 0.
  Proof.
    intros AF. unfold instantiate_kernel, kernel_init. destruct (negb b && true); [discriminate|]. destruct (g_arch g) as [s|] eqn:GA; [|discriminate]. cbn [option_map bind].
    destruct (fst (get_version _ _ _)) as [v|x|z|] eqn:V; cbn [bind].
    - assert (forall z, arch_from_name (lower s) v <> Exit z) as N.
      { destruct (AF s GA) as (d & DD & mm & M & S). pose proof (lower_names _ _ S) as L. rewrite (lower_plain mm (name_plain d mm DD M)) in L. rewrite L.
        destruct (since_or_before (d_since d) v) as [Q|Q]; [|rewrite (arch_name_too_old d mm v DD M Q); discriminate].
        destruct (arch_name_supported d mm v DD M Q) as (a & -> & _). discriminate. }
      destruct (arch_from_name (lower s) v) as [a|x|z|]; cbn [bind]; try discriminate; [|now destruct (N z)].
      destruct x; try discriminate; intros [= <-]; discriminate.
    - destruct x; try discriminate; intros [= <-]; discriminate.
    - intros [= <-]. now apply version_Exit in V.
    - discriminate.
  Qed.

  Lemma safe_clean k a : path_arg (g_kdir g) = Some k -> chosen g a -> safe (proper w g k) (act (Cleaned (Some k) a) (fun h => mc_clean m h a)).
  Proof.
    intros K CH h. unfold act. cbn [fst snd]. rewrite doings_app. cbn [fold_left perform m M_Program.machine_of mc_clean computer_of pc_clean].
    apply (sound_clean w g k a K CH). now destruct (clean_at w g a (doings w g h)).
  Qed.
  Lemma safe_configure k a : path_arg (g_kdir g) = Some k -> chosen g a -> g_config g = true \/ g_build g = true ->
    safe (proper w g k) (act (Configured (Some k) a) (fun h => mc_configure m h a)).
  Proof.
    intros K CH G h. unfold act. cbn [fst snd]. rewrite doings_app. cbn [fold_left perform m M_Program.machine_of mc_configure computer_of pc_configure].
    apply (sound_configure w g k a K CH G). now destruct (configure_at w g a (doings w g h)).
  Qed.
  Lemma safe_build k a : path_arg (g_kdir g) = Some k -> chosen g a -> g_build g = true ->
    safe (proper w g k) (act (Built (Some k) a (g_disable_opt g)) (fun h => mc_build m h a (g_disable_opt g))).
  Proof.
    intros K CH G h. unfold act. cbn [fst snd]. rewrite doings_app. cbn [fold_left perform m M_Program.machine_of mc_build computer_of pc_build].
    apply (sound_build w g k a K CH G). now destruct (build_at w g a (g_disable_opt g) (doings w g h)).
  Qed.

  Lemma safe_prepare (P : doing -> Prop) : arch_fine g -> (forall k, path_arg (g_kdir g) = Some k -> forall x, proper w g k x -> P x) ->
    (forall s, P (Main (Said s))) -> (forall o, path_arg (g_out g) = Some o -> P (Main (MadeDir o))) ->
    safe P (prepare m g (silence g) (option_map lower (g_arch g)) (path_arg (g_kdir g))).
  Proof.
    intros AF PK PS PO.
    assert (forall A k (x : mio A), path_arg (g_kdir g) = Some k -> safe (proper w g k) x -> safe P x) as UP.
    { intros A k x K S h. eapply sound_imp; [|apply S]. now apply PK. }
    unfold prepare. cbv zeta. apply safe_bind.
    { destruct (path_arg (g_out g)) as [o|]; [|now apply safe_ret]. apply safe_bind; [apply safe_ask|]. intros h [] _; [now apply safe_ret|].
      apply safe_plain; [now apply PO|exact I|discriminate]. }
    intros _ ok _. destruct (negb ok); [now apply safe_ret|]. apply safe_bind; [apply safe_ask|]. intros _ gcc _. destruct (negb gcc); [now apply safe_ret|].
    apply safe_bind.
    { destruct (g_config g || g_build g); [|now apply safe_ret]. apply safe_bind; [apply safe_try; intros h n; apply gcc_Exit|]. intros _ v _. now apply safe_eprint. }
    intros _ [] _. apply safe_bind; [apply safe_try; intros h n; now apply init_Exit|]. intros h a IA. cbn [try_ snd] in IA. apply instantiate_Ok, made_for_init in IA as [KD [CH _]].
    destruct (path_arg (g_kdir g)) as [k|] eqn:K; [|discriminate KD]. assert (chosen g a) as CA by exact CH.
    assert (safe P (act (Cleaned (Some k) a) (fun h => mc_clean m h a))) as SC by (apply (UP _ k _ eq_refl), safe_clean; assumption).
    assert (g_config g = true \/ g_build g = true -> safe P (act (Configured (Some k) a) (fun h => mc_configure m h a))) as SF by (intros G; apply (UP _ k _ eq_refl), safe_configure; assumption).
    assert (g_build g = true -> safe P (act (Built (Some k) a (g_disable_opt g)) (fun h => mc_build m h a (g_disable_opt g)))) as SB by (intros G; apply (UP _ k _ eq_refl), safe_build; assumption).
    assert (forall f : version -> str -> outcome str, (forall v s n, f v s <> Exit n) ->
      safe P (try_ (fun h => let '(r, s) := get_version None (Some (mc_make_version m h)) vstate0 in v <- r ;; f v (match vs_source s with Some x => x | None => $"None" end)))) as SV.
    { intros f N. apply safe_try. intros h0 n. pose proof (version_Exit h0) as VE. destruct (get_version _ _ _) as [[v|x|z|] s]; cbn [bind]; try discriminate.
      - intros X. now destruct (N _ _ _ X).
      - intros [= <-]. apply (VE z). reflexivity. }
    destruct (g_build g) eqn:B; [|destruct (g_config g) eqn:C].
    - apply safe_bind; [apply safe_bind; [now apply safe_eprint|intros; exact SC]|]. intros _ [] _.
      apply safe_bind.
      { apply safe_bind; [apply (SV (fun v s => Ok (version_str v s))); discriminate|]. intros _ v _.
        apply safe_bind; [now apply safe_eprint|]. intros _ [] _. apply safe_bind; [now apply safe_eprint|]. intros _ [] _. apply SF. auto. }
      intros _ [] _. apply safe_bind; [now apply safe_eprint|]. intros _ [] _. apply safe_bind; [now apply SB|]. intros _ t _.
      apply safe_bind; [now apply safe_eprint|]. intros _ [] _. now apply safe_ret.
    - apply safe_bind; [apply safe_bind; [now apply safe_eprint|intros; exact SC]|]. intros _ [] _.
      apply safe_bind.
      { apply safe_bind; [apply (SV (fun v s => Ok (version_str v s))); discriminate|]. intros _ v _.
        apply safe_bind; [now apply safe_eprint|]. intros _ [] _. apply safe_bind; [now apply safe_eprint|]. intros _ [] _. apply SF. auto. }
      intros _ [] _. apply safe_bind; [now apply safe_eprint|]. intros _ [] _. now apply safe_ret.
    - apply safe_bind; [apply safe_bind; [now apply safe_eprint|intros; exact SC]|]. intros _ [] _.
      apply safe_bind; [now apply safe_eprint|]. intros _ [] _. now apply safe_ret.
  Qed.
End Program.
