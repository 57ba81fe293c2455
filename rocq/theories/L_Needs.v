(** Lemmas for C111. *)
From Coq Require Import List Bool Ascii String ZArith Lia Permutation.
From Verif Require Import PyBase PyFacts M_Utils M_Elf M_Syscall M_Arch M_Emu M_Kernel M_Location M_Signature M_Annotate M_Search M_Config M_Command M_Output M_Json M_Main M_Args M_Program
  S_Utils S_Elf S_Emu S_Kernel S_Location S_Declared S_Output S_Json S_Main S_Whole S_Blind S_Program S_Needs
  L_Kernel L_Kernel4 L_Kernel5 L_Main L_Main2 L_Location3 L_Location4 L_Kernel8 L_Whole2 L_Blind L_Json L_Program L_Program2 L_Program3.
Import ListNotations.
Open Scope Z_scope.
Open Scope list_scope.

(** * Other programs *)

Section Pointwise.
  Variables (f : path -> option bytes) (g : outcome (list str)) (r r' : list Z -> outcome str).
  Hypothesis E : forall addrs, r addrs = r' addrs.
  Variables (a : arch) (elf : path).
  Local Notation w := (World f r g).
  Local Notation w' := (World f r' g).

  Lemma ask_pw l : M_Location.ask w l = M_Location.ask w' l.
  Proof. unfold M_Location.ask. cbn [w_addr2line]. now rewrite E. Qed.
  Lemma step3_pw kdir rdir l : forall scs, step3 w a elf kdir rdir scs l = step3 w' a elf kdir rdir scs l.
  Proof.
    induction l as [|i l IH]; intros scs; cbn [step3]; [reflexivity|]. rewrite ask_pw.
    destruct (M_Location.ask w' _) as [ans| | |]; try reflexivity. cbn [bind]. rewrite (scan_two f g r r').
    destruct (scan w' _ _ _ _ _ _ _ _) as [((fo & iv) & h)| | |]; try reflexivity. cbn [bind]. destruct fo as [(f0 & line)|]; [apply IH|]. now rewrite IH.
  Qed.
  Lemma search_pw kdir rdir kres scs : search_locations w a elf kdir rdir kres scs = search_locations w' a elf kdir rdir kres scs.
  Proof.
    unfold search_locations. rewrite ask_pw. destruct (M_Location.ask w' _) as [ans| | |]; try reflexivity. cbn [bind].
    destruct (mapM _ _) as [locs| | |]; try reflexivity. cbn [bind]. destruct kdir as [kdir|]; [|reflexivity].
    rewrite <- (step1_two f g r r'). destruct (step1_all w a kdir rdir kres scs locs) as [r1| | |]; try reflexivity. cbn [bind]. cbv zeta.
    set (scs1 := map (fun x => fst (fst x)) r1) in *. destruct (_ && _); [reflexivity|].
    set (adj := by_name scs1 _). destruct (len adj =? 0).
    - cbn [bind]. now rewrite step3_pw.
    - rewrite ask_pw. destruct (M_Location.ask w' _) as [ans2| | |]; try reflexivity. cbn [bind].
      rewrite <- (step2_two f g r r'). destruct (step2 w a elf kdir rdir scs1 adj ans2) as [((scs2 & retry) & g2)| | |]; try reflexivity. cbn [bind]. now rewrite step3_pw.
  Qed.
  Lemma locations_pw have kdir rdir kres scs :
    extract_syscall_locations w have a elf kdir rdir kres scs = extract_syscall_locations w' have a elf kdir rdir kres scs.
  Proof.
    unfold extract_syscall_locations. rewrite search_pw. destruct (negb have); [reflexivity|].
    destruct (search_locations w' _ _ _ _ _ _) as [(scs' & st)| | |]; try reflexivity. cbn [bind fst snd]. destruct kdir; [|reflexivity]. destruct st; try reflexivity.
    change (grep_kernel_sources w' p a (map (fun i => (i, at_ scs' i)) l)) with (grep_kernel_sources w p a (map (fun i => (i, at_ scs' i)) l)).
    destruct (grep_kernel_sources w p a _) as [x| | |]; try reflexivity. apply (step4_two f g r r').
  Qed.
End Pointwise.

Lemma annotate_blind w w' a e elf kdir rdir kres scs : w_file w = w_file w' ->
  annotate w false a e elf kdir rdir kres scs = annotate w' false a e elf kdir rdir kres scs.
Proof. intros E. unfold annotate. cbn. now rewrite E. Qed.
Lemma annotate_pw f r r' gr gr' have a e elf kdir rdir kres scs : (have = true -> (forall l, r l = r' l) /\ gr = gr') ->
  annotate (World f r gr) have a e elf kdir rdir kres scs = annotate (World f r' gr') have a e elf kdir rdir kres scs.
Proof.
  intros H. destruct have; [|now apply annotate_blind]. destruct (H eq_refl) as (R & <-). unfold annotate. rewrite (locations_pw f gr r r' R). reflexivity.
Qed.

Lemma capture_same c c' h x l cwd : pc_look c = pc_look c' -> same_program c c' h cwd x -> capture c h (Argv (x :: l)) cwd = capture c' h (Argv (x :: l)) cwd.
Proof.
  intros L (F & R). unfold capture, waits, ensure_command, do_popen, popen_, system_at. cbn [sys_found sys_entry sys_run program hd]. rewrite F, L, R. reflexivity.
Qed.
Lemma open_same c c' h p : enough_alike c c' -> open_elf c h p = open_elf c' h p.
Proof.
  intros A. unfold open_elf. destruct (al_files _ _ A) as (L & _). rewrite L. destruct (content_of _) as [file|]; [|reflexivity].
  rewrite !(capture_same c c' h $"readelf" _ None L (al_readelf _ _ A h)). reflexivity.
Qed.
Lemma syscalls_same c c' g h a e v : enough_alike c c' ->
  mc_syscalls (machine_of c g) h a e v = mc_syscalls (machine_of c' g) h a e v.
Proof.
  intros A. cbn [machine_of mc_syscalls]. destruct (al_files _ _ A) as (L & R). destruct (al_code _ _ A) as (D1 & D2 & D3 & D4).
  rewrite (extract_with (env_at c g h a e) a e v _ (v_annotate (env_at c' g h a e))).
  - unfold with_annotation, env_at. cbn [v_decode v_same v_insn_order v_ni_order v_annotate]. now rewrite D1, D2, D3, D4.
  - intros vaddrs found _ _ _. unfold env_at. cbn [v_annotate]. rewrite (al_there _ _ A h $"addr2line") by (right; now left). rewrite R.
    unfold world_at. rewrite L. apply annotate_pw. intros W. rewrite <- (al_there _ _ A h $"addr2line") in W by (right; now left). split.
    + intros l. unfold run_addr2line. apply capture_same; [exact L|now apply (al_addr2line _ _ A)].
    + destruct (path_arg (g_kdir g)) as [k|]; [|reflexivity]. unfold run_search. rewrite <- (al_there _ _ A h $"rg") by (right; right; now left). rewrite L.
      destruct (pc_which c h $"rg") eqn:Rg; [|reflexivity]. unfold rg_argv. rewrite (capture_same c c' h $"rg" _ _ L (al_ripgrep _ _ A h k W Rg)). reflexivity.
Qed.

Lemma mbind_same {A B} (x x' : mio A) (f f' : A -> mio B) h : x h = x' h -> (forall a h, f a h = f' a h) -> mbind x f h = mbind x' f' h.
Proof. intros E F. unfold mbind. rewrite E. destruct (x' h) as [h' [y| | |]]; try reflexivity. apply F. Qed.
Lemma analyse_same m m' g silent n kdir h : g_checkout g <> Some $"auto" ->
  (forall h p, mc_is_file m h p = mc_is_file m' h p) -> (forall h, mc_available m h $"readelf" = mc_available m' h $"readelf") ->
  (forall h p, mc_elf m h p = mc_elf m' h p) -> (forall h a e v, mc_syscalls m h a e v = mc_syscalls m' h a e v) -> mc_version m = mc_version m' ->
  analyse m g silent n kdir h = analyse m' g silent n kdir h.
Proof.
  intros NA F R E S V. unfold analyse. destruct (match g_checkout g with Some c => str_eqb c $"auto" | None => false end) eqn:Au.
  { exfalso. apply NA. destruct (g_checkout g) as [c|]; [|discriminate]. now apply str_eqb_eq in Au as ->. }
  cbn [andb]. apply mbind_same; [reflexivity|]. intros p h1. apply mbind_same; [unfold M_Main.ask; now rewrite F|]. intros there h2. destruct (negb there); [reflexivity|].
  apply mbind_same; [unfold M_Main.ask; now rewrite R|]. intros re h3. destruct (negb re); [reflexivity|].
  apply mbind_same; [unfold try_; now rewrite E|]. intros e h4. destruct (get_version _ _ _) as [r s]. apply mbind_same; [reflexivity|]. intros a h5. apply mbind_same; [reflexivity|]. intros v h6.
  apply mbind_same; [reflexivity|]. intros _ h7. apply mbind_same; [reflexivity|]. intros _ h8. apply mbind_same; [unfold try_; now rewrite S|]. intros scs h9. destruct scs; [reflexivity|].
  now rewrite V.
Qed.
Lemma run_same c c' argv g : enough_alike c c' -> parse_args argv = inr g -> ~ preparing g -> ~ present (g_checkout g) ->
  forall h, on_computer c argv h = on_computer c' argv h.
Proof.
  intros A P NP NC h. unfold on_computer. rewrite P. unfold main. destruct (check_arch _); [reflexivity|]. destruct (_ && _); [reflexivity|]. destruct (_ && _); [reflexivity|]. destruct (_ && _); [reflexivity|].
  cbv zeta. apply mbind_same.
  { destruct (g_checkout g) as [[|x s]|] eqn:C; try reflexivity. destruct NC. exists (x :: s). split; [reflexivity|discriminate]. }
  intros [] h1. destruct (g_clean g || g_config g || g_build g) eqn:Pr.
  { destruct NP. unfold preparing. destruct (g_clean g), (g_config g), (g_build g); try discriminate; tauto. }
  apply analyse_same.
  - intros C. apply NC. exists $"auto". split; [exact C|discriminate].
  - intros. cbn [machine_of mc_is_file]. now rewrite (proj1 (al_files _ _ A)).
  - intros. cbn [machine_of mc_available]. apply (al_there _ _ A). now left.
  - intros. cbn [machine_of mc_elf]. now apply open_same.
  - intros. now apply syscalls_same.
  - exact (al_version _ _ A).
Qed.

(** * Without addr2line *)

Lemma sign_place files big have meta s s' : placeless s -> sign files big have meta s = Ok s' -> placeless s'.
Proof.
  intros P H. assert (s' = s \/ exists x, s' = set_signature s x) as [->|(x & ->)]; [|exact P|exact P]. unfold sign in H. destruct (sc_esoteric s); [injection H as <-; now left|].
  destruct P as (_ & _ & G & _). rewrite G in H. destruct meta as [d|]; [|injection H as <-; now left].
  destruct (dget _ _ _); [injection H as <-; right; eauto|]. destruct (dget _ _ _); injection H as <-; [right; eauto|now left].
Qed.
Lemma blind_place w a e p kdir rdir kres scs r : Forall placeless scs -> annotate w false a e p kdir rdir kres scs = Ok r -> Forall placeless r.
Proof.
  intros F H. unfold annotate in H. cbn [extract_syscall_locations negb bind] in H. unfold extract_syscall_signatures in H. apply bind_Ok in H as (meta & _ & H). apply mapM_Ok in H.
  induction H as [|s s' l l' X _ IH]; [constructor|]. inversion F; subst. constructor; [now apply (sign_place _ _ _ _ s _ ltac:(assumption) X)|now apply IH].
Qed.

Lemma candidates_placeless a e v ni_order vaddrs l : M_Kernel.candidates ni_order a e v vaddrs = Ok l -> Forall placeless l.
Proof.
  intros H. destruct (ni_order (ni_functions e)) as [|x y] eqn:Ne.
  { unfold M_Kernel.candidates in H. rewrite Ne in H. injection H as <-. constructor. }
  destruct (candidates_parts ni_order a e v vaddrs l) as (prefixes & eso & esl & ref & code & P); [rewrite Ne; discriminate|exact H|].
  apply Forall_forall. intros s I. rewrite (po_list _ _ _ _ _ _ _ _ _ _ _ P) in I. apply filter_In in I as [I _]. apply in_app_or in I as [I|I].
  - apply filter_In in I as [I _]. apply in_map_iff in I as ((i & z) & <- & I). repeat split.
  - pose proof (po_esl _ _ _ _ _ _ _ _ _ _ _ P) as F. clear -F I. induction F as [|x s' xs ss E F IH]; [destruct I|]. destruct I as [->|I]; [|auto].
    unfold make_esoteric in E. destruct x as ((((num & name) & sn) & sig) & kc). destruct (dget str_eqb sn (e_symbols e)); [|discriminate]. injection E as <-. repeat split.
Qed.
Lemma filterM_incl {A} (f : A -> outcome bool) l : forall r, filterM f l = Ok r -> incl r l.
Proof.
  induction l as [|x l IH]; intros r H; cbn [filterM] in H; [injection H as <-; intros y []|]. apply bind_Ok in H as (b & _ & H). apply bind_Ok in H as (r' & R & H).
  specialize (IH r' R). destruct b; injection H as <-; intros y I; [destruct I as [<-|I]; [now left|right; auto]|right; auto].
Qed.
Lemma extracted_placeless c g h e a v scs : no_addr2line c -> extract_syscalls (env_at c g h a e) a e v (path_arg (g_kdir g)) = Ok scs -> Forall placeless scs.
Proof.
  intros N H. unfold extract_syscalls in H. destruct (xorb _ _); [injection H as <-; constructor|]. cbv zeta in H. apply bind_Ok in H as (vs & _ & H). destruct vs; [injection H as <-; constructor|].
  destruct (v_ni_order _ _); [injection H as <-; constructor|]. apply bind_Ok in H as (found & C & H). apply bind_Ok in H as (located & L & H). apply candidates_placeless in C.
  unfold env_at in L. cbn [v_annotate] in L. rewrite N in L. apply blind_place in L; [|exact C]. apply filterM_incl in H. rewrite Forall_forall in *. auto.
Qed.
Lemma shown_placeless g scs shown : Forall2 (shown_as g) scs shown -> Forall placeless scs -> Forall placeless shown.
Proof.
  induction 1 as [|s s' l l' X _ IH]; intros F; [constructor|]. inversion F as [|? ? P F']; subst. constructor; [|now apply IH]. destruct P as (P1 & P2 & P3 & P4), X as [Xf Xr]. rewrite P1 in Xf. inversion Xf as [|? ?|? ?|? ? ?]; subst.
  destruct Xr as (_ & _ & _ & _ & _ & _ & Y1 & _ & _ & Y2 & Y3). split; [congruence|]. split; [congruence|]. split; congruence.
Qed.
Lemma run_placeless c argv g h : parse_args argv = inr g -> ~ preparing g -> (forall n, g_arch g = Some n -> ~ asks_help n) -> no_addr2line c ->
  on_computer c argv [] = (h, Ok 0) ->
  exists e a v shown d h1, h = h1 ++ [Printed d] /\ shown <> [] /\ Forall placeless shown /\
    output_syscalls (pc_version c) (version_tag v) $"vmlinux" (adjust_abi a e) shown (g_format g) = Ok d.
Proof.
  intros P NP NH N H. unfold on_computer in H. rewrite P in H.
  destruct (main_result _ _ _ H NP NH) as (p & e & v & a & scs & shown & d & lines & h0 & h1 & h2 & _ & _ & _ & _ & S & Ne & Sh & Out & _ & _ & Hh & _).
  cbn [mc_syscalls mc_version machine_of] in S, Out. apply extracted_placeless in S; [|exact N].
  exists e, a, v, shown, d, (h1 ++ h2). rewrite <- app_assoc. split; [exact Hh|]. split; [intros ->; inversion Sh; subst; contradiction|]. split; [now apply (shown_placeless g scs)|exact Out].
Qed.
Lemma blind_total c g h e a v vs : (forall l, Permutation (pc_ni_order c l) l) -> metadata_fine e -> pc_which c h $"addr2line" = false ->
  syscall_vaddrs (env_at c g h a e) (adjust_abi a e) e = Ok vs -> sound_input (adjust_abi a e) e (map snd vs) ->
  (exists i u, In (i, u) vs /\ has_symbol e u /\ ~ not_implemented e u) -> (forall i u, In (i, u) vs -> has_symbol e u \/ not_implemented e u) ->
  exists scs, mc_syscalls (machine_of c g) h a e v = Ok scs.
Proof.
  intros Hp Me N V So Im Al. cbn [machine_of mc_syscalls]. apply (extract_total (env_at c g h a e) a e v vs Hp V So Im Al). intros found C. unfold env_at. cbn [v_annotate]. rewrite N.
  unfold annotate. cbn [extract_syscall_locations negb bind]. unfold extract_syscall_signatures. destruct (metadata_total e Me) as (meta & ->). cbn [bind]. apply mapM_total. intros s I. apply sign_total.
  intros _ Gd. apply candidates_placeless in C. rewrite Forall_forall in C. destruct (C s I) as (_ & _ & Q & _). congruence.
Qed.
Lemma blind_extracts c g h e a v : image_fine c (adjust_abi a e) e v -> regular c -> pc_which c h $"addr2line" = false ->
  exists scs, mc_syscalls (machine_of c g) h a e v = Ok scs.
Proof.
  intros If Rg N. pose proof (proj1 Rg) as Hp. destruct If as [name us Ta Tb So (u & I & Im) Al Me Fo|start stop prog D So (n & u & L & Im) Al Me Fo].
  - apply (blind_total c g h e a v (enum_from 0 us)); try assumption.
    + apply (table_of_vaddrs _ _ e name us Ta Tb).
    + now rewrite snd_enum.
    + destruct (In_enum us 0 u I) as (j & J). exists j, u. auto.
    + intros i v' J. apply Al. now apply (enum_In us 0 i).
  - destruct (dispatched c g h a e start stop prog Rg D) as (r & V & Nd & I1 & I2 & _). destruct r as [|x r].
    { exists []. cbn [machine_of mc_syscalls]. unfold extract_syscalls. destruct (xorb _ _); [reflexivity|]. cbv zeta. rewrite V. reflexivity. }
    assert (forall n v, In (n, v) (x :: r) <-> leads_to start stop prog n v) as J by (intros n' v'; split; [apply I1|apply I2; discriminate]).
    apply (blind_total c g h e a v (x :: r)); try assumption.
    + apply So. intros w K. apply in_map_iff in K as ((n' & w') & <- & K). exists n'. now apply J.
    + exists n, u. split; [now apply J|exact Im].
    + intros i w K. apply (Al i). now apply J.
Qed.
Lemma blind_succeeds c argv g p e a v : parse_args argv = inr g -> g_format g = $"text" \/ (g_format g = $"json" \/ g_format g = $"html") /\ List.length v = 3%nat ->
  (forall n, g_arch g = Some n -> known_arch n) -> ~ preparing g -> ~ present (g_checkout g) -> image_of g p -> version_from_vmlinux e = Ok (Some v) ->
  kernel_init (option_map lower (g_arch g)) (Some e) (match path_arg (g_kdir g) with Some _ => true | None => false end) (Ok v) = Ok a ->
  regular c -> image_fine c (adjust_abi a e) e v -> no_addr2line c ->
  (forall h, Forall is_said h -> pc_which c h $"readelf" = true /\ image_read c h p e) ->
  exists h, Forall is_said h /\
    ((on_computer c argv [] = (h, Ok 1) /\ barren c g e a (adjust_abi a e)) \/
     (exists d, on_computer c argv [] = (h ++ [Printed d], Ok 0)) \/
     (g_format g = $"html" /\ on_computer c argv [] = (h, Raise ValueError))).
Proof.
  intros A Fm AF NP NC IM V K Hp If N Pr.
  destruct (main_succeeds (machine_of c g) g p e v a) as (h1 & scs & S1 & X & Y); try assumption.
  - intros h Sh. destruct (Pr h Sh) as (W & R). cbn [machine_of mc_is_file mc_available mc_elf].
    split. { destruct R as (file & s1 & s2 & F & _). unfold S_Program.file_at in F. destruct (pc_look c h p) as [[]|]; try discriminate. reflexivity. }
    split; [exact W|]. split; [now apply open_elf_read|]. now apply (blind_extracts c g h e a v).
  - unfold on_computer. rewrite A. cbn [machine_of mc_syscalls mc_version] in X, Y. destruct Y as [(-> & E)|(Ne & h2 & shown & S2 & Sw & E)].
    + exists h1. split; [exact S1|]. left. split; [exact E|]. exact (extracted_barren _ _ _ _ _ _ _ _ Hp If K X).
    + exists (h1 ++ h2). split; [apply Forall_app; auto|]. right. rewrite E.
      destruct (output_cases (pc_version c) v $"vmlinux" (adjust_abi a e) shown (g_format g) Fm) as [(d & ->)|(H1 & -> & H3)].
      * intros ->. inversion Sw; subst. contradiction.
      * left. now exists d.
      * right. split; [exact H1|reflexivity].
Qed.

(** * Without readelf *)
Lemma readelf_needed c argv g p h : parse_args argv = inr g -> (forall n, g_arch g = Some n -> known_arch n) -> ~ preparing g -> ~ present (g_checkout g) ->
  image_of g p -> (exists b, file_at c h p = Some b) -> pc_which c h $"readelf" = false -> on_computer c argv h = (h, Ok 127).
Proof.
  intros P AF NP NC IM (b & F) W. unfold on_computer. rewrite P.
  assert (check_arch (option_map lower (g_arch g)) = None) as CA.
  { unfold check_arch. destruct (g_arch g) as [n|] eqn:A; [|reflexivity]. cbn [option_map]. now rewrite (proj1 (known_lower n) (AF n eq_refl)). }
  assert (given (g_checkout g) = false) as GC by now apply given_false.
  assert (g_clean g = false /\ g_config g = false /\ g_build g = false) as (P1 & P2 & P3).
  { unfold preparing in NP. destruct (g_clean g), (g_config g), (g_build g); try (exfalso; apply NP; tauto). auto. }
  assert (match path_arg (g_vmlinux g), path_arg (g_kdir g) with
          | Some v, _ => Ok v
          | None, Some k => Ok (path_join k (Path [] [$"vmlinux"]))
          | None, None => Raise TypeError
          end = Ok p /\ negb (given (g_kdir g)) && negb (given (g_vmlinux g)) = false) as (VM & GV).
  { destruct IM as [s E N|k N Kd].
    - rewrite E. destruct s as [|x s]; [contradiction|]. cbn. split; [reflexivity|apply andb_false_r].
    - destruct Kd as (s & E & Ne & ->). apply path_arg_None in N. rewrite N, E. destruct s as [|x s]; [contradiction|]. cbn. auto. }
  unfold main. rewrite CA, GV, P1, P2, P3, GC. cbn [orb]. rewrite !andb_false_r. cbv zeta.
  assert (match g_checkout g with Some c => str_eqb c $"auto" | None => false end = false) as AU.
  { destruct (g_checkout g) as [[|x s]|]; [reflexivity|discriminate GC|reflexivity]. }
  replace (match g_checkout g with Some (c :: s) => _ | _ => ret (Ok tt) end) with (@ret unit (Ok tt)) by (destruct (g_checkout g) as [[|x s]|]; [reflexivity|discriminate GC|reflexivity]).
  unfold analyse. rewrite AU. cbn [andb]. rewrite VM. unfold mbind, ret, M_Main.ask. cbn [machine_of mc_is_file mc_available].
  unfold S_Program.file_at in F. destruct (pc_look c h p) as [[]|]; try discriminate. cbn [negb]. rewrite W. reflexivity.
Qed.

(** * JSON *)
Lemma object_at s d d' k j : object_of s d -> Permutation d d' -> In k [$"file"; $"line"] -> (forall x, In (k, x) d -> x = j) -> at_key [k] (JObj d') j.
Proof.
  intros O P K H. assert (exists x, In (k, x) d) as (x & I).
  { destruct O as (M & _). assert (In k (map fst d)) as I by (rewrite M; cbn; destruct K as [<-|[<-|[]]]; tauto). apply in_map_iff in I as ((k' & x) & <- & I). now exists x. }
  rewrite (H x I) in I. apply (ak_in k [] d' j j); [now apply (Permutation_in _ P)| |constructor].
  intros j2 I2. apply H. now apply (Permutation_in _ (Permutation_sym P)).
Qed.
Lemma run_null c argv g h : parse_args argv = inr g -> g_format g = $"json" -> ~ preparing g -> (forall n, g_arch g = Some n -> ~ asks_help n) -> no_addr2line c ->
  on_computer c argv [] = (h, Ok 0) ->
  exists doc j objects h1, h = h1 ++ [Printed (JsonDoc doc)] /\ json_read (dumps 0 doc) = Some j /\ at_key [$"syscalls"] j (JList objects) /\ objects <> [] /\
    Forall (fun o => at_key [$"file"] o JNull /\ at_key [$"line"] o JNull) objects.
Proof.
  intros P F NP NH N H. destruct (run_placeless c argv g h P NP NH N H) as (e & a & v & shown & d & h1 & Hh & Ne & Pl & Out). rewrite F in Out.
  change (output_syscalls (pc_version c) (version_tag v) $"vmlinux" (adjust_abi a e) shown $"json")
    with (j <- json_document (pc_version c) (version_tag v) $"vmlinux" (adjust_abi a e) shown ;; Ok (JsonDoc j)) in Out.
  apply bind_Ok in Out as (doc & D & Out). injection Out as <-.
  assert (exists tag, version_tag v = Ok tag) as (tag & T) by (unfold json_document in D; destruct (version_tag v); try discriminate; eauto). rewrite T in D.
  destruct (written_document (pc_version c) tag $"vmlinux" (adjust_abi a e) shown) as (text & j & objects & W1 & W2 & W3 & W4).
  unfold output_syscalls_json in W1. rewrite D in W1. cbn [bind] in W1. injection W1 as <-.
  exists doc, j, objects, h1. split; [exact Hh|]. split; [exact W2|]. split; [apply W4; apply do_syscalls|]. split; [intros ->; inversion W3; subst; contradiction|].
  clear -W3 Pl. induction W3 as [|s o l l' (d & d' & O & Pm & ->) _ IH]; [constructor|]. inversion Pl as [|? ? (P1 & P2 & _) Pl']; subst. constructor; [|now apply IH].
  pose proof O as (_ & _ & _ & _ & _ & _ & O6 & O7 & _). split; apply (object_at s d d'); try assumption; try (cbn; tauto); intros x I.
  - apply O6 in I. rewrite P1 in I. exact I.
  - apply O7 in I. rewrite P2 in I. exact I.
Qed.
