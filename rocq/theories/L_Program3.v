(** Lemmas for C103: what the program needs to end well. *)
From Coq Require Import List Bool Ascii String ZArith Lia Permutation.
From Verif Require Import PyBase PyFacts M_Utils M_Elf M_Syscall M_Arch M_Emu M_Kernel M_Location M_Annotate M_Search M_Config M_Command M_Output M_Json M_Main M_Args M_Program
  S_Utils S_Elf S_Emu S_Kernel S_Location S_Search S_Declared S_Output S_Json S_Main S_Whole S_Blind S_Program L_Kernel L_Kernel4 L_Kernel8 L_ElfText L_Search L_Search2 L_Whole2 L_Blind L_Main L_Main2 L_Program L_Program2.
Import ListNotations.
Open Scope Z_scope.
Open Scope list_scope.

Lemma debug_lines_answers c h b p kdir ans : debug_lines c h p ans -> addr2line_answers (w_addr2line (world_at c h b p kdir)) ans.
Proof. intros (O & S). split; [exact O|]. intros addrs N. apply capture_prints. now apply S. Qed.

Lemma report_grep_place kdir rel n s : Forall plain_name rel -> rel <> [] -> 0 <= n -> grep_place kdir (S_Search.report rel n s) (path_join kdir (Path [] rel)) n.
Proof.
  intros F N Hn. exists (join $"/" rel), (str_of_int n), ($":" ++ s). split; [reflexivity|]. split; [right; now exists s|]. split; [now apply join_no_colon|].
  destruct (is_number_str n Hn) as (N1 & D & V). split; [now split|]. split; [now rewrite path_rel|now symmetry].
Qed.
Lemma own_honest c h kdir a entries out' : tree_ok (NDir entries) -> tidy (NDir entries) ->
  (forall rel content, S_Search.file_at (NDir entries) rel content -> S_Program.file_at c h (path_join kdir (Path [] rel)) = Some content) ->
  python_search a (NDir entries) = Ok out' -> Forall (honest_line (S_Program.file_at c h) kdir) out'.
Proof.
  intros T Ty Fi P. apply Forall_forall. intros line I. apply (search_all a _ out' T P) in I as (rel & n & text & s & SL & _ & _ & ->).
  destruct (source_line_rel _ _ _ _ _ SL) as [Nr Nm]. destruct SL as (content & ls & Fa & _ & Ls & N1 & Nth).
  exists (path_join kdir (Path [] rel)), n, content, ls. split; [apply report_grep_place; [now apply (Ty rel content)|exact Nr|exact Nm]|]. split; [now apply Fi|]. split; [exact Ls|].
  assert (nth_error ls (Z.to_nat (n - 1)) <> None) as Q by congruence. apply nth_error_Some in Q. unfold len. lia.
Qed.
Lemma searches_run c h b p kdir out : searches c h b kdir out ->
  exists out', w_grep (world_at c h b p (Some kdir)) = Ok out' /\ Forall (honest_line (S_Program.file_at c h) kdir) out' /\ forall line, In line out' <-> In line out.
Proof.
  intros [W P N H|entries archs W L T Ty A Fi O].
  - exists out. split; [|tauto]. cbn [world_at w_grep]. unfold run_search. rewrite W. apply capture_prints in P. rewrite P. cbn [bind]. now rewrite splitlines_unlines.
  - assert (exists out', python_search b (NDir entries) = Ok out') as (out' & P).
    { eexists. apply search_ok; [exact T|]. exists entries, archs. auto. }
    exists out'. split; [cbn [world_at w_grep]; unfold run_search; now rewrite W, L|]. split; [now apply (own_honest c h kdir b entries)|].
    intros line. rewrite (search_all b _ out' T P), O. tauto.
Qed.
Lemma definitions_fine_in file ans dir kdir rdir out out' a big : (forall line, In line out' <-> In line out) ->
  definitions_fine file ans dir kdir rdir out a big -> definitions_fine file ans dir kdir rdir out' a big.
Proof.
  intros E D f l content text name R. apply D. destruct R as [u n x ls H1 H2 H3 H4|line I G]; [now apply (ref_debug _ _ _ _ _ _ _ _ u n x ls)|].
  apply (ref_search _ _ _ _ _ _ _ _ line); [now apply E|exact G].
Qed.

(** Without sources, addr2line is asked once, and for something. *)
Lemma sourceless_terminal t a e v vaddrs w have p rdir kres ans : v_annotate t = annotate w have (adjust_abi a e) e p None rdir kres ->
  (forall l, Permutation (v_ni_order t l) l) -> syscall_vaddrs t (adjust_abi a e) e = Ok vaddrs -> sound_input (adjust_abi a e) e (map snd vaddrs) ->
  (exists i v', In (i, v') vaddrs /\ has_symbol e v' /\ ~ not_implemented e v') ->
  (forall i v', In (i, v') vaddrs -> has_symbol e v' \/ not_implemented e v') ->
  addr2line_answers (w_addr2line w) ans -> metadata_fine e ->
  (forall found, M_Kernel.candidates (v_ni_order t) (adjust_abi a e) e v vaddrs = Ok found -> found = [] -> ni_functions e = []) ->
  exists r, extract_syscalls t a e v None = Ok r.
Proof.
  intros T Hp V So Im Al (S1 & S2) M N.
  set (w' := World (w_file w) (fun l => match l with [] => Ok [] | _ => w_addr2line w l end) (w_grep w)).
  assert (same_but_idle w w') as Sb by (split; [reflexivity|]; split; [reflexivity|]; intros [|x l] Q; [congruence|reflexivity]).
  rewrite (extract_with t a e v None (annotate w' have (adjust_abi a e) e p None rdir kres)).
  - apply (sourceless_total _ a e v vaddrs w' have p rdir kres ans); try assumption; try reflexivity.
    split; [exact S1|]. intros [|x l]; [reflexivity|]. now apply S2.
  - intros vs found V' No C. rewrite V in V'. injection V' as <-. rewrite T. apply annotate_idle; [exact Sb| |now intros []].
    intros ->. apply No. specialize (Hp (ni_functions e)). rewrite (N [] C eq_refl) in *. now apply Permutation_sym, Permutation_nil in Hp.
Qed.

Lemma no_ni_functions e : (forall u, ~ not_implemented e u) -> ni_functions e = [].
Proof.
  intros H. destruct (ni_functions e) as [|f l] eqn:E; [reflexivity|]. exfalso. apply (H (sym_vaddr f)). exists f. apply ni_functions_iff. rewrite E. now left.
Qed.
Lemma remap_arg g r : remap_of g r -> path_arg (g_remap g) = r.
Proof. intros [N|s E N]; [now apply path_arg_None|]. rewrite E. destruct s; [congruence|reflexivity]. Qed.
Lemma kdir_arg g k : kdir_of g k -> path_arg (g_kdir g) = Some k.
Proof. intros (s & E & N & ->). rewrite E. destruct s; [congruence|reflexivity]. Qed.

Lemma vaddrs_extracts c g p e a v h vs : image_of g p -> (forall l, Permutation (pc_ni_order c l) l) -> metadata_fine e ->
  syscall_vaddrs (env_at c g h a e) (adjust_abi a e) e = Ok vs -> sound_input (adjust_abi a e) e (map snd vs) ->
  (exists i u, In (i, u) vs /\ has_symbol e u /\ ~ not_implemented e u) -> (forall i u, In (i, u) vs -> has_symbol e u \/ not_implemented e u) ->
  (forall found, M_Kernel.candidates (pc_ni_order c) (adjust_abi a e) e v vs = Ok found -> Forall fit_names found /\ (found = [] -> forall u, ~ not_implemented e u)) ->
  prepared c g p e (adjust_abi a e) h -> exists scs, mc_syscalls (machine_of c g) h a e v = Ok scs.
Proof.
  intros IM Hp Me V So' Im' Al' Fo P. cbn [machine_of mc_syscalls]. set (b := adjust_abi a e) in *.
  assert (image_path g = p) as IP by (symmetry; now apply image_path_of).
  destruct P as [kdir rdir W R K Rm [ans dir out Pa D S Fi De Sy]|ans W R NK D].
  - destruct (searches_run c h b p kdir out S) as (out' & G & Ho & Eq). rewrite (kdir_arg g kdir K).
    eapply (terminal_total (env_at c g h a e) a e v vs (world_at c h b p (Some kdir)) (pc_which c h $"addr2line") p rdir (pc_resolve c h kdir) ans dir kdir out'); try assumption.
    + unfold env_at. cbn [v_annotate]. rewrite IP, (kdir_arg g kdir K), (remap_arg g rdir Rm). reflexivity.
    + now apply debug_lines_answers.
    + apply (definitions_fine_in _ _ _ _ _ out); [exact Eq|exact De].
    + intros found C. destruct (Fo found C) as (F1 & F2). split; [exact F1|]. intros F3. now apply no_ni_functions, F2.
  - apply path_arg_None in NK. rewrite NK.
    eapply (sourceless_terminal (env_at c g h a e) a e v vs (world_at c h b p None) (pc_which c h $"addr2line") p (path_arg (g_remap g)) (Path [] []) ans); try assumption.
    + unfold env_at. cbn [v_annotate]. rewrite IP, NK. reflexivity.
    + now apply debug_lines_answers.
    + intros found C F3. apply no_ni_functions. now apply (Fo found C).
Qed.
Lemma prepared_extracts c g p e a v h : image_of g p -> image_fine c (adjust_abi a e) e v -> regular c ->
  prepared c g p e (adjust_abi a e) h -> exists scs, mc_syscalls (machine_of c g) h a e v = Ok scs.
Proof.
  intros IM If Rg P. pose proof (proj1 Rg) as Hp. destruct If as [name us Ta Tb So (u & I & Im) Al Me Fo|start stop prog D So (n & u & L & Im) Al Me Fo].
  - apply (vaddrs_extracts c g p e a v h (enum_from 0 us)); try assumption.
    + apply (table_of_vaddrs _ _ e name us Ta Tb).
    + now rewrite snd_enum.
    + destruct (In_enum us 0 u I) as (j & J). exists j, u. auto.
    + intros i v' J. apply Al. now apply (enum_In us 0 i).
  - destruct (dispatched c g h a e start stop prog Rg D) as (r & V & Nd & I1 & I2 & _). destruct r as [|x r].
    { exists []. cbn [machine_of mc_syscalls]. unfold extract_syscalls. destruct (xorb _ _); [reflexivity|]. cbv zeta. rewrite V. reflexivity. }
    assert (forall n v, In (n, v) (x :: r) <-> leads_to start stop prog n v) as I by (intros n' v'; split; [apply I1|apply I2; discriminate]).
    apply (vaddrs_extracts c g p e a v h (x :: r)); try assumption.
    + apply So. intros w J. apply in_map_iff in J as ((n' & w') & <- & J). exists n'. now apply I.
    + exists n, u. split; [now apply I|exact Im].
    + intros i w J. apply (Al i). now apply I.
    + intros found. now apply Fo.
Qed.

Lemma extracted_barren c g h e a v n kd : regular c -> image_fine c (adjust_abi a e) e v -> kernel_init n (Some e) kd (Ok v) = Ok a ->
  extract_syscalls (env_at c g h a e) a e v (path_arg (g_kdir g)) = Ok [] -> barren c g e a (adjust_abi a e).
Proof.
  intros Rg If K H. destruct (ni_functions e) as [|f l] eqn:E.
  { apply br_no_ni. intros u (f & Nf). assert (sym_vaddr f = u) as Y by apply Nf. subst u. apply ni_functions_iff in Nf. rewrite E in Nf. destruct Nf. }
  assert (exists v0, not_implemented e v0) as Ni by (exists (sym_vaddr f); exists f; apply ni_functions_iff; rewrite E; now left).
  assert (forall vs i u, syscall_vaddrs (env_at c g h a e) (adjust_abi a e) e = Ok vs -> In (i, u) vs -> 0 <= i < 2 ^ 30 -> excused g e a (adjust_abi a e) vs i u) as X.
  { intros vs i u V I Hi. destruct (extracted_listed c g h e a v [] n kd vs i u (proj1 Rg) K H Ni V I Hi) as [(s & [] & _)|X]. exact X. }
  destruct If as [name us Ta Tb _ _ _ _ _|start stop prog D _ _ _ _ _].
  - apply (br_table _ _ _ _ _ name us Ta Tb). intros i u Hi Nth. apply X; [apply (table_of_vaddrs _ _ e name us Ta Tb)| |exact Hi].
    apply PyFacts.enum_from_nth. split; [lia|]. now rewrite Z.sub_0_r.
  - destruct (dispatched c g h a e start stop prog Rg D) as (r & V & Nd & I1 & I2 & I3). destruct r as [|x r].
    + destruct (I3 eq_refl) as [M|N]; [now apply (br_muddled _ _ _ _ _ start stop prog)|]. apply (br_code _ _ _ _ _ start stop prog [] D); [|now intros i u []].
      intros i u. split; [intros []|]. intros L. destruct (N i u L).
    + apply (br_code _ _ _ _ _ start stop prog (x :: r) D); [intros i u; split; [apply I1|apply I2; discriminate]|].
      intros i u I. apply X; [exact V|exact I|]. destruct (I1 i u I) as (Q & _). lia.
Qed.
Lemma shown_signatures g scs shown : Forall2 (shown_as g) scs shown -> map sc_signature shown = map sc_signature scs.
Proof. induction 1 as [|s s' scs shown H _ IH]; [reflexivity|]. cbn [map]. rewrite IH. f_equal. apply H. Qed.
Lemma output_cases sv v src a shown fmt : fmt = $"text" \/ (fmt = $"json" \/ fmt = $"html") /\ List.length v = 3%nat -> shown <> [] ->
  (exists d, output_syscalls sv (version_tag v) src a shown fmt = Ok d) \/
  (fmt = $"html" /\ output_syscalls sv (version_tag v) src a shown fmt = Raise ValueError /\ Forall (fun s => sc_signature s = None) shown).
Proof.
  intros [->|([->| ->] & L)] N; unfold output_syscalls; cbn [str_eqb].
  - left. destruct shown; [congruence|]. eexists. reflexivity.
  - left. destruct v as [|x [|y [|z [|? ?]]]]; try discriminate L. eexists. reflexivity.
  - change (str_eqb $"html" $"text") with false. change (str_eqb $"html" $"json") with false. change (str_eqb $"html" $"html") with true. cbv iota.
    destruct (flat_map (fun s => match sc_signature s with Some l => [len l] | None => [] end) shown) as [|z l] eqn:E.
    + right. split; [reflexivity|]. split; [unfold output_syscalls_html, max_args; now rewrite E|]. apply Forall_forall. intros s I. destruct (sc_signature s) as [q|] eqn:Q; [|reflexivity].
      exfalso. assert (In (len q) []) as []. rewrite <- E. apply in_flat_map. exists s. split; [exact I|]. rewrite Q. now left.
    + left. unfold output_syscalls_html, max_args. rewrite E. destruct v as [|x [|y [|w [|? ?]]]]; try discriminate L. eexists. reflexivity.
Qed.
Lemma program_succeeds c argv g p e a v : parse_args argv = inr g -> g_format g = $"text" \/ (g_format g = $"json" \/ g_format g = $"html") /\ List.length v = 3%nat ->
  (forall n, g_arch g = Some n -> known_arch n) -> ~ preparing g -> ~ present (g_checkout g) -> image_of g p -> version_from_vmlinux e = Ok (Some v) ->
  kernel_init (option_map lower (g_arch g)) (Some e) (match path_arg (g_kdir g) with Some _ => true | None => false end) (Ok v) = Ok a ->
  regular c -> image_fine c (adjust_abi a e) e v ->
  (forall h, Forall is_said h -> prepared c g p e (adjust_abi a e) h) ->
  exists h, Forall is_said h /\
    ((on_computer c argv [] = (h, Ok 1) /\ barren c g e a (adjust_abi a e)) \/
     (exists d, on_computer c argv [] = (h ++ [Printed d], Ok 0)) \/
     (g_format g = $"html" /\ on_computer c argv [] = (h, Raise ValueError) /\ exists h1 scs, scs <> [] /\
        Forall (founded c h1 e a (adjust_abi a e)) scs /\ complete c g e a (adjust_abi a e) scs /\ Forall (fun s => sc_signature s = None) scs)).
Proof.
  intros A Fm AF NP NC IM V K Hp If Pr.
  destruct (main_succeeds (machine_of c g) g p e v a) as (h1 & scs & S1 & X & Y); try assumption.
  - intros h Sh. pose proof (Pr h Sh) as P. cbn [machine_of mc_is_file mc_available mc_elf].
    assert (pc_which c h $"readelf" = true /\ image_read c h p e) as (W & R) by (destruct P; auto).
    split. { destruct R as (file & s1 & s2 & F & _). unfold S_Program.file_at in F. destruct (pc_look c h p) as [[]|]; try discriminate. reflexivity. }
    split; [exact W|]. split; [now apply open_elf_read|]. now apply (prepared_extracts c g p e a v h).
  - unfold on_computer. rewrite A. cbn [machine_of mc_syscalls mc_version] in X, Y. destruct Y as [(-> & E)|(N & h2 & shown & S2 & Sw & E)].
    + exists h1. split; [exact S1|]. left. split; [exact E|]. exact (extracted_barren _ _ _ _ _ _ _ _ Hp If K X).
    + exists (h1 ++ h2). split; [apply Forall_app; auto|]. right. rewrite E.
      destruct (output_cases (pc_version c) v $"vmlinux" (adjust_abi a e) shown (g_format g) Fm) as [(d & ->)|(H1 & -> & H3)].
      * intros ->. inversion Sw; subst. contradiction.
      * left. now exists d.
      * right. split; [exact H1|]. split; [reflexivity|]. exists h1, scs. split; [exact N|].
        assert (loaded e) as L by (destruct (Pr [] (Forall_nil _)) as [? ? _ (file & o1 & o2 & _ & _ & _ & Q)|? _ (file & o1 & o2 & _ & _ & _ & Q)]; exists file, o1, o2; exact Q).
        split; [exact (proj2 (extracted_founded _ _ _ _ _ _ _ _ _ Hp L K X))|]. split; [exact (extracted_complete _ _ _ _ _ _ _ _ _ Hp K X N)|].
        apply Forall_forall. intros s I. apply (in_map sc_signature) in I. rewrite <- (shown_signatures g scs shown Sw) in I. apply in_map_iff in I as (s' & <- & I).
        rewrite Forall_forall in H3. now apply H3.
Qed.
