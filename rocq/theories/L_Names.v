(** Lemmas about the names of the reported syscalls. *)
From Coq Require Import List Bool Ascii String ZArith Lia Permutation Sorted.
From Verif Require Import PyBase PyFacts Regex M_Utils S_Utils L_Utils M_Elf S_Elf L_Elf M_Syscall S_Syscall L_Syscall M_Arch S_Arch
  L_Arch L_Arch2 M_Emu M_Kconfig M_Kernel S_Kernel L_Kernel2 L_Kernel3 L_Kernel4 L_Kernel5 L_Kernel6 L_Kernel7 L_Kernel8 S_Names.
Import ListNotations.
Open Scope Z_scope.
Open Scope list_scope.

(** * The longest prefix *)

Lemma drop_longest_fun P s t t' : drop_longest P s t -> drop_longest P s t' -> t = t'.
Proof.
  intros [(p & H1 & H2 & H3)|[H1 H2]] [(q & G1 & G2 & G3)|[G1 G2]].
  - assert (len p = len q) as E.
    { pose proof (H3 q G1 (ex_intro _ t' G2)). pose proof (G3 p H1 (ex_intro _ t H2)). lia. }
    rewrite H2 in G2. clear - E G2. revert q E G2. induction p as [|c p IH]; intros [|d q] E G2.
    + exact G2.
    + rewrite len_cons in E. pose proof (len_nonneg q). change (len (@nil ascii)) with 0 in E. lia.
    + rewrite len_cons in E. pose proof (len_nonneg p). change (len (@nil ascii)) with 0 in E. lia.
    + rewrite !len_cons in E. cbn [app] in G2. injection G2 as _ G2. apply (IH q); [lia|exact G2].
  - destruct (G2 p H1). now exists t.
  - destruct (H2 q G1). now exists t'.
  - congruence.
Qed.
Lemma drop_longest_ext P Q s t : (forall p, P p <-> Q p) -> drop_longest P s t -> drop_longest Q s t.
Proof.
  intros H [(p & H1 & H2 & H3)|[H1 H2]].
  - left. exists p. split; [now apply H|]. split; [exact H2|]. intros q Hq. apply H3. now apply H.
  - right. split; [exact H1|]. intros p Hp. apply H2. now apply H.
Qed.
Lemma noprefix_drop_longest ps s : longer_first ps -> drop_longest (fun p => In p ps) s (noprefix s ps).
Proof.
  intros H. destruct (noprefix_longest ps s H) as [(p & H1 & H2 & H3)|[H1 H2]].
  - left. exists p. split; [exact H1|]. split; [exact H2|]. intros q Hq [u Eu]. exact (H3 q u Hq Eu).
  - right. split; [exact H2|]. intros p Hp [u Eu]. exact (H1 p u Hp Eu).
Qed.

(** * What the architecture removes *)

Lemma drop_prefix_perm ps qs s t : Permutation ps qs -> drop_prefix ps s t -> drop_prefix qs s t.
Proof.
  intros H [(p & H1 & H2)|[H1 H2]].
  - left. exists p. split; [exact (Permutation_in _ H H1)|exact H2].
  - right. split; [exact H1|]. intros p Hp. apply H2. exact (Permutation_in _ (Permutation_sym H) Hp).
Qed.
Lemma wrapper_det s t : drop_prefix wrapper_prefixes s t <-> base_translate s = t.
Proof.
  unfold base_translate. rewrite <- drop_prefix_det by excl_prefix.
  assert (Permutation wrapper_prefixes [$"ptregs_sys_"; $"ptregs_compat_sys_"; $"__se_compat_sys_"; $"__se_sys_"; $"__sys_"; $"compat_sys_"]) as P.
  { unfold wrapper_prefixes. apply NoDup_Permutation.
    - repeat constructor; cbn; intros H; repeat destruct H as [H|H]; try discriminate; contradiction.
    - repeat constructor; cbn; intros H; repeat destruct H as [H|H]; try discriminate; contradiction.
    - intros x. cbn [In]. tauto. }
  split; apply drop_prefix_perm; [exact P|now apply Permutation_sym].
Qed.
Lemma stub_det s t : drop_prefix [$"stub_"; $"stub32_"] s t <-> noprefix s [$"stub32_"; $"stub_"] = t.
Proof. rewrite <- drop_prefix_det by excl_prefix. split; apply drop_prefix_perm, perm_swap. Qed.
Lemma wrapper_suffix_det s t : drop_suffix [$"_wrapper"] s t <-> nosuffix s [$"_wrapper"] = t.
Proof.
  apply drop_suffix_det.
  - intros p [<-|[]]. discriminate.
  - intros p q u w [<-|[]] [<-|[]] _. reflexivity.
Qed.
Lemma dot_det s t : drop_longest (fun p => p = $"." \/ p = $".sys_") s t <-> noprefix s [$".sys_"; $"."] = t.
Proof.
  assert (drop_longest (fun p => p = $"." \/ p = $".sys_") s (noprefix s [$".sys_"; $"."])) as D.
  { apply (drop_longest_ext (fun p => In p [$".sys_"; $"."])).
    - intros p. cbn [In]. split; [intros [<-|[<-|[]]]; auto|intros [->| ->]; auto].
    - apply noprefix_drop_longest. repeat constructor; vm_compute; discriminate. }
  split; [intros H; exact (drop_longest_fun _ _ _ _ D H)|intros <-; exact D].
Qed.

Lemma translate_iff a s t : translate_syscall_symbol_name a s = t <-> symbol_part (a_class a) s t.
Proof.
  unfold translate_syscall_symbol_name, symbol_part. destruct (a_class a); try (symmetry; apply wrapper_det).
  - split.
    + intros <-. exists (base_translate s). split; [now apply wrapper_det|now apply wrapper_suffix_det].
    + intros (u & H1 & H2). apply wrapper_det in H1. apply wrapper_suffix_det in H2. now subst.
  - split.
    + intros <-. eexists. split; [now apply dot_det|now apply wrapper_det].
    + intros (u & H1 & H2). apply dot_det in H1. apply wrapper_det in H2. now subst.
  - split.
    + intros <-. exists (base_translate s). split; [now apply wrapper_det|now apply stub_det].
    + intros (u & H1 & H2). apply wrapper_det in H1. apply stub_det in H2. now subst.
Qed.

(** * The names of the table *)

Lemma starting_with_perm p l m k : Permutation l m -> starting_with p l k -> starting_with p m k.
Proof.
  intros H. revert k. induction H as [|x l m H IH|x y l|l m n H1 IH1 H2 IH2]; intros k S.
  - exact S.
  - inversion S; subst; constructor; auto.
  - inversion S as [|t l1 k1 S1|n l1 k1 N1 S1]; subst; inversion S1 as [|t2 l2 k2 S2|n2 l2 k2 N2 S2]; subst;
      repeat (constructor; auto).
  - auto.
Qed.
Lemma common_prefix_perm l m n p : Permutation l m -> common_prefix l n p <-> common_prefix m n p.
Proof.
  intros H. unfold common_prefix. split; intros [Q (k & S & T)]; (split; [exact Q|]); exists k; (split; [|exact T]).
  - exact (starting_with_perm _ _ _ _ H S).
  - exact (starting_with_perm _ _ _ _ (Permutation_sym H) S).
Qed.

Lemma filter_perm {A} (f : A -> bool) l m : Permutation l m -> Permutation (filter f l) (filter f m).
Proof.
  induction 1 as [|x l m H IH|x y l|l m n H1 IH1 H2 IH2]; cbn [filter].
  - constructor.
  - destruct (f x); [now constructor|exact IH].
  - destruct (f x), (f y); try apply Permutation_refl. apply perm_swap.
  - exact (Permutation_trans IH1 IH2).
Qed.

Lemma implemented_exist a e ni vaddrs l : Permutation ni (ni_functions e) -> (forall x, In x l -> In x vaddrs) ->
  (forall x, In x l -> chosen (adjust_abi a e) e ni vaddrs (snd x) <> None) ->
  implemented_names e (chosen (adjust_abi a e) e ni vaddrs) l
    (map (fun x => sym_name (snd x)) (filter (fun x => negb (sym_in (snd x) ni))
       (flat_map (fun x => match chosen (adjust_abi a e) e ni vaddrs (snd x) with Some s => [(fst x, s)] | None => [] end) l))).
Proof.
  intros Hp. induction l as [|[i v] l IH]; intros Hin Hc; cbn [flat_map filter map]; [constructor|].
  assert (implemented_names e (chosen (adjust_abi a e) e ni vaddrs) l
    (map (fun x => sym_name (snd x)) (filter (fun x => negb (sym_in (snd x) ni))
       (flat_map (fun x => match chosen (adjust_abi a e) e ni vaddrs (snd x) with Some s => [(fst x, s)] | None => [] end) l)))) as R.
  { apply IH; intros x Hx; [apply Hin|apply Hc]; now right. }
  pose proof (Hc (i, v) (or_introl eq_refl)) as C. cbn [fst snd] in *.
  assert (In v (map snd vaddrs)) as Hv by (apply in_map_iff; exists (i, v); split; [reflexivity|apply Hin; now left]).
  destruct (chosen (adjust_abi a e) e ni vaddrs v) as [s|] eqn:E; [|congruence].
  pose proof (chosen_ni a e ni vaddrs Hp s v Hv E) as N. cbn [app filter snd].
  destruct (sym_in s ni) eqn:I; cbn [negb map snd].
  - apply im_ni; [apply N; now apply sym_in_iff|exact R].
  - apply sym_in_not in I. apply im_impl; [tauto|exact E|exact R].
Qed.
Lemma implemented_fun e choice l n n' : implemented_names e choice l n -> implemented_names e choice l n' -> n = n'.
Proof.
  intros H. revert n'. induction H as [|i v l n N H IH|i v s l n N C H IH]; intros n' H'; inversion H'; subst; try contradiction; auto.
  f_equal; [congruence|auto].
Qed.

(** * C86 *)

Lemma made_name k ver abi b a e v names names' prefixes x : arch_new k ver abi b = Ok a ->
  common_syscall_symbol_prefixes names' 20 = Ok prefixes -> Permutation names' names ->
  let s := make_syscall (adjust_abi a e) v prefixes x in
  reported_as a names (sym_name (sc_symbol s)) (sc_origname s) (sc_name s).
Proof.
  intros Ha Hc Hp. destruct x as [i sym]. cbn [make_syscall syscall_new sc_name sc_origname sc_symbol]. cbv zeta.
  destruct (adjust_abi_class a e) as (Hk & _ & Hb & _).
  exists (translate_syscall_symbol_name (adjust_abi a e) (sym_name sym)). split; [|split].
  - rewrite <- Hk. now apply translate_iff.
  - assert (names' <> []) as Hne by (intros ->; rewrite prefixes_empty in Hc; discriminate).
    destruct (prefixes_exact names' 20 Hne ltac:(lia)) as (ps & E & _ & Hs & Hi). rewrite E in Hc. injection Hc as ->.
    apply (drop_longest_ext (fun p => In p prefixes)); [|now apply noprefix_drop_longest].
    intros p. rewrite Hi. now apply common_prefix_perm.
  - apply (normalize_iff _ _ _ _ _ _ _ Ha). unfold normalize_syscall_name, arch_normalize. now rewrite Hk, Hb.
Qed.

Lemma flat_map_perm {A B} (f : A -> list B) l m : Permutation l m -> Permutation (flat_map f l) (flat_map f m).
Proof. intros H. now apply Permutation_flat_map. Qed.

Lemma sort_fst_perm (l : list (Z * Z)) : Permutation (sort_by Z.leb fst l) l.
Proof. apply Permutation_sym, sort_by_perm. Qed.

Lemma candidates_names k ver abi b a e v ni_order vaddrs l : arch_new k ver abi b = Ok a ->
  (forall l, Permutation (ni_order l) l) -> (exists v, not_implemented e v) ->
  candidates ni_order (adjust_abi a e) e v vaddrs = Ok l ->
  exists choice names, chooses e vaddrs choice /\ implemented_names e choice vaddrs names /\
    forall s, In s l -> of_table s = true ->
      (exists i v', sc_index s = Some i /\ In (i, v') vaddrs /\ choice v' = Some (sc_symbol s)) /\
      reported_as a names (sym_name (sc_symbol s)) (sc_origname s) (sc_name s).
Proof.
  intros Ha Hp Hni Hc. pose proof (ni_nonempty _ _ Hp Hni) as Hne.
  destruct (candidates_parts _ _ _ _ _ _ Hne Hc) as (prefixes & eso & esl & ref & code & P).
  set (ni := ni_order (ni_functions e)) in *.
  assert (Permutation ni (ni_functions e)) as Hpn by apply Hp.
  pose proof (po_all _ _ _ _ _ _ _ _ _ _ _ P) as Hall.
  eexists (chosen (adjust_abi a e) e ni vaddrs), _. split; [exact (chooses_ok _ _ _ _ _ _ _ _ _ _ _ Hpn P)|].
  split; [exact (implemented_exist a e ni vaddrs vaddrs Hpn (fun x H => H) Hall)|].
  intros s Hs Ho. rewrite (po_list _ _ _ _ _ _ _ _ _ _ _ P) in Hs. apply filter_In in Hs as [Hs _].
  apply in_app_or in Hs as [Hs|Hs].
  - apply filter_In in Hs as [Hs _]. apply in_map_iff in Hs as ([i x] & <- & Hs). split.
    + apply filter_In in Hs as [Hs _]. apply resolve_In in Hs as (v' & H1 & H2). exists i, v'. auto.
    + eapply made_name; [exact Ha|exact (po_prefixes _ _ _ _ _ _ _ _ _ _ _ P)|].
      apply Permutation_map, filter_perm. unfold resolve. apply flat_map_perm, sort_fst_perm.
  - exfalso. pose proof (eso_fields _ _ _ _ _ _ _ _ _ _ _ P s Hs) as [G _]. unfold of_table in Ho. rewrite G in Ho. discriminate.
Qed.

Lemma extracted_names k ver abi b t a e v kdir r : arch_new k ver abi b = Ok a ->
  (forall l, Permutation (v_ni_order t l) l) -> annotates (v_annotate t) -> extract_syscalls t a e v kdir = Ok r -> r <> [] ->
  exists vaddrs choice names, syscall_vaddrs t (adjust_abi a e) e = Ok vaddrs /\
    chooses e vaddrs choice /\ implemented_names e choice vaddrs names /\
    forall s, In s r -> of_table s = true ->
      (exists i v', sc_index s = Some i /\ In (i, v') vaddrs /\ choice v' = Some (sc_symbol s)) /\
      reported_as a names (sym_name (sc_symbol s)) (sc_origname s) (sc_name s).
Proof.
  intros Ha Hp Ht H Hr. destruct (extract_cases _ _ _ _ _ _ H) as [->|(vaddrs & found & located & H1 & H2 & H3 & H4)]; [contradiction|].
  apply filterM_Ok in H4 as [-> _].
  destruct (ni_functions e) as [|f fs] eqn:En.
  { exfalso. apply Hr. rewrite candidates_no_ni in H2; [|exact Hp|].
    - injection H2 as <-. pose proof (Ht _ _ H3) as X. inversion X. reflexivity.
    - intros w (g & Hg). apply ni_at_iff in Hg as [Hg _]. rewrite En in Hg. exact Hg. }
  assert (exists w, not_implemented e w) as Hni.
  { exists (sym_vaddr f), f. apply ni_functions_iff. rewrite En. now left. }
  destruct (candidates_names _ _ _ _ _ _ _ _ _ _ Ha Hp Hni H2) as (choice & names & G1 & G2 & G3).
  exists vaddrs, choice, names. split; [exact H1|]. split; [exact G1|]. split; [exact G2|].
  intros s I O. apply filter_In in I as [I _].
  destruct (same_In _ _ _ (Ht _ _ H3) I) as (s0 & I0 & (S1 & S2 & S3 & S4 & S5 & S6 & S7)).
  rewrite <- S1, <- S3, <- S4, <- S5. apply G3; [exact I0|]. unfold of_table in *. now rewrite S7.
Qed.

Lemma reported_fun k ver abi b a names sym o n o' n' : arch_new k ver abi b = Ok a ->
  reported_as a names sym o n -> reported_as a names sym o' n' -> o = o' /\ n = n'.
Proof.
  intros Ha (t & A1 & A2 & A3) (t' & B1 & B2 & B3). apply translate_iff in A1, B1. subst t t'.
  pose proof (drop_longest_fun _ _ _ _ A2 B2) as <-. split; [reflexivity|].
  apply (normalize_iff _ _ _ _ _ _ _ Ha) in A3, B3. congruence.
Qed.
