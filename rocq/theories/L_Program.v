(** Lemmas for C103. *)
From Coq Require Import List Bool Ascii String ZArith Lia Permutation.
From Verif Require Import PyBase PyFacts M_Utils M_Elf M_Syscall M_Arch M_Emu M_Kernel M_Location M_Annotate M_Search M_Config M_Command M_Output M_Json M_Main M_Args M_Program
  S_Utils S_Dummy S_Elf S_Emu S_Kernel S_Location S_Declared S_Output S_Json S_Main S_Whole S_Program
  L_Arch L_Dummy3 L_Emu3 L_Emu4 L_Kernel2 L_Kernel3 L_Table L_Kernel10 L_Kernel5 L_Kernel4 L_Kernel6 L_Kernel7 L_Kernel8 L_Whole2 L_Location7 L_Declared2 L_Init L_Main L_Main2 L_Json.
Import ListNotations.
Open Scope Z_scope.
Open Scope list_scope.

Lemma capture_prints c h cmd cwd out : capture c h cmd cwd = Ok out <-> prints c h cmd cwd out.
Proof.
  unfold capture, prints, waits, ensure_command, do_popen, popen_. cbn [negb orb sys_entry sys_found sys_run system_at].
  split.
  - intros H. destruct cwd as [d|].
    + destruct (pc_look c h d) as [[b|l|]|] eqn:E; cbn [entry_of snd bind] in H; try discriminate H.
      destruct (pc_found _ _ _ _) eqn:F; cbn [snd bind] in H; [|destruct cmd as [l'|[|x y]]; try destruct (split_ws l'); discriminate H].
      destruct (pc_run c h cmd (Some d)) as [[[st o] er]|]; cbn [snd bind] in H; [|discriminate H].
      destruct (Z.eqb_spec st 0) as [->|N]; cbn [negb snd bind] in H; [|discriminate H]. injection H as <-. split; [intros d' [= <-]; eauto|]. eauto.
    + destruct (pc_found _ _ _ _) eqn:F; cbn [snd bind] in H; [|discriminate H]. destruct (pc_run c h cmd None) as [[[st o] er]|]; cbn [snd bind] in H; [|discriminate H].
      destruct (Z.eqb_spec st 0) as [->|N]; cbn [negb snd bind] in H; [|discriminate H]. injection H as <-. split; [discriminate|]. eauto.
  - intros (D & F & er & R). destruct cwd as [d|].
    + destruct (D d eq_refl) as (l & ->). cbn [entry_of]. rewrite F, R. reflexivity.
    + rewrite F, R. reflexivity.
Qed.
Lemma open_elf_read c h p e : open_elf c h p = Ok e <-> image_read c h p e.
Proof.
  unfold open_elf, image_read, file_at, content_of. split.
  - destruct (pc_look c h p) as [[file|l|]|]; try discriminate. intros H. apply bind_Ok in H as (x & X & H). apply bind_Ok in H as (o1 & O1 & H). apply bind_Ok in H as (o2 & O2 & H).
    apply capture_prints in O1, O2. exists file, o2, o1. auto.
  - intros (file & o2 & o1 & F & O2 & O1 & E). destruct (pc_look c h p) as [[f|l|]|]; try discriminate. injection F as ->.
    assert (exists x, elf_ident file = Ok x) as (x & ->) by (unfold elf_open in E; destruct (elf_ident file); try discriminate; eauto).
    apply capture_prints in O1, O2. rewrite O1, O2. cbn [bind]. exact E.
Qed.

(** * The table *)

Lemma vaddrs_entry a e name vs i v : loaded e -> vaddrs_from_table a e name = Ok vs -> In (i, v) vs -> entry_at e name i v.
Proof.
  intros L H I. unfold vaddrs_from_table in H. destruct (dget str_eqb name (e_symbols e)) as [tbl|] eqn:T; [|injection H as <-; contradiction].
  destruct (dget str_eqb $".text" (e_sections e)) as [text|]; [|discriminate].
  assert (forall sec, (l <- unpack_syscall_table e tbl sec ;; Ok (enum_from 0 l)) = Ok vs -> entry_at e name i v) as Direct.
  { intros sec D. apply bind_Ok in D as (ps & U & D). injection D as <-. apply enum_from_nth in I as (I & J). rewrite Z.sub_0_r in J.
    apply table_read in U as [->|U]; [destruct (Z.to_nat i); discriminate|exact (en_direct e name i v tbl ps T U I J)|exact L]. }
  destruct (negb (a_fdesc a)); [exact (Direct text H)|]. apply bind_Ok in H as (first & _ & H). destruct (in_target text first); [exact (Direct text H)|].
  destruct (dget str_eqb $".opd" (e_sections e)) as [opd|]; [|injection H as <-; contradiction].
  apply bind_Ok in H as (descs & U & H). apply bind_Ok in H as (l & M & H). destruct l as [|x l]; [exact (Direct text H)|].
  injection H as <-. change (In (i, v) (enum_from 0 (x :: l))) in I. apply enum_from_nth in I as (I & J). rewrite Z.sub_0_r in J.
  apply mapM_Ok in M. destruct (Forall2_nth_r _ _ _ _ _ M J) as (d & D & Dv).
  apply table_read in U as [->|U]; [destruct (Z.to_nat i); discriminate| |exact L].
  apply (en_descriptor e name i v tbl descs d T U I D). apply unpack_long_Ok; [|exact Dv]. intros off. exact (wf_place e _ off (loaded_wf e L)).
Qed.
Lemma init_new n e kd v a : kernel_init n (Some e) kd (Ok v) = Ok a -> exists k ver abi b, arch_new k ver abi b = Ok a.
Proof.
  unfold kernel_init. rewrite andb_false_r. destruct n as [n|]; cbn [bind].
  - intros H. apply bind_Ok in H as (u & _ & H). apply bind_Ok in H as (a' & H & M). apply bind_Ok in M as (ok & _ & M). destruct ok; [|discriminate]. injection M as ->.
    apply named_iff in H as (_ & k & abi & b & H & _). eauto.
  - intros H. apply bind_Ok in H as (u & _ & H). apply bind_Ok in H as (a' & H & M). apply bind_Ok in M as (ok & _ & M). destruct ok; [|discriminate]. injection M as ->.
    apply bind_Ok in H as (m & D & H). destruct m as [[[k b] abis]|]; [|discriminate]. destruct (1 <? len abis); [discriminate|].
    apply bind_Ok in H as (abi & _ & H). eauto.
Qed.

(** * The dispatcher *)

Lemma dispatched c g h a e start stop prog : regular c -> dispatches c (adjust_abi a e) e start stop prog ->
  exists r, syscall_vaddrs (env_at c g h a e) (adjust_abi a e) e = Ok r /\ NoDup (map fst r) /\
    (forall n v, In (n, v) r -> leads_to start stop prog n v) /\ (r <> [] -> forall n v, leads_to start stop prog n v -> In (n, v) r) /\
    (r = [] -> muddled (pc_same c) start stop prog \/ forall n v, ~ leads_to start stop prog n v).
Proof.
  intros (_ & O & _ & S) [sym reg code T K F Sz Im Le -> -> Pr D].
  assert (read_symbol e sym = Ok code) as R by (unfold read_symbol; rewrite <- Le; now apply has_vaddr_read).
  destruct (extract_exact (pc_same c) S (pc_decode c) (pc_insn_order c) _ e sym reg code prog O T F Sz R Pr D) as (r & E & X).
  assert (syscall_vaddrs (env_at c g h a e) (adjust_abi a e) e = Ok r) as V by (unfold syscall_vaddrs; rewrite T, K; exact E).
  pose proof (vaddrs_NoDup _ _ _ _ V) as N. exists r. split; [exact V|]. split; [exact N|]. split.
  - intros n v I. apply (dget_In_nodup Z.eqb Z.eqb_eq _ _ _ N) in I. destruct (X n v) as (X1 & _). exact (X1 I).
  - split.
    + intros Ne n v (L1 & L2 & L3 & L4). apply (dget_In Z.eqb Z.eqb_eq). exact (proj2 (X n v) Ne L1 L2 L3 L4).
    + intros ->. exact (extract_empty (pc_same c) S (pc_decode c) (pc_insn_order c) _ e sym reg code prog O T F Sz R Pr D E).
Qed.

(** * The syscalls *)

Lemma world_file c h a p kdir f : w_file (world_at c h a p kdir) f = file_at c h f.
Proof. reflexivity. Qed.
Lemma extracted_founded c g h e a v scs n kd : regular c -> loaded e -> kernel_init n (Some e) kd (Ok v) = Ok a ->
  extract_syscalls (env_at c g h a e) a e v (path_arg (g_kdir g)) = Ok scs ->
  NoDup (map sc_number (filter of_table scs)) /\ Forall (founded c h e a (adjust_abi a e)) scs.
Proof.
  intros Rg L K H. pose proof (proj1 Rg) as O. destruct (init_new _ _ _ _ _ K) as (k & ver & abi & b & A). pose proof (arch_new_fields _ _ _ _ _ A) as (F1 & F2 & F3 & F4 & _).
  assert (annotates (v_annotate (env_at c g h a e))) as T by apply annotate_annotates.
  split; [exact (proj1 (result_unique (env_at c g h a e) _ _ _ _ _ _ _ _ _ A O T H))|]. apply Forall_forall. intros s I. constructor.
  - intros S. destruct (result_provenance (env_at c g h a e) _ _ _ _ _ _ _ _ _ A O T H s I S) as (vs & i & x & V & J & X & N & Y & Z). exists i, x. rewrite F1, F2, F3, F4.
    split; [exact X|]. split; [exact N|]. split; [exact Y|]. split; [exact Z|]. split.
    + intros name Tn. unfold syscall_vaddrs in V. rewrite Tn in V. exact (vaddrs_entry _ _ _ _ _ _ L V J).
    + intros start stop prog D. destruct (dispatched c g h a e start stop prog Rg D) as (r & E & _ & In1 & _). rewrite E in V. injection V as ->. now apply In1.
  - intros G W. exact (extracted_located (env_at c g h a e) _ _ _ _ _ _ _ _ _ _ _ eq_refl H I G W).
  - intros G S. exact (extracted_declared (env_at c g h a e) _ _ _ _ _ _ _ _ _ _ _ eq_refl H I S G).
Qed.

(** * The program *)

Lemma image_path_of g p : image_of g p -> p = image_path g.
Proof.
  unfold image_path. intros [s E N|k N (s & E & Ne & ->)].
  - rewrite E. destruct s; [contradiction|reflexivity].
  - assert (path_arg (g_vmlinux g) = None) as ->.
    { destruct (path_arg (g_vmlinux g)) as [v|] eqn:V; [|reflexivity]. apply path_arg_Some in V as (s' & S & N' & _). destruct N. exists s'. auto. }
    rewrite E. destruct s; [contradiction|reflexivity].
Qed.
Lemma init_matches n e kd v a : kernel_init n (Some e) kd (Ok v) = Ok a -> arch_matches a e = Ok true.
Proof.
  unfold kernel_init. rewrite andb_false_r. destruct n as [n|]; cbn [bind]; intros H; apply bind_Ok in H as (u & _ & H); apply bind_Ok in H as (a' & _ & M);
    apply bind_Ok in M as (ok & M & X); (destruct ok; [|discriminate]); injection X as ->; exact M.
Qed.
Lemma init_bits n e kd v a : kernel_init n (Some e) kd (Ok v) = Ok a -> xorb (a_bits32 a) (e_bits32 e) = false.
Proof.
  intros H. pose proof (init_matches _ _ _ _ _ H) as M. destruct (init_new _ _ _ _ _ H) as (k & ver & abi & b & A).
  pose proof (arch_new_fields _ _ _ _ _ A) as (F1 & _ & _ & F4 & _). unfold arch_matches in M. rewrite F1 in M.
  assert (Bool.eqb (e_bits32 e) (a_bits32 a) = true -> xorb (a_bits32 a) (e_bits32 e) = false) as Q by (intros E; apply eqb_prop in E as ->; destruct (a_bits32 a); reflexivity).
  destruct k.
  - injection M as M. apply andb_true_iff in M as (-> & _). cbn [arch_new] in A. unfold arm_new in A. destruct b; [now rewrite F4|discriminate].
  - injection M as M. apply andb_true_iff in M as (M & _). apply negb_true_iff in M as ->. cbn [arch_new] in A. unfold arm64_new in A. destruct b; [discriminate|now rewrite F4].
  - injection M as M. apply andb_true_iff in M as (_ & M). auto.
  - apply bind_Ok in M as (u & _ & M). injection M as M. apply andb_true_iff in M as (_ & M). auto.
  - injection M as M. apply andb_true_iff in M as (_ & M). auto.
  - injection M as M. apply andb_true_iff in M as (_ & M). auto.
Qed.
Lemma extracted_listed c g h e a v scs n kd vs i u : (forall l, Permutation (pc_ni_order c l) l) -> kernel_init n (Some e) kd (Ok v) = Ok a ->
  extract_syscalls (env_at c g h a e) a e v (path_arg (g_kdir g)) = Ok scs -> (exists v0, not_implemented e v0) -> syscall_vaddrs (env_at c g h a e) (adjust_abi a e) e = Ok vs ->
  In (i, u) vs -> 0 <= i < 2 ^ 30 -> listed e scs i u \/ excused g e a (adjust_abi a e) vs i u.
Proof.
  intros O K H Ni V' I Hi. set (b := adjust_abi a e) in *. destruct (init_new _ _ _ _ _ K) as (k & ver & abi & bb & A). pose proof (arch_new_fields _ _ _ _ _ A) as (F1 & F2 & F3 & F4 & _).
  set (t := env_at c g h a e) in *. assert (annotates (v_annotate t)) as T by apply annotate_annotates.
  unfold extract_syscalls in H. rewrite (init_bits _ _ _ _ _ K) in H. cbv zeta in H. fold b in H. rewrite V' in H. cbn [bind] in H. destruct vs as [|v1 vs']; [destruct I|]. set (vs := v1 :: vs') in *.
  assert (v_ni_order t (ni_functions e) <> []) as Nn.
  { destruct Ni as (v0 & f & Nf). intros E. pose proof (O (ni_functions e)) as Q. change (v_ni_order t) with (pc_ni_order c) in E. rewrite E in Q. apply Permutation_nil in Q.
    assert (sym_vaddr f = v0) as Y by apply Nf. subst v0. apply ni_functions_iff in Nf. rewrite Q in Nf. destruct Nf. }
  destruct (v_ni_order t (ni_functions e)) as [|n1 ns]; [congruence|]. apply bind_Ok in H as (found & C & H). apply bind_Ok in H as (located & Lc & H).
  pose proof (T _ _ Lc) as Sa. apply filterM_Ok in H as [Es Hk].
  destruct (candidates_exact k ver abi bb a e v (v_ni_order t) vs found A O (vaddrs_NoDup t b e _ V') Ni C)
    as (main & eso & choice & ref & code & E & Ch & Re & _ & Ma & _ & _ & _ & Ex).
  destruct (Ch i u I) as (x & Cx & _ & Sx). specialize (Ex i u x I Hi Cx).
  assert (not_implemented e u \/ ~ not_implemented e u) as [N|N]; [|right; now apply ex_not_implemented|].
  { destruct (existsb (fun f => sym_vaddr f =? u) (ni_functions e)) eqn:X.
    - left. apply existsb_exists in X as (f & If & Q). apply Z.eqb_eq in Q. subst u. exists f. now apply ni_functions_iff.
    - right. intros (f & F). assert (sym_vaddr f = u) as Q by apply F. subst u. apply ni_functions_iff in F.
      enough (existsb (fun f0 => sym_vaddr f0 =? sym_vaddr f) (ni_functions e) = true) by congruence. apply existsb_exists. exists f. split; [exact F|apply Z.eqb_refl]. }
  assert (foreign k ver abi bb i \/ ~ foreign k ver abi bb i) as [Fg|Fg]; [|right; apply ex_foreign; now rewrite F1, F2, F3, F4|].
  { pose proof (foreign_iff k ver abi bb a e A i Hi) as Q. destruct (skip_syscall _ _ _); [left; now apply Q|]. right. intros Fg. apply Q in Fg. discriminate. }
  assert (is_dummy_syscall b x e ref code = Ok false \/ is_dummy_syscall b x e ref code <> Ok false) as [D|D]; [|
    |right; now apply (ex_dummy _ _ _ _ _ _ _ choice ref code x)].
  { destruct (is_dummy_syscall b x e ref code) as [[|]| | |]; auto; right; discriminate. }
  destruct (proj2 Ex (conj N (conj Fg D))) as (s & Is & Xs & Ys).
  assert (In s found) as If by (rewrite E; apply in_or_app; now left).
  assert (exists s', In s' located /\ same_syscall s s') as (s' & Is' & (S1 & _ & _ & _ & S5 & _ & S7)).
  { clear -Sa If. induction Sa as [|y z l l' Q Sa IH]; [destruct If|]. destruct If as [->|If]; [exists z; split; [now left|exact Q]|]. destruct (IH If) as (s' & I' & Q'). exists s'. split; [now right|exact Q']. }
  assert (In s' scs \/ (of_table s' = true /\ sc_good s' = false /\ in_sys_ni (path_arg (g_kdir g)) s')) as [R|(_ & G & Sn)].
  { destruct (Hk s' Is') as [[|] Ek]; [left; rewrite Es; apply filter_In; split; [exact Is'|now rewrite Ek]|]. right. destruct (keep_false _ _ Ek) as (G1 & G2 & G3). unfold of_table. rewrite G1. auto. }
  - left. exists s'. split; [exact R|]. split; [unfold of_table; rewrite <- S7; now apply Ma|]. split; [congruence|]. rewrite <- S5, Ys. now apply Sx.
  - right. apply (ex_sys_ni _ _ _ _ _ _ _ s'); [congruence|rewrite <- S5, Ys; now apply Sx|exact G|exact Sn].
Qed.

Lemma extracted_vaddrs c g h e a v scs : extract_syscalls (env_at c g h a e) a e v (path_arg (g_kdir g)) = Ok scs -> scs <> [] ->
  exists vs, syscall_vaddrs (env_at c g h a e) (adjust_abi a e) e = Ok vs /\ vs <> [].
Proof.
  unfold extract_syscalls. destruct (xorb _ _); [intros [= <-]; congruence|]. cbv zeta. intros H N. apply bind_Ok in H as (vs & V & H). exists vs. split; [exact V|].
  intros ->. injection H as <-. congruence.
Qed.
Lemma extracted_ni c g h e a v scs : (forall l, Permutation (pc_ni_order c l) l) -> extract_syscalls (env_at c g h a e) a e v (path_arg (g_kdir g)) = Ok scs -> scs <> [] ->
  exists v0, not_implemented e v0.
Proof.
  intros O. unfold extract_syscalls. destruct (xorb _ _); [intros [= <-]; congruence|]. cbv zeta. intros H N. apply bind_Ok in H as (vs & V & H). destruct vs; [injection H as <-; congruence|].
  destruct (ni_functions e) as [|f l] eqn:E; [|exists (sym_vaddr f); exists f; apply ni_functions_iff; rewrite E; now left].
  exfalso. change (v_ni_order (env_at c g h a e) []) with (pc_ni_order c []) in H. rewrite (Permutation_nil (Permutation_sym (O []))) in H. injection H as <-. congruence.
Qed.
Lemma extracted_complete c g h e a v scs n kd : regular c -> kernel_init n (Some e) kd (Ok v) = Ok a ->
  extract_syscalls (env_at c g h a e) a e v (path_arg (g_kdir g)) = Ok scs -> scs <> [] -> complete c g e a (adjust_abi a e) scs.
Proof.
  intros Rg K H Ne. pose proof (extracted_ni _ _ _ _ _ _ _ (proj1 Rg) H Ne) as Ni. constructor.
  - intros name us i u Ta Tb Hi Nth. eapply extracted_listed; try eassumption; [exact (proj1 Rg)|exact (table_of_vaddrs _ _ e name us Ta Tb)|].
    apply enum_from_nth. split; [lia|]. now rewrite Z.sub_0_r.
  - intros start stop prog D. destruct (dispatched c g h a e start stop prog Rg D) as (r & V & Nd & I1 & I2 & _).
    destruct (extracted_vaddrs _ _ _ _ _ _ _ H Ne) as (vs & V' & Nv). rewrite V in V'. injection V' as <-. exists r. split; [exact Nd|]. split; [split; [apply I1|now apply I2]|].
    intros i u L. eapply extracted_listed; try eassumption; [exact (proj1 Rg)|now apply I2|]. destruct L as (L & _). lia.
Qed.

Lemma program_result c argv g h : parse_args argv = inr g -> g_format g = $"json" -> ~ preparing g -> (forall n, g_arch g = Some n -> ~ asks_help n) ->
  regular c -> on_computer c argv [] = (h, Ok 0) ->
  exists p e a v tag scs shown doc j objects h0 h1 h2,
    image_of g p /\ image_read c h0 p e /\ version_from_vmlinux e = Ok (Some v) /\ version_tag v = Ok tag /\
    h = h1 ++ h2 ++ [Printed (JsonDoc doc)] /\ json_read (dumps 0 doc) = Some j /\
    (forall ks x, (at_key ks j x /\ forall d, x <> JObj d) <-> documented (pc_version c) tag $"vmlinux" (adjust_abi a e) objects ks x) /\
    Forall2 (fun s o => exists d d', object_of s d /\ Permutation d d' /\ o = JObj d') shown objects /\
    Forall2 (shown_as g) scs shown /\ scs <> [] /\
    NoDup (map sc_number (filter of_table scs)) /\ Forall (founded c h1 e a (adjust_abi a e)) scs /\ complete c g e a (adjust_abi a e) scs.
Proof.
  intros P F NP NH O H. unfold on_computer in H. rewrite P in H.
  destruct (main_result _ _ _ H NP NH) as (p & e & v & a & scs & shown & d & lines & h0 & h1 & h2 & I & E & V & K & S & N & Sh & Out & _ & _ & Hh & _).
  cbn [mc_elf mc_syscalls mc_version machine_of] in E, S, Out. rewrite F in Out. apply open_elf_read in E as E'.
  assert (loaded e) as L by (destruct E' as (file & o1 & o2 & _ & _ & _ & X); exists file, o1, o2; exact X).
  destruct (extracted_founded _ _ _ _ _ _ _ _ _ O L K S) as (U & Fo).
  change (output_syscalls (pc_version c) (version_tag v) $"vmlinux" (adjust_abi a e) shown $"json")
    with (j <- json_document (pc_version c) (version_tag v) $"vmlinux" (adjust_abi a e) shown ;; Ok (JsonDoc j)) in Out.
  apply bind_Ok in Out as (doc & D & Out). injection Out as <-.
  assert (exists tag, version_tag v = Ok tag) as (tag & T) by (unfold json_document in D; destruct (version_tag v); try discriminate; eauto). rewrite T in D.
  destruct (written_document (pc_version c) tag $"vmlinux" (adjust_abi a e) shown) as (text & j & objects & W1 & W2 & W3 & W4).
  unfold output_syscalls_json in W1. rewrite D in W1. cbn [bind] in W1. injection W1 as <-.
  exists p, e, a, v, tag, scs, shown, doc, j, objects, h0, h1, h2. pose proof (extracted_complete _ _ _ _ _ _ _ _ _ O K S N). auto 15.
Qed.
