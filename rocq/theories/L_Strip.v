(** Symbols that have nothing to do with syscalls (C116). *)
From Coq Require Import List Bool Ascii String ZArith Lia Sorted.
From Verif Require Import PyBase PyFacts M_Utils M_Elf M_Syscall M_Arch M_Emu M_Kernel M_Signature M_Location M_Annotate M_Search M_Config M_Command M_Output M_Main M_Args M_Program S_Arch S_Kernel S_Strip L_Arch2 L_Kernel3.
From Verif Require L_Arch.
Import ListNotations.
Open Scope Z_scope.
Open Scope list_scope.

Section Filter.
  Context {A : Type} (leb : A -> A -> bool).
  Hypothesis leb_total : forall x y, leb x y = true \/ leb y x = true.
  Hypothesis leb_trans : forall x y z, leb x y = true -> leb y z = true -> leb x z = true.
  Lemma insert_first x l : (forall y, In y l -> leb x y = true) -> insert_sorted leb x l = x :: l.
  Proof. destruct l as [|y l]; intros H; [reflexivity|]. cbn. now rewrite (H y (or_introl eq_refl)). Qed.
  Lemma insert_filter (f : A -> bool) x l : StronglySorted (fun a b => leb a b = true) l ->
    filter f (insert_sorted leb x l) = if f x then insert_sorted leb x (filter f l) else filter f l.
  Proof.
    induction 1 as [|y l S IH F]; [now cbn; destruct (f x)|]. cbn [insert_sorted]. destruct (leb x y) eqn:E.
    - cbn [filter]. destruct (f x) eqn:FX; [|reflexivity]. symmetry. apply insert_first. intros z I.
      rewrite Forall_forall in F. destruct (f y); [destruct I as [<-|I]; [exact E|]|]; apply filter_In in I as [I _]; eauto.
    - cbn [filter]. rewrite IH. destruct (f y), (f x); try reflexivity. cbn [insert_sorted]. now rewrite E.
  Qed.
  Lemma sort_filter (f : A -> bool) l : filter f (sort_stable leb l) = sort_stable leb (filter f l).
  Proof.
    induction l as [|x l IH]; [reflexivity|]. cbn [sort_stable fold_right filter].
    change (fold_right (insert_sorted leb) [] l) with (sort_stable leb l).
    rewrite insert_filter by now apply sort_sorted. rewrite IH. now destruct (f x).
  Qed.
End Filter.

Lemma fold_filter {A B} (f : B -> A -> B) (p : A -> bool) l : (forall x b, In x l -> p x = false -> f b x = b) ->
  forall b, fold_left f (filter p l) b = fold_left f l b.
Proof.
  induction l as [|x l IH]; intros H b; [reflexivity|]. cbn [filter fold_left]. destruct (p x) eqn:P.
  - cbn [fold_left]. apply IH. intros; apply H; [now right|assumption].
  - rewrite IH by (intros; apply H; [now right|assumption]). now rewrite (H x b (or_introl eq_refl) P).
Qed.
Lemma filter_swap {A} (p q : A -> bool) l : filter p (filter q l) = filter q (filter p l).
Proof.
  induction l as [|x l IH]; [reflexivity|]. cbn [filter]. destruct (q x) eqn:Q, (p x) eqn:P; cbn [filter]; rewrite ?P, ?Q, IH; reflexivity.
Qed.
Lemma filter_same {A} (p q : A -> bool) l : (forall x, In x l -> p x = true -> q x = true) -> filter p (filter q l) = filter p l.
Proof.
  induction l as [|x l IH]; intros H; [reflexivity|]. cbn [filter]. destruct (q x) eqn:Q.
  - cbn [filter]. rewrite IH by (intros; apply H; [now right|assumption]). reflexivity.
  - rewrite IH by (intros; apply H; [now right|assumption]). destruct (p x) eqn:P; [|reflexivity]. rewrite (H x (or_introl eq_refl) P) in Q. discriminate.
Qed.
Lemma dvalues_without gone d : dvalues (without gone d) = filter (fun s => negb (gone s)) (dvalues d).
Proof. unfold dvalues, without. induction d as [|[n s] d IH]; [reflexivity|]. cbn [filter map snd]. destruct (gone s); cbn [negb filter map snd]; now rewrite IH. Qed.
Lemma dget_without gone n d : (forall s, In (n, s) d -> gone s = false) -> dget str_eqb n (without gone d) = dget str_eqb n d.
Proof.
  unfold without. induction d as [|[m s] d IH]; intros H; [reflexivity|]. cbn [filter dget snd]. destruct (str_eqb n m) eqn:E.
  - apply str_eqb_eq in E as <-. rewrite (H s (or_introl eq_refl)). cbn [negb dget]. now rewrite str_eqb_refl.
  - rewrite <- IH by (intros; apply H; now right). destruct (gone s); cbn [negb dget]; [reflexivity|]. now rewrite E.
Qed.
Lemma dmem_dget {V} n (d : dict str V) : dmem str_eqb n d = match dget str_eqb n d with Some _ => true | None => false end.
Proof. reflexivity. Qed.

Lemma mapM_ext_in {A B} (f g : A -> outcome B) l : (forall x, In x l -> f x = g x) -> mapM f l = mapM g l.
Proof.
  induction l as [|x l IH]; intros H; [reflexivity|]. cbn [mapM]. rewrite (H x (or_introl eq_refl)), IH; [reflexivity|]. intros; apply H; now right.
Qed.

(** ** What the image is *)
Section Mute.
  Context (gone : symbol -> bool) (e : elf) (BN : by_name e).
  Hypothesis M : forall s, In s (map snd (e_symbols e)) \/ In s (map snd (e_functions e)) -> gone s = true -> mute s.
  Local Notation e' := (stripped gone e).
  Lemma stays n : In n telling_names -> forall s, In (n, s) (e_symbols e) \/ In (n, s) (e_functions e) -> gone s = false.
  Proof.
    intros T s I. destruct (gone s) eqn:G; [|reflexivity]. assert (mute s) as [X _].
    { apply M; [|exact G]. destruct I as [I|I]; [left|right]; apply in_map_iff; exists (n, s); auto. }
    destruct X. now rewrite <- (BN n s I).
  Qed.
  Lemma get_telling n : In n telling_names -> dget str_eqb n (e_symbols e') = dget str_eqb n (e_symbols e).
  Proof. intros T. apply dget_without. intros s I. apply (stays n T s). now left. Qed.
  Lemma get_telling_f n : In n telling_names -> dget str_eqb n (e_functions e') = dget str_eqb n (e_functions e).
  Proof. intros T. apply dget_without. intros s I. apply (stays n T s). now right. Qed.
  Lemma has_telling n : In n telling_names -> has_sym e' n = has_sym e n.
  Proof. intros T. unfold has_sym, dmem. now rewrite get_telling. Qed.
  Lemma x32_telling : existsb (fun s => contains s $"x32_compat_sys") (dkeys (e_symbols e')) = existsb (fun s => contains s $"x32_compat_sys") (dkeys (e_symbols e)).
  Proof.
    apply eq_true_iff_eq. rewrite !existsb_exists. unfold dkeys. split; intros (n & I & C); exists n; (split; [|exact C]).
    - apply in_map_iff in I as ([? s] & <- & I). unfold stripped, without in I. cbn [e_symbols] in I. apply filter_In in I as [I _]. apply in_map_iff. eauto.
    - apply in_map_iff in I as ([k s] & <- & I). cbn [fst] in C. apply in_map_iff. exists (k, s). split; [reflexivity|]. apply filter_In. split; [exact I|]. cbn [snd].
      destruct (gone s) eqn:G; [|reflexivity]. exfalso. assert (mute s) as [_ X].
      { apply M; [left; apply in_map_iff; exists (k, s); auto|exact G]. }
      rewrite (BN k s (or_introl I)) in C. apply contains_iff in C as (u & v & C). now apply (X u v).
  Qed.
  Lemma detect_same : arch_from_vmlinux e' = arch_from_vmlinux e.
  Proof.
    unfold arch_from_vmlinux. induction ARCH_CLASSES as [|k ks IH]; [reflexivity|]. cbn [first_match]. rewrite IH.
    replace (arch_match k e') with (arch_match k e); [reflexivity|].
    destruct k; cbn [arch_match]; unfold arm_match, arm64_match, mips_match, ppc_match, riscv_match, x86_match;
      rewrite ?x32_telling, ?has_telling by (cbn; tauto); reflexivity.
  Qed.
  Lemma banner_same : version_from_vmlinux e' = version_from_vmlinux e.
  Proof. unfold version_from_vmlinux. rewrite get_telling by (cbn; tauto). reflexivity. Qed.
  Lemma matches_same a : arch_matches a e' = arch_matches a e.
  Proof. reflexivity. Qed.
  Lemma init_same n kdir v : (exists s, left_in gone e s) -> kernel_init n (Some e') kdir v = kernel_init n (Some e) kdir v.
  Proof.
    intros (s & I & G). unfold kernel_init. rewrite detect_same. apply in_map_iff in I as ([k s'] & S & I). cbn [snd] in S. subst s'.
    assert (In (k, s) (e_symbols e')) as I'. { apply filter_In. split; [exact I|]. cbn [snd]. now rewrite G. }
    destruct (e_symbols e') as [|? ?]; [destruct I'|]. destruct (e_symbols e); [destruct I|]. reflexivity.
  Qed.
  Lemma adjust_same a : adjust_abi a e' = adjust_abi a e.
  Proof. unfold adjust_abi. rewrite !has_telling by (cbn; tauto). reflexivity. Qed.
  Lemma metadata_same : read_metadata e' = read_metadata e.
  Proof. unfold read_metadata. rewrite !get_telling by (cbn; tauto). reflexivity. Qed.
  Lemma signatures_same files l have : extract_syscall_signatures files l e' have = extract_syscall_signatures files l e have.
  Proof. unfold extract_syscall_signatures. now rewrite metadata_same. Qed.
  Lemma annotate_same w have a p kdir rdir kres l : annotate w have a e' p kdir rdir kres l = annotate w have a e p kdir rdir kres l.
  Proof.
    unfold annotate. destruct (extract_syscall_locations w have a p kdir rdir kres l); cbn [bind]; try reflexivity. apply signatures_same.
  Qed.
End Mute.

(** ** What is in it *)
Section Needless.
  Context (gone : symbol -> bool) (e : elf) (BN : by_name e) (table : option str) (dispatcher : str) (entry : Z -> Prop)
    (N : all_needless gone e table dispatcher entry).
  Local Notation e' := (stripped gone e).
  Lemma all_mute s : In s (map snd (e_symbols e)) \/ In s (map snd (e_functions e)) -> gone s = true -> mute s.
  Proof. intros I G. exact (nl_mute _ _ _ _ _ _ (N s I G)). Qed.
  Lemma get_table n : table = Some n -> dget str_eqb n (e_symbols e') = dget str_eqb n (e_symbols e).
  Proof.
    intros T. apply dget_without. intros s I. destruct (gone s) eqn:G; [|reflexivity].
    destruct (nl_table _ _ _ _ _ _ (N s (or_introl (in_map snd _ _ I)) G)). rewrite T. f_equal. exact (BN n s (or_introl I)).
  Qed.
  Lemma get_dispatcher : dget str_eqb dispatcher (e_functions e') = dget str_eqb dispatcher (e_functions e).
  Proof.
    apply dget_without. intros s I. destruct (gone s) eqn:G; [|reflexivity].
    destruct (nl_dispatcher _ _ _ _ _ _ (N s (or_intror (in_map snd _ _ I)) G)). symmetry. exact (BN _ s (or_intror I)).
  Qed.
  Lemma next_same y : left_in gone e y -> open_ended table y ->
    option_map sym_vaddr (next_symbol e' y) = option_map sym_vaddr (next_symbol e y).
  Proof.
    intros L O. unfold next_symbol. unfold stripped at 1. cbn [e_symbols]. rewrite dvalues_without, filter_swap.
    set (l := filter (fun x => sym_real y <? sym_real x) (dvalues (e_symbols e))).
    assert (forall x, In x l -> exists z, In z (filter (fun s => negb (gone s)) l) /\ sym_vaddr z <= sym_vaddr x) as H.
    { intros x I. destruct (gone x) eqn:G.
      - assert (In x (map snd (e_symbols e)) /\ sym_real y < sym_real x) as [IX R] by (apply filter_In in I as [I R]; apply Z.ltb_lt in R; auto).
        destruct (nl_end _ _ _ _ _ _ (N x (or_introl IX) G) y L O) as [X|(z & [IZ GZ] & RZ & V)]; [lia|].
        exists z. split; [|exact V]. apply filter_In. split; [apply filter_In; split; [exact IZ|now apply Z.ltb_lt]|now rewrite GZ].
      - exists x. split; [apply filter_In; split; [exact I|now rewrite G]|lia]. }
    destruct (filter (fun s => negb (gone s)) l) as [|c' cs'] eqn:F.
    - destruct l as [|c cs]; [reflexivity|]. destruct (H c (or_introl eq_refl)) as (z & [] & _).
    - assert (forall x, In x (c' :: cs') -> In x l) as SUB by (intros x I; rewrite <- F in I; now apply filter_In in I).
      destruct l as [|c cs] eqn:LL; [destruct (SUB c' (or_introl eq_refl))|]. cbn [option_map]. f_equal. apply Z.le_antisymm.
      + destruct (H _ (min_by_in sym_vaddr c cs)) as (z & I & V). pose proof (min_by_le sym_vaddr c' cs' z I). lia.
      + apply min_by_le, SUB, min_by_in.
  Qed.
  Lemma unpack_same y s : left_in gone e y -> table = Some (sym_name y) -> unpack_syscall_table e' y s = unpack_syscall_table e y s.
  Proof.
    intros L T. unfold unpack_syscall_table. change (vaddr_to_file_offset e' (sym_vaddr y)) with (vaddr_to_file_offset e (sym_vaddr y)).
    destruct (vaddr_to_file_offset e (sym_vaddr y)); cbn [bind]; try reflexivity. destruct (Z.ltb_spec 128 (sym_size y)); [reflexivity|].
    assert (match next_symbol e' y with Some s => Some (sym_vaddr s) | None => None end = match next_symbol e y with Some s => Some (sym_vaddr s) | None => None end) as ->
      by (apply (next_same y L); left; auto).
    reflexivity.
  Qed.
  Lemma dget_left n y : dget str_eqb n (e_symbols e') = Some y -> left_in gone e y /\ sym_name y = n.
  Proof.
    intros D. apply (dget_In str_eqb str_eqb_eq) in D. apply filter_In in D as [I G]. cbn [snd] in G. apply negb_true_iff in G.
    split; [split; [exact (in_map snd _ _ I)|exact G]|]. symmetry. exact (BN _ _ (or_introl I)).
  Qed.
  Lemma table_same a n : table = Some n -> vaddrs_from_table a e' n = vaddrs_from_table a e n.
  Proof.
    intros T. unfold vaddrs_from_table. pose proof (get_table n T) as G. rewrite <- G. destruct (dget str_eqb n (e_symbols e')) as [y|] eqn:D; [|reflexivity].
    apply dget_left in D as [L NY]. rewrite <- NY in T. change (e_sections e') with (e_sections e). destruct (dget str_eqb $".text" (e_sections e)); [|reflexivity].
    rewrite unpack_same by assumption. destruct (negb (a_fdesc a)); [reflexivity|]. change (unpack_long e' (sym_vaddr y)) with (unpack_long e (sym_vaddr y)).
    destruct (unpack_long e (sym_vaddr y)); cbn [bind]; try reflexivity. destruct (in_target _ _); [reflexivity|]. destruct (dget str_eqb $".opd" (e_sections e)); [|reflexivity].
    now rewrite unpack_same by assumption.
  Qed.
  Lemma esoteric_same a : extract_esoteric_syscalls a e' = extract_esoteric_syscalls a e.
  Proof.
    unfold extract_esoteric_syscalls. destruct (a_class a); try reflexivity.
    - unfold arm_esoteric, dmem. rewrite (get_telling_f gone e BN all_mute) by (cbn; tauto). reflexivity.
    - unfold ppc_esoteric. destruct (_ || _); [reflexivity|]. pose proof (get_telling gone e BN all_mute $"exc_real_0xc00_system_call" ltac:(cbn; tauto)) as G. rewrite <- G.
      destruct (dget str_eqb $"exc_real_0xc00_system_call" (e_symbols e')) as [y|] eqn:D; [|reflexivity]. apply dget_left in D as [L NY].
      pose proof (next_same y L (or_intror NY)) as NX.
      replace (match next_symbol e' y with Some s => sym_vaddr s | None => sym_vaddr y + 128 end) with (match next_symbol e y with Some s => sym_vaddr s | None => sym_vaddr y + 128 end); [reflexivity|].
      destruct (next_symbol e' y), (next_symbol e y); cbn in NX; congruence.
  Qed.
  Lemma esoteric_names a l x : extract_esoteric_syscalls a e = Ok l -> In x l -> In (snd (fst (fst x))) telling_names.
  Proof.
    unfold extract_esoteric_syscalls. destruct (a_class a); try (intros [= <-] []; fail).
    - intros [= <-]. unfold arm_esoteric. destruct (negb _); [intros []|]. destruct (ver_geb _ _); cbn [app In].
      all: intros H; repeat destruct H as [<-|H]; try destruct H; cbn; tauto.
    - unfold ppc_esoteric. destruct (_ || _); [intros [= <-] []|]. destruct (dget _ _ _) as [y|] eqn:D; [|intros [= <-] []].
      apply (dget_In str_eqb str_eqb_eq) in D. pose proof (BN _ _ (or_introl D)) as NY.
      destruct (vaddr_read _ _ _); cbn [bind]; try discriminate. destruct (iter_unpack_u _ _ _); cbn [bind]; try discriminate. intros [= <-].
      destruct (ppc_fast_switch _); [|intros []]. intros [<-|[]]. cbn [fst snd]. rewrite <- NY. cbn; tauto.
  Qed.
  Lemma make_same a l : extract_esoteric_syscalls a e = Ok l -> mapM (make_esoteric e') l = mapM (make_esoteric e) l.
  Proof.
    intros E. apply mapM_ext_in. intros x I. pose proof (esoteric_names a l x E I) as T. destruct x as [[[[num name] sn] sig] kc]. cbn [fst snd] in T. unfold make_esoteric.
    now rewrite (get_telling gone e BN all_mute) by exact T.
  Qed.
  Lemma ni_same : ni_functions e' = ni_functions e.
  Proof.
    unfold ni_functions. unfold stripped. cbn [e_functions]. rewrite dvalues_without. apply filter_same. intros s I NI. destruct (gone s) eqn:G; [|reflexivity].
    destruct (nl_ni _ _ _ _ _ _ (N s (or_intror I) G)). now apply ni_symbol_iff.
  Qed.
  Lemma picked_same a ni vaddrs : (forall v, In v (map snd vaddrs) -> entry v) -> symbols_by_vaddr a e' ni vaddrs = symbols_by_vaddr a e ni vaddrs.
  Proof.
    intros V. unfold symbols_by_vaddr. unfold stripped. cbn [e_symbols]. rewrite dvalues_without. unfold sort_by.
    rewrite <- (sort_filter (fun x y => str_leb (sym_name x) (sym_name y))); [|intros; apply str_leb_total|intros x y z; apply str_leb_trans].
    apply fold_filter. intros s d I G. apply negb_false_iff in G. apply sort_in in I. unfold pick_step.
    destruct (zin (sym_vaddr s) (map snd vaddrs)) eqn:Z; [|reflexivity]. apply L_Arch.zin_iff in Z.
    destruct (nl_entry _ _ _ _ _ _ (N s (or_introl I) G)). auto.
  Qed.
  Lemma candidates_same order a v vaddrs : (forall v, In v (map snd vaddrs) -> entry v) -> candidates order a e' v vaddrs = candidates order a e v vaddrs.
  Proof.
    intros V. unfold candidates. rewrite ni_same. destruct (order (ni_functions e)) as [|n ns]; [reflexivity|]. rewrite (picked_same a (n :: ns) vaddrs V), esoteric_same.
    set (es := extract_esoteric_syscalls a e) in *. cbv zeta.
    destruct (common_syscall_symbol_prefixes _ 20); cbn [bind]; try reflexivity. destruct es as [l|?|?|] eqn:ES; cbn [bind]; try reflexivity.
    rewrite (make_same a l ES). reflexivity.
  Qed.
End Needless.

(** ** Together *)
Lemma vaddrs_strip t a gone e entry : by_name e -> all_needless gone e (a_table a) (a_abi a ++ $"_sys_call") entry ->
  syscall_vaddrs t a (stripped gone e) = syscall_vaddrs t a e.
Proof.
  intros BN N. unfold syscall_vaddrs. destruct (a_table a) as [n|] eqn:T; [exact (table_same gone e BN (Some n) _ entry N a n eq_refl)|].
  destruct (a_class a); try reflexivity. unfold extract_syscall_vaddrs. rewrite T, (get_dispatcher gone e BN _ _ entry N). reflexivity.
Qed.
Lemma extract_strip t a gone e v kdir : by_name e ->
  all_needless gone e (a_table (adjust_abi a e)) (a_abi (adjust_abi a e) ++ $"_sys_call") (starts_syscall t a e) ->
  extract_syscalls t a (stripped gone e) v kdir = extract_syscalls t a e v kdir.
Proof.
  intros BN N. unfold extract_syscalls. change (e_bits32 (stripped gone e)) with (e_bits32 e). destruct (xorb _ _); [reflexivity|].
  rewrite (adjust_same gone e BN (all_mute gone e _ _ _ N)). cbv zeta. rewrite (vaddrs_strip t _ gone e _ BN N).
  destruct (syscall_vaddrs t (adjust_abi a e) e) as [l|?|?|] eqn:V; cbn [bind]; try reflexivity. destruct l as [|x l]; [reflexivity|].
  rewrite (ni_same gone e _ _ _ N). destruct (v_ni_order t (ni_functions e)); [reflexivity|].
  rewrite (candidates_same gone e BN _ _ _ N (v_ni_order t) (adjust_abi a e) v (x :: l)); [reflexivity|].
  intros z I. exists (x :: l). auto.
Qed.

(** ** The whole program *)
Lemma loaded_names e : loaded e -> by_name e.
Proof. intros L n s [I|I]; symmetry; [exact (wf_name e (loaded_wf e L) n s I)|exact (wf_fname e (loaded_wf e L) n s I)]. Qed.
Lemma open_loaded c h p e : open_elf c h p = Ok e -> loaded e.
Proof.
  unfold open_elf. destruct (content_of _) as [f|]; [|discriminate]. destruct (elf_ident f); cbn [bind]; try discriminate.
  destruct (capture c h (Argv [$"readelf"; $"-Ws"; str_of_path p]) None) as [s| | |]; cbn [bind]; try discriminate.
  destruct (capture c h (Argv [$"readelf"; $"-WS"; str_of_path p]) None) as [S| | |]; cbn [bind]; try discriminate. intros E. unfold loaded. eauto.
Qed.
Lemma mbind_ext {A B} (x x' : mio A) (f f' : A -> mio B) h : x h = x' h -> (forall a h1, x h = (h1, Ok a) -> f a h1 = f' a h1) -> mbind x f h = mbind x' f' h.
Proof. intros E F. unfold mbind. rewrite <- E. destruct (x h) as [h1 [a| | |]] eqn:X; auto. Qed.
Lemma mbind_try {A B} (f : list action -> outcome A) (k : A -> mio B) h :
  mbind (try_ f) k h = match f h with Ok a => k a h | Raise x => (h, Raise x) | Exit n => (h, Exit n) | Diverge => (h, Diverge) end.
Proof. unfold mbind, try_. now destruct (f h). Qed.
Lemma extract_env t t' a e v kdir : v_decode t = v_decode t' -> v_same t = v_same t' -> v_insn_order t = v_insn_order t' -> v_ni_order t = v_ni_order t' ->
  (forall l, v_annotate t l = v_annotate t' l) -> extract_syscalls t a e v kdir = extract_syscalls t' a e v kdir.
Proof.
  intros E1 E2 E3 E4 E5. unfold extract_syscalls, syscall_vaddrs. rewrite E1, E2, E3, E4. destruct (xorb _ _); [reflexivity|]. cbv zeta.
  match goal with |- bind ?x _ = _ => destruct x as [[|y l]| | |]; cbn [bind]; try reflexivity end. destruct (v_ni_order t' _); [reflexivity|].
  match goal with |- bind ?x _ = _ => destruct x; cbn [bind]; try reflexivity end. now rewrite E5.
Qed.
Section Program.
  Context (c : computer) (g : args) (gone : symbol -> bool).
  Hypothesis ST : strippable c g gone.
  Local Notation m := (M_Program.machine_of c g).
  Lemma analyse_strip silent h :
    analyse (image_without gone m) g silent (option_map lower (g_arch g)) (path_arg (g_kdir g)) h =
    analyse m g silent (option_map lower (g_arch g)) (path_arg (g_kdir g)) h.
  Proof.
    unfold analyse. cbv zeta. destruct (_ && _); [reflexivity|]. apply mbind_ext; [reflexivity|]. intros p h1 E1. unfold ret in E1. injection E1 as _ E1.
    assert (p = image_path g) as -> by (revert E1; unfold image_path; destruct (path_arg (g_vmlinux g)), (path_arg (g_kdir g)); intros [= <-]; reflexivity).
    apply mbind_ext; [reflexivity|]. intros there h2 _. destruct there; cbn [negb]; [|reflexivity].
    apply mbind_ext; [reflexivity|]. intros re h3 _. destruct re; cbn [negb]; [|reflexivity].
    etransitivity; [apply mbind_try|]. etransitivity; [|symmetry; apply mbind_try]. cbv beta. cbn [image_without M_Program.machine_of mc_elf].
    destruct (open_elf c h3 (image_path g)) as [e|x| |] eqn:O; cbn [bind]; [|destruct x; reflexivity|reflexivity|reflexivity].
    cbn [instantiate_kernel]. destruct (ST h3 e O) as (S & M & K). pose proof (loaded_names e (open_loaded _ _ _ _ O)) as BN.
    rewrite (banner_same gone e BN M). destruct (get_version (Some (version_from_vmlinux e)) None vstate0) as [r s] eqn:GV.
    rewrite (init_same gone e BN M _ _ _ S). apply mbind_ext; [reflexivity|]. intros a h4 E4. unfold ret in E4. injection E4 as _ E4.
    apply mbind_ext; [reflexivity|]. intros v h5 E5. unfold ret in E5. injection E5 as _ E5. subst r.
    assert (kernel_init (option_map lower (g_arch g)) (Some e) match path_arg (g_kdir g) with Some _ => true | None => false end (Ok v) = Ok a) as I.
    { destruct (kernel_init _ _ _ _) as [?|x| |]; cbn [instantiate_kernel] in E4; [congruence|destruct x; discriminate|discriminate|discriminate]. }
    assert (version_from_vmlinux e = Ok (Some v)) as VV.
    { clear - GV. unfold get_version in GV. cbn [vs_version vstate0] in GV. destruct (version_from_vmlinux e) as [[w|]|x| |]; cbn in GV; congruence. }
    specialize (K a v _ VV I). apply mbind_ext; [reflexivity|]. intros ? h6 _. apply mbind_ext; [reflexivity|]. intros ? h7 _.
    rewrite (adjust_same gone e BN M). apply mbind_ext; [|reflexivity].
    unfold try_. cbn [image_without M_Program.machine_of mc_syscalls]. f_equal.
    etransitivity; [|apply (extract_strip (env_at c g h7 a e) a gone e v (path_arg (g_kdir g)) BN)].
    - apply extract_env; try reflexivity. intros l. unfold env_at. cbn [v_annotate]. rewrite (adjust_same gone e BN M). apply (annotate_same gone e BN M).
    - exact K.
  Qed.
  Lemma main_strip : main (image_without gone m) g [] = main m g [].
  Proof.
    unfold main. cbv zeta. destruct (check_arch _); [reflexivity|]. destruct (_ && _); [reflexivity|]. destruct (_ && _); [reflexivity|]. destruct (_ && _); [reflexivity|].
    apply mbind_ext; [reflexivity|]. intros ? h _. destruct (g_clean g || g_config g || g_build g); [reflexivity|]. apply analyse_strip.
  Qed.
End Program.
