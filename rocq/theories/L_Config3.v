(** Lemmas about the option tables, the kconfig of a syscall and configure(). *)
From Coq Require Import List Bool Ascii String ZArith Lia Permutation.
From Verif Require Import PyBase PyFacts M_Utils M_KconfigTables M_Elf M_Syscall M_Arch S_Arch L_Arch L_Arch3 M_Kconfig M_Build M_Config
  S_Utils S_Config L_Utils L_Config L_Config2 M_Emu M_Kernel S_Kernel L_Kernel3 L_Kernel5 L_Kernel7 L_Kernel8.
Import ListNotations.
Open Scope Z_scope.
Open Scope list_scope.

(** ** Lookups in tables *)

Lemma map_addition {K V} (l : list (version * version * K * V)) : map (fun '(a, b, k, x) => ((a, b), k, x)) l = l.
Proof. induction l as [|[[[a b] k] x] l IH]; [reflexivity|]. cbn [map]. now rewrite IH. Qed.
Lemma table_lookup {V} (l : list (version * version * str * V)) v k x :
  dget str_eqb k (vd_getversion str_eqb (vd_new str_eqb l) v) = Some x <-> applicable_value l v k x.
Proof. rewrite vd_new_adds, map_addition. apply vd_lookup_fresh. exact str_eqb_eq. Qed.
Lemma applicable_in {V} (l : list (addition str V)) v k x : applicable_value l v k x -> exists r, In (r, k, x) l /\ within r v.
Proof.
  intros (r & i & W & _ & (h1 & h2 & -> & _) & _). exists r. split; [|exact W]. apply in_or_app. right. now left.
Qed.

(** ** C64 *)

Lemma no_empty_arch k : forallb (fun '(_, _, _, o) => negb (str_eqb o [])) (arch_syscall_deps k) = true.
Proof. destruct k; vm_compute; reflexivity. Qed.
Lemma no_empty_table : forallb (fun '(_, _, _, o) => negb (str_eqb o [])) tbl_kconfig_syscall_deps = true.
Proof. vm_compute. reflexivity. Qed.
Lemma nonempty_of (l : list (version * version * str * str)) v n : forallb (fun '(_, _, _, o) => negb (str_eqb o [])) l = true ->
  ~ applicable_value l v n [].
Proof.
  intros H A. apply applicable_in in A as ([a b] & I & _). rewrite forallb_forall in H. specialize (H _ I). discriminate H.
Qed.

Lemma syscall_deps_iff name v a s : kconfig_syscall_deps name v a = Some s <->
  exists o, s = $"CONFIG_" ++ o /\ option_for (arch_syscall_deps (a_class a)) tbl_kconfig_syscall_deps v name o.
Proof.
  unfold kconfig_syscall_deps, option_for, KCONFIG_SYSCALL_DEPS. pose proof (table_lookup (arch_syscall_deps (a_class a)) v name) as TA.
  pose proof (table_lookup tbl_kconfig_syscall_deps v name) as TG.
  pose proof (nonempty_of _ v name (no_empty_arch (a_class a))) as NA. pose proof (nonempty_of _ v name no_empty_table) as NG.
  destruct (dget str_eqb name (vd_getversion str_eqb (vd_new str_eqb (arch_syscall_deps (a_class a))) v)) as [[|c o]|].
  - destruct NA. now apply TA.
  - split.
    + intros [= <-]. exists (c :: o). split; [reflexivity|]. left. now apply TA.
    + intros (o' & -> & [A|[N _]]); [|destruct (N (c :: o)); now apply TA]. apply TA in A. now injection A as <-.
  - assert (forall o', ~ applicable_value (arch_syscall_deps (a_class a)) v name o') as NN by (intros o' A; apply TA in A; discriminate).
    destruct (dget str_eqb name (vd_getversion str_eqb (vd_new str_eqb tbl_kconfig_syscall_deps) v)) as [[|c o]|].
    + destruct NG. now apply TG.
    + split.
      * intros [= <-]. exists (c :: o). split; [reflexivity|]. right. split; [exact NN|now apply TG].
      * intros (o' & -> & [A|[_ A]]); [destruct (NN _ A)|]. apply TG in A. now injection A as <-.
    + split; [discriminate|]. intros (o' & -> & [A|[_ A]]); [destruct (NN _ A)|]. apply TG in A. discriminate.
Qed.
Lemma syscall_deps_none name v a : kconfig_syscall_deps name v a = None ->
  forall o, ~ option_for (arch_syscall_deps (a_class a)) tbl_kconfig_syscall_deps v name o.
Proof.
  intros E o O. assert (kconfig_syscall_deps name v a = Some ($"CONFIG_" ++ o)) as X by (apply syscall_deps_iff; eauto). congruence.
Qed.
Lemma made_kconfig a v prefixes x : let s := make_syscall a v prefixes x in
  kconfig_for (arch_syscall_deps (a_class a)) tbl_kconfig_syscall_deps v (sc_name s) (sc_origname s) (sc_kconfig s).
Proof.
  destruct x as [i sym]. cbn [make_syscall syscall_new sc_name sc_origname sc_kconfig].
  set (o := noprefix _ prefixes). set (n := normalize_syscall_name a o).
  destruct (kconfig_syscall_deps n v a) as [d|] eqn:E1.
  - apply syscall_deps_iff in E1 as (y & -> & O). now apply kf_name.
  - pose proof (syscall_deps_none _ _ _ E1) as N1. destruct (kconfig_syscall_deps o v a) as [d|] eqn:E2.
    + apply syscall_deps_iff in E2 as (y & -> & O). now apply kf_orig.
    + apply kf_none; [exact N1|exact (syscall_deps_none _ _ _ E2)].
Qed.
Lemma option_for_fun k v n o o' : option_for (arch_syscall_deps k) tbl_kconfig_syscall_deps v n o ->
  option_for (arch_syscall_deps k) tbl_kconfig_syscall_deps v n o' -> o = o'.
Proof.
  unfold option_for. rewrite <- !table_lookup. intros [A|[N A]] [B|[N' B]]; try congruence.
  - apply table_lookup in A. destruct (N' _ A).
  - apply table_lookup in B. destruct (N _ B).
Qed.

Lemma adjust_class a e : a_class (adjust_abi a e) = a_class a.
Proof.
  unfold adjust_abi. destruct (a_class a) eqn:E; try exact E.
  - destruct (_ && _); exact E.
  - destruct (ver_ltb _ _); [exact E|]. destruct (_ && _); exact E.
Qed.
Lemma candidates_kconfig ni_order a e v vaddrs l s : candidates ni_order a e v vaddrs = Ok l -> In s l -> of_table s = true ->
  kconfig_for (arch_syscall_deps (a_class a)) tbl_kconfig_syscall_deps v (sc_name s) (sc_origname s) (sc_kconfig s).
Proof.
  intros H I O. destruct (ni_order (ni_functions e)) as [|x y] eqn:Ne.
  { unfold candidates in H. rewrite Ne in H. injection H as <-. destruct I. }
  destruct (candidates_parts ni_order a e v vaddrs l) as (prefixes & eso & esl & ref & code & P); [rewrite Ne; discriminate|exact H|].
  rewrite (po_list _ _ _ _ _ _ _ _ _ _ _ P) in I. apply filter_In in I as [I _]. apply in_app_or in I as [I|I].
  - apply filter_In in I as [I _]. apply in_map_iff in I as (z & <- & _). apply made_kconfig.
  - exfalso. pose proof (po_esl _ _ _ _ _ _ _ _ _ _ _ P) as F. clear - F I O. induction F as [|x s' xs ss E F IH]; [destruct I|].
    destruct I as [->|I]; [|auto]. destruct x as [[[[n nm] sn] sig] kc]. unfold make_esoteric in E.
    destruct (dget str_eqb sn (e_symbols e)); [|discriminate]. injection E as <-. discriminate O.
Qed.
Lemma extracted_kconfig t a e v kdir r s : annotates (v_annotate t) -> extract_syscalls t a e v kdir = Ok r ->
  In s r -> of_table s = true ->
  kconfig_for (arch_syscall_deps (a_class a)) tbl_kconfig_syscall_deps v (sc_name s) (sc_origname s) (sc_kconfig s).
Proof.
  intros Ht H I O. destruct (extract_cases _ _ _ _ _ _ H) as [->|(vaddrs & found & located & H1 & H2 & H3 & H4)]; [contradiction|].
  apply filterM_Ok in H4 as [-> _]. apply filter_In in I as [I _].
  destruct (same_In _ _ _ (Ht _ _ H3) I) as (s0 & I0 & (S1 & S2 & S3 & S4 & S5 & S6 & S7)).
  rewrite <- S3, <- S4, <- S6, <- (adjust_class a e). apply (candidates_kconfig _ _ _ _ _ _ _ H2 I0). unfold of_table in *. now rewrite S7.
Qed.

(** ** C77: checking the tables *)

Definition entry := (vrange * str * list str)%type.   (* range, option, dependencies *)
Definition plain_entries (l : list (version * version * list str)) : list entry :=
  flat_map (fun '(a, b, os) => map (fun o => ((a, b), o, [])) os) l.

Definition wf_opt (o : str) : bool :=
  match split_char1 EQ o with Some (_ :: _, _ :: _) => true | _ => false end.
Definition disjoint (r s : vrange) : bool := ver_leb (snd r) (fst s) || ver_leb (snd s) (fst r).
Definition agree (r : vrange) (o : str) (s : vrange) (o' : str) : bool :=
  match split_char1 EQ o, split_char1 EQ o' with
  | Some (n, x), Some (n', x') => negb (str_eqb n n') || str_eqb x x' || disjoint r s
  | _, _ => true
  end.
Definition check_entries (l : list entry) : bool :=
  forallb (fun '(r, o, ds) => wf_opt o && forallb wf_opt ds &&
    forallb (fun '(s, o', _) => agree s o' r o && forallb (agree s o' r) ds) l) l.

Lemma lexlt_irrefl a : ~ lexlt a a.
Proof. induction a as [|x a IH]; intros H; inversion H; subst; [lia|auto]. Qed.
Lemma lexlt_trans a b c : lexlt a b -> lexlt b c -> lexlt a c.
Proof.
  intros L. revert c. induction L as [y b|x y a b L|x a b L IH]; intros c R; inversion R; subst;
    first [apply lex_nil | apply lex_lt; lia | apply lex_eq; auto].
Qed.
Lemma within_not_disjoint r s v : within r v -> within s v -> disjoint r s = false.
Proof.
  intros W1 W2. apply in_vrange_within in W1, W2. unfold in_vrange in *. apply andb_prop in W1 as [A1 B1]. apply andb_prop in W2 as [A2 B2].
  unfold disjoint. apply ver_leb_lexle in A1, A2. apply ver_ltb_lexlt in B1, B2.
  assert (forall a b, lexle a v -> lexlt v b -> ver_leb b a = false) as H.
  { intros a b L R. destruct (ver_leb b a) eqn:E; [|reflexivity]. apply ver_leb_lexle in E. exfalso.
    apply (lexlt_irrefl v). destruct L as [->|L], E as [->|E]; auto.
    - exact (lexlt_trans _ _ _ R E).
    - exact (lexlt_trans _ _ _ R L).
    - exact (lexlt_trans _ _ _ R (lexlt_trans _ _ _ E L)). }
  now rewrite (H _ _ A2 B1), (H _ _ A1 B2).
Qed.
Lemma agree_sound r o s o' v n x x' : agree r o s o' = true -> within r v -> within s v -> asks o n x -> asks o' n x' -> x = x'.
Proof.
  intros A W1 W2 H1 H2. unfold agree in A. apply asks_iff in H1, H2. rewrite H1, H2, (within_not_disjoint r s v W1 W2) in A.
  rewrite orb_false_r in A. apply orb_prop in A as [A|A]; [|now apply str_eqb_eq].
  apply negb_true_iff, str_eqb_neq in A. congruence.
Qed.
Lemma wf_opt_sound o : wf_opt o = true -> well_formed o.
Proof.
  unfold wf_opt. destruct (split_char1 EQ o) as [[[|c n] [|d v]]|] eqn:E; try discriminate. intros _. exists (c :: n), (d :: v).
  split; [now apply asks_iff|]. split; discriminate.
Qed.

Section Entries.
  Variables (l : list entry) (v : version).
  Hypothesis C : check_entries l = true.
  (** [o] with [deps] applies. *)
  Definition live (o : str) (deps : list str) : Prop := exists r, In (r, o, deps) l /\ within r v.

  Lemma check_at r o ds : In (r, o, ds) l ->
    wf_opt o = true /\ forallb wf_opt ds = true /\
    forall s o' ds', In (s, o', ds') l -> agree s o' r o = true /\ forallb (agree s o' r) ds = true.
  Proof.
    intros I. unfold check_entries in C. rewrite forallb_forall in C. specialize (C _ I). cbn beta iota in C.
    apply andb_prop in C as [C1 C3]. apply andb_prop in C1 as [C1 C2]. split; [exact C1|]. split; [exact C2|].
    intros s o' ds' I'. rewrite forallb_forall in C3. specialize (C3 _ I'). cbn beta iota in C3. now apply andb_prop in C3.
  Qed.
  Lemma live_wf o ds : live o ds -> well_formed o /\ Forall well_formed ds.
  Proof.
    intros (r & I & _). destruct (check_at r o ds I) as (A & B & _). split; [now apply wf_opt_sound|].
    apply Forall_forall. intros d D. rewrite forallb_forall in B. now apply wf_opt_sound, B.
  Qed.
  Lemma live_agree o ds o' ds' n x x' : live o ds -> live o' ds' -> asks o n x -> asks o' n x' -> x = x'.
  Proof.
    intros (r & I & W) (s & I' & W') A A'. destruct (check_at s o' ds' I') as (_ & _ & H). destruct (H r o ds I) as [G _].
    exact (agree_sound r o s o' v n x x' G W W' A A').
  Qed.
  Lemma live_dep_agree o ds o' ds' d n x x' : live o ds -> live o' ds' -> In d ds' -> asks o n x -> asks d n x' -> x = x'.
  Proof.
    intros (r & I & W) (s & I' & W') D A A'. destruct (check_at s o' ds' I') as (_ & _ & H). destruct (H r o ds I) as [_ G].
    rewrite forallb_forall in G. exact (agree_sound r o s d v n x x' (G d D) W W' A A').
  Qed.
End Entries.

Definition all_entries (k : klass) (abi : str) (b : bool) : list entry :=
  plain_entries tbl_kconfig_debugging ++ plain_entries tbl_kconfig_compatibility ++
  tbl_kconfig_more_syscalls ++ class_kconfig k ++ init_kconfig k abi b.
Lemma all_entries_ok k abi b : check_entries (all_entries k abi b) = true.
Proof.
  unfold all_entries, init_kconfig. destruct k, (str_eqb abi $"eabi"), b; vm_compute; reflexivity.
Qed.

(** ** C77: what the tables give *)

Lemma gathered_in {V} (h : list (laddition V)) v rs xs x : gathered h v rs xs -> In x xs ->
  exists r ys, In (r, ys) h /\ within r v /\ In x ys.
Proof.
  induction 1 as [|r l xs ys W H G IH|r l ys W G IH]; intros I; [destruct I| |auto].
  apply in_app_or in I as [I|I]; [|auto]. clear IH G. induction H as [|h0 x0 xs0 H IH|h0 rr x0 xs0 N H IH]; [destruct I| |].
  - apply in_app_or in I as [I|I]; [exists r, x0; split; [now left|auto]|]. destruct (IH I) as (r1 & y1 & A & B). exists r1, y1. split; [now right|exact B].
  - destruct (IH I) as (r1 & y1 & A & B). exists r1, y1. split; [now right|exact B].
Qed.
Lemma map_laddition {V} (l : list (version * version * list V)) : map (fun '(a, b, x) => ((a, b), x)) l = l.
Proof. induction l as [|[[a b] x] l IH]; [reflexivity|]. cbn [map]. now rewrite IH. Qed.
Lemma plain_live t v o : In o (vl_getversion (vl_new t) v) -> exists r, In (r, o, []) (plain_entries t) /\ within r v.
Proof.
  rewrite vl_new_adds, map_laddition. intros I. pose proof (gathered_in _ _ _ _ o (vl_getversion_gathered t v) I) as ([a b] & ys & A & W & Y).
  exists (a, b). split; [|exact W]. apply in_flat_map. exists (a, b, ys). split; [exact A|]. now apply in_map_iff; exists o.
Qed.
Lemma dict_In {V} (d : dict str V) k x : dget str_eqb k d = Some x -> In (k, x) d.
Proof. apply dget_In. exact str_eqb_eq. Qed.
Lemma vd_nodup {V} (h : vdict str V) v : NoDup (dkeys (vd_getversion str_eqb h v)).
Proof.
  unfold vd_getversion. assert (forall l (d : dict str V), NoDup (dkeys d) -> NoDup (dkeys (fold_left (fun res '(r, dct) => if in_vrange r v then dupdate str_eqb res dct else res) l d))) as G.
  { intros l. induction l as [|[r dct] l IH]; intros d N; [exact N|]. cbn [fold_left]. apply IH. destruct (in_vrange r v); [|exact N].
    apply dupdate_NoDup; [exact str_eqb_eq|exact N]. }
  apply G. constructor.
Qed.
Lemma table_live (t : list kentry) v o ds : In (o, ds) (vd_getversion str_eqb (vd_new str_eqb t) v) -> exists r, In (r, o, ds) t /\ within r v.
Proof.
  intros I. apply (dget_In_nodup str_eqb str_eqb_eq) in I; [|apply vd_nodup]. apply table_lookup in I. now apply applicable_in.
Qed.

Lemma fresh_table a v opts : fresh_kconfig a v = Some opts ->
  opts = vd_getversion str_eqb (vd_new str_eqb (class_kconfig (a_class a) ++ init_kconfig (a_class a) (a_abi a) (a_bits32 a))) v.
Proof.
  unfold fresh_kconfig, run_process. cbn [fold_left act_step process0 p_world p_objs]. unfold instantiate.
  destruct (arch_new (a_class a) (a_version a) (a_abi a) (a_bits32 a)) as [a'| | |] eqn:E; cbn [bind p_objs p_world app]; try discriminate.
  pose proof (arch_new_fields _ _ _ _ _ E) as (Hk & _). unfold arch_kconfig, set_kconf. rewrite Hk, klass_eqb_refl. unfold vd_getitem.
  rewrite kc_add_all_cache. assert (vd_cache (world0 (a_class a)) = []) as -> by (destruct (a_class a); reflexivity).
  cbn [dget fst]. intros [= <-]. f_equal. unfold vd_new, kc_add_all, world0. rewrite fold_left_app. reflexivity.
Qed.

Lemma consistent E v more dbg compat opts : check_entries E = true ->
  (forall o ds, In (o, ds) more -> live E v o ds) -> (forall o ds, In (o, ds) opts -> live E v o ds) ->
  (forall o, In o dbg -> live E v o []) -> (forall o, In o compat -> live E v o []) ->
  let all := dbg ++ compat ++ dkeys more ++ dkeys opts in
  let deps := List.concat (map snd more ++ map snd opts) in
  Forall well_formed all /\ Forall well_formed deps /\ ~ contradict all all /\ ~ contradict all deps.
Proof.
  intros C L1 L1' L1a L1b all deps.
  assert (forall o, In o all -> exists ds, live E v o ds) as L2.
  { intros o I. unfold all in I. rewrite !in_app_iff in I. destruct I as [I|[I|[I|I]]]; [exists []; auto|exists []; auto| |];
      apply in_map_iff in I as ([o' ds] & <- & I); exists ds; auto. }
  assert (forall d, In d deps -> exists o ds, live E v o ds /\ In d ds) as L3.
  { intros d I. apply in_concat in I as (ds & I & D). apply in_app_iff in I as [I|I];
      apply in_map_iff in I as ([o ds'] & <- & I); exists o, ds'; auto. }
  split; [|split; [|split]].
  - apply Forall_forall. intros o I. destruct (L2 o I) as [ds L]. exact (proj1 (live_wf E v C o ds L)).
  - apply Forall_forall. intros d I. destruct (L3 d I) as (o & ds & L & D).
    pose proof (proj2 (live_wf E v C o ds L)) as X. rewrite Forall_forall in X. auto.
  - intros (o & o' & n & x & x' & I & I' & A & A' & N). destruct (L2 o I) as [ds L], (L2 o' I') as [ds' L'].
    exact (N (live_agree E v C o ds o' ds' n x x' L L' A A')).
  - intros (o & d & n & x & x' & I & I' & A & A' & N). destruct (L2 o I) as [ds L], (L3 d I') as (o' & ds' & L' & D).
    exact (N (live_dep_agree E v C o ds o' ds' d n x x' L L' D A A')).
Qed.
Lemma live_incl E E' v o ds : live E v o ds -> (forall x, In x E -> In x E') -> live E' v o ds.
Proof. intros (r & I & W) H. exists r. auto. Qed.
Lemma entries_live t d c v o ds : In (o, ds) (vd_getversion str_eqb (vd_new str_eqb t) v) -> live (d ++ c ++ t) v o ds.
Proof. intros I. apply table_live in I as (r & I & W). exists r. split; [|exact W]. rewrite !in_app_iff. auto. Qed.
Lemma plain_live' t v o : In o (vl_getversion (vl_new t) v) -> live (plain_entries t) v o [].
Proof. intros I. exact (plain_live t v o I). Qed.

Lemma options_consistent a v opts : fresh_kconfig a v = Some opts ->
  let all := kconfig_debugging v ++ kconfig_compatibility v ++ dkeys (kconfig_more_syscalls v) ++ dkeys opts in
  let deps := List.concat (map snd (kconfig_more_syscalls v) ++ map snd opts) in
  Forall well_formed all /\ Forall well_formed deps /\ ~ contradict all all /\ ~ contradict all deps.
Proof.
  intros F. apply fresh_table in F.
  apply (consistent (all_entries (a_class a) (a_abi a) (a_bits32 a)) v (kconfig_more_syscalls v) (kconfig_debugging v)
    (kconfig_compatibility v) opts (all_entries_ok _ _ _)).
  - unfold kconfig_more_syscalls, KCONFIG_MORE_SYSCALLS, all_entries. intros o ds I. apply (live_incl _ _ _ _ _ (entries_live _ [] [] v o ds I)).
    intros x. cbn [app]. rewrite !in_app_iff. intros X. right. right. left. exact X.
  - rewrite F. unfold all_entries. intros o ds I. apply (live_incl _ _ _ _ _ (entries_live _ [] [] v o ds I)).
    intros x. cbn [app]. rewrite !in_app_iff. intros X. right. right. right. exact X.
  - unfold kconfig_debugging, KCONFIG_DEBUGGING, all_entries. intros o I. apply (live_incl _ _ _ _ _ (plain_live' _ v o I)).
    intros x. rewrite !in_app_iff. intros X. left. exact X.
  - unfold kconfig_compatibility, KCONFIG_COMPATIBILITY, all_entries. intros o I. apply (live_incl _ _ _ _ _ (plain_live' _ v o I)).
    intros x. rewrite !in_app_iff. intros X. right. left. exact X.
Qed.
