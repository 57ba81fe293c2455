(** Lemmas for C109: every failure has its reason. *)
From Coq Require Import List Bool Ascii String ZArith Lia.
From Verif Require Import PyBase PyFacts M_Utils M_Elf M_Syscall M_Arch M_Config M_Kernel M_Output M_Main M_HelpText M_Help M_Explain
  S_Utils S_Output S_Arch S_Init S_Main S_Explain L_Utils L_Arch L_Output L_Main L_Main2 L_Init L_Explain L_Explain2.
Import ListNotations.
Open Scope Z_scope.
Open Scope list_scope.

Definition explained (o : voice) (m : machine) (g : args) (h : list action) (r : outcome Z) : Prop :=
  (exists h0 f lines, because o m g h0 f r lines /\ h = h0 ++ told (silence g) lines) \/ (exists c, r = Exit c /\ gave_up m c).
Definition accounted (o : voice) (m : machine) (g : args) (h : list action) (r : outcome Z) : Prop :=
  match r with
  | Ok c => c <> 0 -> explained o m g h r
  | Exit c => explained o m g h r \/ (~ In (g_format g) [$"text"; $"json"; $"html"])
  | _ => True
  end.
Lemma acc_because o m g h f r lines : because o m g h f r lines -> accounted o m g (h ++ told (silence g) lines) r.
Proof.
  intros B. assert (explained o m g (h ++ told (silence g) lines) r) as E by (left; eauto).
  destruct r as [c| |c|]; cbn [accounted]; auto.
Qed.
Lemma acc_gave_up o m g h c : gave_up m c -> accounted o m g h (Exit c).
Proof. intros G. left. right. eauto. Qed.
Lemma post_refuse silent l c h (Q : list action -> outcome Z -> Prop) : Q (h ++ told silent l) (Ok c) -> post (refuse silent l c) h Q.
Proof. intros H. unfold post. rewrite refuse_run. exact H. Qed.

Lemma make_exit m h c : fst (get_version None (Some (mc_make_version m h)) vstate0) = Exit c -> mc_make_version m h = Exit c.
Proof. cbn. destruct (mc_make_version m h) as [[v|]| | |]; cbn; congruence. Qed.
Lemma make_raise m h : frank m -> fst (get_version None (Some (mc_make_version m h)) vstate0) = Raise KernelVersionError ->
  mc_make_version m h = Ok None.
Proof.
  intros F. cbn. destruct (mc_make_version m h) as [[v|]|x| |] eqn:E; cbn; try congruence. intros [= ->].
  destruct (fk_make m F h _ E). now left.
Qed.
(** None of the four exceptions comes from elsewhere. *)
Definition calm {A} (x : outcome A) : Prop := forall y, x = Raise y -> ~ kernel_error y.
Lemma calm_bind {A B} (x : outcome A) (f : A -> outcome B) : calm x -> (forall a, calm (f a)) -> calm (bind x f).
Proof. intros S F y. destruct x as [a|z| |]; cbn [bind]; [apply F|intros [= ->]; exact (S y eq_refl)|discriminate..]. Qed.
Lemma calm_Ok {A} (a : A) : calm (Ok a). Proof. intros y E. discriminate E. Qed.
Lemma calm_Exit {A} c : calm (@Exit A c). Proof. intros y E. discriminate E. Qed.
Lemma calm_Diverge {A} : calm (@Diverge A). Proof. intros y E. discriminate E. Qed.
Lemma calm_Raise {A} x : ~ kernel_error x -> calm (@Raise A x). Proof. intros N y [= <-]. exact N. Qed.
Ltac calms :=
  repeat first
    [ apply calm_Ok | apply calm_Exit | apply calm_Diverge
    | apply calm_Raise; unfold kernel_error; intuition discriminate
    | apply calm_bind; [|intros ?]
    | match goal with
      | |- calm (if ?b then _ else _) => destruct b
      | |- calm (match ?x with _ => _ end) => destruct x
      | |- calm (assert_ _) => unfold assert_
      end ].
Lemma calm_off e v : calm (vaddr_to_file_offset e v).
Proof. unfold vaddr_to_file_offset. generalize (dvalues (e_sections e)). intros l. induction l; cbn [vaddr_to_off]; calms; assumption. Qed.
Lemma calm_version e : calm (version_from_vmlinux e).
Proof.
  unfold version_from_vmlinux. destruct (dget _ _ _); [|apply calm_Ok]. apply calm_bind; [|intros; apply calm_Ok].
  destruct (negb _); [unfold read_symbol, vaddr_read; apply calm_bind; [apply calm_off|intros; apply calm_Ok]|].
  unfold vaddr_read_string. apply calm_bind; [apply calm_off|]. intros off.
  generalize (@nil ascii). generalize (skipn (Z.to_nat off) (M_Elf.e_file e)). intros l. induction l as [|c l IH]; intros acc; cbn [read_to_nul]; calms. apply IH.
Qed.
Lemma image_raise e s : get_version (Some (version_from_vmlinux e)) None vstate0 = (Raise KernelVersionError, s) ->
  version_from_vmlinux e = Ok None.
Proof.
  cbn. destruct (version_from_vmlinux e) as [[v|]|x| |] eqn:E; cbn; try congruence. intros [= -> _].
  apply calm_version in E. destruct E. now left.
Qed.
Lemma image_calm e r s y : get_version (Some (version_from_vmlinux e)) None vstate0 = (r, s) -> r = Raise y ->
  y = KernelVersionError \/ ~ kernel_error y.
Proof.
  cbn. destruct (version_from_vmlinux e) as [[v|]|x| |] eqn:E; cbn; intros [= <- _]; try discriminate; intros [= <-].
  - now left.
  - right. exact (calm_version e x E).
Qed.
Lemma bits_dec e k : machine_of (e_machine e) k -> machine_bits (e_machine e) (e_bits32 e) \/ ~ machine_bits (e_machine e) (e_bits32 e).
Proof. intros M. destruct (e_bits32 e), M; first [left; constructor|right; intros X; inversion X]. Qed.
Lemma unknown_machine e : arch_from_vmlinux e = Ok None -> forall k, ~ machine_of (e_machine e) k.
Proof.
  intros E k M. destruct (bits_dec e k M) as [G|G].
  - destruct (detect_good e k M G) as [abis D]. congruence.
  - pose proof (detect_bad e k M G). congruence.
Qed.
Lemma several_abis e k b abis : arch_from_vmlinux e = Ok (Some (k, b, abis)) -> 1 < len abis -> abis_of e abis.
Proof.
  intros E L. pose proof E as D. apply detect_iff in D as (M & B & _). unfold abis_of.
  assert (k = KArm \/ k <> KArm) as [->|K] by (destruct k; auto; right; discriminate).
  - assert (e_machine e = 40) as M40 by (now inversion M). rewrite M40 in B.
    assert (e_bits32 e = true) as B32 by (now inversion B).
    assert (b = true) as ->. { pose proof E as D. apply detect_iff in D as (_ & _ & D). pose proof (match_machine _ _ _ D) as (_ & _ & X). cbn in X. congruence. }
    destruct (has_sym e $"sys_oabi_call_table") eqn:P.
    + apply arm_detect in E; [|assumption..]. rewrite P in E. subst abis.
      split; [|split; [intros X; now destruct (X M40)|]].
      * repeat constructor; cbn [In]; [intros [X|[]]; discriminate X|intros []].
      * intros _. split; [reflexivity|]. now apply has_sym_iff.
    + apply has_sym_false in P. rewrite (arm_eabi_always_wrong e abis M40 B32 P E) in L. discriminate L.
  - destruct (abis_exact e k b abis K E) as (A & N & _). split; [exact N|]. split; [auto|].
    intros M40. rewrite M40 in M. inversion M. congruence.
Qed.
Lemma some_inj {A} (a b : A) : Some a = Some b -> a = b.
Proof. now intros [= ->]. Qed.
Lemma trouble_because o m g h e t s r :
  opens m g h e -> get_version (Some (version_from_vmlinux e)) None vstate0 = (r, s) ->
  arch_fine g -> troubled (option_map lower (g_arch g)) (Some e) r t ->
  exists f, because o m g h f (Exit 1) (trouble_lines (vo_argv0 o) t).
Proof.
  intros O G F T. destruct T as [R N|e' [= <-] S|e' [= <-] S A D|e' k b abis [= <-] S A D L|e' n v a [= <-] S A V NM M].
  - subst r. apply image_raise in G. exists VersionUnknown. apply bc_version. right. exists e. auto.
  - exists Stripped. now apply (bc_symbols o m g h e).
  - exists MachineUnknown. assert (g_arch g = None) as GA by (destruct (g_arch g); [discriminate|reflexivity]).
    apply (bc_machine o m g h e O S GA). now apply unknown_machine.
  - exists SeveralABIs. assert (g_arch g = None) as GA by (destruct (g_arch g); [discriminate|reflexivity]).
    pose proof D as D'. apply detect_iff in D' as (M & B & _).
    apply (bc_abis o m g h e k abis O S GA M B); [exact (several_abis e k b abis D L)|]. unfold len in L. lia.
  - exists OtherArch. subst r. apply get_version_image in G as [G _].
    destruct (g_arch g) as [n0|] eqn:GA; [|discriminate]. cbn [option_map] in A. apply some_inj in A. subst n.
    pose proof (F n0 GA) as (d & D & mm & I & SL). pose proof (lower_names _ _ SL) as L. rewrite (lower_plain mm (name_plain d mm D I)) in L.
    assert (since (d_since d) v) as SI.
    { destruct (since_or_before (d_since d) v) as [X|X]; [exact X|]. rewrite L, (arch_name_too_old d mm v D I X) in NM. discriminate. }
    refine (bc_other o m g h e n0 d v O S GA _ G SI _); [split; eauto|].
    rewrite L in NM. destruct (arch_name_supported d mm v D I SI) as (a' & E & C & _ & _ & B & _). rewrite NM in E. injection E as <-.
    intros IM. rewrite <- C, <- B in IM. destruct (named_iff _ _ _ NM) as [_ (k & abi & b & AN & Hk & Ha & Hb)].
    assert (k = KPowerPC -> e_big e = true) as P.
    { intros ->. destruct (e_big e) eqn:BE; [reflexivity|]. rewrite (little_ppc a e v abi b AN BE) in M. discriminate. }
    rewrite Hk, Hb in IM. destruct (image_matches _ e _ _ _ _ AN P) as [M1 _]. rewrite (M1 IM) in M. discriminate.
Qed.

(** ** Preparing *)

Lemma compiler_name g : match g_cross g with Some c => c | None => [] end ++ $"gcc" = compiler g.
Proof. reflexivity. Qed.
Lemma made_of an kd gv h t o m g : frank m -> preparing g -> present (g_kdir g) ->
  gv = fst (get_version None (Some (mc_make_version m h)) vstate0) ->
  kernel_new an None kd gv = Ok (inl t) -> because o m g h VersionUnknown (Exit 1) (trouble_lines (vo_argv0 o) t).
Proof.
  intros F P K -> E. apply kernel_troubled in E. destruct E as [R N|e E|e E|e k b abis E|e n v a E]; try discriminate E.
  apply bc_version. left. split; [exact P|]. split; [exact K|]. now apply make_raise.
Qed.
Lemma accounted_0 o m g h : accounted o m g h (Ok 0).
Proof. intros X. now destruct X. Qed.
Lemma accounted_raise o m g h x : accounted o m g h (Raise x).
Proof. exact I. Qed.
Lemma accounted_diverge o m g h : accounted o m g h Diverge.
Proof. exact I. Qed.
#[export] Hint Resolve accounted_0 accounted_raise accounted_diverge : main.
Lemma post_cont {A B} (x : mio A) (f : A -> mio B) h Q :
  post x h (fun h' r => match r with Ok a => post (f a) h' Q | Raise e => Q h' (Raise e) | Exit c => Q h' (Exit c) | Diverge => Q h' Diverge end) ->
  post (mbind x f) h Q.
Proof. intros H. apply post_bind. exact H. Qed.
Lemma instantiate_exit {A} (x : exn) c : @instantiate_kernel A (Raise x) = Exit c -> kernel_error x /\ c = 1.
Proof. unfold instantiate_kernel, kernel_error. destruct x; intros E; inversion E; auto 6. Qed.
Lemma post_instantiate o silent x h (Q : list action -> outcome arch -> Prop) :
  (forall a, x = Ok (inr a) -> Q h (Ok a)) -> (forall t, x = Ok (inl t) -> Q (h ++ told silent (trouble_lines (vo_argv0 o) t)) (Exit 1)) ->
  (forall e, x = Raise e -> Q h (instantiate_kernel (Raise e))) -> (forall c, x = Exit c -> Q h (Exit c)) -> Q h Diverge ->
  post (instantiate o silent x) h Q.
Proof.
  intros A T R E D. unfold instantiate. destruct x as [[t|a]|e|c|]; try (apply post_ret; auto).
  unfold post, mbind. rewrite eprints_run. cbn [fst snd ret]. now apply T.
Qed.
Lemma calm_new k v abi b : calm (arch_new k v abi b).
Proof. unfold arch_new. destruct k; unfold arm_new, arm64_new, mips_new, ppc_new, riscv_new, x86_new; calms. Qed.
Lemma calm_name n v : calm (arch_from_name n v).
Proof. unfold arch_from_name. destruct (dget _ _ _) as [[[k abi] b]|]; [apply calm_new|calms]. Qed.
Lemma calm_match k e : calm (arch_match k e).
Proof. unfold arch_match. destruct k; unfold arm_match, arm64_match, mips_match, ppc_match, riscv_match, x86_match; calms. Qed.
Lemma calm_image e : calm (arch_from_vmlinux e).
Proof.
  unfold arch_from_vmlinux. generalize ARCH_CLASSES. intros ks. induction ks as [|k ks IH]; cbn [first_match]; [apply calm_Ok|].
  apply calm_bind; [apply calm_match|]. intros [[b abis]|]; [apply calm_Ok|exact IH].
Qed.
Lemma calm_matches a e : calm (arch_matches a e).
Proof. unfold arch_matches. destruct (a_class a); calms. Qed.
Lemma calm_index {A} (l : list A) i : calm (index_ l i).
Proof. unfold index_. calms. Qed.
Lemma calm_with gv (f : version -> outcome arch) : (forall y, gv = Raise y -> y = KernelVersionError \/ ~ kernel_error y) -> (forall v, calm (f v)) ->
  calm (match gv with
         | Ok v => a <- f v ;; Ok (inr a)
         | Raise KernelVersionError => Ok (@inl trouble arch NoVersion)
         | Raise x => Raise x
         | Exit c => Exit c
         | Diverge => Diverge
         end).
Proof.
  intros G F. destruct gv as [v|x|c|]; [calms; apply F| |calms..]. specialize (G x eq_refl).
  destruct x; first [apply calm_Ok | apply calm_Raise; destruct G as [G|G]; [discriminate G|exact G]].
Qed.
Lemma calm_kernel an vm kd gv : (forall y, gv = Raise y -> y = KernelVersionError \/ ~ kernel_error y) -> calm (kernel_new an vm kd gv).
Proof.
  intros G. unfold kernel_new. destruct (negb kd && _); [calms|].
  destruct an as [n|], vm as [e|]; try (apply calm_Raise; unfold kernel_error; intuition discriminate).
  - destruct (e_symbols e); [apply calm_Ok|]. apply calm_bind; [apply calm_with; [exact G|apply calm_name]|].
    intros [t|a]; [apply calm_Ok|]. apply calm_bind; [apply calm_matches|intros []; apply calm_Ok].
  - apply calm_with; [exact G|apply calm_name].
  - destruct (e_symbols e); [apply calm_Ok|]. apply calm_bind.
    + apply calm_bind; [apply calm_image|]. intros [[[k b] abis]|]; [|apply calm_Ok]. destruct (1 <? len abis); [apply calm_Ok|].
      apply calm_with; [exact G|]. intros v. apply calm_bind; [apply calm_index|intros; apply calm_new].
    + intros [t|a]; [apply calm_Ok|]. apply calm_bind; [apply calm_matches|intros []; apply calm_Ok].
Qed.
Lemma instantiate_calm {A} x : ~ kernel_error x -> @instantiate_kernel A (Raise x) = Raise x.
Proof. unfold kernel_error. intros N. destruct x; try reflexivity; exfalso; apply N; auto. Qed.
Lemma make_calm m h y : frank m -> fst (get_version None (Some (mc_make_version m h)) vstate0) = Raise y -> y = KernelVersionError \/ ~ kernel_error y.
Proof.
  intros F. cbn. destruct (mc_make_version m h) as [[v|]|x| |] eqn:E; cbn; try discriminate; [intros [= <-]; now left|].
  intros [= ->]. right. exact (fk_make m F h y E).
Qed.
Lemma acc_lines o m g h f r lines lines' : because o m g h f r lines -> lines' = lines -> accounted o m g (h ++ told (silence g) lines') r.
Proof. intros B ->. exact (acc_because o m g h f r lines B). Qed.
Lemma acc_exit o m g h c : gave_up m c -> accounted o m g h (Exit c).
Proof. intros G. left. right. eauto. Qed.
Lemma str_now_exit m h c : (let '(r, s) := get_version None (Some (mc_make_version m h)) vstate0 in
   v <- r ;; Ok (version_str v (match vs_source s with Some x => x | None => $"None" end))) = Exit c -> mc_make_version m h = Exit c.
Proof. cbn. destruct (mc_make_version m h) as [[v|]| | |]; cbn; congruence. Qed.

Lemma prepare_accounted o m g h : frank m -> preparing g -> 
  post (prepare_saying o m g (silence g) (option_map lower (g_arch g)) (path_arg (g_kdir g))) h (accounted o m g).
Proof.
  intros F P. unfold prepare_saying. cbv zeta.
  match goal with |- post (mbind _ ?X) _ _ => set (C := X) end.
  assert (forall h, post (C []) h (accounted o m g)) as T.
  { clear h. intros h. unfold C. cbv beta iota. apply post_bind, post_ask. cbn [after]. rewrite compiler_name.
    destruct (mc_available m h (compiler g)) eqn:GC; cbn [negb].
    2: { apply post_refuse. eapply acc_lines; [apply (bc_gcc o m g h P GC)|]. unfold quoted, compiler, DQUOTE.
         f_equal. f_equal. now rewrite <- !app_assoc. }
    apply post_bind.
    assert (forall h, post (x <-- ask (fun h => kernel_new (option_map lower (g_arch g)) None
               match path_arg (g_kdir g) with Some _ => true | None => false end
               (fst (get_version None (Some (mc_make_version m h)) vstate0))) ;;
             instantiate o (silence g) x) h
             (fun h' r => match r with Ok _ => True | Raise e => True | Exit c => accounted o m g h' (Exit c) | Diverge => True end)) as K.
    { clear h GC. intros h. apply post_bind, post_ask. cbn [after]. apply post_instantiate; auto.
      - intros t E. destruct (path_arg (g_kdir g)) as [k|] eqn:PK.
        + eapply acc_lines; [|reflexivity]. eapply made_of; eauto. apply kdir_path in PK as (s & A & B & _). exists s. auto.
        + apply kernel_troubled in E as E'. unfold kernel_new in E. cbn in E. discriminate E.
      - intros e E. apply calm_kernel in E; [|intros y Y; exact (make_calm m h y F Y)]. now rewrite instantiate_calm.
      - intros c E. apply kernel_exit, make_exit in E. apply acc_exit. exact (gu_make m c h E). }
    assert (forall h (f : arch -> mio Z), (forall a h, post (f a) h (accounted o m g)) ->
      post (x <-- ask (fun h => kernel_new (option_map lower (g_arch g)) None
               match path_arg (g_kdir g) with Some _ => true | None => false end
               (fst (get_version None (Some (mc_make_version m h)) vstate0))) ;;
             a <-- instantiate o (silence g) x ;; f a) h (accounted o m g)) as K'.
    { clear h GC. intros h f Ff. specialize (K h). unfold post, mbind, ask in *.
      destruct (instantiate o (silence g) _ h) as [h' [a|e|c|]]; cbn [fst snd] in *; auto. }
    clear K.
    match goal with |- post _ _ (after (fun _ => mbind _ (fun x => mbind _ ?Y)) _) => set (D := Y) in * end.
    assert (forall a h, post (D a) h (accounted o m g)) as DD.
    { clear h GC. intros a h. unfold D. exec; auto with main.
      all: apply acc_exit.
      all: first [ match goal with E : mc_clean _ _ _ = Exit _ |- _ => eapply gu_clean, E end
                 | match goal with E : mc_configure _ _ _ = Exit _ |- _ => eapply gu_configure, E end
                 | match goal with E : mc_build _ _ _ _ = Exit _ |- _ => eapply gu_build, E end
                 | match goal with E : _ = Exit _ |- _ => apply str_now_exit in E; eapply gu_make, E end
                 | idtac ]. }
    clearbody D. destruct (g_config g || g_build g).
    - apply post_bind, post_try. destruct (mc_gcc_version m h (compiler g)) eqn:GV; cbn [after]; auto with main.
      + apply post_eprint'. intros l S. cbn [after]. now apply K'.
      + apply acc_exit. exact (gu_gcc m _ h _ GV).
    - apply post_ret. cbn [after]. now apply K'. }
  assert (forall x h, C [x] h = (h ++ told (silence g) [x], Ok 1)) as R by (intros; apply refuse_run).
  clearbody C. destruct (g_out g) as [[|c s]|] eqn:OUT; [apply post_bind, post_ret, T| |apply post_bind, post_ret, T].
  set (out := path_of_str (c :: s)) in *. assert (c :: s <> []) as NE by discriminate.
  apply post_bind, post_bind, post_ask. cbn [after].
  destruct (mc_exists m h out && negb (mc_is_dir m h out)) eqn:B.
  - apply post_ret. cbn [after]. unfold post. rewrite R. cbn [fst snd]. apply andb_true_iff in B as [B1 B2]. apply negb_true_iff in B2.
    eapply acc_lines; [exact (bc_out o m g h (c :: s) P OUT NE B1 B2)|]. unfold quoted, DQUOTE. f_equal. now rewrite <- !app_assoc.
  - apply post_bind, post_ask. cbn [after]. apply post_bind, post_act. cbn [after]. apply post_ret. cbn [after].
    destruct (mc_mkdir m h out) eqn:MK; [apply T|]. unfold post. rewrite R. cbn [fst snd].
    eapply acc_lines; [exact (bc_mkdir o m g _ (c :: s) h P OUT NE eq_refl MK)|]. unfold quoted, DQUOTE. f_equal. now rewrite <- !app_assoc.
Qed.

(** ** Analysing *)

Lemma format_exit sv tag source a scs fmt c : output_syscalls sv tag source a scs fmt = Exit c -> (forall d, tag <> Exit d) ->
  ~ In fmt [$"text"; $"json"; $"html"].
Proof.
  unfold output_syscalls. intros E T I.
  destruct (str_eqb fmt $"text") eqn:E1.
  { unfold output_syscalls_text in E. destruct scs; discriminate E. }
  destruct (str_eqb fmt $"json") eqn:E2.
  { unfold json_document in E. destruct tag as [t| |d|]; cbn [bind] in E; try discriminate. now destruct (T d). }
  destruct (str_eqb fmt $"html") eqn:E3.
  { unfold output_syscalls_html in E. assert (stays (max_args scs)) as M by (unfold max_args; stay).
    destruct (max_args scs) as [n| |d|]; cbn [bind] in E; try discriminate; [|now destruct (M d)].
    destruct tag as [t| |d|]; cbn [bind] in E; try discriminate. now destruct (T d). }
  cbn [In] in I. destruct I as [<-|[<-|[<-|[]]]]; [rewrite (proj2 (str_eqb_eq _ _) eq_refl) in E1|rewrite (proj2 (str_eqb_eq _ _) eq_refl) in E2
    |rewrite (proj2 (str_eqb_eq _ _) eq_refl) in E3]; discriminate.
Qed.
Lemma tag_stays v : stays (version_tag v).
Proof. unfold version_tag. stay. Qed.
Lemma analyse_accounted o m g h : frank m -> ~ preparing g -> ~ misuse g -> arch_fine g ->
  post (analyse_saying o m g (silence g) (option_map lower (g_arch g)) (path_arg (g_kdir g))) h (accounted o m g).
Proof.
  intros F P NM AF. unfold analyse_saying. fold (auto g).
  destruct (auto g && negb (given (g_vmlinux g))) eqn:G.
  { apply post_refuse. apply andb_true_iff in G as [G1 G2]. apply negb_true_iff in G2. apply auto_checkout in G1. apply given_false in G2.
    eapply acc_lines; [exact (bc_auto o m g h P G1 G2)|reflexivity]. }
  apply post_bind, post_ret.
  destruct (match path_arg (g_vmlinux g) with
       | Some v => Ok v
       | None => match path_arg (g_kdir g) with Some k => Ok (path_join k {| root := []; parts := [$"vmlinux"] |}) | None => Raise TypeError end
       end) as [vm|x|c|] eqn:V; cbn [after]; auto with main.
  2: { exfalso. destruct (path_arg (g_vmlinux g)); [discriminate|]. destruct (path_arg (g_kdir g)); discriminate. }
  assert (S_Main.image_of g vm) as IM.
  { apply image_image. unfold image. destruct (path_arg (g_vmlinux g)); [congruence|]. destruct (path_arg (g_kdir g)); congruence. }
  clear V. apply post_bind, post_ask. cbn [after]. destruct (mc_is_file m h vm) eqn:FI; cbn [negb].
  2: { apply post_refuse. eapply acc_lines; [exact (bc_image o m g h vm P IM FI)|]. unfold quoted, DQUOTE. f_equal. now rewrite <- !app_assoc. }
  apply post_bind, post_ask. cbn [after]. destruct (mc_available m h $"readelf") eqn:RE; cbn [negb].
  2: { apply post_refuse. eapply acc_lines; [exact (bc_readelf o m g h P RE)|]. unfold quoted, DQUOTE. f_equal. }
  apply post_bind, post_try.
  destruct (mc_elf m h vm) as [e|x|c|] eqn:EL; [|rewrite (instantiate_calm x (fk_elf m F h vm x EL))|..]; cbn [instantiate_kernel after]; auto with main.
  2: { apply acc_exit. exact (gu_elf m c h vm EL). }
  assert (opens m g h e) as OP by (split; [exact P|]; eauto).
  destruct (get_version _ None vstate0) as [r s] eqn:GV. cbv zeta.
  apply post_bind, post_instantiate; cbn [after]; auto with main.
  2: { intros t K. apply kernel_troubled in K. destruct (trouble_because o m g h e t s r OP GV AF K) as [f B]. exact (acc_because o m g h f _ _ B). }
  2: { intros x K. apply calm_kernel in K; [rewrite (instantiate_calm x K); cbn [after]; auto with main|].
       intros y Y. exact (image_calm e r s y GV Y). }
  2: { intros c K. apply kernel_exit in K. subst r. exfalso. cbn in GV.
       pose proof (stays_version e c) as N. destruct (version_from_vmlinux e) as [[w|]| | |]; inversion GV; congruence. }
  intros a K. apply post_bind, post_ret. destruct r as [v|x|c|]; cbn [after]; auto with main.
  2: { exfalso. pose proof (stays_version e c) as N. cbn in GV. destruct (version_from_vmlinux e) as [[w|]| | |]; inversion GV; congruence. }
  apply get_version_image in GV as [GV SO]. rewrite SO.
  apply post_bind, post_eprint'. intros l S. cbn [after]. apply post_bind.
  assert (forall h1, post (scs <-- try_ (fun h => mc_syscalls m h a e v) ;;
          match scs with
          | [] => ret (Ok 1)
          | _ => shown <-- ret (mapM (show_path (path_arg (g_kdir g)) (g_absolute g)) scs) ;;
                 _ <-- eprints (silence g) (summary (path_arg (g_kdir g)) scs) ;;
                 d <-- ret (output_syscalls (mc_version m) (version_tag v) $"vmlinux" (adjust_abi a e) shown (g_format g)) ;;
                 _ <-- act (Printed d) (fun _ => Ok tt) ;;
                 ret (Ok 0)
          end) h1 (accounted o m g)) as T.
  { intros h1. apply post_bind, post_try. destruct (mc_syscalls m h1 a e v) as [scs|x|c|] eqn:SC; cbn [after]; auto with main.
    2: { apply acc_exit. exact (gu_syscalls m c h1 a e v SC). }
    assert (scs = [] \/ scs <> []) as [->|N] by (destruct scs; [now left|right; discriminate]).
    - apply post_ret. rewrite <- (app_nil_r h1). rewrite <- (told_nil (silence g)).
      eapply acc_lines; [exact (bc_empty o m g h1 e v h a P OP GV SC)|reflexivity].
    - replace (match scs with [] => ret (Ok 1) | _ => _ end) with
        (shown <-- ret (mapM (show_path (path_arg (g_kdir g)) (g_absolute g)) scs) ;;
         _ <-- eprints (silence g) (summary (path_arg (g_kdir g)) scs) ;;
         d <-- ret (output_syscalls (mc_version m) (version_tag v) $"vmlinux" (adjust_abi a e) shown (g_format g)) ;;
         _ <-- act (Printed d) (fun _ => Ok tt) ;;
         ret (Ok 0)) by (destruct scs; [now destruct N|reflexivity]).
      apply post_bind, post_ret. destruct (show_paths_total (path_arg (g_kdir g)) (g_absolute g) scs) as [shown ->]. cbn [after].
      apply post_bind, post_eprints. cbn [after]. apply post_bind, post_ret.
      destruct (output_syscalls _ _ _ _ _ _) as [d|x|c|] eqn:OUT; cbn [after]; auto with main.
      + apply post_bind, post_act. cbn [after]. apply post_ret. auto with main.
      + right. exact (format_exit _ _ _ _ _ _ _ OUT (tag_stays v)). }
  destruct (auto g).
  - apply post_bind, post_ret. change (assert_ (str_eqb $"vmlinux" $"vmlinux")) with (Ok tt). cbn [after].
    apply post_bind, post_ret. destruct (version_tag v) as [tag|x|c|] eqn:TG; cbn [after]; auto with main.
    2: { now destruct (tag_stays v c). }
    apply post_bind, post_eprint'. intros l' S'. cbn [after]. apply post_act.
    destruct (mc_checkout m _ _) as [u|x|c|] eqn:CO; cbn [after]; [apply T|apply accounted_raise| |apply accounted_diverge].
    apply acc_exit. exact (gu_checkout m c _ _ CO).
  - apply post_ret. cbn [after]. apply T.
Qed.
Lemma main_accounted o m g : frank m -> post (main_saying o m g) [] (accounted o m g).
Proof.
  intros F. unfold main_saying, arch_messages. fold (silence g). cbv zeta.
  assert (arch_fine g -> post
      (if negb (given (g_kdir g)) && negb (given (g_vmlinux g))
      then refuse (silence g) [$"Need to specify a kernel source direcory and/or path to vmlinux"; $"See --help for more information"] 1
      else if negb (given (g_kdir g)) && (given (g_checkout g) || g_config g || g_build g)
      then refuse (silence g) [$"Need to specify a kernel source direcory (--kdir)"] 1
      else if negb (given (option_map lower (g_arch g))) && (g_config g || g_build g)
      then refuse (silence g) [$"Need to specify an architecture/ABI combination (--arch)"; $"See --arch HELP for a list"] 1
      else
        _ <-- match g_checkout g with
              | Some (c :: s) =>
                  if str_eqb (c :: s) $"auto" then ret (Ok tt)
                  else _ <-- eprint (silence g) ($"Checking out to " ++ c :: s) ;;
                       act (CheckedOut (path_arg (g_kdir g)) (c :: s)) (fun h => mc_checkout m h (c :: s))
              | _ => ret (Ok tt)
              end ;;
        if g_clean g || g_config g || g_build g then prepare_saying o m g (silence g) (option_map lower (g_arch g)) (path_arg (g_kdir g))
        else analyse_saying o m g (silence g) (option_map lower (g_arch g)) (path_arg (g_kdir g))) [] (accounted o m g)) as T.
  { intros AF. pose proof (misuse_dec g AF) as MD.
    assert (given (option_map lower (g_arch g)) = false -> g_arch g = None) as NA.
    { destruct (g_arch g) as [n|] eqn:E; [|reflexivity]. cbn [option_map]. intros X. exfalso.
      specialize (AF n E). apply known_lower in AF. destruct n as [|c n]; [discriminate AF|discriminate X]. }
    destruct (negb (given (g_kdir g)) && negb (given (g_vmlinux g))) eqn:C1.
    { apply andb_true_iff in C1 as [C1 C2]. apply negb_true_iff in C1, C2. apply given_false in C1, C2.
      apply post_refuse. exact (acc_because o m g [] _ _ _ (bc_nothing o m g [] C1 C2)). }
    destruct (negb (given (g_kdir g)) && (given (g_checkout g) || g_config g || g_build g)) eqn:C2.
    { apply andb_true_iff in C2 as [C2 C3]. rewrite C2 in C1. cbn [andb] in C1. apply negb_false_iff, given_iff in C1.
      apply negb_true_iff, given_false in C2. apply post_refuse. apply (acc_because o m g [] KdirMissing). apply bc_kdir; auto.
      apply orb_true_iff in C3 as [C3|C3]; [apply orb_true_iff in C3 as [C3|C3]|]; auto. left. now apply given_iff. }
    destruct (negb (given (option_map lower (g_arch g))) && (g_config g || g_build g)) eqn:C3.
    { apply andb_true_iff in C3 as [C3 C4]. apply negb_true_iff, NA in C3. apply post_refuse.
      apply (acc_because o m g [] ArchMissing). apply bc_noarch; [|exact C3|now apply orb_true_iff].
      apply given_iff. destruct (given (g_kdir g)); [reflexivity|]. cbn [negb andb] in C2.
      apply orb_true_iff in C4 as [C4|C4]; rewrite C4, ?orb_true_r in C2; cbn [orb] in C2; rewrite ?orb_true_r in C2; discriminate C2. }
    cbn [orb] in MD. assert (~ misuse g) as NM by (intros X; apply MD in X; discriminate X). clear MD C1 C2 C3 NA.
    assert (forall h, post (if g_clean g || g_config g || g_build g
        then prepare_saying o m g (silence g) (option_map lower (g_arch g)) (path_arg (g_kdir g))
        else analyse_saying o m g (silence g) (option_map lower (g_arch g)) (path_arg (g_kdir g))) h (accounted o m g)) as R.
    { intros h. destruct (g_clean g || g_config g || g_build g) eqn:P.
      - apply prepare_accounted; [exact F|]. unfold preparing. apply orb_true_iff in P. rewrite orb_true_iff in P. tauto.
      - apply analyse_accounted; auto. unfold preparing. apply orb_false_iff in P as [P C]. apply orb_false_iff in P as [P B].
        intros [X|[X|X]]; congruence. }
    apply post_bind. destruct (g_checkout g) as [[|c s]|] eqn:CO; [apply post_ret, R| |apply post_ret, R].
    destruct (str_eqb (c :: s) $"auto"); [apply post_ret, R|].
    apply post_bind, post_eprint'. intros l S. cbn [after]. apply post_act.
    destruct (mc_checkout m _ _) as [u|x|d|] eqn:MC; cbn [after]; [apply R|apply accounted_raise| |apply accounted_diverge].
    apply acc_exit. exact (gu_checkout m d _ _ MC). }
  destruct (g_arch g) as [n|] eqn:GA; cbn [option_map] in *.
  2: { apply T. intros n X. congruence. }
  destruct (dmem str_eqb (lower n) SUPPORTED_ARCHS) eqn:D.
  { apply T. intros n' X. assert (n = n') as <- by congruence. now apply known_lower. }
  destruct (str_eqb (lower n) $"help" || str_eqb (lower n) $"?") eqn:H; cbn [negb].
  - unfold post. cbn [fst snd]. apply accounted_0.
  - unfold post. cbn [fst snd app].
    replace (map Said (say (silence g) _)) with (told (silence g) [$"Unsupported architecture/ABI combination: " ++ lower n; $"See --arch HELP for a list"])
      by (unfold told, say; now destruct (silence g)).
    apply (acc_because o m g [] UnknownArch). apply (bc_arch o m g [] n GA).
    + intros X. apply known_lower in X. congruence.
    + intros X. apply help_lower in X. congruence.
Qed.
