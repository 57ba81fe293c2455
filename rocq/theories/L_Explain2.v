(** Lemmas for C109: the reasons. *)
From Coq Require Import List Bool Ascii String ZArith Lia.
From Verif Require Import PyBase PyFacts M_Utils M_Elf M_Syscall M_Arch M_Config M_Kernel M_Output M_Main M_HelpText M_Help M_Explain
  S_Utils S_Output S_Arch S_Init S_Main S_Explain L_Utils L_Arch L_Output L_Main L_Main2 L_Init L_Explain.
Import ListNotations.
Open Scope Z_scope.
Open Scope list_scope.

(** ** Nothing else calls exit *)

Definition stays {A} (x : outcome A) : Prop := forall c, x <> Exit c.
Lemma stays_bind {A B} (x : outcome A) (f : A -> outcome B) : stays x -> (forall a, stays (f a)) -> stays (bind x f).
Proof. intros S F c. destruct x as [a| |d|]; cbn [bind]; [apply F|discriminate|intros [= ->]; exact (S c eq_refl)|discriminate]. Qed.
Lemma stays_Ok {A} (a : A) : stays (Ok a). Proof. intros c E. discriminate E. Qed.
Lemma stays_Raise {A} x : stays (@Raise A x). Proof. intros c E. discriminate E. Qed.
Lemma stays_Diverge {A} : stays (@Diverge A). Proof. intros c E. discriminate E. Qed.
Ltac stay :=
  repeat first
    [ apply stays_Ok | apply stays_Raise | apply stays_Diverge
    | apply stays_bind; [|intros ?]
    | match goal with
      | |- stays (if ?b then _ else _) => destruct b
      | |- stays (match ?x with _ => _ end) => destruct x
      | |- stays (let '(_, _) := ?x in _) => destruct x
      end ].
Lemma stays_assert b : stays (assert_ b).
Proof. unfold assert_. stay. Qed.
Ltac stay' := repeat first [apply stays_assert | progress stay].
Lemma stays_new k v abi b : stays (arch_new k v abi b).
Proof. unfold arch_new. destruct k; unfold arm_new, arm64_new, mips_new, ppc_new, riscv_new, x86_new; stay'. Qed.
Lemma stays_name n v : stays (arch_from_name n v).
Proof. unfold arch_from_name. destruct (dget _ _ _) as [[[k abi] b]|]; [apply stays_new|apply stays_Raise]. Qed.
Lemma stays_match k e : stays (arch_match k e).
Proof. unfold arch_match. destruct k; unfold arm_match, arm64_match, mips_match, ppc_match, riscv_match, x86_match; stay'. Qed.
Lemma stays_image e : stays (arch_from_vmlinux e).
Proof.
  unfold arch_from_vmlinux. generalize ARCH_CLASSES. intros ks. induction ks as [|k ks IH]; cbn [first_match]; [apply stays_Ok|].
  apply stays_bind; [apply stays_match|]. intros [[b abis]|]; [apply stays_Ok|exact IH].
Qed.
Lemma stays_matches a e : stays (arch_matches a e).
Proof. unfold arch_matches. destruct (a_class a); stay'. Qed.
Lemma stays_index {A} (l : list A) i : stays (index_ l i).
Proof. unfold index_. stay. Qed.
Lemma stays_off e v : stays (vaddr_to_file_offset e v).
Proof. unfold vaddr_to_file_offset. generalize (dvalues (e_sections e)). intros l. induction l; cbn [vaddr_to_off]; stay; assumption. Qed.
Lemma stays_version e : stays (version_from_vmlinux e).
Proof.
  unfold version_from_vmlinux. destruct (dget _ _ _); [|apply stays_Ok]. apply stays_bind; [|intros; apply stays_Ok].
  destruct (negb _); [unfold read_symbol, vaddr_read; apply stays_bind; [apply stays_off|intros; apply stays_Ok]|].
  unfold vaddr_read_string. apply stays_bind; [apply stays_off|]. intros off.
  generalize (@nil ascii). generalize (skipn (Z.to_nat off) (M_Elf.e_file e)). intros l. induction l as [|c l IH]; intros acc; cbn [read_to_nul]; stay. apply IH.
Qed.
Lemma stays_with gv (f : version -> outcome arch) : stays gv -> (forall v, stays (f v)) ->
  stays (match gv with
         | Ok v => a <- f v ;; Ok (inr a)
         | Raise KernelVersionError => Ok (@inl trouble arch NoVersion)
         | Raise x => Raise x
         | Exit c => Exit c
         | Diverge => Diverge
         end).
Proof. intros G F. destruct gv as [v|[]|c|]; stay. apply F. now destruct (G c). Qed.
Lemma stays_kernel an vm kd gv : stays gv -> stays (kernel_new an vm kd gv).
Proof.
  intros G. unfold kernel_new. destruct (negb kd && _); [apply stays_Raise|].
  destruct an as [n|], vm as [e|]; try (apply stays_Raise).
  - destruct (e_symbols e); [apply stays_Ok|]. apply stays_bind; [apply stays_with; [exact G|apply stays_name]|].
    intros [t|a]; [apply stays_Ok|]. apply stays_bind; [apply stays_matches|intros []; apply stays_Ok].
  - apply stays_with; [exact G|apply stays_name].
  - destruct (e_symbols e); [apply stays_Ok|]. apply stays_bind.
    + apply stays_bind; [apply stays_image|]. intros [[[k b] abis]|]; [|apply stays_Ok]. destruct (1 <? len abis); [apply stays_Ok|].
      apply stays_with; [exact G|]. intros v. apply stays_bind; [apply stays_index|intros; apply stays_new].
    + intros [t|a]; [apply stays_Ok|]. apply stays_bind; [apply stays_matches|intros []; apply stays_Ok].
Qed.

(** ** The reasons for which no object is made *)

Lemma kernel_exit gv an vm kd c : kernel_new an vm kd gv = Exit c -> gv = Exit c.
Proof.
  intros E. destruct gv as [v|x|d|] eqn:G.
  1, 2, 4: exfalso; refine (stays_kernel an vm kd _ _ c E); intros c0 X; discriminate X.
  f_equal. revert E. unfold kernel_new. destruct (negb kd && _); [discriminate|].
  destruct an as [n|], vm as [e|]; try discriminate.
  - destruct (e_symbols e); [discriminate|]. cbn [bind]. congruence.
  - congruence.
  - destruct (e_symbols e); [discriminate|].
    destruct (arch_from_vmlinux e) as [[[[k b] abis]|]|x|c0|] eqn:A; cbn [bind]; try discriminate.
    + destruct (1 <? len abis); cbn [bind]; [discriminate|congruence].
    + intros _. now destruct (stays_image e c0).
Qed.
Inductive troubled (an : option str) (vm : option elf) (gv : outcome version) : trouble -> Prop :=
| tr_version : gv = Raise KernelVersionError -> (forall e, vm = Some e -> e_symbols e <> []) -> troubled an vm gv NoVersion
| tr_symbols e : vm = Some e -> e_symbols e = [] -> troubled an vm gv NoSymbols
| tr_unknown e : vm = Some e -> e_symbols e <> [] -> an = None -> arch_from_vmlinux e = Ok None ->
    troubled an vm gv (BadArch $"Failed to detect kernel architecture/ABI")
| tr_many e k b abis : vm = Some e -> e_symbols e <> [] -> an = None -> arch_from_vmlinux e = Ok (Some (k, b, abis)) -> 1 < len abis ->
    troubled an vm gv (ManyABIs k abis)
| tr_other e n v a : vm = Some e -> e_symbols e <> [] -> an = Some n -> gv = Ok v -> arch_from_name n v = Ok a -> arch_matches a e = Ok false ->
    troubled an vm gv (BadArch ($"Architecture " ++ n ++ $" does not match provided vmlinux")).
Lemma with_version_trouble gv (f : version -> outcome arch) t :
  match gv with
  | Ok v => a <- f v ;; Ok (inr a)
  | Raise KernelVersionError => Ok (@inl trouble arch NoVersion)
  | Raise x => Raise x
  | Exit c => Exit c
  | Diverge => Diverge
  end = Ok (inl t) -> gv = Raise KernelVersionError /\ t = NoVersion.
Proof.
  destruct gv as [v|x|c|]; try discriminate.
  - destruct (f v); discriminate.
  - destruct x; try discriminate. intros E. split; [reflexivity|]. now inversion E.
Qed.
Lemma with_version_fine gv (f : version -> outcome arch) b :
  match gv with
  | Ok v => a <- f v ;; Ok (inr a)
  | Raise KernelVersionError => Ok (@inl trouble arch NoVersion)
  | Raise x => Raise x
  | Exit c => Exit c
  | Diverge => Diverge
  end = Ok (inr b) -> exists v, gv = Ok v /\ f v = Ok b.
Proof.
  destruct gv as [v|x|c|]; try discriminate.
  - destruct (f v) as [a| | |] eqn:E; try discriminate. cbn [bind]. intros [= <-]. eauto.
  - destruct x; discriminate.
Qed.
Lemma kernel_troubled an vm kd gv t : kernel_new an vm kd gv = Ok (inl t) -> troubled an vm gv t.
Proof.
  unfold kernel_new. destruct (negb kd && _); [discriminate|].
  destruct an as [n|], vm as [e|]; try discriminate.
  - destruct (e_symbols e) as [|s0 syms] eqn:SY; [intros [= <-]; now apply (tr_symbols _ _ _ e)|].
    assert (e_symbols e <> []) as N by (rewrite SY; discriminate).
    match goal with |- bind ?x _ = _ -> _ => destruct x as [[t'|a]| | |] eqn:W; cbn [bind]; try discriminate end.
    + intros [= <-]. apply with_version_trouble in W as [W ->]. apply tr_version; [exact W|]. now intros e' [= <-].
    + apply with_version_fine in W as (v & GV & A). destruct (arch_matches a e) as [[]| | |] eqn:M; cbn [bind]; try discriminate.
      intros E. assert (t = BadArch ($"Architecture " ++ n ++ $" does not match provided vmlinux")) as -> by (now inversion E).
      now apply (tr_other _ _ _ e n v a).
  - intros W. apply with_version_trouble in W as [W ->]. apply tr_version; [exact W|discriminate].
  - destruct (e_symbols e) as [|s0 syms] eqn:SY; [intros [= <-]; now apply (tr_symbols _ _ _ e)|].
    assert (e_symbols e <> []) as N by (rewrite SY; discriminate).
    destruct (arch_from_vmlinux e) as [[[[k b] abis]|]| | |] eqn:V; cbn [bind]; try discriminate.
    2: { intros E. assert (t = BadArch $"Failed to detect kernel architecture/ABI") as -> by (now inversion E). now apply (tr_unknown _ _ _ e). }
    destruct (1 <? len abis) eqn:L; cbn [bind].
    { intros [= <-]. apply (tr_many _ _ _ e k b abis); auto. lia. }
    match goal with |- bind ?x _ = _ -> _ => destruct x as [[t'|a]| | |] eqn:W; cbn [bind]; try discriminate end.
    + intros [= <-]. apply with_version_trouble in W as [W ->]. apply tr_version; [exact W|]. now intros e' [= <-].
    + apply with_version_fine in W as (v & GV & A). destruct (arch_matches a e) as [[]| | |] eqn:M; cbn [bind]; try discriminate. exfalso.
      destruct (index_ abis 0) as [abi| | |]; cbn [bind] in A; try discriminate.
      assert (k = KPowerPC -> e_big e = true) as B.
      { intros ->. destruct (e_big e) eqn:BE; [reflexivity|]. pose proof (detect_ppc_le e _ b abis abi v a V A eq_refl BE). congruence. }
      pose proof (detect_matches e k b abis abi v a V A B). congruence.
Qed.
