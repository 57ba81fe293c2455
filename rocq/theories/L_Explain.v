(** Lemmas for C109: what main says when it fails, beside what M_Main.v models. *)
From Coq Require Import List Bool Ascii String ZArith Lia.
From Verif Require Import PyBase PyFacts M_Utils M_Elf M_Syscall M_Arch M_Config M_Kernel M_Output M_Main M_HelpText M_Help M_Explain
  S_Utils S_Output S_Arch S_Init S_Main S_Explain L_Utils L_Arch L_Output L_Main L_Main2.
Import ListNotations.
Open Scope Z_scope.
Open Scope list_scope.

(** ** The same run, apart from messages at the end *)

Lemma eprints_run silent l h : eprints silent l h = (h ++ told silent l, Ok tt).
Proof.
  pose proof (post_eprints silent l h (fun h' r => h' = h ++ told silent l /\ r = Ok tt) (conj eq_refl eq_refl)) as [A B].
  destruct (eprints silent l h) as [h' r]. cbn [fst snd] in *. congruence.
Qed.
Lemma refuse_run silent l c h : refuse silent l c h = (h ++ told silent l, Ok c).
Proof. unfold refuse, mbind. now rewrite eprints_run. Qed.
Lemma told_nil silent : told silent [] = [].
Proof. now destruct silent. Qed.

Definition sames {A} (silent : bool) (x y : mio A) : Prop :=
  forall h, exists lines, x h = (fst (y h) ++ told silent lines, snd (y h)).
Definition quits {A} (silent : bool) (x y : mio A) : Prop :=
  forall h, x h = y h \/ exists lines r, (forall a, r <> Ok a) /\ snd (y h) = r /\ x h = (fst (y h) ++ told silent lines, r).
Lemma sames_refl {A} silent (x : mio A) : sames silent x x.
Proof. intros h. exists []. rewrite told_nil, app_nil_r. now destruct (x h). Qed.
Lemma sames_refuse silent l c : sames silent (refuse silent l c) (ret (Ok c)).
Proof. intros h. exists l. now rewrite refuse_run. Qed.
Lemma sames_bind {A B} silent (x : mio A) (f f' : A -> mio B) : (forall a, sames silent (f a) (f' a)) -> sames silent (mbind x f) (mbind x f').
Proof.
  intros S h. unfold mbind. destruct (x h) as [h' [a|e|c|]]; [apply S|..]; exists []; cbn [fst snd]; now rewrite told_nil, app_nil_r.
Qed.
Lemma sames_quits {A B} silent (x y : mio A) (f f' : A -> mio B) : quits silent x y -> (forall a, sames silent (f a) (f' a)) ->
  sames silent (mbind x f) (mbind y f').
Proof.
  intros Q S h. unfold mbind. destruct (Q h) as [->|(lines & r & N & E & ->)].
  - destruct (y h) as [h' [a|e|c|]]; [apply S|..]; exists []; cbn [fst snd]; now rewrite told_nil, app_nil_r.
  - exists lines. destruct (y h) as [h' r']. cbn [fst snd] in *. subst r'. destruct r as [a| | |]; [now destruct (N a)|reflexivity..].
Qed.

Lemma sames_ask {A B C} silent (f : list action -> A) (i : A -> mio B) (g : list action -> outcome B) (F G : B -> mio C) :
  (forall h, quits silent (i (f h)) (ret (g h))) -> (forall a, sames silent (F a) (G a)) ->
  sames silent (mbind (ask f) (fun x => mbind (i x) F)) (mbind (try_ g) G).
Proof. intros Q S h. exact (sames_quits silent _ _ F G (Q h) S h). Qed.

Lemma kernel_new_init an vm kd gv : kernel_init an vm kd gv =
  match kernel_new an vm kd gv with
  | Ok (inr a) => Ok a
  | Ok (inl t) => Raise (error_of t)
  | Raise x => Raise x
  | Exit c => Exit c
  | Diverge => Diverge
  end.
Proof.
  unfold kernel_init, kernel_new. destruct (negb kd && _); [reflexivity|].
  destruct an as [n|], vm as [e|]; try reflexivity; cbn [bind].
  - destruct (e_symbols e) as [|p l]; [reflexivity|]. cbn [bind].
    destruct gv as [v|x|c|]; cbn [bind]; [|now destruct x|reflexivity..].
    destruct (arch_from_name n v) as [a|y|c|]; cbn [bind]; try reflexivity.
    destruct (arch_matches a e) as [[]|y|c|]; reflexivity.
  - destruct gv as [v|x|c|]; cbn [bind]; [|now destruct x|reflexivity..].
    destruct (arch_from_name n v) as [a|y|c|]; reflexivity.
  - destruct (e_symbols e) as [|p l]; [reflexivity|]. cbn [bind].
    destruct (arch_from_vmlinux e) as [[[[k b] abis]|]|x|c|]; cbn [bind]; try reflexivity.
    destruct (1 <? len abis); [reflexivity|].
    destruct gv as [v|x|c|]; cbn [bind]; [|now destruct x|reflexivity..].
    destruct (index_ abis 0) as [abi|y|c|]; cbn [bind]; try reflexivity.
    destruct (arch_new k v abi b) as [a|y|c|]; cbn [bind]; try reflexivity.
    destruct (arch_matches a e) as [[]|y|c|]; reflexivity.
Qed.
Lemma instantiate_quits o silent an vm kd gv :
  quits silent (instantiate o silent (kernel_new an vm kd gv)) (ret (instantiate_kernel (kernel_init an vm kd gv))).
Proof.
  intros h. rewrite kernel_new_init. destruct (kernel_new an vm kd gv) as [[t|a]|x|c|]; try (left; reflexivity).
  right. exists (trouble_lines (vo_argv0 o) t), (Exit 1). split; [discriminate|]. split; [now destruct t|].
  unfold instantiate, mbind. now rewrite eprints_run.
Qed.

Lemma prepare_same o m g silent an kdir : sames silent (prepare_saying o m g silent an kdir) (prepare m g silent an kdir).
Proof.
  unfold prepare_saying, prepare. cbv zeta.
  match goal with |- sames _ (mbind _ ?X) (mbind _ ?Y) => set (P := X); set (Q := Y) end.
  assert (sames silent (P []) (Q true)) as T.
  { unfold P, Q. cbn [negb]. apply sames_bind. intros gcc. destruct (negb gcc); [apply sames_refuse|].
    apply sames_bind. intros _. apply sames_ask; [|intros a; apply sames_refl]. intros h. apply instantiate_quits. }
  assert (forall x l, sames silent (P (x :: l)) (Q false)) as F by (intros; apply sames_refuse).
  clearbody P Q. destruct (g_out g) as [[|c s]|]; cbn [path_arg].
  1, 3: intros h; exact (T h).
  intros h. unfold ask, act, ret, mbind. set (out := path_of_str (c :: s)).
  destruct (mc_exists m h out && negb (mc_is_dir m h out)); [apply F|].
  destruct (mc_mkdir m h out); [apply T|apply F].
Qed.
Lemma analyse_same o m g silent an kdir : sames silent (analyse_saying o m g silent an kdir) (analyse m g silent an kdir).
Proof.
  unfold analyse_saying, analyse. cbv zeta. destruct (_ && negb (given (g_vmlinux g))); [apply sames_refuse|].
  apply sames_bind. intros vm. apply sames_bind. intros there. destruct (negb there); [apply sames_refuse|].
  apply sames_bind. intros re. destruct (negb re); [apply sames_refuse|]. apply sames_bind. intros e.
  destruct (get_version _ None vstate0) as [r s]. apply sames_quits; [apply instantiate_quits|]. intros a. apply sames_refl.
Qed.
Lemma main_same o m g : sames (silence g) (main_saying o m g) (main m g).
Proof.
  unfold main_saying, main, arch_messages, check_arch. fold (silence g). cbv zeta.
  destruct (g_arch g) as [n|]; cbn [option_map].
  1: destruct (dmem str_eqb (lower n) SUPPORTED_ARCHS).
  2: { destruct (str_eqb (lower n) $"help" || str_eqb (lower n) $"?"); cbn [negb]; intros h; eexists; cbn [ret fst snd];
       unfold say, told; destruct (silence g); reflexivity. }
  all: repeat match goal with |- sames _ (if ?b then _ else _) (if ?b then _ else _) => destruct b end; try apply sames_refuse.
  all: apply sames_bind; intros _; destruct (_ || g_build g); [apply prepare_same|apply analyse_same].
Qed.
