(** Lemmas for C109: the messages tell the reasons apart; a computer meets the hypothesis. *)
From Coq Require Import List Bool Ascii String ZArith Lia.
From Verif Require Import PyBase PyFacts M_Utils M_Elf M_Syscall M_Arch M_Config M_Kernel M_Output M_Main M_Command M_Program M_Explain
  S_Utils S_Output S_Arch S_Init S_Main S_Explain L_Utils L_Main L_Main2 L_Explain L_Explain3.
Import ListNotations.
Open Scope Z_scope.
Open Scope list_scope.

(** The kind, from the lines *)
Definition kind_told (lines : list str) : fault :=
  match lines with
  | [] => NothingFound
  | x :: rest =>
      if startswith x $"Unsup" then UnknownArch
      else if startswith x $"Need to specify a kernel source direcory and" then NothingGiven
      else if startswith x $"Need to specify a kernel source direcory (" then KdirMissing
      else if startswith x $"Need to specify an" then ArchMissing
      else if startswith x $"Output" then OutIsNoDirectory
      else if startswith x $"Failed to create" then OutNotMade
      else if startswith x $"Command" then match rest with [] => NoReadelf | _ => NoCompiler end
      else if startswith x $"Cannot" then AutoWithoutImage
      else if startswith x $"Unable to find" then ImageMissing
      else if startswith x $"Unable to determine" then VersionUnknown
      else if startswith x $"The provided" then Stripped
      else if startswith x $"Failed to detect" then MachineUnknown
      else if startswith x $"Detected" then SeveralABIs
      else OtherArch
  end.
Lemma because_kind o m g h f r lines : because o m g h f r lines -> kind_told lines = f.
Proof. intros B. destruct B; reflexivity. Qed.
Lemma because_silent o m g h f r : because o m g h f r [] -> f = NothingFound.
Proof. intros B. now apply because_kind in B. Qed.
Lemma because_fails o m g h f r lines : because o m g h f r lines ->
  r = (if match f with VersionUnknown | Stripped | MachineUnknown | SeveralABIs | OtherArch => true | _ => false end then Exit 1
       else Ok match f with NoCompiler | NoReadelf => 127 | _ => 1 end).
Proof. intros B. destruct B; reflexivity. Qed.

Lemma calm_command c h cmd cwd : calm (M_Program.capture c h cmd cwd).
Proof.
  unfold capture. destruct (waits c h cmd cwd); [apply calm_Diverge|].
  apply calm_bind; [|intros [s|]; calms].
  unfold M_Command.ensure_command. cbn [negb orb]. destruct (do_popen _ _ _) as [l r] eqn:P.
  assert (calm r) as R.
  { revert P. unfold do_popen. repeat match goal with |- context [match ?x with _ => _ end] => destruct x end; intros P; injection P as <- <-; calms. }
  destruct r as [[[[status out] err]|]|x| |]; cbn [snd]; try solve [calms].
  - destruct (negb (status =? 0)); cbn [snd]; calms.
  - intros y E. apply (R y). congruence.
Qed.
Lemma calm_open_elf c h p : calm (open_elf c h p).
Proof.
  unfold open_elf. destruct (content_of _) as [file|]; [|calms].
  assert (calm (elf_ident file)) as I by (unfold elf_ident, unpack_u; calms).
  apply calm_bind; [exact I|]. intros _. apply calm_bind; [apply calm_command|]. intros out_s. apply calm_bind; [apply calm_command|]. intros out_S.
  unfold elf_open. apply calm_bind; [exact I|]. intros [[[b e] m] f]. destruct (extract_symbols m out_s). apply calm_Ok.
Qed.
Lemma computer_frank c g : frank (M_Program.machine_of c g).
Proof.
  split; cbn [M_Program.machine_of mc_elf mc_make_version].
  - intros h p x. apply calm_open_elf.
  - intros h x. revert x. apply calm_bind; [apply calm_command|]. intros out x E. discriminate E.
Qed.
