(** Names that make the regexps of M_Pattern.v fail (C102). *)
From Coq Require Import List Bool Ascii String ZArith Lia.
From Verif Require Import PyBase PyFacts Regex M_Utils M_Elf M_Syscall M_Arch M_Location M_Config M_Search M_Pattern S_Pattern L_Pattern.
Import ListNotations.
Open Scope Z_scope.
Open Scope list_scope.

(** ** Names that are errors *)

Lemma read_error b ml t : read_all b ml t Error = Error.
Proof. induction t as [|c t IH]; [reflexivity|exact IH]. Qed.
(** Stops within the name, whatever follows. *)
Lemma stops b ml pre x t post n alts seq : dotted x ->
  read_all b ml pre (More reader0) = More (Reader Normal n [] (Frame None alts seq)) ->
  (exists y, t = ")"%char :: y) \/ (exists c y, In c $"*+?" /\ t = "|"%char :: c :: y) ->
  compile b ml (pre ++ (x ++ t) ++ post) = RegexpError.
Proof.
  intros X H T. unfold compile. rewrite <- app_assoc, (read_then _ _ _ _ _ _ _ _ _ _ X H).
  destruct T as [(y & ->)|(c & y & C & ->)]; cbn [app read_all read_char r_mode read_normal Ascii.eqb Bool.eqb r_stack r_top].
  - now rewrite read_error.
  - assert (read_normal ml c (Reader Normal n [] (Frame None (alternative (Frame None alts (named x seq)) :: alts) [])) = Error) as E.
    { vm_compute in C. repeat destruct C as [<-|C]; try contradiction; reflexivity. }
    cbn [f_alts f_group r_next]. rewrite E, read_error. reflexivity.
Qed.
Lemma good_broken a text name : compile false false (style_text a name) = RegexpError -> good_definition_text a text name = None.
Proof. intros H. unfold good_definition_text, match_text at 1, run at 1. rewrite H. reflexivity. Qed.
(** A group that is opened and never closed. *)
Lemma read_open b ml x y n st g alts seq : dotted x -> dotted y ->
  read_all b ml ("("%char :: y) (read_all b ml x (More (Reader Normal n st (Frame g alts seq)))) =
  More (Reader Normal (S n) (Frame g alts (named x seq) :: st) (Frame (Some n) [] (named y []))).
Proof.
  intros X Y. rewrite (read_dotted _ _ _ X). cbn [read_all read_char r_mode]. 
  change (read_normal ml "(" (Reader Normal n st (Frame g alts (named x seq)))) with (More (Reader Normal (S n) (Frame g alts (named x seq) :: st) (Frame (Some n) [] []))).
  now apply read_dotted.
Qed.
Definition keeps (b ml : bool) (t : str) : Prop := forall n st g alts seq, exists n' alts' seq',
  read_all b ml t (More (Reader Normal n st (Frame g alts seq))) = More (Reader Normal n' st (Frame g alts' seq')).
Lemma keeps_mid : keeps false false $"\b|^asmlinkage\s*(unsigned\s+)?\w+\s*sys(32)?_".
Proof. intros n st g alts seq. eexists _, _, _. reading. reflexivity. Qed.
Lemma keeps_paren : keeps false false $"\(".
Proof. intros n st g alts seq. eexists _, _, _. reading. reflexivity. Qed.
Lemma keeps_set : keeps false false $"[,)]".
Proof. intros n st g alts seq. eexists _, _, _. reading. reflexivity. Qed.

Lemma style_broken a name : broken name -> compile false false (style_text a name) = RegexpError.
Proof.
  intros B. rewrite style_shape. destruct B as [x y X ->|x y X Y ->|x c y X C ->].
  - destruct (a_compat a); (eapply stops; [exact X|reading; reflexivity|left; eauto]).
  - unfold compile. rewrite !read_app.
    match goal with |- context[read_all false false ?p (More reader0)] =>
      assert (exists n alts seq, read_all false false p (More reader0) = More (Reader Normal n [] (Frame None alts seq))) as (n & alts & seq & E)
        by (destruct (a_compat a); eexists _, _, _; reading; reflexivity)
    end.
    rewrite E, (read_open _ _ _ _ _ _ _ _ _ X Y).
    destruct (keeps_mid (S n) [Frame None alts (named x seq)] (Some n) [] (named y [])) as (n1 & alts1 & seq1 & E1).
    rewrite E1, (read_open _ _ _ _ _ _ _ _ _ X Y).
    edestruct keeps_paren as (n2 & alts2 & seq2 & E2). rewrite E2. reflexivity.
  - destruct (a_compat a); (eapply stops; [exact X|reading; reflexivity|right; eauto]).
Qed.
Lemma grep_broken a name : broken name -> compile false false (grep_text a name) = RegexpError.
Proof.
  intros B. unfold grep_text. rewrite app_assoc.
  assert (exists n alts seq, read_all false false ($":" ++ base_text a) (More reader0) = More (Reader Normal n [] (Frame None alts seq))) as (n & alts & seq & R).
  { unfold base_text. destruct (a_compat a), (a_bits32 a); eexists _, _, _; cbn [app list_ascii_of_string]; reading; reflexivity. }
  revert R. generalize ($":" ++ base_text a) as pre. intros pre R.
  destruct B as [x y X ->|x y X Y ->|x c y X C ->].
  - eapply stops; [exact X|exact R|left; eauto].
  - unfold compile. rewrite read_app, R, !read_app, (read_open _ _ _ _ _ _ _ _ _ X Y).
    destruct (keeps_set (S n) [Frame None alts (named x seq)] (Some n) [] (named y [])) as (n2 & alts2 & seq2 & E2). rewrite E2. reflexivity.
  - eapply stops; [exact X|exact R|right; eauto].
Qed.
Lemma broken_errors a name : broken name ->
  compile false false (style_text a name) = RegexpError /\ compile false false (grep_text a name) = RegexpError /\
  forall text, good_definition_text a text name = None.
Proof.
  intros B. split; [now apply style_broken|]. split; [now apply grep_broken|]. intros text. apply good_broken. now apply style_broken.
Qed.
