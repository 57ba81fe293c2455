(** C113: the texts of the options are broken to 65 columns, and only where words may be broken. *)
From Coq Require Import List Bool Ascii String ZArith Lia.
From Verif Require Import PyBase PyFacts S_Elf M_Wrap S_Wrap L_Wrap L_Wrap2 L_Wrap3 L_Wrap4.
Import ListNotations.
Open Scope Z_scope.
Open Scope list_scope.

(** The lines are those of the rows that are not blank, each row broken by itself: see [laid_out]. *)
Theorem C113_lines : forall body, exists rs lss, rows body rs /\ Forall2 lines_for (filter not_blank rs) lss /\ Forall (fun ls => ls <> []) lss /\ wrap_help body = join [NL] (List.concat lss).
Proof. exact help_lines. Qed.
Print Assumptions C113_lines.
(** A line has at most 65 characters, or it has no blank where it could be broken. *)
Theorem C113_width : forall body, exists ls, wrap_help body = join [NL] ls /\
  Forall (fun l => len l <= columns \/ forall x c y, l = x ++ c :: y -> x <> [] -> ~ ascii_blank c) ls.
Proof. exact help_width. Qed.
Print Assumptions C113_width.
(** Nothing but blanks is left out or put in. *)
Theorem C113_kept : forall body, ink (wrap_help body) = ink body.
Proof. exact help_kept. Qed.
Print Assumptions C113_kept.
(** In a text without odd blanks, no line ends with a blank, and only the first line of a row may start with one. *)
Theorem C113_framed : forall body, (forall c, In c body -> is_space c = true -> is_ws c = true) ->
  exists rs lss, rows body rs /\ Forall2 lines_for (filter not_blank rs) lss /\ wrap_help body = join [NL] (List.concat lss) /\
    Forall (fun ls => Forall ends_inked ls /\ Forall starts_inked (tl ls)) lss.
Proof. exact help_framed. Qed.
Print Assumptions C113_framed.

(** The doc string says "without breaking words". That is false: a compound is broken at its hyphen. *)
Definition cut_text : str := repeat "x"%char 60 ++ $" out-of-tree".
Theorem C113_words_refuted : exists body, Forall (fun w => len w <= columns) (split_ws body) /\ split_ws (wrap_help body) <> split_ws body /\ In $"out-" (split_ws (wrap_help body)).
Proof.
  exists cut_text. split; [|split].
  - apply Forall_forall. intros w I. apply Z.leb_le. revert w I. apply forallb_forall. vm_compute. reflexivity.
  - intros H. vm_compute in H. discriminate H.
  - vm_compute. tauto.
Qed.
Print Assumptions C113_words_refuted.
(** The texts of this program: no line is longer than 65, and no word is broken. *)
Theorem C113_program : Forall (fun t => Forall (fun l => len l <= columns) (splitlines (wrap_help t)) /\ split_ws (wrap_help t) = split_ws t) help_texts.
Proof.
  apply Forall_forall. intros t I. assert (forallb (fun l => len l <=? columns) (splitlines (wrap_help t)) && (if list_eq_dec (list_eq_dec ascii_dec) (split_ws (wrap_help t)) (split_ws t) then true else false) = true) as H.
  { revert t I. apply forallb_forall. vm_compute. reflexivity. }
  apply andb_prop in H as [H1 H2]. split.
  - apply Forall_forall. intros l L. rewrite forallb_forall in H1. now apply Z.leb_le, H1.
  - destruct (list_eq_dec _ _ _) as [E|]; [exact E|discriminate].
Qed.
Print Assumptions C113_program.

(** * Examples *)
(** The text of "--remap": four lines *)
Example C113_remap : wrap_help (nth 10 help_texts []) =
  join [NL] [$"replace ORIG_KDIR with the KDIR provided with -k/--kdir for paths";
             $"obtained from ELF debug information; needed if the kernel was";
             $"built with ORIG_KDIR as source directory instead of KDIR, and";
             $"debug info contains absolute paths to ORIG_KDIR"].
Proof. vm_compute. reflexivity. Qed.
(** The text of "-q": each row by itself, with its indentation *)
Example C113_quiet : wrap_help (nth 13 help_texts []) = nth 13 help_texts [].
Proof. vm_compute. reflexivity. Qed.
(** Tabs, blank rows, trailing blanks and a dash *)
Example C113_odd : wrap_help ($"a" ++ [chr 9] ++ $"b   " ++ [NL; " "%char; NL; CR] ++ repeat "y"%char 70 ++ $" one--two") =
  join [NL] [$"a       b"; repeat "y"%char 70; $"one--two"].
Proof. vm_compute. reflexivity. Qed.
Example C113_dash : wrap_help (repeat "y"%char 60 ++ $" one--two") = join [NL] [repeat "y"%char 60 ++ $" one"; $"--two"].
Proof. vm_compute. reflexivity. Qed.
Example C113_cut : wrap_help cut_text = join [NL] [repeat "x"%char 60 ++ $" out-"; $"of-tree"].
Proof. vm_compute. reflexivity. Qed.
(** Not every choice of lines is allowed: one that ends early, one that is too long, one that breaks inside a word *)
Example C113_not_early : ~ laid_out [] $"a b" [$"a"; $"b"].
Proof.
  assert (forall s ls0, laid_out [] s ls0 -> s = $"a b" -> ls0 = [$"a"; $"b"] -> False) as K; [|intros H; now apply (K _ _ H)].
  intros s ls0 H. destruct H as [g Bg|g l r ls Bg Nl Kg W G L]; intros E1 E2; [discriminate|]. injection E2 as -> ->. rewrite app_nil_l in *.
  assert (g = [] /\ r = $" b") as [-> ->].
  { destruct g as [|x g]; [cbn in E1; injection E1 as E1; auto|]. cbn in E1. injection E1 as -> E1. vm_compute in Bg. discriminate Bg. }
  specialize (G $" b" [] eq_refl). assert (columns < len $"a" + len $" b") as X; [apply G; [intros B; vm_compute in B; discriminate B|now left]|]. vm_compute in X. discriminate X.
Qed.
Example C113_usual : forall c, In c (nth 13 help_texts []) -> is_space c = true -> is_ws c = true.
Proof.
  intros c I. assert (negb (is_space c) || is_ws c = true) as H by (revert c I; apply forallb_forall; vm_compute; reflexivity). destruct (is_space c), (is_ws c); cbn in H; congruence.
Qed.
