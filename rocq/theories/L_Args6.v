(** Lemmas about the command line (C100): the loop of argparse. *)
From Coq Require Import List Bool Ascii String ZArith Lia.
From Verif Require Import PyBase PyFacts M_Main M_Args S_Elf S_Signature S_Args L_Args L_Args2 L_Args3 L_Args4 L_Args5.
Import ListNotations.
Open Scope Z_scope.
Open Scope list_scope.

(** * Turns of the loop *)
Lemma loop_done fuel p g ex l : existsb is_option l = false -> consume_loop fuel p g ex l = inr (p, g, ex, l).
Proof. intros H. destruct fuel; cbn [consume_loop]; [reflexivity|]. now rewrite H. Qed.
Lemma loop_option fuel p g ex w t lw : consume_loop (S fuel) p g ex ((w, MOpt t) :: lw) =
  (x <~ consume_optional w t lw ;; let '(acts, e, rest) := x in g2 <~ take_actions acts g ;; consume_loop fuel p g2 (ex ++ e) rest).
Proof.
  cbn [consume_loop existsb is_option snd orb negb to_option rbind]. rewrite Nat.ltb_irrefl. cbn [map]. rewrite app_nil_r. reflexivity.
Qed.
Lemma skip_nil l : existsb is_option l = true -> (forall x l', l = (x, MDashes) :: l' -> existsb is_option l' = false) -> skip_dashes l = O.
Proof.
  intros E D. destruct l as [|(w & []) l]; try reflexivity. cbn in E. rewrite (D w l eq_refl) in E. discriminate.
Qed.
Lemma loop_word fuel g ex w lr : existsb is_option lr = true -> skip_dashes lr = O -> w <> $"--" ->
  consume_loop (S fuel) true g ex ((w, MArg) :: lr) = consume_loop fuel false (set_vmlinux (Some w) g) ex lr.
Proof.
  intros E S N. cbn [consume_loop existsb is_option snd orb to_option]. rewrite E. cbn [negb]. destruct (to_option lr) as (a & b).
  unfold consume_positionals, match_positional. cbn [skip_dashes skipn]. rewrite S. cbn [plus firstn map fst remove_dashes skipn].
  destruct (str_eqb w $"--") eqn:X; [now apply str_eqb_eq in X|]. cbn [rbind List.length].
  assert ((List.length lr <? Datatypes.S (List.length lr))%nat = true) as -> by (apply Nat.ltb_lt; lia). reflexivity.
Qed.
Lemma loop_extra fuel g ex w lr : existsb is_option lr = true ->
  consume_loop (S fuel) false g ex ((w, MArg) :: lr) = consume_loop (S fuel) false g (ex ++ [w]) lr.
Proof.
  intros E. cbn [consume_loop existsb is_option snd orb to_option]. rewrite E. cbn [negb]. destruct (to_option lr) as (a & b).
  cbn [consume_positionals rbind]. rewrite Nat.ltb_irrefl. assert ((match a with [] => inr (g, lr) | _ :: _ => inr (g, lr) end : result (args * list word)) = inr (g, lr)) as -> by now destruct a.
  cbn [rbind]. rewrite Nat.ltb_irrefl. cbn [map fst]. rewrite <- app_assoc. cbn [app]. destruct a; reflexivity.
Qed.
Definition close (x : bool * args * list str * list word) : result args :=
  let '(pending, g, extras, rest) := x in
  p <~ consume_positionals pending g rest ;;
  let '(g', rest') := p in
  match extras ++ map fst rest' with [] => inr g' | _ => inl SError end.
Lemma parse_close argv : parse_args argv = (l <~ classify argv ;; x <~ consume_loop (List.length l) true namespace0 [] l ;; close x).
Proof. reflexivity. Qed.

(** * The end of the line *)
Lemma skip_all ws : skip_dashes (all_args ws) = O.
Proof. now destruct ws. Qed.
Lemma close_taken g ex l : close (false, g, ex, l) = match ex ++ map fst l with [] => inr g | _ => inl SError end.
Proof. reflexivity. Qed.
Lemma close_nil g ex : close (true, g, ex, []) = match ex with [] => inr (set_vmlinux None g) | _ => inl SError end.
Proof. cbn. rewrite app_nil_r. now destruct ex. Qed.
Lemma close_dashes g ex ws : close (true, g, ex, ($"--", MDashes) :: all_args ws) =
  match ws with
  | [] => match ex with [] => inr (set_vmlinux None g) | _ => inl SError end
  | [w] => match ex with [] => inr (set_vmlinux (Some w) g) | _ => inl SError end
  | _ => inl SError
  end.
Proof.
  unfold close, consume_positionals, match_positional. cbn [skip_dashes]. rewrite skip_all. cbn [skipn]. destruct ws as [|w [|w' ws]]; cbn [all_args map skip_dashes plus firstn skipn fst remove_dashes].
  - change (str_eqb $"--" $"--") with true. cbn [rbind map]. rewrite app_nil_r. now destruct ex.
  - change (str_eqb $"--" $"--") with true. cbn [rbind map]. rewrite app_nil_r. now destruct ex.
  - change (str_eqb $"--" $"--") with true. cbn [rbind map fst]. now destruct ex.
Qed.
Lemma close_word g ex w l : w <> $"--" -> close (true, g, ex, (w, MArg) :: l) =
  match l with
  | [] => match ex with [] => inr (set_vmlinux (Some w) g) | _ => inl SError end
  | (x, MDashes) :: l' => if str_eqb x $"--" then close (false, set_vmlinux (Some w) g, ex, skipn (S (skip_dashes l')) l) else close (true, g, ex, (w, MArg) :: l)
  | _ => inl SError
  end \/ exists x l', l = (x, MDashes) :: l' /\ skip_dashes l' <> O.
Proof.
  intros N. assert (str_eqb w $"--" = false) as E by (destruct (str_eqb w $"--") eqn:X; [now apply str_eqb_eq in X|reflexivity]).
  destruct l as [|(x & m) l].
  - left. unfold close, consume_positionals, match_positional. cbn [skip_dashes skipn plus firstn map fst remove_dashes]. rewrite E. cbn [rbind map]. rewrite app_nil_r. now destruct ex.
  - destruct m as [t| |].
    + left. unfold close, consume_positionals, match_positional. cbn [skip_dashes skipn plus firstn map fst remove_dashes]. rewrite E. cbn [rbind map fst]. now destruct ex.
    + left. unfold close, consume_positionals, match_positional. cbn [skip_dashes skipn plus firstn map fst remove_dashes]. rewrite E. cbn [rbind map fst]. now destruct ex.
    + destruct (skip_dashes l) as [|n] eqn:S; [|right; exists x, l; split; [reflexivity|congruence]]. left. destruct (str_eqb x $"--") eqn:Ex; [|reflexivity].
      unfold close, consume_positionals, match_positional. cbn [skip_dashes skipn plus]. rewrite S. cbn [skip_dashes skipn plus firstn map fst remove_dashes]. rewrite E, Ex. reflexivity.
Qed.
Lemma close_word_end g ex w : w <> $"--" -> close (true, g, ex, [(w, MArg)]) = match ex with [] => inr (set_vmlinux (Some w) g) | _ => inl SError end.
Proof. intros N. destruct (close_word g ex w [] N) as [H|(x & l' & H & _)]; [exact H|discriminate]. Qed.
Lemma close_word_dashes g ex w ws : w <> $"--" -> close (true, g, ex, (w, MArg) :: ($"--", MDashes) :: all_args ws) =
  match ex ++ ws with [] => inr (set_vmlinux (Some w) g) | _ => inl SError end.
Proof.
  intros N. destruct (close_word g ex w (($"--", MDashes) :: all_args ws) N) as [H|(x & l' & H & S)].
  - rewrite H. change (str_eqb $"--" $"--") with true. cbv iota. rewrite close_taken, skip_all. cbn [skipn]. unfold all_args. rewrite map_map. cbn [fst]. now rewrite map_id.
  - injection H as _ <-. now rewrite skip_all in S.
Qed.
Lemma close_word_more g ex w x l m : w <> $"--" -> m <> MDashes -> close (true, g, ex, (w, MArg) :: (x, m) :: l) = inl SError.
Proof. intros N M. destruct (close_word g ex w ((x, m) :: l) N) as [H|(y & l' & H & S)]; [rewrite H; now destruct m|]. injection H as _ H _. congruence. Qed.

Lemma set_run w evs g : run evs (set_vmlinux w g) = set_vmlinux w (run evs g).
Proof.
  revert g. induction evs as [|x evs IH]; intros g; [reflexivity|]. cbn [run fold_left]. change (fold_left run1 evs (run1 (set_vmlinux w g) x)) with (run evs (run1 (set_vmlinux w g) x)).
  assert (run1 (set_vmlinux w g) x = set_vmlinux w (run1 g x)) as ->; [|apply IH]. destruct g. unfold run1. destruct x as [o|o v]; cbn [act1 set_vmlinux]; destruct o; cbn [take_action]; try reflexivity; destruct (existsb _ _); reflexivity.
Qed.
Lemma set_set v w g : set_vmlinux v (set_vmlinux w g) = set_vmlinux v g.
Proof. now destruct g. Qed.
Definition gline (p : bool) (ws : list str) (evs : list event) (w : option str) : Prop := if p then line ws evs w else options ws evs.
Lemma close_sound ws l p g ex : classify ws = inr l -> existsb is_option l = false ->
  match close (p, g, ex, l) with
  | inr g' => ex = [] /\ exists w, gline p ws [] w /\ g' = if p then set_vmlinux w g else g
  | inl s => s = SError
  end.
Proof.
  intros C E. destruct p; [|rewrite close_taken; destruct ex as [|x ex]; [|reflexivity]; destruct l as [|(x & m) l]; [|reflexivity]; split; [reflexivity|]; exists None; split; [|reflexivity]].
  2:{ destruct ws as [|w ws]; [constructor|]. exfalso. destruct (list_eq_dec ascii_dec w $"--") as [->|N]; [rewrite classify_dashes in C; discriminate|]. apply classify_inv in C as (t & lr & _ & _ & X); [discriminate|exact N]. }
  destruct ws as [|w ws].
  - injection C as <-. rewrite close_nil. destruct ex; [|reflexivity]. split; [reflexivity|]. exists None. split; [apply line_options; constructor|reflexivity].
  - destruct (list_eq_dec ascii_dec w $"--") as [->|N].
    + rewrite classify_dashes in C. injection C as <-. rewrite close_dashes. destruct ws as [|w [|w' ws]]; [| |reflexivity]; (destruct ex; [|reflexivity]); (split; [reflexivity|]).
      * exists None. split; [|reflexivity]. apply (line_dashes [] []). constructor.
      * exists (Some w). split; [|reflexivity]. apply (line_dashes_word [] []). constructor.
    + apply classify_inv in C as (t & lr & P & C & ->); [|exact N]. destruct t as [t|]; [discriminate E|]. cbn in E.
      assert (argument w) as A by (pose proof (po_kind w N) as K; rewrite P in K; now inversion K).
      destruct ws as [|w2 ws].
      * injection C as <-. rewrite close_word_end by exact N. destruct ex; [|reflexivity]. split; [reflexivity|]. exists (Some w). split; [|reflexivity].
        apply (line_word [] [] w [] []); [constructor|exact A|constructor].
      * destruct (list_eq_dec ascii_dec w2 $"--") as [->|N2].
        -- rewrite classify_dashes in C. injection C as <-. rewrite close_word_dashes by exact N. destruct ex; [|reflexivity]. destruct ws; [|reflexivity]. split; [reflexivity|].
           exists (Some w). split; [|reflexivity]. apply (line_word_dashes [] []); [constructor|exact A].
        -- apply classify_inv in C as (t & lr' & _ & _ & ->); [|exact N2]. rewrite close_word_more; [reflexivity|exact N|]. destruct t; discriminate.
Qed.
