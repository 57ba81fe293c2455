(** Lemmas: every result of an extraction can be printed (C89). *)
From Coq Require Import List Bool Ascii String ZArith Lia Permutation.
From Verif Require Import PyBase PyFacts M_Utils M_Elf M_Syscall M_Arch M_Emu M_Kernel M_Kconfig M_KconfigTables M_Signature M_Location M_Annotate M_Output
  S_Utils S_Output S_Arch S_Kernel S_Config L_Utils L_Arch2 L_Emu L_Kernel5 L_Kernel8 L_Config L_Config3 L_Output L_Location7.
Import ListNotations.
Open Scope Z_scope.
Open Scope list_scope.

(** * Paths *)
Lemma split_char_parts c s : Forall (fun p => ~ In c p) (split_char c s).
Proof.
  induction s as [|x s IH]; cbn [split_char]; [constructor; [intros []|constructor]|].
  destruct (Ascii.eqb x c) eqn:E; [constructor; [intros []|exact IH]|].
  destruct (split_char c s) as [|w ws]; [constructor; [|constructor]|inversion IH as [|? ? Hw Hs]; subst; constructor; [|exact Hs]].
  - intros [->|[]]. now rewrite Ascii.eqb_refl in E.
  - intros [->|H]; [now rewrite Ascii.eqb_refl in E|now apply Hw].
Qed.
Lemma good_of_str s : good_path (path_of_str s).
Proof.
  split; cbn [path_of_str root parts].
  - unfold path_root. destruct (startswith s $"///"); [auto|]. destruct (startswith s $"//"); [auto|]. destruct (startswith s $"/"); auto.
  - apply Forall_forall. intros p I. apply filter_In in I as (I & N). pose proof (proj1 (Forall_forall _ _) (split_char_parts "/"%char s) p I) as S.
    apply negb_true_iff, orb_false_iff in N as (N1 & N2). apply str_eqb_neq in N1, N2. repeat split; assumption.
Qed.
Lemma good_join p q : good_path p -> good_path q -> good_path (path_join p q).
Proof.
  intros (R & P) (R' & P'). unfold path_join. destruct (root q) eqn:E; split; cbn [root parts]; try assumption; [now apply Forall_app|].
  now rewrite E.
Qed.
Lemma Forall_skip {A} (P : A -> Prop) n l : Forall P l -> Forall P (skipn n l).
Proof. revert l. induction n as [|n IH]; intros l H; [exact H|]. destruct H; [constructor|]. now apply IH. Qed.
Lemma good_relative p r q : good_path p -> relative_to p r = Ok q -> good_path q.
Proof.
  intros (_ & P). unfold relative_to. destruct (is_relative_to p r); [|discriminate]. intros H. injection H as <-.
  split; [now left|]. now apply Forall_skip.
Qed.
Lemma good_str p : good_path p -> str_of_path p <> [].
Proof.
  intros (R & P). unfold str_of_path. destruct (root p) as [|c r]; [|discriminate]. destruct (parts p) as [|x l] eqn:E; [discriminate|].
  cbn [app]. apply join_ne; [exact P|discriminate].
Qed.

(** * Locations *)
Lemma int_dec_nonneg s : 0 <= int_dec s.
Proof.
  unfold int_dec, int_of_digits. assert (forall acc, 0 <= acc -> 0 <= fold_left (fun acc c => acc * 10 + digit_val c) s acc) as H; [|now apply H].
  induction s as [|c s IH]; intros acc A; cbn [fold_left]; [exact A|]. apply IH.
  assert (0 <= digit_val c); [|lia]. unfold digit_val, in_range. cbv zeta. pose proof (code_range c).
  destruct (_ && _) eqn:E1; [lia|]. destruct ((65 <=? _) && _) eqn:E2; [lia|]. destruct ((97 <=? _) && _) eqn:E3; lia.
Qed.
Definition placed (f : option path) (l : option Z) : Prop := (forall p, f = Some p -> good_path p) /\ (forall n, l = Some n -> 0 <= n).
Definition sc_placed (s : syscall) : Prop := placed (sc_file s) (sc_line s).
Lemma parse_placed d l : parse_loc d = Ok l -> placed (fst l) (snd l).
Proof.
  unfold parse_loc. destruct (split_char _ d) as [|file [|line [|]]]; try discriminate.
  destruct (str_eqb file _); [intros H; injection H as <-; split; discriminate|].
  assert (forall n, (forall z, n = Some z -> 0 <= z) -> placed (Some (path_of_str file)) n) as P.
  { intros n N. split; [|exact N]. intros p E. injection E as <-. apply good_of_str. }
  destruct (isdigit line); [destruct (forallb is_dec line); [|discriminate]|]; intros H; injection H as <-; apply P; intros z E; [|discriminate].
  injection E as <-. apply int_dec_nonneg.
Qed.
Lemma smart_placed elf dir d l : (forall k, dir = Some k -> good_path k) -> smart_loc elf dir d = Ok l -> placed (fst l) (snd l).
Proof.
  intros G H. unfold smart_loc in H. apply bind_Ok in H as (m & M & H). apply parse_placed in M. destruct m as [f n]. cbn [fst snd] in *.
  destruct dir as [k|]; [|now injection H as <-]. destruct f as [f|]; [|now injection H as <-]. destruct (is_relative_to f _); [|now injection H as <-].
  apply bind_Ok in H as (r & R & H). injection H as <-. destruct M as (M1 & M2). split; [|exact M2]. cbn [fst]. intros p E. injection E as <-.
  apply good_join; [now apply G|]. eapply good_relative; [|exact R]. now apply M1.
Qed.
Lemma remap_placed kdir rdir f g : good_path kdir -> (forall p, f = Some p -> good_path p) -> remap kdir rdir f = Ok g -> forall p, g = Some p -> good_path p.
Proof.
  intros K F H p E. subst g. unfold remap in H. destruct f as [f|]; [|discriminate]. specialize (F f eq_refl).
  destruct rdir as [r|]; [|injection H as <-; now apply good_join]. apply bind_Ok in H as (x & X & H). destruct x as [x|]; [|discriminate]. injection H as <-.
  apply good_join; [exact K|]. unfold maybe_rel in X. destruct (is_relative_to f r); [|now injection X as <-].
  apply bind_Ok in X as (y & Y & X). injection X as <-. now apply good_relative in Y.
Qed.
Lemma usable_placed w f n x : placed f n -> usable w (f, n) = Some x -> good_path (fst x) /\ 0 <= snd x.
Proof.
  intros (F & N). unfold usable. destruct f as [f|]; [|discriminate]. destruct n as [n|]; [|discriminate]. destruct (w_file w f); [|discriminate].
  intros H. injection H as <-. split; [now apply F|now apply N].
Qed.
Lemma signature_line_pos ls k r : signature_line ls k = Some r -> 0 <= r.
Proof.
  induction k as [|k IH]; cbn [signature_line]; [discriminate|]. destruct (nth k ls []); [intros H; injection H; lia|].
  destruct (_ || _); [exact IH|intros H; injection H; lia].
Qed.
Lemma go_up_pos ls n k r : go_up ls n k = Ok (Some r) -> 0 <= r.
Proof.
  induction k as [|k IH]; cbn [go_up]; [discriminate|]. destruct (nth_error ls k); [|discriminate]. cbv zeta.
  destruct (_ && _); [discriminate|]. destruct (str_eqb _ _); [|exact IH].
  destruct (signature_line ls k) eqn:E; intros H; injection H as <-; [now apply signature_line_pos in E|lia].
Qed.
Lemma adjust_pos w f n r : 0 <= n -> adjust_line w f n = Ok r -> 0 <= r.
Proof.
  intros N. unfold adjust_line. destruct (w_file w f); [|discriminate]. intros H. apply bind_Ok in H as (x & X & H). injection H as <-.
  destruct x; [now apply go_up_pos in X|exact N].
Qed.

Section Placed.
  Variables (w : world) (a : arch) (elf kdir : path) (rdir : option path).
  Hypothesis K : good_path kdir.
  Let R := Forall sc_placed.
  Lemma found_placed s f l : good_path f -> 0 <= l -> sc_placed (found_at s f l).
  Proof. intros F L. split; cbn; intros x E; injection E as <-; assumption. Qed.
  Lemma update_placed scs i g : R scs -> (forall s, sc_placed (g s)) -> R (update scs i g).
  Proof. intros H G. revert i. induction H as [|x l Hx H IH]; intros [|i]; cbn; constructor; auto. apply IH. Qed.
  Lemma step1_placed kres s l x : sc_placed s -> placed (fst l) (snd l) -> step1 w a kdir rdir kres s l = Ok x -> sc_placed (fst (fst x)).
  Proof.
    intros S L H. unfold step1 in H. apply bind_Ok in H as (file & M & H). destruct L as (L1 & L2). pose proof (remap_placed _ _ _ _ K L1 M) as F.
    destruct (usable w (file, snd l)) as [(f & n)|] eqn:U.
    - apply usable_placed in U as (U1 & U2); [|split; assumption]. cbn [fst snd] in *. apply bind_Ok in H as (line & A & H). apply adjust_pos in A; [|exact U2].
      assert (forall g, sc_placed (set_good (set_line (set_good (set_file s file) g) (Some line)) g)) as P.
      { intros g. split; cbn; [exact F|]. intros z E. injection E as <-. exact A. }
      destruct (sc_esoteric _); [injection H as <-; exact (P false)|]. apply bind_Ok in H as (g & _ & H). destruct g; injection H as <-; [exact (P true)|exact (P false)].
    - injection H as <-. split; [exact F|exact (proj2 S)].
  Qed.
  Lemma step1_all_placed kres scs : forall locs r, R scs -> Forall (fun l => placed (fst l) (snd l)) locs -> step1_all w a kdir rdir kres scs locs = Ok r -> R (map (fun x => fst (fst x)) r).
  Proof.
    induction scs as [|s scs IH]; intros [|l locs] r S L H; cbn [step1_all] in H.
    - injection H as <-. constructor.
    - injection H as <-. constructor.
    - replace r with (map (fun s : syscall => (s, Done, false)) (s :: scs)) by congruence. rewrite map_map. cbn [fst]. now rewrite map_id.
    - apply bind_Ok in H as (x & X & H). apply bind_Ok in H as (r' & Rr & H). injection H as <-. inversion S; subst. inversion L; subst.
      cbn [map]. constructor; [now apply (step1_placed kres s l)|now apply (IH locs)].
  Qed.
  Lemma step2_placed l : forall scs answers r, R scs -> step2 w a elf kdir rdir scs l answers = Ok r -> R (fst (fst r)).
  Proof.
    induction l as [|i l IH]; intros scs [|d answers] r F H; cbn [step2] in H; try (now injection H as <-).
    apply bind_Ok in H as (x & X & H). apply bind_Ok in H as (file & Rf & H). apply smart_placed in X as (X1 & X2); [|intros k E; now injection E as <-].
    pose proof (remap_placed _ _ _ _ K X1 Rf) as G.
    assert (forall r', R (fst (fst r')) -> (let '(scs, retry, grep) := r' in if 2 <? sym_size (sc_symbol (at_ scs i)) then (scs, i :: retry, grep) else (scs, retry, i :: grep)) = r -> R (fst (fst r))) as N.
    { intros ((? & ?) & ?) H1 <-. destruct (_ <? _); exact H1. }
    destruct (usable w _) as [(f & n)|] eqn:U.
    - apply usable_placed in U as (U1 & U2); [|split; assumption]. cbn [fst snd] in *. apply bind_Ok in H as (line & L & H). apply adjust_pos in L; [|exact U2].
      apply bind_Ok in H as (g & _ & H). destruct g; [apply IH in H; [exact H|apply update_placed; [exact F|intros s; now apply found_placed]]|].
      apply bind_Ok in H as (r' & H & E). injection E as E. apply (N r'); [now apply IH in H|exact E].
    - apply bind_Ok in H as (r' & H & E). injection E as E. apply (N r'); [now apply IH in H|exact E].
  Qed.
  Lemma scan_placed s answers : forall i h f l j k, scan w a elf kdir rdir s answers i h = Ok (Some (f, l), j, k) -> good_path f /\ 0 <= l.
  Proof.
    induction answers as [|d answers IH]; intros i h f l j k H; cbn [scan] in H; [discriminate|].
    apply bind_Ok in H as (x & X & H). apply bind_Ok in H as (file & Rf & H). apply smart_placed in X as (X1 & X2); [|intros k' E; now injection E as <-].
    pose proof (remap_placed _ _ _ _ K X1 Rf) as G. cbv zeta in H. destruct (usable w _) as [(f' & n)|] eqn:U; [|now apply IH in H].
    apply usable_placed in U as (U1 & U2); [|split; assumption]. cbn [fst snd] in *. apply bind_Ok in H as (line & L & H). apply adjust_pos in L; [|exact U2].
    apply bind_Ok in H as (g & _ & H). destruct g; [|now apply IH in H]. injection H as <- <- _ _. auto.
  Qed.
  Lemma step3_placed l : forall scs r, R scs -> step3 w a elf kdir rdir scs l = Ok r -> R (fst r).
  Proof.
    induction l as [|i l IH]; intros scs r F H; cbn [step3] in H; [now injection H as <-|].
    apply bind_Ok in H as (answers & A & H). apply bind_Ok in H as (((fo & invalid) & has) & X & H). destruct fo as [(f & line)|].
    - apply scan_placed in X as (X1 & X2). apply IH in H; [exact H|]. apply update_placed; [exact F|]. intros s. now apply found_placed.
    - destruct (negb invalid && negb has); [discriminate|]. apply bind_Ok in H as (r' & H & E). injection E as <-. now apply IH in H.
  Qed.
  Definition hit_placed {A} (x : A * option (path * Z)) : Prop := forall f l, snd x = Some (f, l) -> good_path f /\ 0 <= l.
  Lemma step4_placed l : Forall hit_placed l -> forall scs r, R scs -> step4 w a scs l = Ok r -> R r.
  Proof.
    induction 1 as [|(i & [(f & line)|]) l X L IH]; intros scs r F H; cbn [step4] in H; [now injection H as <-| |now apply (IH scs)].
    apply bind_Ok in H as (g & _ & H). apply IH in H; [exact H|]. destruct g; [|exact F]. apply update_placed; [exact F|]. intros s.
    exact (found_placed s f line (proj1 (X f line eq_refl)) (proj2 (X f line eq_refl))).
  Qed.
  Lemma grep_lines_placed {A} out : forall (exps : list (A * Regex.re)) r, grep_lines kdir exps out = Ok r -> Forall hit_placed r.
  Proof.
    induction out as [|line out IH]; intros exps r H; cbn [grep_lines] in H.
    - injection H as <-. apply Forall_forall. intros x I. apply in_map_iff in I as (y & <- & _). intros f l E. discriminate.
    - destruct (take_match line exps) as [(s & exps')|]; [|now apply IH in H]. apply bind_Ok in H as ((f & n) & L & H). apply bind_Ok in H as (r' & H & E). injection E as <-.
      constructor; [|now apply IH in H]. intros f' n' E. injection E as <- <-. unfold grep_loc in L. destruct (split_char _ line) as [|file [|z t]]; try discriminate.
      destruct (_ && _); [|discriminate]. injection L as <- <-. split; [|apply int_dec_nonneg]. apply good_join; [exact K|apply good_of_str].
  Qed.
End Placed.
Lemma no_sources_placed scs locs : Forall sc_placed scs -> Forall (fun l : loc => placed (fst l) (snd l)) locs -> Forall sc_placed
  (map (fun x : syscall * loc => set_good (set_line (set_file (fst x) (fst (snd x))) (snd (snd x))) false) (combine scs locs) ++ skipn (List.length locs) scs).
Proof.
  intros S. revert locs. induction S as [|s scs Hs S IH]; intros locs L; [destruct L; constructor|]. destruct L as [|l locs Hl L]; cbn; [now constructor|].
  constructor; [exact Hl|now apply IH].
Qed.
Lemma locations_placed w have a elf kdir rdir kres scs r : (forall k, kdir = Some k -> good_path k) -> Forall sc_placed scs ->
  extract_syscall_locations w have a elf kdir rdir kres scs = Ok r -> Forall sc_placed r.
Proof.
  intros KD S H. unfold extract_syscall_locations in H. destruct have; cbn [negb] in H; [|now injection H as <-].
  apply bind_Ok in H as ((scs' & st) & H & T).
  assert (Forall sc_placed scs') as G.
  { unfold search_locations in H. apply bind_Ok in H as (answers & A & H). apply bind_Ok in H as (locs & Lo & H).
    assert (Forall (fun l : loc => placed (fst l) (snd l)) locs) as L.
    { apply mapM_Ok in Lo. clear - Lo KD. induction Lo as [|d l ds ls Hd Lo IH]; constructor; [|exact IH]. now apply smart_placed in Hd. }
    destruct kdir as [kdir|]; [|injection H as <- _; now apply no_sources_placed]. pose proof (KD kdir eq_refl) as K.
    apply bind_Ok in H as (r1 & R1 & H). apply step1_all_placed in R1; try assumption. destruct (negb _ && _); [injection H as <- _; exact R1|].
    apply bind_Ok in H as (((scs2 & retry) & grep2) & R2 & H). assert (Forall sc_placed scs2) as G2.
    { destruct (_ =? _); [injection R2 as <- _ _; exact R1|]. apply bind_Ok in R2 as (ans2 & A2 & R2). now apply step2_placed in R2. }
    apply bind_Ok in H as ((scs3 & grep3) & R3 & H). apply step3_placed in R3; try assumption. destruct (existsb _ _); injection H as <- _; exact R3. }
  cbn [fst snd] in T. destruct kdir as [kdir|]; [|now injection T as <-]. destruct st; try (injection T as <-; exact G). apply bind_Ok in T as (fo & FO & T).
  apply step4_placed in T; try assumption. apply bind_Ok in FO as (out & _ & FO). apply grep_lines_placed in FO; [|now apply KD].
  rewrite Forall_forall in *. intros x I. apply FO. unfold sort_grepped in I. match type of I with In x (sort_by ?le ?f fo) => exact (Permutation_in _ (Permutation_sym (sort_by_perm le f fo)) I) end.
Qed.
Lemma annotate_placed w have a e p kdir rdir kres scs r : (forall k, kdir = Some k -> good_path k) -> Forall sc_placed scs ->
  annotate w have a e p kdir rdir kres scs = Ok r -> Forall sc_placed r.
Proof.
  intros KD S H. unfold annotate in H. apply bind_Ok in H as (m & H & T). apply locations_placed in H; try assumption.
  unfold extract_syscall_signatures in T. apply bind_Ok in T as (meta & _ & T). apply mapM_Ok in T.
  clear - H T. induction T as [|s y l r Hy T IH]; [constructor|]. inversion H as [|? ? Hs Hl]; subst. constructor; [|now apply IH].
  assert (sc_file y = sc_file s /\ sc_line y = sc_line s) as (E1 & E2); [|unfold sc_placed; rewrite E1, E2; exact Hs].
  unfold sign in Hy. destruct (sc_esoteric s); [now injection Hy as <-|]. destruct (sc_good s).
  - apply bind_Ok in Hy as (_ & _ & Hy). destruct (sc_file s) eqn:F; [|discriminate]. destruct (sc_line s) eqn:L; [|discriminate]. apply bind_Ok in Hy as (sig & _ & Hy). injection Hy as <-. now split.
  - destruct meta as [d|]; [|now injection Hy as <-]. destruct (dget str_eqb (sc_origname s) d); [now injection Hy as <-|]. destruct (dget str_eqb (sc_name s) d); now injection Hy as <-.
Qed.

(** * Indices *)
Definition within_max (s : list Z) : Prop := Forall (fun n => 0 <= n) s.
Definition map_ok (m : nrs_map) : Prop := forall ip, within_max (get m ip).
Lemma add_ok m ip s : map_ok m -> within_max s -> map_ok (add m ip s).
Proof.
  intros M S k. rewrite get_add. destruct (k =? ip); [|apply M]. unfold within_max in *. apply Forall_forall. intros x I.
  apply union_In in I as [I|I]; [exact (proj1 (Forall_forall _ _) (M ip) x I)|exact (proj1 (Forall_forall _ _) S x I)].
Qed.
Lemma filter_ok p s : within_max s -> within_max (filter p s).
Proof. intros S. apply Forall_forall. intros x I. apply filter_In in I as (I & _). exact (proj1 (Forall_forall _ _) S x I). Qed.
Lemma branch_ok same start stop i target tk nt s : map_ok (s_nrs s) -> within_max tk -> within_max nt -> map_ok (s_nrs (branch same start stop i target tk nt s)).
Proof. intros M T N. unfold branch. cbn [s_nrs]. apply add_ok; [now apply add_ok|exact N]. Qed.
Lemma emu_step_ok same start stop reg s i s' : map_ok (s_nrs s) -> emu_step same start stop reg s i = Some s' -> map_ok (s_nrs s').
Proof.
  intros M H. unfold emu_step in H. pose proof (M (i_ip i)) as C. destruct (_ && _); [discriminate|]. destruct (i_kind i) as [|ops|ops|t|c t|t|].
  all: try (injection H as <-; cbn [s_nrs]; (exact M || (apply branch_ok; [exact M|exact C|constructor]) || (apply add_ok; assumption))).
  - destruct (M_Emu.op ops 0), (M_Emu.op ops 1); try discriminate. injection H as <-. cbn [s_nrs]. now apply add_ok.
  - destruct (M_Emu.op ops 0), (M_Emu.op ops 1); try discriminate; (destruct (_ =? _); [|discriminate]); injection H as <-; cbn [s_nrs]; now apply add_ok.
  - destruct c; try discriminate; (destruct (s_imm s) as [imm|]; [|discriminate]); injection H as <-; destruct (s_inv s); apply branch_ok; try exact M; now apply filter_ok.
  - destruct (M_Emu.inside start stop t); [discriminate|]. injection H as <-. apply branch_ok; [exact M|exact C|constructor].
Qed.
Lemma emu_pass_ok same start stop reg l : forall s s', map_ok (s_nrs s) -> emu_pass same start stop reg s l = Some s' -> map_ok (s_nrs s').
Proof.
  induction l as [|i l IH]; intros s s' M H; cbn [emu_pass] in H; [now injection H as <-|].
  destruct (emu_step same start stop reg s i) as [s1|] eqn:E; [|discriminate]. apply emu_step_ok in E; [|exact M]. now apply (IH s1).
Qed.
Lemma emu_loop_ok same start stop reg insns fuel : forall m cands m' c', map_ok m ->
  emu_loop same start stop reg insns fuel m cands = Ok (Some (m', c')) -> map_ok m'.
Proof.
  induction fuel as [|fuel IH]; intros m cands m' c' M H; cbn [emu_loop] in H; [discriminate|].
  destruct (emu_pass _ _ _ _ _ insns) as [s|] eqn:E; [|discriminate]. apply emu_pass_ok in E; [|exact M].
  destruct (s_again s); [now apply IH in H|]. injection H as <- _. exact E.
Qed.
Lemma emulate_ok same start stop insns m c : emulate same start stop insns = Ok (Some (m, c)) -> map_ok m.
Proof.
  unfold emulate. destruct (find_nr_reg insns); [|discriminate]. apply emu_loop_ok. intros ip. unfold get. cbn [dget].
  destruct (ip =? start); [|constructor]. apply Forall_forall. intros x I. apply range_In in I. lia.
Qed.
Lemma put_numbers_ok v ns : forall d d', within_max ns -> within_max (map fst d) -> put_numbers v ns d = Some d' -> within_max (map fst d').
Proof.
  induction ns as [|n ns IH]; intros d d' N D H; cbn [put_numbers] in H; [now injection H as <-|]. inversion N as [|? ? Hn Hs]; subst.
  destruct (dget Z.eqb n d) as [x|]; [destruct (x =? v); [now apply IH in H|discriminate]|]. apply IH in H; try assumption.
  clear - D Hn. induction d as [|(k & x) d IH]; cbn [dset]; [now repeat constructor|]. inversion D; subst. destruct (n =? k); (constructor; [assumption|]); [assumption|now apply IH].
Qed.
Lemma collect_ok m l : map_ok m -> forall d f, within_max (map fst d) -> within_max (map fst (collect m l d f)).
Proof.
  intros M. induction l as [|i l IH]; intros d f D; cbn [collect]; [exact D|]. cbv zeta. destruct (_ =? 0); [constructor|].
  destruct (100 <? _); [destruct f; [constructor|now apply IH]|]. destruct (put_numbers _ _ d) as [d'|] eqn:E; [|constructor].
  apply IH. eapply put_numbers_ok; [apply M|exact D|exact E].
Qed.
Lemma enum_ok {A} (l : list A) : forall n, 0 <= n -> within_max (map fst (enum_from n l)).
Proof. induction l as [|x l IH]; intros n N; cbn; constructor; [exact N|]. apply IH. lia. Qed.
Lemma vaddrs_ok t a e vaddrs : syscall_vaddrs t a e = Ok vaddrs -> within_max (map fst vaddrs).
Proof.
  unfold syscall_vaddrs. destruct (a_table a) as [name|] eqn:Et.
  - unfold vaddrs_from_table. destruct (dget str_eqb name (e_symbols e)) as [tbl|]; [|intros H; injection H as <-; constructor].
    destruct (dget str_eqb _ (e_sections e)) as [text|]; [|discriminate].
    assert (bind (unpack_syscall_table e tbl text) (fun l => Ok (enum_from 0 l)) = Ok vaddrs -> within_max (map fst vaddrs)) as D.
    { intros H. apply bind_Ok in H as (l & _ & H). injection H as <-. now apply enum_ok. }
    cbv zeta. destruct (negb (a_fdesc a)); [exact D|]. intros H. apply bind_Ok in H as (f & _ & H). destruct (in_target text f); [now apply D|].
    destruct (dget str_eqb _ (e_sections e)) as [opd|]; [|injection H as <-; constructor].
    apply bind_Ok in H as (ds & _ & H). apply bind_Ok in H as (l & _ & H). destruct l as [|z l]; [now apply D|]. injection H as <-. now apply (enum_ok (z :: l)).
  - destruct (a_class a); try (intros H; injection H as <-; constructor).
    unfold extract_syscall_vaddrs. rewrite Et. destruct (dget str_eqb _ (e_functions e)) as [sym|]; [|intros H; injection H as <-; constructor].
    destruct (sym_size sym <? 16); [intros H; injection H as <-; constructor|]. intros H.
    apply bind_Ok in H as (code & _ & H). apply bind_Ok in H as (res & E & H). destruct res as [[m c]|]; injection H as <-; [|constructor].
    apply collect_ok; [now apply emulate_ok in E|constructor].
Qed.

(** * Kconfig options *)
Definition plain_option (o : str) : Prop := ~ exists a b, o = a ++ $"CONFIG_" ++ b.
Lemma plain_arch k : forallb (fun '(_, _, _, o) => negb (contains o $"CONFIG_")) (arch_syscall_deps k) = true.
Proof. destruct k; vm_compute; reflexivity. Qed.
Lemma plain_table : forallb (fun '(_, _, _, o) => negb (contains o $"CONFIG_")) tbl_kconfig_syscall_deps = true.
Proof. vm_compute. reflexivity. Qed.
Lemma plain_of (l : list (version * version * str * str)) v n o : forallb (fun '(_, _, _, o) => negb (contains o $"CONFIG_")) l = true ->
  applicable_value l v n o -> plain_option o.
Proof.
  intros H A P. apply applicable_in in A as ([x y] & I & _). rewrite forallb_forall in H. specialize (H _ I). cbn beta iota in H.
  apply contains_iff in P. now rewrite P in H.
Qed.
Lemma option_plain k v n o : option_for (arch_syscall_deps k) tbl_kconfig_syscall_deps v n o -> plain_option o.
Proof. intros [A|(_ & A)]; [exact (plain_of _ _ _ _ (plain_arch k) A)|exact (plain_of _ _ _ _ plain_table A)]. Qed.

(** * Results *)
Lemma base_nonneg k ver abi b a e : arch_new k ver abi b = Ok a -> 0 <= a_base (adjust_abi a e).
Proof.
  intros H. destruct (number_base_total _ _ _ _ _ H) as (z & Z). rewrite (number_base_ok _ _ _ _ _ e _ H Z). destruct Z; lia.
Qed.
(** Before locations are looked for. *)
Record fresh (s : syscall) : Prop := {
  fr_index : forall i, sc_index s = Some i -> 0 <= i;
  fr_number : 0 <= sc_number s;
  fr_file : sc_file s = None;
  fr_line : sc_line s = None;
  fr_kconfig : sc_kconfig s = None \/ exists o, plain_option o /\
    ((sc_esoteric s = false /\ sc_kconfig s = Some ($"CONFIG_" ++ o)) \/ (sc_esoteric s = true /\ sc_kconfig s = Some o)) }.
Lemma bare_switch : plain_option $"PPC_FAST_ENDIAN_SWITCH".
Proof. intros P. apply contains_iff in P. vm_compute in P. discriminate. Qed.
Lemma eso_fresh k ver abi b a e eso x s : arch_new k ver abi b = Ok a -> extract_esoteric_syscalls (adjust_abi a e) e = Ok eso -> In x eso ->
  make_esoteric e x = Ok s -> fresh s.
Proof.
  intros A H I M. pose proof (base_nonneg _ _ _ _ _ e A) as B. destruct x as [[[[n nm] sn] sig] kc].
  assert (0 <= n /\ (kc = None \/ kc = Some $"PPC_FAST_ENDIAN_SWITCH")) as (N & KC).
  { unfold extract_esoteric_syscalls in H. destruct (a_class (adjust_abi a e)); try (injection H as <-; contradiction).
    - injection H as <-. unfold arm_esoteric in I. destruct (negb _); [destruct I|]. cbv zeta in I. apply in_app_or in I as [I|I].
      + repeat (destruct I as [E|I]; [injection E as <- _ _ _ <-; split; [lia|now left]|]). destruct I.
      + destruct (ver_geb _ _); [|destruct I]. destruct I as [E|[]]. injection E as <- _ _ _ <-. split; [lia|now left].
    - unfold ppc_esoteric in H. destruct (_ || _); [injection H as <-; destruct I|]. destruct (dget str_eqb _ (e_symbols e)); [|injection H as <-; destruct I].
      cbv zeta in H. apply bind_Ok in H as (c & _ & H). apply bind_Ok in H as (insns & _ & H).
      replace eso with (if ppc_fast_switch insns then [(7870, $"switch_endian", sym_name s0, @nil str, if ver_geb (a_version (adjust_abi a e)) [4; 15] then Some $"PPC_FAST_ENDIAN_SWITCH" else None)] else []) in I by congruence.
      destruct (ppc_fast_switch insns); [|destruct I]. destruct I as [E|[]]. assert (n = 7870) as -> by congruence. split; [lia|].
      assert (kc = if ver_geb (a_version (adjust_abi a e)) [4; 15] then Some $"PPC_FAST_ENDIAN_SWITCH" else None) as -> by exact (eq_sym (f_equal snd E)).
      destruct (ver_geb _ _); [now right|now left]. }
  unfold make_esoteric in M. destruct (dget str_eqb sn (e_symbols e)); [|discriminate]. injection M as <-.
  constructor; cbn [syscall_new sc_index sc_number sc_file sc_line sc_kconfig sc_esoteric]; try reflexivity; [discriminate|exact N|].
  destruct KC as [->| ->]; [now left|]. right. eexists. split; [exact bare_switch|]. right. auto.
Qed.
Lemma candidates_fresh k ver abi b a e v ni_order vaddrs l : arch_new k ver abi b = Ok a -> within_max (map fst vaddrs) ->
  M_Kernel.candidates ni_order (adjust_abi a e) e v vaddrs = Ok l -> Forall fresh l.
Proof.
  intros A V H. destruct (ni_order (ni_functions e)) as [|x y] eqn:Ne.
  { unfold M_Kernel.candidates in H. rewrite Ne in H. injection H as <-. constructor. }
  destruct (candidates_parts ni_order (adjust_abi a e) e v vaddrs l) as (prefixes & eso & esl & ref & code & P); [rewrite Ne; discriminate|exact H|].
  apply Forall_forall. intros s I. rewrite (po_list _ _ _ _ _ _ _ _ _ _ _ P) in I. apply filter_In in I as [I _]. apply in_app_or in I as [I|I].
  - apply filter_In in I as [I _]. apply in_map_iff in I as ((i & z) & <- & I). apply filter_In in I as (I & _). unfold resolve in I.
    apply in_flat_map in I as ((i' & v') & I & J). cbn [fst snd] in J. destruct (dget Z.eqb v' _); [|destruct J]. destruct J as [J|[]]. injection J as -> _.
    apply (Permutation_in _ (Permutation_sym (sort_by_perm _ _ _))) in I. assert (0 <= i) as Pi.
    { apply (proj1 (Forall_forall _ _) V). apply in_map_iff. exists (i, v'). auto. }
    pose proof (base_nonneg _ _ _ _ _ e A) as B. constructor.
    + cbn. intros j E. injection E as <-. exact Pi.
    + cbn. unfold adjust_syscall_number. destruct (a_class (adjust_abi a e)); try lia. destruct (_ || _); [lia|]. apply Z.div_pos; lia.
    + reflexivity.
    + reflexivity.
    + pose proof (made_kconfig (adjust_abi a e) v prefixes (i, z)) as KC. cbv zeta in KC.
      assert (sc_esoteric (make_syscall (adjust_abi a e) v prefixes (i, z)) = false) as Es by reflexivity.
      destruct KC as [o O|o _ O|]; [right|right|now left]; exists o; (split; [now apply option_plain in O|left; auto]).
  - pose proof (po_esl _ _ _ _ _ _ _ _ _ _ _ P) as F. pose proof (po_eso _ _ _ _ _ _ _ _ _ _ _ P) as Q.
    assert (exists x, In x eso /\ make_esoteric e x = Ok s) as (z & Z1 & Z2).
    { clear - F I. induction F as [|x s' xs ss E F IH]; [destruct I|]. destruct I as [->|I]; [exists x; split; [now left|exact E]|].
      destruct (IH I) as (z & Z1 & Z2). exists z. split; [now right|exact Z2]. }
    exact (eso_fresh _ _ _ _ _ _ _ _ _ A Q Z1 Z2).
Qed.

Section Result.
  Context (k : klass) (ver : version) (abi : str) (b : bool) (a : arch) (t : env) (e : elf) (v : version) (kdir : option path)
    (w : world) (have : bool) (p : path) (rdir : option path) (kres : path) (r : list syscall).
  Hypothesis A : arch_new k ver abi b = Ok a.
  Hypothesis T : v_annotate t = annotate w have (adjust_abi a e) e p kdir rdir kres.
  Hypothesis KD : forall d, kdir = Some d -> good_path d.
  Hypothesis H : extract_syscalls t a e v kdir = Ok r.

  Lemma result_printable s : In s r -> printable s /\ (forall f, sc_file s = Some f -> good_path f) /\
    forall o, sc_kconfig s = Some o -> (sc_esoteric s = true <-> ~ exists x, o = $"CONFIG_" ++ x).
  Proof.
    intros I. destruct (extract_cases _ _ _ _ _ _ H) as [->|(vaddrs & found & located & H1 & H2 & H3 & H4)]; [contradiction|].
    apply filterM_Ok in H4 as [-> _]. apply filter_In in I as [I _]. rewrite T in H3.
    pose proof (candidates_fresh _ _ _ _ _ _ _ _ _ _ A (vaddrs_ok _ _ _ _ H1) H2) as F.
    pose proof (annotate_annotates _ _ _ _ _ _ _ _ _ _ H3) as S.
    assert (Forall sc_placed found) as P0.
    { eapply Forall_impl; [|exact F]. intros x Fx. split; intros y E; [rewrite (fr_file x Fx) in E|rewrite (fr_line x Fx) in E]; discriminate. }
    pose proof (annotate_placed _ _ _ _ _ _ _ _ _ _ KD P0 H3) as P.
    destruct (same_In _ _ _ S I) as (s0 & I0 & (S1 & S2 & S3 & S4 & S5 & S6 & S7)).
    rewrite Forall_forall in P, F. destruct (P s I) as (P1 & P2). destruct (F s0 I0) as [F1 F2 _ _ F5].
    rewrite S1 in F1. rewrite S2 in F2. rewrite S6, S7 in F5. split; [constructor|split; [exact P1|]].
    - exact F1.
    - exact F2.
    - intros f E. apply good_str. now apply P1.
    - exact P2.
    - destruct F5 as [F5|(o & Po & [(_ & F5)|(_ & F5)])]; [now left| |]; right; exists o; auto.
    - intros o E. destruct F5 as [F5|(x & Px & [(Es & F5)|(Es & F5)])]; [congruence| |].
      + rewrite Es. split; [discriminate|]. intros N. destruct N. exists x. congruence.
      + rewrite Es. split; [|reflexivity]. intros _ (y & Y). apply Px. exists [], y. cbn [app]. congruence.
  Qed.
End Result.
(** Objects tell apart syscalls of this form. *)
Lemma json_injective_result s s' : encode_syscall s = encode_syscall s' ->
  (forall f, sc_file s = Some f -> good_path f) -> (forall f, sc_file s' = Some f -> good_path f) ->
  (forall o, sc_kconfig s = Some o -> (sc_esoteric s = true <-> ~ exists x, o = $"CONFIG_" ++ x)) ->
  (forall o, sc_kconfig s' = Some o -> (sc_esoteric s' = true <-> ~ exists x, o = $"CONFIG_" ++ x)) ->
  sc_index s = sc_index s' /\ sc_number s = sc_number s' /\ sc_name s = sc_name s' /\ sc_origname s = sc_origname s' /\
  sym_name (sc_symbol s) = sym_name (sc_symbol s') /\ sc_file s = sc_file s' /\ sc_line s = sc_line s' /\
  sc_signature s = sc_signature s' /\ sc_esoteric s = sc_esoteric s' /\ sc_good s = sc_good s' /\
  sc_grepped s = sc_grepped s' /\ sc_kconfig s = sc_kconfig s'.
Proof.
  rewrite !encoded. pose proof (kconfig_value_cases (sc_kconfig s)) as C. pose proof (kconfig_value_cases (sc_kconfig s')) as C'.
  cbv zeta in C, C'. revert C C'. generalize (kconfig_value (sc_kconfig s)), (kconfig_value (sc_kconfig s')). intros j j' C C'. intros [= E1 E2 E3 E4 E5 E6 E7 E8 E9 E10 E11 E12] G G' K K'.
  repeat (split; [first [assumption | destruct (sc_index s), (sc_index s'); cbn in E1; congruence | idtac]|]).
  - destruct (sc_file s) as [f|], (sc_file s') as [f'|]; cbn in E6; try congruence. injection E6 as E6. f_equal.
    rewrite <- (path_str_roundtrip f (G f eq_refl)), <- (path_str_roundtrip f' (G' f' eq_refl)). now rewrite E6.
  - destruct (sc_line s), (sc_line s'); cbn in E7; congruence.
  - destruct (sc_signature s), (sc_signature s'); cbn in E8; try congruence. injection E8 as E8. f_equal. now apply map_JStr_inj.
  - rewrite E9 in K. subst j'.
    destruct C as [[B A]|[(o & B & A)|(o & B & N & A)]]; destruct C' as [[B' A']|[(o' & B' & A')|(o' & B' & N' & A')]]; try congruence.
    + exfalso. pose proof (proj2 (K' _ B') N') as X. pose proof (proj1 (K _ B) X) as Y. apply Y. eauto.
    + exfalso. pose proof (proj2 (K _ B) N) as X. pose proof (proj1 (K' _ B') X) as Y. apply Y. eauto.
Qed.
Lemma result_text k ver abi b a t e v kdir w have p rdir kres s0 scs : arch_new k ver abi b = Ok a ->
  v_annotate t = annotate w have (adjust_abi a e) e p kdir rdir kres -> (forall d, kdir = Some d -> good_path d) ->
  extract_syscalls t a e v kdir = Ok (s0 :: scs) ->
  exists ws head rest, output_syscalls_text (s0 :: scs) = Ok (head :: rest) /\
    padded ws titles head /\ prints ws (sc_number s0) (s0 :: scs) rest.
Proof.
  intros A T K H. pose proof (result_printable _ _ _ _ _ _ _ _ _ _ _ _ _ _ _ A T K H) as P.
  destruct (text_layout s0 scs) as (ws & head & rest & X1 & X2 & X3 & _); [|exists ws, head, rest; auto].
  apply Forall_forall. intros s I. exact (proj1 (P s I)).
Qed.
Lemma result_json k ver abi b a t e v kdir w have p rdir kres r k' ver' abi' b' a' t' e' v' kdir' w' have' p' rdir' kres' r' s s' :
  arch_new k ver abi b = Ok a -> arch_new k' ver' abi' b' = Ok a' ->
  v_annotate t = annotate w have (adjust_abi a e) e p kdir rdir kres -> v_annotate t' = annotate w' have' (adjust_abi a' e') e' p' kdir' rdir' kres' ->
  (forall d, kdir = Some d -> good_path d) -> (forall d, kdir' = Some d -> good_path d) ->
  extract_syscalls t a e v kdir = Ok r -> extract_syscalls t' a' e' v' kdir' = Ok r' ->
  In s r -> In s' r' -> encode_syscall s = encode_syscall s' ->
  sc_index s = sc_index s' /\ sc_number s = sc_number s' /\ sc_name s = sc_name s' /\ sc_origname s = sc_origname s' /\
  sym_name (sc_symbol s) = sym_name (sc_symbol s') /\ sc_file s = sc_file s' /\ sc_line s = sc_line s' /\
  sc_signature s = sc_signature s' /\ sc_esoteric s = sc_esoteric s' /\ sc_good s = sc_good s' /\
  sc_grepped s = sc_grepped s' /\ sc_kconfig s = sc_kconfig s'.
Proof.
  intros A A' T T' K K' H H' I I' E.
  destruct (result_printable _ _ _ _ _ _ _ _ _ _ _ _ _ _ _ A T K H s I) as (_ & G & C).
  destruct (result_printable _ _ _ _ _ _ _ _ _ _ _ _ _ _ _ A' T' K' H' s' I') as (_ & G' & C').
  exact (json_injective_result s s' E G G' C C').
Qed.
