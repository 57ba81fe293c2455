(** Lemmas for the properties of location.py: failures (C75), and that only locations change. *)
From Coq Require Import List Bool Ascii String ZArith Lia Permutation Sorted.
From Verif Require Import PyBase PyFacts Regex M_Utils M_Elf M_Syscall M_Arch M_Signature M_Location M_Annotate
  S_Elf S_Signature S_Kernel S_Location L_Utils L_ElfText L_Signature3 L_Location L_Location2 L_Location3 L_Location4 L_Location5 L_Location6.
Import ListNotations.
Open Scope Z_scope.
Open Scope list_scope.

(** * Ends normally, or exits because the sources do not match *)
Definition calm {A} (o : outcome A) : Prop := (exists r, o = Ok r) \/ o = Exit 1.
Lemma calm_Ok {A} (r : A) : calm (Ok r).
Proof. left. eauto. Qed.
Lemma calm_bind {A B} (x : outcome A) (f : A -> outcome B) : calm x -> (forall r, x = Ok r -> calm (f r)) -> calm (bind x f).
Proof. intros [(r & ->)| ->] H; [now apply H|now right]. Qed.
Lemma calm_total {A B} (x : outcome A) (f : A -> outcome B) : (exists r, x = Ok r) -> (forall r, x = Ok r -> calm (f r)) -> calm (bind x f).
Proof. intros (r & ->) H. now apply H. Qed.
Lemma adjust_calm w f n : calm (adjust_line w f n).
Proof.
  destruct (adjust_line w f n) as [r|e|c|] eqn:E; [apply calm_Ok| | |].
  - now destruct (adjust_line_raise w f n e) as [H _].
  - apply adjust_line_exit in E as (-> & _). now right.
  - now destruct (adjust_line_raise w f n ValueError) as [_ H].
Qed.
Lemma good_total w f n line a s : adjust_line w f n = Ok line -> exists g, good_location w f line a s = Ok g.
Proof.
  intros H. pose proof (adjust_line_le _ _ _ _ H) as L. apply adjust_line_bound in H as (content & E & B). unfold good_location. rewrite E. change bytes with str.
  destruct (Nat.ltb_spec (List.length (lines_keep content)) (Z.to_nat (line - 1))) as [X|X]; [|eauto]. unfold len in B. unfold str in *. lia.
Qed.

Section Calm.
  Variables (w : world) (ans : Z -> answer) (elf kdir : path) (rdir : option path) (a : arch).
  Hypothesis S : addr2line_says (w_addr2line w) ans.
  Let place := place_of (path_parent elf) kdir rdir.

  Lemma remap_calm x l : smart_loc elf (Some kdir) (answer_text (ans x)) = Ok l -> exists file, remap kdir rdir (fst l) = Ok file.
  Proof. intros _. destruct (fst l) as [p|]; [|cbn; eauto]. destruct (remap_total kdir rdir p) as (q & ->). eauto. Qed.
  Lemma step1_calm kres s l : calm (step1 w a kdir rdir kres s l).
  Proof.
    unfold step1. apply calm_total; [destruct (fst l) as [p|]; [destruct (remap_total kdir rdir p) as (q & ->)|]; cbn; eauto|]. intros file _.
    destruct (usable w _) as [(f & n)|]; [|apply calm_Ok]. apply calm_bind; [apply adjust_calm|]. intros line L. destruct (sc_esoteric _); [apply calm_Ok|].
    apply calm_total; [now apply (good_total w f n)|]. intros g _. destruct g; apply calm_Ok.
  Qed.
  Lemma step1_all_calm kres scs : forall locs, calm (step1_all w a kdir rdir kres scs locs).
  Proof.
    induction scs as [|s scs IH]; intros [|l locs]; cbn [step1_all]; try apply calm_Ok. apply calm_bind; [apply step1_calm|]. intros x _. apply calm_bind; [apply IH|]. intros r _. apply calm_Ok.
  Qed.
  Lemma step2_calm l : forall scs addrs, calm (step2 w a elf kdir rdir scs l (map (fun v => answer_text (ans v)) addrs)).
  Proof.
    induction l as [|i l IH]; intros scs [|v addrs]; cbn [step2 map]; try apply calm_Ok. apply calm_total; [apply smart_total, S|]. intros x X. apply calm_total; [now apply (remap_calm v)|]. intros file R.
    destruct (usable w _) as [(f & n)|].
    - apply calm_bind; [apply adjust_calm|]. intros line L. apply calm_total; [now apply (good_total w f n)|]. intros g _. destruct g; [apply IH|]. apply calm_bind; [apply IH|]. intros r _. apply calm_Ok.
    - apply calm_bind; [apply IH|]. intros r _. apply calm_Ok.
  Qed.
  Lemma scan_calm s addrs : forall b c, calm (scan w a elf kdir rdir s (map (fun v => answer_text (ans v)) addrs) b c).
  Proof.
    induction addrs as [|v addrs IH]; intros b c; cbn [scan map]; [apply calm_Ok|]. apply calm_total; [apply smart_total, S|]. intros x X. apply calm_total; [now apply (remap_calm v)|]. intros file R.
    destruct (usable w _) as [(f & n)|]; [|apply IH]. apply calm_bind; [apply adjust_calm|]. intros line L. apply calm_total; [now apply (good_total w f n)|]. intros g _. destruct g; [apply calm_Ok|apply IH].
  Qed.
  (** Nothing found: what the two booleans say. *)
  Lemma scan_end s addrs : forall b c i h, scan w a elf kdir rdir s (map (fun v => answer_text (ans v)) addrs) b c = Ok (None, i, h) ->
    (i = false -> b = false \/ exists v f n, In v addrs /\ place (ans v) f n /\ w_file w f <> None) /\
    (h = false -> addrs = [] /\ c = false \/ exists pre v, addrs = pre ++ [v] /\ ans v = Nowhere).
  Proof.
    induction addrs as [|v addrs IH]; intros b c i h H; cbn [scan map] in H; [injection H as -> ->; auto|].
    apply bind_Ok in H as (x & X & H). apply bind_Ok in H as (file & R & H).
    assert (file = None -> ans v = Nowhere) as NW.
    { intros ->. destruct (smart_text elf kdir (ans v) x (proj1 S v) X) as (_ & Y). destruct (ans v) as [|g m|g]; [reflexivity| |]; cbn in Y; destruct Y as (q & Y & _); rewrite Y in R;
        destruct (remap_total kdir rdir q) as (z & Z0); congruence. }
    assert (forall b', (b' = false -> b = false \/ exists f n, place (ans v) f n /\ w_file w f <> None) ->
      scan w a elf kdir rdir s (map (fun v => answer_text (ans v)) addrs) b' (match file with Some _ => true | None => false end) = Ok (None, i, h) ->
      (i = false -> b = false \/ exists v' f n, In v' (v :: addrs) /\ place (ans v') f n /\ w_file w f <> None) /\
      (h = false -> v :: addrs = [] /\ c = false \/ exists pre v', v :: addrs = pre ++ [v'] /\ ans v' = Nowhere)) as G.
    { intros b' B' H'. apply IH in H' as (H1 & H2). split.
      - intros Hi. destruct (H1 Hi) as [Hb|(v' & f & n & I & P)]; [|right; exists v', f, n; split; [now right|exact P]].
        destruct (B' Hb) as [Hb'|(f & n & P)]; [now left|right; exists v, f, n; split; [now left|exact P]].
      - intros Hh. right. destruct (H2 Hh) as [(-> & Hf)|(pre & v' & -> & E)]; [|exists (v :: pre), v'; auto]. exists [], v. split; [reflexivity|]. apply NW. destruct file; [discriminate|reflexivity]. }
    destruct (usable w (file, snd x)) as [(f & n)|] eqn:U; [|apply (G b); [now left|exact H]].
    apply bind_Ok in H as (line & L & H). apply bind_Ok in H as (g & Gd & H). destruct g; [discriminate|]. apply (G false); [|exact H]. intros _. right. exists f, n.
    split; [now apply (place_text w elf kdir rdir (ans v) x file f n (proj1 S v))|]. unfold usable in U. destruct file; [|discriminate]. destruct (snd x); [|discriminate]. destruct (w_file w p) eqn:Wf; [|discriminate]. injection U as <- _. congruence.
  Qed.
  (** If some inner address has a location in the sources, so has the last one a file. *)
  Definition steady (s : symbol) : Prop :=
    forall v f n, sym_real s + 1 <= v <= sym_real s + sym_size s - 3 -> place (ans v) f n -> w_file w f <> None -> ans (sym_real s + sym_size s - 3) <> Nowhere.
  Lemma steady_scan s i h sym : steady sym -> scan w a elf kdir rdir s (map (fun v => answer_text (ans v)) (inner_addrs sym)) true false = Ok (None, i, h) -> negb i && negb h = false.
  Proof.
    intros St H. apply scan_end in H as (H1 & H2). destruct i; [reflexivity|]. destruct h; [reflexivity|]. exfalso.
    destruct (H1 eq_refl) as [X|(v & f & n & I & P & Wf)]; [discriminate|]. destruct (H2 eq_refl) as [(E & _)|(pre & v' & E & N)]; [rewrite E in I; contradiction|].
    unfold inner_addrs in *. pose proof (proj1 (zrange_in _ _ _) I) as B. apply (St v f n); [lia|exact P|exact Wf|]. replace (sym_real sym + sym_size sym - 3) with v'; [exact N|].
    clear -E B. set (lo := sym_real sym + 1) in *. set (hi := sym_real sym + sym_size sym - 2) in *.
    assert (forall m lo, lo < hi -> hi = lo + Z.of_nat m -> forall pre, zrange lo hi = pre ++ [v'] -> v' = hi - 1) as G.
    { induction m as [|m IH]; intros lo0 L E0 pre0 Hz; [lia|]. rewrite zrange_cons in Hz by lia. destruct pre0 as [|p pre0].
      - cbn in Hz. injection Hz as <- Hz. destruct (Z.lt_ge_cases (lo0 + 1) hi) as [Y|Y]; [|lia]. rewrite zrange_cons in Hz by lia. discriminate.
      - cbn in Hz. injection Hz as _ Hz. destruct (Z.lt_ge_cases (lo0 + 1) hi) as [Y|Y]; [apply (IH (lo0 + 1) Y ltac:(lia) pre0 Hz)|]. rewrite zrange_empty in Hz by lia. now destruct pre0. }
    rewrite (G (Z.to_nat (hi - lo)) lo ltac:(lia) ltac:(lia) pre E). lia.
  Qed.
  Definition all_steady (scs : list syscall) : Prop := Forall (fun s => steady (sc_symbol s)) scs.
  Lemma steady_none : steady (sc_symbol no_syscall).
  Proof. intros v f n B. cbn in B. lia. Qed.
  Lemma steady_at scs i : all_steady scs -> steady (sc_symbol (at_ scs i)).
  Proof.
    intros H. unfold at_. destruct (Nat.lt_ge_cases i (List.length scs)) as [L|L]; [|rewrite nth_overflow by exact L; apply steady_none].
    unfold all_steady in H. rewrite Forall_forall in H. apply H. now apply nth_In.
  Qed.
  Lemma steady_update scs i g : (forall s, sc_symbol (g s) = sc_symbol s) -> all_steady scs -> all_steady (update scs i g).
  Proof. intros G H. revert i. induction H as [|s scs H0 H IH]; intros [|i]; cbn; constructor; auto. now rewrite G. all: exact H || apply IH. Qed.
  Lemma step2_steady l : forall scs answers r, all_steady scs -> step2 w a elf kdir rdir scs l answers = Ok r -> all_steady (fst (fst r)).
  Proof.
    induction l as [|i l IH]; intros scs [|d answers] r F H; cbn [step2] in H; try (now injection H as <-).
    apply bind_Ok in H as (x & X & H). apply bind_Ok in H as (file & R & H).
    assert (forall r', all_steady (fst (fst r')) -> (let '(scs, retry, grep) := r' in if 2 <? sym_size (sc_symbol (at_ scs i)) then (scs, i :: retry, grep) else (scs, retry, i :: grep)) = r -> all_steady (fst (fst r))) as N.
    { intros ((? & ?) & ?) H1 <-. destruct (_ <? _); exact H1. }
    destruct (usable w _) as [(f & n)|].
    - apply bind_Ok in H as (line & L & H). apply bind_Ok in H as (g & G & H). destruct g; [apply IH in H; [exact H|now apply steady_update]|]. apply bind_Ok in H as (r' & H & E). injection E as E. apply (N r'); [now apply IH in H|exact E].
    - apply bind_Ok in H as (r' & H & E). injection E as E. apply (N r'); [now apply IH in H|exact E].
  Qed.
  Lemma step3_calm l : forall scs, all_steady scs -> calm (step3 w a elf kdir rdir scs l).
  Proof.
    induction l as [|i l IH]; intros scs F; cbn [step3]; [apply calm_Ok|]. rewrite (ask_says w ans _ S). cbn [bind]. apply calm_bind; [apply scan_calm|].
    intros ((fo & iv) & h) X. destruct fo as [(f & line)|]; [apply IH; now apply steady_update|]. rewrite (steady_scan _ _ _ _ (steady_at scs i F) X). apply calm_bind; [now apply IH|]. intros r _. apply calm_Ok.
  Qed.
  Lemma step1_symbol kres s l x : step1 w a kdir rdir kres s l = Ok x -> sc_symbol (fst (fst x)) = sc_symbol s.
  Proof.
    unfold step1. intros H. apply bind_Ok in H as (file & _ & H). destruct (usable w _) as [(f & n)|]; [|injection H as <-; reflexivity].
    apply bind_Ok in H as (line & _ & H). destruct (sc_esoteric _); [injection H as <-; reflexivity|]. apply bind_Ok in H as (g & _ & H). destruct g; injection H as <-; reflexivity.
  Qed.
  Lemma step1_steady kres scs : forall locs r, all_steady scs -> step1_all w a kdir rdir kres scs locs = Ok r -> all_steady (map (fun x => fst (fst x)) r).
  Proof.
    induction scs as [|s scs IH]; intros [|l locs] r F H; cbn [step1_all] in H.
    - injection H as <-. constructor.
    - injection H as <-. constructor.
    - replace r with (map (fun s : syscall => (s, Done, false)) (s :: scs)) by congruence. rewrite map_map. cbn [fst]. rewrite map_id. exact F.
    - inversion F; subst. apply bind_Ok in H as (x & X & H). apply bind_Ok in H as (r' & R & H). injection H as <-. cbn [map]. constructor; [now rewrite (step1_symbol _ _ _ _ X)|now apply (IH locs)].
  Qed.
  Lemma search_calm kres scs : all_steady scs -> calm (search_locations w a elf (Some kdir) rdir kres scs).
  Proof.
    intros F. unfold search_locations. rewrite (ask_says w ans _ S). cbn [bind]. apply calm_total.
    { generalize (map (fun s => sym_real (sc_symbol s)) scs). induction l as [|v l (r & IH)]; [cbn; eauto|]. cbn [map mapM]. destruct (smart_total elf (Some kdir) (ans v) (proj1 S v)) as (x & ->). cbn [bind]. rewrite IH. cbn. eauto. }
    intros locs _. apply calm_bind; [apply step1_all_calm|]. intros r1 R1. apply step1_steady in R1; [|exact F].
    destruct (negb _ && _); [apply calm_Ok|]. apply calm_bind.
    { destruct (_ =? _); [apply calm_Ok|]. rewrite (ask_says w ans _ S). cbn [bind]. apply step2_calm. }
    intros ((scs2 & retry) & grep2) R2. assert (all_steady scs2) as F2.
    { destruct (_ =? _); [injection R2 as <- _ _; exact R1|]. rewrite (ask_says w ans _ S) in R2. cbn [bind] in R2. now apply step2_steady in R2. }
    apply calm_bind; [now apply step3_calm|]. intros (scs3 & grep3) _. destruct (existsb _ _); apply calm_Ok.
  Qed.
End Calm.

(** * Nothing but locations and signatures changes *)
Section Same.
  Variables (w : world) (a : arch) (elf kdir : path) (rdir : option path).
  Let R := Forall2 same_but_location.
  Lemma update_same scs0 scs i g : R scs0 scs -> (forall s, same_but_location s (g s)) -> R scs0 (update scs i g).
  Proof. intros H G. revert i. induction H as [|x y l m Hx H IH]; intros [|i]; cbn; constructor; auto. apply (same_trans _ y); auto. all: exact H || apply IH. Qed.
  Lemma step1_same kres s l x : step1 w a kdir rdir kres s l = Ok x -> same_but_location s (fst (fst x)).
  Proof.
    unfold step1. intros H. apply bind_Ok in H as (file & _ & H). destruct (usable w _) as [(f & n)|]; [|injection H as <-; reflexivity].
    apply bind_Ok in H as (line & _ & H). destruct (sc_esoteric _); [injection H as <-; reflexivity|]. apply bind_Ok in H as (g & _ & H). destruct g; injection H as <-; reflexivity.
  Qed.
  Lemma same_all l : R l l.
  Proof. induction l; constructor; [apply same_refl|assumption]. Qed.
  Lemma step1_all_same kres scs : forall locs r, step1_all w a kdir rdir kres scs locs = Ok r -> R scs (map (fun x => fst (fst x)) r).
  Proof.
    induction scs as [|s scs IH]; intros [|l locs] r H; cbn [step1_all] in H.
    - injection H as <-. constructor.
    - injection H as <-. constructor.
    - replace r with (map (fun s : syscall => (s, Done, false)) (s :: scs)) by congruence. rewrite map_map. cbn [fst]. rewrite map_id. apply same_all.
    - apply bind_Ok in H as (x & X & H). apply bind_Ok in H as (r' & Rr & H). injection H as <-. cbn [map]. constructor; [now apply step1_same in X|now apply (IH locs)].
  Qed.
  Lemma step2_same scs0 l : forall scs answers r, R scs0 scs -> step2 w a elf kdir rdir scs l answers = Ok r -> R scs0 (fst (fst r)).
  Proof.
    induction l as [|i l IH]; intros scs [|d answers] r F H; cbn [step2] in H; try (now injection H as <-).
    apply bind_Ok in H as (x & X & H). apply bind_Ok in H as (file & Rf & H).
    assert (forall r', R scs0 (fst (fst r')) -> (let '(scs, retry, grep) := r' in if 2 <? sym_size (sc_symbol (at_ scs i)) then (scs, i :: retry, grep) else (scs, retry, i :: grep)) = r -> R scs0 (fst (fst r))) as N.
    { intros ((? & ?) & ?) H1 <-. destruct (_ <? _); exact H1. }
    destruct (usable w _) as [(f & n)|].
    - apply bind_Ok in H as (line & L & H). apply bind_Ok in H as (g & G & H). destruct g; [apply IH in H; [exact H|now apply update_same]|]. apply bind_Ok in H as (r' & H & E). injection E as E. apply (N r'); [now apply IH in H|exact E].
    - apply bind_Ok in H as (r' & H & E). injection E as E. apply (N r'); [now apply IH in H|exact E].
  Qed.
  Lemma step3_same scs0 l : forall scs r, R scs0 scs -> step3 w a elf kdir rdir scs l = Ok r -> R scs0 (fst r).
  Proof.
    induction l as [|i l IH]; intros scs r F H; cbn [step3] in H; [now injection H as <-|].
    apply bind_Ok in H as (answers & A & H). apply bind_Ok in H as (((fo & invalid) & has) & X & H). destruct fo as [(f & line)|].
    - apply IH in H; [exact H|]. now apply update_same.
    - destruct (negb invalid && negb has); [discriminate|]. apply bind_Ok in H as (r' & H & E). injection E as <-. now apply IH in H.
  Qed.
  Lemma step4_same scs0 l : forall scs r, R scs0 scs -> step4 w a scs l = Ok r -> R scs0 r.
  Proof.
    induction l as [|(i & [(f & line)|]) l IH]; intros scs r F H; cbn [step4] in H; [now injection H as <-| |now apply (IH scs)].
    apply bind_Ok in H as (g & G & H). apply IH in H; [exact H|]. destruct g; [|exact F]. now apply update_same.
  Qed.
End Same.
Lemma no_sources_same scs locs : Forall2 same_but_location scs
  (map (fun x : syscall * loc => set_good (set_line (set_file (fst x) (fst (snd x))) (snd (snd x))) false) (combine scs locs) ++ skipn (List.length locs) scs).
Proof.
  revert locs. induction scs as [|s scs IH]; intros [|l locs]; cbn; constructor; try reflexivity; try apply same_refl; [|apply IH]. apply same_all.
Qed.
Lemma extract_same w have a elf kdir rdir kres scs r : extract_syscall_locations w have a elf kdir rdir kres scs = Ok r -> Forall2 same_but_location scs r.
Proof.
  intros H. unfold extract_syscall_locations in H. destruct have; cbn [negb] in H; [|injection H as <-; apply same_all].
  apply bind_Ok in H as ((scs' & st) & H & K).
  assert (Forall2 same_but_location scs scs') as G.
  { unfold search_locations in H. apply bind_Ok in H as (answers & A & H). apply bind_Ok in H as (locs & Lo & H). destruct kdir as [kdir|]; [|injection H as <- _; apply no_sources_same].
    apply bind_Ok in H as (r1 & R1 & H). apply step1_all_same in R1. destruct (negb _ && _); [injection H as <- _; exact R1|].
    apply bind_Ok in H as (((scs2 & retry) & grep2) & R2 & H). assert (Forall2 same_but_location scs scs2) as G2.
    { destruct (_ =? _); [injection R2 as <- _ _; exact R1|]. apply bind_Ok in R2 as (ans2 & A2 & R2). now apply (step2_same w a elf kdir rdir scs) in R2. }
    apply bind_Ok in H as ((scs3 & grep3) & R3 & H). apply (step3_same w a elf kdir rdir scs) in R3; [|exact G2]. destruct (existsb _ _); injection H as <- _; exact R3. }
  cbn [fst snd] in K. destruct kdir; [|now injection K as <-]. destruct st; try (injection K as <-; exact G). apply bind_Ok in K as (fo & _ & K). now apply (step4_same w a scs) in K.
Qed.
Lemma annotate_annotates w have a e p kdir rdir kres : annotates (annotate w have a e p kdir rdir kres).
Proof.
  intros l r H. unfold annotate in H. apply bind_Ok in H as (m & H & K). apply extract_same in H. unfold extract_syscall_signatures in K. apply bind_Ok in K as (meta & _ & K). apply mapM_Ok in K.
  revert r K. induction H as [|s s' l m Hs H IH]; intros r K; inversion K as [|? y ? r' Hy K']; subst; constructor; [|now apply IH].
  assert (same_syscall s' y) as Y.
  { unfold sign in Hy. assert (same_syscall s' s') as Id by (repeat split). assert (forall sig, same_syscall s' (set_signature s' sig)) as Sg by (intros sig; repeat split).
    destruct (sc_esoteric s'); [injection Hy as <-; exact Id|]. destruct (sc_good s').
    - apply bind_Ok in Hy as (_ & _ & Hy). destruct (sc_file s'); [|discriminate]. destruct (sc_line s'); [|discriminate]. apply bind_Ok in Hy as (sig & _ & Hy). injection Hy as <-. apply Sg.
    - destruct meta as [d|]; [|injection Hy as <-; exact Id]. destruct (dget str_eqb (sc_origname s') d); [injection Hy as <-; apply Sg|]. destruct (dget str_eqb (sc_name s') d); injection Hy as <-; [apply Sg|exact Id]. }
  rewrite Hs in Y. exact Y.
Qed.
Lemma Forall2_right {A} (P : A -> A -> Prop) (Q : A -> Prop) l m : Forall2 (fun x y => P x y /\ Q y) l m -> Forall Q m.
Proof. induction 1 as [|x y l m (_ & H) _ IH]; constructor; assumption. Qed.
Lemma no_sources_bad w have a elf rdir kres scs r : Forall (fun s => sc_good s = false) scs ->
  extract_syscall_locations w have a elf None rdir kres scs = Ok r -> Forall (fun s => sc_good s = false) r.
Proof.
  intros F H. unfold extract_syscall_locations in H. destruct have; cbn [negb] in H; [|now injection H as <-].
  apply bind_Ok in H as ((scs' & st) & H & K). cbn [fst snd] in K. injection K as <-. unfold search_locations in H. apply bind_Ok in H as (answers & A & H). apply bind_Ok in H as (locs & Lo & H). injection H as <- _.
  destruct (no_sources_found w a scs locs F) as (N & _). exact (Forall2_right _ _ _ _ N).
Qed.
