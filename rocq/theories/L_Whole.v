(** Lemmas for C98: the sources match the debug information, so nothing ends early. *)
From Coq Require Import List Bool Ascii String ZArith Lia Permutation Sorted.
From Verif Require Import PyBase PyFacts Regex M_Utils M_Elf M_Syscall M_Arch M_Signature M_Location M_Annotate
  S_Elf S_Signature S_Kernel S_Location S_Declared S_Whole L_Utils L_ElfText L_Signature L_Signature2 L_Signature3 L_Location L_Location2 L_Location3 L_Location4 L_Location5
  L_Location6 L_Location7 L_Location8 L_Location9 L_Declared L_Declared2.
Import ListNotations.
Open Scope Z_scope.
Open Scope list_scope.

Definition quiet {A} (o : outcome A) : Prop := forall c, o <> Exit c.
Lemma quiet_Ok {A} (r : A) : quiet (Ok r).
Proof. intros c. discriminate. Qed.
Lemma quiet_bind {A B} (x : outcome A) (f : A -> outcome B) : quiet x -> (forall r, x = Ok r -> quiet (f r)) -> quiet (bind x f).
Proof. intros Q H c. destruct x as [r|e|d|]; cbn; try discriminate; [now apply H|]. intros E. apply (Q d). reflexivity. Qed.
Lemma quiet_some {A} (x : outcome A) : (exists r, x = Ok r) -> quiet x.
Proof. intros (r & ->). apply quiet_Ok. Qed.
Lemma calm_quiet {A} (x : outcome A) : calm x -> quiet x -> exists r, x = Ok r.
Proof. intros [H| ->] Q; [exact H|]. now elim (Q 1). Qed.

Section Quiet.
  Variables (w : world) (ans : Z -> answer) (elf kdir : path) (rdir : option path) (a : arch).
  Hypothesis S : addr2line_says (w_addr2line w) ans.
  Hypothesis F : answers_fit (w_file w) ans (path_parent elf) kdir rdir.

  Lemma adjust_quiet v l file f n : smart_loc elf (Some kdir) (answer_text (ans v)) = Ok l -> remap kdir rdir (fst l) = Ok file ->
    usable w (file, snd l) = Some (f, n) -> quiet (adjust_line w f n).
  Proof.
    intros X R U c E. pose proof (place_text w elf kdir rdir (ans v) l file f n (proj1 S v) X R U) as P. apply adjust_line_exit in E as (_ & [E|(content & ls & W & L & B)]).
    - unfold usable in U. destruct file as [f'|]; [|discriminate]. destruct (snd l); [|discriminate]. destruct (w_file w f') eqn:W; [|discriminate]. injection U as -> _. congruence.
    - pose proof (F v f n content ls P W L). lia.
  Qed.
  Lemma step1_quiet kres s v l : smart_loc elf (Some kdir) (answer_text (ans v)) = Ok l -> quiet (step1 w a kdir rdir kres s l).
  Proof.
    intros X. unfold step1. apply quiet_bind; [apply quiet_some; now apply (remap_calm ans elf kdir rdir v)|]. intros file R.
    destruct (usable w _) as [(f & n)|] eqn:U; [|apply quiet_Ok]. apply quiet_bind; [now apply (adjust_quiet v l file)|]. intros line L. destruct (sc_esoteric _); [apply quiet_Ok|].
    apply quiet_bind; [apply quiet_some; now apply (good_total w f n)|]. intros g _. destruct g; apply quiet_Ok.
  Qed.
  Lemma step1_all_quiet kres scs : forall locs, Forall (fun l => exists v, smart_loc elf (Some kdir) (answer_text (ans v)) = Ok l) locs ->
    quiet (step1_all w a kdir rdir kres scs locs).
  Proof.
    induction scs as [|s scs IH]; intros [|l locs] H; cbn [step1_all]; try apply quiet_Ok. inversion H as [|x y (v & X) Hl]; subst. apply quiet_bind; [now apply (step1_quiet kres s v)|]. intros x _.
    apply quiet_bind; [now apply IH|]. intros r _. apply quiet_Ok.
  Qed.
  Lemma step2_quiet l : forall scs addrs, quiet (step2 w a elf kdir rdir scs l (map (fun v => answer_text (ans v)) addrs)).
  Proof.
    induction l as [|i l IH]; intros scs [|v addrs]; cbn [step2 map]; try apply quiet_Ok. apply quiet_bind; [apply quiet_some, smart_total, S|]. intros x X.
    apply quiet_bind; [apply quiet_some; now apply (remap_calm ans elf kdir rdir v)|]. intros file R. destruct (usable w _) as [(f & n)|] eqn:U.
    - apply quiet_bind; [now apply (adjust_quiet v x file)|]. intros line L. apply quiet_bind; [apply quiet_some; now apply (good_total w f n)|]. intros g _. destruct g; [apply IH|].
      apply quiet_bind; [apply IH|]. intros r _. apply quiet_Ok.
    - apply quiet_bind; [apply IH|]. intros r _. apply quiet_Ok.
  Qed.
  Lemma scan_quiet s addrs : forall b c, quiet (scan w a elf kdir rdir s (map (fun v => answer_text (ans v)) addrs) b c).
  Proof.
    induction addrs as [|v addrs IH]; intros b c; cbn [scan map]; [apply quiet_Ok|]. apply quiet_bind; [apply quiet_some, smart_total, S|]. intros x X.
    apply quiet_bind; [apply quiet_some; now apply (remap_calm ans elf kdir rdir v)|]. intros file R.
    destruct (usable w _) as [(f & n)|] eqn:U; [|apply IH]. apply quiet_bind; [now apply (adjust_quiet v x file)|]. intros line L. apply quiet_bind; [apply quiet_some; now apply (good_total w f n)|].
    intros g _. destruct g; [apply quiet_Ok|apply IH].
  Qed.
  Lemma step3_quiet l : forall scs, quiet (step3 w a elf kdir rdir scs l).
  Proof.
    induction l as [|i l IH]; intros scs; cbn [step3]; [apply quiet_Ok|]. rewrite (ask_says w ans _ S). cbn [bind]. apply quiet_bind; [apply scan_quiet|].
    intros ((fo & iv) & h) X. destruct fo as [(f & line)|]; [apply IH|]. destruct (_ && _); [discriminate|]. apply quiet_bind; [apply IH|]. intros r _. apply quiet_Ok.
  Qed.
  Lemma search_quiet kres scs : quiet (search_locations w a elf (Some kdir) rdir kres scs).
  Proof.
    unfold search_locations. rewrite (ask_says w ans _ S). cbn [bind]. apply quiet_bind.
    { apply quiet_some. generalize (map (fun s => sym_real (sc_symbol s)) scs). induction l as [|v l (r & IH)]; [cbn; eauto|]. cbn [map mapM]. destruct (smart_total elf (Some kdir) (ans v) (proj1 S v)) as (x & ->). cbn [bind]. rewrite IH. cbn. eauto. }
    intros locs X. apply quiet_bind.
    { apply step1_all_quiet. apply mapM_Ok in X. clear -X. revert X. generalize (map (fun s => sym_real (sc_symbol s)) scs). intros l X. remember (map (fun v => answer_text (ans v)) l) as m eqn:E. revert l E.
      induction X as [|d x ds xs H X IH]; intros [|v l] E; try discriminate; [constructor|]. injection E as -> E. constructor; [now exists v|now apply (IH l)]. }
    intros r1 _. destruct (negb _ && _); [apply quiet_Ok|]. apply quiet_bind.
    { destruct (_ =? _); [apply quiet_Ok|]. rewrite (ask_says w ans _ S). cbn [bind]. apply step2_quiet. }
    intros ((scs2 & retry) & grep2) _. apply quiet_bind; [apply step3_quiet|]. intros (scs3 & grep3) _. destruct (existsb _ _); apply quiet_Ok.
  Qed.
End Quiet.

Lemma locations_total w ans have elf dir kdir rdir a kres scs out : addr2line_says (w_addr2line w) ans -> parent_of elf dir -> w_grep w = Ok out ->
  Forall (honest_line (w_file w) kdir) out -> answers_fit (w_file w) ans dir kdir rdir ->
  Forall (fun s => steady_symbol (w_file w) ans dir kdir rdir (sc_symbol s)) scs ->
  exists r, extract_syscall_locations w have a elf (Some kdir) rdir kres scs = Ok r.
Proof.
  intros S P G H Fi St. apply calm_quiet; [exact (no_panic w ans have elf dir kdir rdir a kres scs out S P G H St)|].
  apply parent_eq in P. subst dir. unfold extract_syscall_locations. destruct have; cbn [negb]; [|apply quiet_Ok]. apply quiet_bind; [now apply (search_quiet w ans)|]. intros (scs' & st) _. cbn [fst snd].
  destruct st; try apply quiet_Ok. unfold grep_kernel_sources. rewrite G. cbn [bind].
  assert (Forall (honest w kdir) (sort_by_rev Z.leb (grep_key a) out)) as H'.
  { apply Forall_forall. intros x X. unfold sort_by_rev in X. apply sort_in in X. rewrite Forall_forall in H. now apply H. }
  destruct (grep_lines_calm w kdir _ H' (map (fun x : nat * syscall => (fst x, grep_exp a (sc_origname (snd x)))) (map (fun i => (i, at_ scs' i)) l))) as (r & -> & Fr). cbn [bind].
  destruct (step4_calm w a (sort_grepped scs' r)) with (scs := scs') as (r' & ->); [|apply quiet_Ok].
  apply Forall_forall. intros x X. unfold sort_grepped in X. apply sort_by_in in X. rewrite Forall_forall in Fr. now apply Fr.
Qed.

(** * Where the good locations are *)
Section Grepped.
  Variables (w : world) (elf kdir : path) (rdir : option path) (a : arch).
  Let G := Forall (fun s : syscall => sc_grepped s = false).
  Lemma G_update scs i g : (forall s, sc_grepped (g s) = sc_grepped s) -> G scs -> G (update scs i g).
  Proof. intros E H. unfold G in *. revert i. induction H as [|s scs H0 H IH]; intros [|i]; cbn; constructor; auto. now rewrite E. all: exact H || apply IH. Qed.
  Lemma step1_G kres scs : forall locs r, G scs -> step1_all w a kdir rdir kres scs locs = Ok r -> G (map (fun x => fst (fst x)) r).
  Proof.
    induction scs as [|s scs IH]; intros [|l locs] r H E; cbn [step1_all] in E.
    - injection E as <-. constructor.
    - injection E as <-. constructor.
    - replace r with (map (fun s : syscall => (s, Done, false)) (s :: scs)) by congruence. rewrite map_map. cbn [fst]. rewrite map_id. exact H.
    - inversion H as [|? ? H1 H2]; subst. apply bind_Ok in E as (x & X & E). apply bind_Ok in E as (r' & R & E). injection E as <-. cbn [map]. constructor; [|now apply (IH locs)].
      clear -X H1. unfold step1 in X. apply bind_Ok in X as (file & _ & X). destruct (usable w _) as [(f & n)|]; [|injection X as <-; exact H1].
      apply bind_Ok in X as (line & _ & X). destruct (sc_esoteric _); [injection X as <-; exact H1|]. apply bind_Ok in X as (g & _ & X). destruct g; injection X as <-; exact H1.
  Qed.
  Lemma step2_G l : forall scs answers r, G scs -> step2 w a elf kdir rdir scs l answers = Ok r -> G (fst (fst r)).
  Proof.
    induction l as [|i l IH]; intros scs [|d answers] r F H; cbn [step2] in H; try (now injection H as <-).
    apply bind_Ok in H as (x & X & H). apply bind_Ok in H as (file & R & H).
    assert (forall r', G (fst (fst r')) -> (let '(scs, retry, grep) := r' in if 2 <? sym_size (sc_symbol (at_ scs i)) then (scs, i :: retry, grep) else (scs, retry, i :: grep)) = r -> G (fst (fst r))) as N.
    { intros ((? & ?) & ?) H1 <-. destruct (_ <? _); exact H1. }
    destruct (usable w _) as [(f & n)|].
    - apply bind_Ok in H as (line & L & H). apply bind_Ok in H as (g & Gd & H). destruct g; [apply IH in H; [exact H|now apply G_update]|]. apply bind_Ok in H as (r' & H & E). injection E as E. apply (N r'); [now apply IH in H|exact E].
    - apply bind_Ok in H as (r' & H & E). injection E as E. apply (N r'); [now apply IH in H|exact E].
  Qed.
  Lemma step3_G l : forall scs r, G scs -> step3 w a elf kdir rdir scs l = Ok r -> G (fst r).
  Proof.
    induction l as [|i l IH]; intros scs r F H; cbn [step3] in H; [injection H as <-; exact F|]. apply bind_Ok in H as (ans & _ & H). apply bind_Ok in H as (((fo & iv) & h) & _ & H).
    destruct fo as [(f & line)|]; [apply IH in H; [exact H|now apply G_update]|]. destruct (_ && _); [discriminate|]. apply bind_Ok in H as (r' & H & E). injection E as <-. now apply IH in H.
  Qed.
  Lemma search_G kres scs r : G scs -> search_locations w a elf (Some kdir) rdir kres scs = Ok r -> G (fst r).
  Proof.
    intros F H. unfold search_locations in H. apply bind_Ok in H as (an & _ & H). apply bind_Ok in H as (locs & _ & H). apply bind_Ok in H as (r1 & R1 & H). apply step1_G in R1; [|exact F].
    destruct (negb _ && _); [injection H as <-; exact R1|]. apply bind_Ok in H as (((scs2 & retry) & grep2) & R2 & H).
    assert (G scs2) as F2.
    { destruct (_ =? _); [injection R2 as <- _ _; exact R1|]. apply bind_Ok in R2 as (an2 & _ & R2). now apply step2_G in R2. }
    apply bind_Ok in H as ((scs3 & grep3) & R3 & H). apply step3_G in R3; [|exact F2]. destruct (existsb _ _); injection H as <-; exact R3.
  Qed.
  (** What the search through the sources finds. *)
  Definition from_search (Q : path * Z -> Prop) (s : syscall) : Prop := sc_grepped s = true -> exists f l, sc_file s = Some f /\ sc_line s = Some l /\ Q (f, l).
  Lemma from_update Q scs i g : (forall s, from_search Q (g s)) -> Forall (from_search Q) scs -> Forall (from_search Q) (update scs i g).
  Proof. intros E H. revert i. induction H as [|s scs H0 H IH]; intros [|i]; cbn; constructor; auto. Qed.
  Lemma step4_from (Q : path * Z -> Prop) l : Forall (fun x : nat * option (path * Z) => match snd x with Some l => Q l | None => True end) l ->
    forall scs r, Forall (from_search Q) scs -> step4 w a scs l = Ok r -> Forall (from_search Q) r.
  Proof.
    induction 1 as [|(i & [(f & n)|]) l H F IH]; intros scs r Fs E; cbn [step4] in E; [injection E as <-; exact Fs| |now apply (IH scs)].
    apply bind_Ok in E as (g & _ & E). apply IH in E; [exact E|]. destruct g; [|exact Fs]. apply from_update; [|exact Fs]. intros s _. exists f, n. cbn in *. auto.
  Qed.
  Lemma grep_lines_from {A} (Q : path * Z -> Prop) lines : (forall line l, In line lines -> grep_loc kdir line = Ok l -> Q l) -> forall (exps : list (A * Regex.re)) r,
    grep_lines kdir exps lines = Ok r -> Forall (fun x => match snd x with Some l => Q l | None => True end) r.
  Proof.
    induction lines as [|line lines IH]; intros HQ exps r H; cbn [grep_lines] in H.
    - injection H as <-. apply Forall_map, Forall_forall. intros e _. exact I.
    - assert (forall line l, In line lines -> grep_loc kdir line = Ok l -> Q l) as HQ' by (intros; apply (HQ line0); [now right|assumption]).
      destruct (take_match line exps) as [(s & exps')|]; [|now apply (IH HQ' exps)]. apply bind_Ok in H as (l & L & H). apply bind_Ok in H as (r' & R & H). injection H as <-.
      constructor; [apply (HQ line); [now left|exact L]|now apply (IH HQ' exps')].
  Qed.
  Lemma extract_from kres scs r out : w_grep w = Ok out -> Forall (honest_line (w_file w) kdir) out -> G scs ->
    extract_syscall_locations w true a elf (Some kdir) rdir kres scs = Ok r ->
    Forall (from_search (fun x => exists line, In line out /\ grep_place kdir line (fst x) (snd x))) r.
  Proof.
    intros Gr H F E. unfold extract_syscall_locations in E. cbn [negb] in E. apply bind_Ok in E as (x & X & E). apply search_G in X; [|exact F].
    assert (forall Q, Forall (from_search Q) (fst x)) as N.
    { intros Q. apply Forall_forall. intros s I T. unfold G in X. rewrite Forall_forall in X. rewrite (X s I) in T. discriminate. }
    destruct (snd x); try (injection E as <-; apply N). apply bind_Ok in E as (fo & K & E). unfold grep_kernel_sources in K. rewrite Gr in K. cbn [bind] in K.
    apply (step4_from (fun x => exists line, In line out /\ grep_place kdir line (fst x) (snd x))) in E; [exact E| |apply N]. apply Forall_forall. intros y Y. unfold sort_grepped in Y. apply sort_by_in in Y. revert y Y. rewrite <- Forall_forall.
    apply (grep_lines_from (fun x => exists line, In line out /\ grep_place kdir line (fst x) (snd x))) in K; [exact K|]. intros line z I L. unfold sort_by_rev in I. apply sort_in in I. exists line. split; [exact I|].
    rewrite Forall_forall in H. destruct (H line I) as (f & n & c & ls & P & _). pose proof (place_grep_loc _ _ _ _ P) as E1. rewrite L in E1. injection E1 as ->. exact P.
  Qed.
End Grepped.
