(** Lemmas for C101: when addr2line is run without an address. *)
From Coq Require Import List Bool Ascii String ZArith Lia Permutation.
From Verif Require Import PyBase PyFacts M_Utils M_Elf M_Syscall M_Arch M_Location M_Signature M_Annotate M_Kernel
  S_Elf S_Kernel S_Signature S_Location S_Declared S_Whole S_Blind L_Location3 L_Kernel8 L_Whole2.
Import ListNotations.
Open Scope Z_scope.
Open Scope list_scope.

Definition wide (s : syscall) : Prop := ~ no_inner (sc_symbol s).
Lemma wide_at scs i : Forall wide scs -> wide (at_ scs i).
Proof.
  intros F. unfold at_. destruct (nth_in_or_default i scs no_syscall) as [I | ->]; [|unfold wide, no_inner; cbn; lia]. rewrite Forall_forall in F. now apply F.
Qed.
Lemma wide_update scs i g : (forall s, sc_symbol (g s) = sc_symbol s) -> Forall wide scs -> Forall wide (update scs i g).
Proof.
  intros E F. revert i. induction F as [|s scs H F IH]; intros [|i]; cbn; constructor; auto. unfold wide. now rewrite E.
Qed.
Lemma inner_some s : 2 < sym_size s -> ~ no_inner s -> inner_addrs s <> [].
Proof.
  unfold no_inner, inner_addrs. intros H N E. assert (In (sym_real s + 1) (zrange (sym_real s + 1) (sym_real s + sym_size s - 2))) as I; [|rewrite E in I; contradiction].
  unfold zrange. replace (Z.to_nat (sym_real s + sym_size s - 2 - (sym_real s + 1))) with (Datatypes.S (Z.to_nat (sym_size s - 4))) by lia.
  apply in_map_iff. exists 0%nat. split; [lia|]. now left.
Qed.

Section Two.
  Variables (f : path -> option bytes) (g : outcome (list str)) (r r' : list Z -> outcome str).
  Let w := World f r g.
  Let w' := World f r' g.
  Hypothesis E : forall addrs, addrs <> [] -> r addrs = r' addrs.
  Variables (a : arch) (elf : path).

  Lemma ask_two l : l <> [] -> ask w l = ask w' l.
  Proof. intros N. unfold ask. cbn [w_addr2line w w']. now rewrite E. Qed.

  Lemma adjust_two p n : adjust_line w p n = adjust_line w' p n.
  Proof. reflexivity. Qed.
  Lemma good_two p n s : good_location w p n a s = good_location w' p n a s.
  Proof. reflexivity. Qed.
  Lemma scan_two kdir rdir s l : forall b c, scan w a elf kdir rdir s l b c = scan w' a elf kdir rdir s l b c.
  Proof.
    induction l as [|d l IH]; intros b c; cbn [scan]; [reflexivity|]. destruct (smart_loc _ _ _) as [x| | |]; try reflexivity. cbn [bind]. destruct (remap _ _ _) as [file| | |]; try reflexivity. cbn [bind].
    change (usable w' (file, snd x)) with (usable w (file, snd x)). destruct (usable w _) as [(p & n)|]; [|apply IH]. rewrite <- adjust_two. destruct (adjust_line w p n) as [line| | |]; try reflexivity. cbn [bind].
    rewrite <- good_two. destruct (good_location w p line a s) as [[|]| | |]; try reflexivity. apply IH.
  Qed.
  Lemma step1_two kdir rdir kres scs : forall locs, step1_all w a kdir rdir kres scs locs = step1_all w' a kdir rdir kres scs locs.
  Proof. induction scs as [|s scs IH]; intros [|l locs]; cbn [step1_all]; try reflexivity. rewrite IH. reflexivity. Qed.
  Lemma step2_two kdir rdir l : forall scs ans, step2 w a elf kdir rdir scs l ans = step2 w' a elf kdir rdir scs l ans.
  Proof.
    induction l as [|i l IH]; intros scs [|d ans]; cbn [step2]; try reflexivity. destruct (smart_loc _ _ _) as [x| | |]; try reflexivity. cbn [bind]. destruct (remap _ _ _) as [file| | |]; try reflexivity. cbn [bind].
    change (usable w' (file, snd x)) with (usable w (file, snd x)). destruct (usable w _) as [(p & n)|]; [|now rewrite IH]. rewrite <- adjust_two. destruct (adjust_line w p n) as [line| | |]; try reflexivity. cbn [bind].
    rewrite <- good_two. destruct (good_location w p line a (at_ scs i)) as [[|]| | |]; try reflexivity; cbn [bind]; now rewrite IH.
  Qed.
  Lemma step4_two l : forall scs, step4 w a scs l = step4 w' a scs l.
  Proof.
    induction l as [|(i & [(p & n)|]) l IH]; intros scs; cbn [step4]; try reflexivity; [|apply IH]. rewrite <- good_two. destruct (good_location w p n a (at_ scs i)) as [b| | |]; try reflexivity. apply IH.
  Qed.

  (** What is tried once more is wide enough. *)
  Lemma step2_wide kdir rdir l : forall scs ans x, Forall wide scs -> step2 w a elf kdir rdir scs l ans = Ok x ->
    Forall wide (fst (fst x)) /\ forall i, In i (snd (fst x)) -> 2 < sym_size (sc_symbol (at_ (fst (fst x)) i)).
  Proof.
    induction l as [|i l IH]; intros scs [|d ans] x F H; cbn [step2] in H; try (injection H as <-; cbn [fst snd]; split; [exact F|intros i []]).
    { apply (f_equal (fun o => match o with Ok y => y | _ => x end)) in H. subst x. cbn [fst snd]. split; [exact F|intros j []]. }
    apply bind_Ok in H as (y & _ & H). apply bind_Ok in H as (file & _ & H).
    assert (forall z, Forall wide (fst (fst z)) /\ (forall j, In j (snd (fst z)) -> 2 < sym_size (sc_symbol (at_ (fst (fst z)) j))) ->
      (let '(scs, retry, grep) := z in if 2 <? sym_size (sc_symbol (at_ scs i)) then (scs, i :: retry, grep) else (scs, retry, i :: grep)) = x ->
      Forall wide (fst (fst x)) /\ forall j, In j (snd (fst x)) -> 2 < sym_size (sc_symbol (at_ (fst (fst x)) j))) as N.
    { intros ((s' & re) & gr) (H1 & H2) <-. cbn [fst snd] in *. destruct (Z.ltb_spec 2 (sym_size (sc_symbol (at_ s' i)))); cbn [fst snd]; (split; [exact H1|]); [|exact H2].
      intros j [<-|J]; [assumption|now apply H2]. }
    destruct (usable w _) as [(f0 & n)|].
    - apply bind_Ok in H as (line & _ & H). apply bind_Ok in H as (g0 & _ & H). destruct g0.
      + apply IH in H; [exact H|]. now apply wide_update.
      + apply bind_Ok in H as (z & Z & H). apply (N z); [now apply (IH scs ans)|now injection H].
    - apply bind_Ok in H as (z & Z & H). apply (N z); [now apply (IH scs ans)|now injection H].
  Qed.
  Lemma size_update scs i j g0 : (forall s, sc_symbol (g0 s) = sc_symbol s) -> sc_symbol (at_ (update scs i g0) j) = sc_symbol (at_ scs j).
  Proof.
    intros G. destruct (Nat.eq_dec i j) as [<-|Ne]; [|now rewrite at_update_ne]. destruct (Nat.lt_ge_cases i (List.length scs)) as [Lt|Ge]; [now rewrite at_update_eq|]. now rewrite update_out.
  Qed.
  Lemma step3_two kdir rdir l : forall scs, Forall wide scs -> (forall i, In i l -> 2 < sym_size (sc_symbol (at_ scs i))) ->
    step3 w a elf kdir rdir scs l = step3 w' a elf kdir rdir scs l.
  Proof.
    induction l as [|i l IH]; intros scs F S; cbn [step3]; [reflexivity|]. rewrite ask_two by (apply inner_some; [apply S; now left|now apply wide_at]).
    destruct (ask w' _) as [ans| | |]; try reflexivity. cbn [bind]. rewrite scan_two.
    destruct (scan w' _ _ _ _ _ _ _ _) as [((fo & iv) & h)| | |]; try reflexivity. cbn [bind]. destruct fo as [(f0 & line)|].
    - apply IH; [now apply wide_update|]. intros j J. rewrite size_update by reflexivity. apply S. now right.
    - rewrite (IH scs F); [reflexivity|]. intros j J. apply S. now right.
  Qed.
  Lemma step1_wide kdir rdir kres scs : forall locs x, Forall wide scs -> step1_all w a kdir rdir kres scs locs = Ok x -> Forall wide (map (fun y => fst (fst y)) x).
  Proof.
    induction scs as [|s scs IH]; intros [|l locs] x F H; cbn [step1_all] in H.
    1, 2: injection H as <-; constructor.
    - replace x with (map (fun s : syscall => (s, Done, false)) (s :: scs)) by congruence. rewrite map_map. cbn [fst]. rewrite map_id. exact F.
    - inversion F as [|? ? F1 F2]; subst. apply bind_Ok in H as (y & Y & H). apply bind_Ok in H as (r0 & R & H). injection H as <-. cbn [map]. constructor; [|now apply (IH locs)].
      clear -Y F1. unfold step1 in Y. apply bind_Ok in Y as (file & _ & Y). destruct (usable w _) as [(f0 & n)|]; [|injection Y as <-; exact F1].
      apply bind_Ok in Y as (line & _ & Y). destruct (sc_esoteric _); [injection Y as <-; exact F1|]. apply bind_Ok in Y as (g0 & _ & Y). destruct g0; injection Y as <-; exact F1.
  Qed.
  Lemma search_two kdir rdir kres scs : scs <> [] -> (kdir <> None -> Forall wide scs) ->
    search_locations w a elf kdir rdir kres scs = search_locations w' a elf kdir rdir kres scs.
  Proof.
    intros N F. unfold search_locations. rewrite ask_two by (destruct scs; [congruence|discriminate]). destruct (ask w' _) as [ans| | |]; try reflexivity. cbn [bind].
    destruct (mapM _ _) as [locs| | |]; try reflexivity. cbn [bind]. destruct kdir as [kdir|]; [|reflexivity]. specialize (F ltac:(discriminate)).
    rewrite <- step1_two. destruct (step1_all w a kdir rdir kres scs locs) as [r1| | |] eqn:R1; try reflexivity. cbn [bind]. cbv zeta.
    apply step1_wide in R1; [|exact F]. set (scs1 := map (fun x => fst (fst x)) r1) in *. destruct (_ && _); [reflexivity|].
    set (adj := by_name scs1 _). destruct (Z.eqb_spec (len adj) 0) as [L|L].
    - cbn [bind]. rewrite (step3_two kdir rdir _ scs1 R1); [reflexivity|]. intros i I. unfold by_name, sort_by in I. exfalso. revert I. cbn. tauto.
    - rewrite ask_two by (destruct adj; [now elim L|discriminate]). destruct (ask w' _) as [ans2| | |]; try reflexivity. cbn [bind].
      rewrite <- step2_two. destruct (step2 w a elf kdir rdir scs1 adj ans2) as [((scs2 & retry) & g2)| | |] eqn:R2; try reflexivity. cbn [bind].
      apply step2_wide in R2 as (W2 & S2); [|exact R1]. cbn [fst snd] in *. rewrite (step3_two kdir rdir _ scs2 W2); [reflexivity|]. intros i I. apply S2. unfold by_name in I. now apply sort_by_in in I.
  Qed.
  Lemma locations_two have kdir rdir kres scs : scs <> [] -> (kdir <> None -> Forall wide scs) ->
    extract_syscall_locations w have a elf kdir rdir kres scs = extract_syscall_locations w' have a elf kdir rdir kres scs.
  Proof. intros N F. unfold extract_syscall_locations. rewrite (search_two kdir rdir kres scs N F). destruct (negb have); [reflexivity|].
    destruct (search_locations w' _ _ _ _ _ _) as [(scs' & st)| | |]; try reflexivity. cbn [bind fst snd]. destruct kdir; [|reflexivity]. destruct st; try reflexivity.
    change (grep_kernel_sources w' p a (map (fun i => (i, at_ scs' i)) l)) with (grep_kernel_sources w p a (map (fun i => (i, at_ scs' i)) l)).
    destruct (grep_kernel_sources w p a _) as [x| | |]; try reflexivity. apply step4_two.
  Qed.
End Two.

Lemma locations_idle w w' have a elf kdir rdir kres scs : same_but_idle w w' -> scs <> [] -> (kdir <> None -> Forall (fun s => ~ no_inner (sc_symbol s)) scs) ->
  extract_syscall_locations w have a elf kdir rdir kres scs = extract_syscall_locations w' have a elf kdir rdir kres scs.
Proof.
  destruct w as [f r g], w' as [f' r' g']. intros (F & G & A). cbn in F, G, A. subst f' g'. now apply locations_two.
Qed.
Lemma annotate_idle w w' have a e elf kdir rdir kres scs : same_but_idle w w' -> scs <> [] -> (kdir <> None -> Forall (fun s => ~ no_inner (sc_symbol s)) scs) ->
  annotate w have a e elf kdir rdir kres scs = annotate w' have a e elf kdir rdir kres scs.
Proof.
  intros S N F. unfold annotate. rewrite (locations_idle w w' have a elf kdir rdir kres scs S N F). destruct S as (-> & _). reflexivity.
Qed.
Lemma locations_empty w a elf kdir rdir kres : w_addr2line w [] = Diverge -> extract_syscall_locations w true a elf kdir rdir kres [] = Diverge.
Proof. intros D. unfold extract_syscall_locations, search_locations, ask. cbn [negb map]. rewrite D. reflexivity. Qed.

(** The extraction with another annotation that does the same with what is found. *)
Definition with_annotation (t : env) (g : list syscall -> outcome (list syscall)) : env :=
  Env (v_decode t) (v_same t) (v_insn_order t) (v_ni_order t) g.
Lemma extract_with t a e v kdir g : (forall vaddrs found, syscall_vaddrs t (adjust_abi a e) e = Ok vaddrs -> v_ni_order t (ni_functions e) <> [] ->
    M_Kernel.candidates (v_ni_order t) (adjust_abi a e) e v vaddrs = Ok found -> v_annotate t found = g found) ->
  extract_syscalls t a e v kdir = extract_syscalls (with_annotation t g) a e v kdir.
Proof.
  intros H. unfold extract_syscalls. cbn [with_annotation v_ni_order v_annotate]. destruct (xorb _ _); [reflexivity|]. cbv zeta.
  change (syscall_vaddrs (with_annotation t g) (adjust_abi a e) e) with (syscall_vaddrs t (adjust_abi a e) e).
  destruct (syscall_vaddrs t (adjust_abi a e) e) as [vaddrs| | |] eqn:V; try reflexivity. cbn [bind]. destruct vaddrs as [|x xs]; [reflexivity|].
  destruct (v_ni_order t (ni_functions e)) as [|y ys]; [reflexivity|].
  destruct (M_Kernel.candidates _ _ _ _ _) as [found| | |] eqn:C; try reflexivity. cbn [bind]. rewrite (H _ found eq_refl); [reflexivity|discriminate|exact C].
Qed.

Lemma terminal_total t a e v vaddrs w have p rdir kres ans dir kdir out : v_annotate t = annotate w have (adjust_abi a e) e p (Some kdir) rdir kres ->
  (forall l, Permutation (v_ni_order t l) l) -> syscall_vaddrs t (adjust_abi a e) e = Ok vaddrs -> sound_input (adjust_abi a e) e (map snd vaddrs) ->
  (exists i v', In (i, v') vaddrs /\ has_symbol e v' /\ ~ not_implemented e v') ->
  (forall i v', In (i, v') vaddrs -> has_symbol e v' \/ not_implemented e v') ->
  addr2line_answers (w_addr2line w) ans -> parent_of p dir -> w_grep w = Ok out -> Forall (honest_line (w_file w) kdir) out ->
  answers_fit (w_file w) ans dir kdir rdir -> definitions_fine (w_file w) ans dir kdir rdir out (adjust_abi a e) (e_big e) -> metadata_fine e ->
  (forall s, In s (map snd (e_symbols e)) -> steady_symbol (w_file w) ans dir kdir rdir s /\ ~ no_inner s) ->
  (forall found, M_Kernel.candidates (v_ni_order t) (adjust_abi a e) e v vaddrs = Ok found -> Forall fit_names found /\ (found = [] -> ni_functions e = [])) ->
  exists r, extract_syscalls t a e v (Some kdir) = Ok r.
Proof.
  intros T Hp V So Im Al (S1 & S2) P G H Fi De M St N.
  set (w' := World (w_file w) (fun l => match l with [] => Ok [] | _ => w_addr2line w l end) (w_grep w)).
  assert (same_but_idle w w') as Sb by (split; [reflexivity|]; split; [reflexivity|]; intros [|x l] Q; [congruence|reflexivity]).
  rewrite (extract_with t a e v (Some kdir) (annotate w' have (adjust_abi a e) e p (Some kdir) rdir kres)).
  - apply (whole_total _ a e v vaddrs w' have p rdir kres ans dir kdir out); try assumption; try reflexivity.
    + split; [exact S1|]. intros [|x l]; [reflexivity|]. now apply S2.
    + intros s I. now apply St.
    + intros found C. now apply N.
  - intros vs found V' No C. rewrite V in V'. injection V' as <-. rewrite T. destruct (N found C) as (_ & N2). apply annotate_idle; [exact Sb| |].
    + intros ->. apply No. specialize (Hp (ni_functions e)). rewrite (N2 eq_refl) in *. now apply Permutation_sym, Permutation_nil in Hp.
    + intros _. pose proof (candidates_symbols _ _ _ _ _ _ Hp C) as Sy. revert Sy. apply Forall_impl. intros s I. now apply St.
Qed.
