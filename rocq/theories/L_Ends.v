(** Lemmas: when the analysis does not end (C99). *)
From Coq Require Import List Bool Ascii String ZArith Lia Permutation.
From Verif Require Import PyBase PyFacts M_Utils M_Elf S_Elf M_Syscall M_Arch M_Emu M_Build M_Kconfig M_Kernel S_Kernel M_Signature M_Location M_Annotate
  S_Signature S_Location L_Emu L_Signature L_Signature2 L_Kernel2 L_Kernel10 L_Location L_Location3 L_Sourceless L_Declared2 L_Whole2 S_Blind L_Blind S_Ends.
Import ListNotations.
Open Scope Z_scope.
Open Scope list_scope.

Definition ends {A} (o : outcome A) : Prop := o <> Diverge.
Lemma ends_bind {A B} (x : outcome A) (f : A -> outcome B) : ends x -> (forall a, x = Ok a -> ends (f a)) -> ends (bind x f).
Proof. apply bind_halts. Qed.
Lemma ends_mapM {A B} (f : A -> outcome B) l : (forall x, In x l -> ends (f x)) -> ends (mapM f l).
Proof.
  intros H. induction l as [|x l IH]; cbn; [discriminate|]. apply ends_bind; [apply H; now left|intros y _]. apply ends_bind; [|discriminate]. apply IH. intros z Z. apply H. now right.
Qed.
Lemma ends_filterM {A} (f : A -> outcome bool) l : (forall x, ends (f x)) -> ends (filterM f l).
Proof.
  intros H. induction l as [|x l IH]; cbn; [discriminate|]. apply ends_bind; [apply H|intros y _]. apply ends_bind; [exact IH|]. discriminate.
Qed.
Lemma ends_assert b : ends (assert_ b).
Proof. apply assert_halts. Qed.
Lemma ends_vaddr secs v : ends (vaddr_to_off secs v).
Proof. induction secs as [|s secs IH]; cbn; [discriminate|]. destruct (in_section s v); [discriminate|exact IH]. Qed.
Lemma ends_read e v n : ends (vaddr_read e v n).
Proof. apply ends_bind; [apply ends_vaddr|discriminate]. Qed.
Lemma ends_unpack big n b : ends (unpack_u big n b).
Proof. unfold unpack_u. destruct (_ =? _); discriminate. Qed.
Lemma ends_iter big n b : ends (iter_unpack_u big n b).
Proof. unfold iter_unpack_u. destruct (chunks _ _ _); discriminate. Qed.
Lemma ends_long e v : ends (unpack_long e v).
Proof. apply ends_bind; [apply ends_read|intros; apply ends_unpack]. Qed.
Lemma ends_table e tbl sec : ends (unpack_syscall_table e tbl sec).
Proof.
  apply ends_bind; [apply ends_vaddr|]. intros off _. destruct (_ <? _); [apply ends_iter|]. cbv zeta.
  match goal with |- ends (read_entries ?f ?b ?n ?s ?bd ?r ?c) => destruct (read_entries_outcome f b n s bd r c) as [(l & ->)| ->] end; try discriminate; [|lia].
  unfold long_size. destruct (e_bits32 e); lia.
Qed.
Lemma ends_vaddrs t a e : ends (syscall_vaddrs t a e).
Proof.
  unfold syscall_vaddrs. destruct (a_table a) as [name|] eqn:T.
  - unfold vaddrs_from_table. destruct (dget _ name _) as [tbl|]; [|discriminate]. destruct (dget _ _ _) as [text|]; [|discriminate]. cbv zeta.
    assert (ends (l <- unpack_syscall_table e tbl text ;; Ok (enum_from 0 l))) as D by (apply ends_bind; [apply ends_table|discriminate]).
    destruct (negb _); [exact D|]. apply ends_bind; [apply ends_long|]. intros first _. destruct (in_target _ _); [exact D|]. destruct (dget _ _ _) as [opd|]; [|discriminate].
    apply ends_bind; [apply ends_table|]. intros ds _. apply ends_bind; [apply ends_mapM; intros; apply ends_long|]. intros l _. destruct l; [exact D|discriminate].
  - destruct (a_class a); try discriminate. unfold extract_syscall_vaddrs. rewrite T. destruct (dget _ _ _) as [sym|]; [|discriminate]. destruct (_ <? _); [discriminate|].
    apply ends_bind; [apply ends_read|]. intros c _. apply ends_bind; [apply emulate_terminates|]. intros [[m l]|] _; discriminate.
Qed.
Lemma ends_dummy a s e n c : ends (is_dummy_syscall a s e n c).
Proof.
  unfold is_dummy_syscall. destruct (match n with Some _ => _ | None => _ end); [discriminate|]. apply ends_bind.
  { destruct c; [|discriminate]. apply ends_bind; [apply ends_read|discriminate]. }
  intros same _. destruct same; [destruct n; discriminate|]. apply ends_bind; [|discriminate]. unfold dummy_syscall_code. destruct (a_class a); try discriminate.
  - unfold arm_dummy. destruct (negb _); [discriminate|]. apply ends_bind; [apply ends_read|]. intros x _. destruct (bytes_in _ _); discriminate.
  - unfold mips_dummy. destruct (negb _); [discriminate|]. apply ends_bind; [apply ends_read|]. intros x _. cbv zeta.
    match goal with |- ends (match ?m with _ => _ end) => destruct m; [|discriminate] end. destruct (_ || _); discriminate.
  - unfold ppc_dummy. destruct (_ <? _); [discriminate|]. apply ends_bind; [apply ends_read|]. intros x _. apply ends_bind; [apply ends_iter|]. intros ws _.
    destruct (ppc_scan _ _ _ _) as [[[d i] l]|]; [|discriminate]. destruct (negb _); [discriminate|]. destruct (ver_eqb _ _); discriminate.
  - assert (forall T (l : list T) i, ends (index_ l i)) as Ei by (intros T l i; unfold index_; destruct (_ <? 0); [discriminate|]; destruct (nth_error _ _); discriminate).
    unfold x86_dummy. cbv zeta. destruct (_ || _); [discriminate|]. apply ends_bind; [apply ends_read|]. intros x _.
    set (endbr := _ || _ : bool). set (code_ := if endbr then _ else _). set (sz := if endbr then _ else _).
    assert (forall k i b, ends (if sz =? k then (c <- index_ code_ i ;; Ok (code c =? b)) else Ok false)) as Ec.
    { intros k i b. destruct (sz =? k); [|discriminate]. apply ends_bind; [apply Ei|discriminate]. }
    apply ends_bind.
    { destruct (_ && _); [|discriminate]. apply ends_bind; [apply Ec|]. intros b1 _. destruct b1; [discriminate|]. apply ends_bind; [apply Ec|]. intros b2 _. destruct b2; [discriminate|]. apply Ec. }
    intros r _. destruct r; [discriminate|]. apply ends_bind.
    { destruct (_ && _); [|discriminate]. apply ends_bind; [apply Ec|]. intros b1 _. destruct b1; [discriminate|]. apply ends_bind; [apply Ec|]. intros b2 _. destruct b2; [discriminate|]. apply Ec. }
    intros r _. destruct r; discriminate.
Qed.
Lemma ends_candidates ni_order a e v vaddrs : ends (candidates ni_order a e v vaddrs).
Proof.
  unfold candidates. cbv zeta. destruct (ni_order _) as [|f fs]; [discriminate|].
  apply ends_bind. { unfold common_syscall_symbol_prefixes. destruct (map _ _); discriminate. }
  intros pre _. apply ends_bind.
  { unfold extract_esoteric_syscalls. destruct (a_class a); try discriminate. unfold ppc_esoteric. destruct (_ || _); [discriminate|]. destruct (dget _ _ _) as [exc|]; [|discriminate]. cbv zeta.
    apply ends_bind; [apply ends_read|]. intros c _. apply ends_bind; [apply ends_iter|discriminate]. }
  intros eso _. apply ends_bind. { apply ends_mapM. intros [[[[n nm] sn] sig] kc] _. unfold make_esoteric. destruct (dget _ _ _); discriminate. }
  intros esl _. apply ends_bind; [apply ends_assert|]. intros _ _. apply ends_bind.
  { match goal with |- ends (match ?m with _ => _ end) => destruct m; [|discriminate] end. apply ends_bind; [apply ends_read|discriminate]. }
  intros code _. apply ends_filterM. intros s. apply ends_bind; [apply ends_dummy|discriminate].
Qed.

(** * Locations *)
Lemma ends_rel p r : ends (maybe_rel p r).
Proof.
  unfold maybe_rel. destruct r as [r|]; [|discriminate]. destruct p as [q|]; [|discriminate]. destruct (is_relative_to _ _) eqn:E; [|discriminate].
  unfold relative_to. rewrite E. discriminate.
Qed.
Lemma ends_smart elf dir d : ends (smart_loc elf dir d).
Proof.
  apply ends_bind.
  - unfold parse_loc. destruct (split_char _ _) as [|f [|l [|x r]]]; try discriminate. destruct (str_eqb _ _); [discriminate|]. destruct (isdigit _); [|discriminate]. destruct (forallb _ _); discriminate.
  - intros (f & l) _. cbn. destruct dir as [dir|]; [|discriminate]. destruct f as [f|]; [|discriminate]. destruct (is_relative_to _ _) eqn:E; [|discriminate].
    apply ends_bind; [|discriminate]. unfold relative_to. rewrite E. discriminate.
Qed.
Lemma ends_remap kdir rdir p : ends (remap kdir rdir p).
Proof. unfold remap. destruct p as [f|]; [|discriminate]. destruct rdir; [|discriminate]. apply ends_bind; [apply ends_rel|discriminate]. Qed.
Lemma ends_adjust w f n : ends (adjust_line w f n).
Proof.
  unfold adjust_line. destruct (w_file w f) as [c|]; [|discriminate]. apply ends_bind; [|discriminate]. generalize (Z.to_nat n). intros k.
  induction k as [|k IH]; cbn [go_up]; [discriminate|]. destruct (nth_error _ _); [|discriminate]. cbv zeta. destruct (_ && _); [discriminate|]. destruct (str_eqb _ _); [|exact IH]. destruct (signature_line _ _); discriminate.
Qed.
Lemma ends_good w f l a s : ends (good_location w f l a s).
Proof. unfold good_location. destruct (w_file w f); [|discriminate]. cbv zeta. destruct (_ <? _)%nat; discriminate. Qed.

Section Locations.
  Context (w : world) (a : arch) (elf : path).
  Hypothesis A : forall addrs, ends (w_addr2line w addrs).
  Lemma ends_ask l : ends (ask w l).
  Proof. unfold ask. apply ends_bind; [apply A|discriminate]. Qed.
  Lemma ends_step1 kdir rdir kres scs : forall locs, ends (step1_all w a kdir rdir kres scs locs).
  Proof.
    induction scs as [|s scs IH]; intros [|l locs]; cbn [step1_all]; try discriminate. apply ends_bind.
    - unfold step1. apply ends_bind; [apply ends_remap|]. intros file _. destruct (usable _ _) as [(f & n)|]; [|discriminate]. apply ends_bind; [apply ends_adjust|]. intros line _.
      destruct (sc_esoteric _); [discriminate|]. apply ends_bind; [apply ends_good|]. intros g _. destruct g; discriminate.
    - intros x _. apply ends_bind; [apply IH|discriminate].
  Qed.
  Lemma ends_step2 kdir rdir l : forall scs ans, ends (step2 w a elf kdir rdir scs l ans).
  Proof.
    induction l as [|i l IH]; intros scs [|d ans]; cbn [step2]; try discriminate. apply ends_bind; [apply ends_smart|]. intros x _. apply ends_bind; [apply ends_remap|]. intros file _.
    destruct (usable _ _) as [(f & n)|]; [|apply ends_bind; [apply IH|discriminate]]. apply ends_bind; [apply ends_adjust|]. intros line _. apply ends_bind; [apply ends_good|]. intros g _.
    destruct g; [apply IH|]. apply ends_bind; [apply IH|discriminate].
  Qed.
  Lemma ends_scan kdir rdir s ans : forall b c, ends (scan w a elf kdir rdir s ans b c).
  Proof.
    induction ans as [|d ans IH]; intros b c; cbn [scan]; [discriminate|]. apply ends_bind; [apply ends_smart|]. intros x _. apply ends_bind; [apply ends_remap|]. intros file _.
    destruct (usable _ _) as [(f & n)|]; [|apply IH]. apply ends_bind; [apply ends_adjust|]. intros line _. apply ends_bind; [apply ends_good|]. intros g _. destruct g; [discriminate|apply IH].
  Qed.
  Lemma ends_step3 kdir rdir l : forall scs, ends (step3 w a elf kdir rdir scs l).
  Proof.
    induction l as [|i l IH]; intros scs; cbn [step3]; [discriminate|]. apply ends_bind; [apply ends_ask|]. intros an _. apply ends_bind; [apply ends_scan|]. intros ((fo & iv) & h) _.
    destruct fo as [(f & line)|]; [apply IH|]. destruct (_ && _); [discriminate|]. apply ends_bind; [apply IH|discriminate].
  Qed.
  Lemma ends_step4 l : forall scs, ends (step4 w a scs l).
  Proof.
    induction l as [|(i & [(f & n)|]) l IH]; intros scs; cbn [step4]; [discriminate| |apply IH]. apply ends_bind; [apply ends_good|]. intros g _. apply IH.
  Qed.
  Lemma ends_search kdir rdir kres scs : ends (search_locations w a elf kdir rdir kres scs).
  Proof.
    unfold search_locations. apply ends_bind; [apply ends_ask|]. intros an _. apply ends_bind; [apply ends_mapM; intros; apply ends_smart|]. intros locs _. destruct kdir as [kdir|]; [|discriminate].
    apply ends_bind; [apply ends_step1|]. intros r1 _. cbv zeta. destruct (_ && _); [discriminate|]. apply ends_bind.
    { destruct (_ =? _); [discriminate|]. apply ends_bind; [apply ends_ask|]. intros; apply ends_step2. }
    intros ((scs2 & retry) & g2) _. apply ends_bind; [apply ends_step3|]. intros (scs3 & g3) _. destruct (existsb _ _); discriminate.
  Qed.
  Lemma ends_grep_lines {T} kdir out : forall (exps : list (T * Regex.re)), ends (grep_lines kdir exps out).
  Proof.
    induction out as [|line out IH]; intros exps; cbn [grep_lines]; [discriminate|]. destruct (take_match _ _) as [(s & exps')|]; [|apply IH].
    apply ends_bind; [|intros l _; apply ends_bind; [apply IH|discriminate]]. unfold grep_loc. destruct (split_char _ _) as [|f [|l r]]; try discriminate. destruct (_ && _); discriminate.
  Qed.
  Lemma ends_locations have kdir rdir kres scs : (kdir <> None -> ends (w_grep w)) -> ends (extract_syscall_locations w have a elf kdir rdir kres scs).
  Proof.
    intros G. unfold extract_syscall_locations. destruct (negb have); [discriminate|]. apply ends_bind; [apply ends_search|]. intros (r & st) _. cbn [fst snd]. destruct kdir as [kdir|]; [|discriminate].
    destruct st; try discriminate. apply ends_bind; [|intros; apply ends_step4]. apply ends_bind; [apply G; discriminate|]. intros out _. apply ends_grep_lines.
  Qed.
End Locations.

(** * Signatures *)
Lemma read_to_nul_diverge rest : forall acc, read_to_nul rest acc = Diverge -> ~ In (chr 0) rest /\ (acc <> [] \/ rest <> []).
Proof.
  induction rest as [|c rest IH]; intros acc H; cbn [read_to_nul] in H.
  - split; [intros []|]. left. destruct acc; [discriminate H|discriminate].
  - destruct (code c =? 0) eqn:E; [discriminate|]. apply IH in H as [H _]. split; [|right; discriminate]. intros [->|I]; [discriminate E|now apply H].
Qed.
Lemma string_hangs e v : vaddr_read_string e v = Diverge -> unterminated e v.
Proof.
  unfold vaddr_read_string. destruct (vaddr_to_file_offset e v) as [off| | |] eqn:O; cbn [bind]; intros H; try discriminate; [|now apply ends_vaddr in O].
  apply read_to_nul_diverge in H as [N [X|X]]; [congruence|]. apply place_iff in O.
  exists off, (firstn (Z.to_nat off) (e_file e)), (skipn (Z.to_nat off) (e_file e)). split; [exact O|]. split; [symmetry; apply firstn_skipn|]. split; [|split; [exact X|exact N]].
  unfold len. rewrite firstn_length_le; [lia|]. destruct (Nat.le_gt_cases (Z.to_nat off) (List.length (e_file e))) as [L|L]; [exact L|]. elim X. apply skipn_all2. lia.
Qed.
Lemma ends_string e v : ~ unterminated e v -> ends (vaddr_read_string e v).
Proof. intros N E. apply N. now apply string_hangs. Qed.
Lemma ends_metadata e : (forall start v, dget str_eqb $"__start_syscalls_metadata" (e_symbols e) = Some start -> ~ unterminated e v) -> ends (read_metadata e).
Proof.
  intros S. unfold read_metadata. destruct (dget str_eqb $"__start_syscalls_metadata" (e_symbols e)) as [start|] eqn:D; [|discriminate]. assert (forall v, ~ unterminated e v) as U by (intros v; now apply (S start)). clear S D.
  match goal with |- ends (match ?m with _ => _ end) => destruct m as [stop|]; [|discriminate] end. cbv zeta.
  apply ends_bind; [apply ends_read|]. intros b _. apply ends_bind; [apply ends_iter|]. intros ptrs _. apply ends_bind.
  { match goal with |- ends (match ?m with _ => _ end) => destruct m as [o|]; [|discriminate] end. destruct (_ =? _); [discriminate|]. apply ends_assert. }
  intros _ _. apply ends_bind; [|discriminate]. apply ends_mapM. intros p _. unfold meta_entry. apply ends_bind.
  { unfold unpack_meta. cbv zeta. apply ends_bind; [apply ends_read|]. intros x _. destruct (negb _); discriminate. }
  intros (((name & nargs) & types) & args) _. apply ends_bind; [apply ends_assert|]. intros _ _. apply ends_bind; [apply ends_string; apply U|]. intros n _.
  apply ends_bind; [|discriminate]. apply ends_mapM. intros i _. unfold meta_param. cbv zeta.
  assert (forall v, ends (read_ptr e v)) as P by (intros v; unfold read_ptr; cbv zeta; apply ends_bind; [apply ends_read|intros; apply ends_unpack]).
  apply ends_bind; [apply P|]. intros tp _. apply ends_bind; [apply P|]. intros ap _. apply ends_bind; [apply ends_string; apply U|]. intros ts _. apply ends_bind; [apply ends_string; apply U|]. intros x _.
  apply param_halts.
Qed.
Lemma reads_universal s : reads_as s (universal s).
Proof.
  assert (forall n s, (List.length s <= n)%nat -> reads_as s (universal s)) as H; [|now apply (H (List.length s))].
  clear s. induction n as [|n IH]; intros [|c s] L; try apply ra_nil; cbn [List.length] in L; [lia|]. cbn [universal]. destruct (Ascii.eqb_spec c CR) as [->|N].
  - destruct s as [|d s]; [apply (ra_cr [] []); [apply ra_nil|discriminate]|]. destruct (Ascii.eqb_spec d NL) as [->|M].
    + apply ra_crlf. apply IH. cbn [List.length] in L. lia.
    + apply ra_cr; [apply IH; lia|]. intros r E. injection E as E _. now apply M.
  - apply ra_other; [apply IH; lia|exact N].
Qed.
Lemma source_hangs content l big : signature_from_text content l big = Diverge -> unclosed content l.
Proof.
  intros H. apply from_text_halts in H as (L & H). exists (universal content), (lines_keep (universal content)). split; [apply reads_universal|]. split; [apply lines_of_ex|].
  split; [unfold len; lia|exact H].
Qed.

Section Ends.
  Variables (t : env) (a : arch) (e : elf) (v : version) (have : bool) (p : path) (rdir kdir : option path) (kres : path).
  Definition names_fine (idle : outcome str) : Prop :=
    forall vaddrs found, syscall_vaddrs t (adjust_abi a e) e = Ok vaddrs -> v_ni_order t (ni_functions e) <> [] -> M_Kernel.candidates (v_ni_order t) (adjust_abi a e) e v vaddrs = Ok found ->
      Forall fit_names found /\ (found = [] -> idle <> Diverge).
  Lemma extraction_ends_all w : v_annotate t = annotate w have (adjust_abi a e) e p kdir rdir kres -> names_fine (Ok []) ->
    ~ hang w (adjust_abi a e) e kdir -> w_addr2line w [] <> Diverge -> ends (extract_syscalls t a e v kdir).
  Proof.
    intros T W N Id. unfold extract_syscalls. destruct (xorb _ _); [discriminate|]. cbv zeta. apply ends_bind; [apply ends_vaddrs|]. intros vaddrs V. destruct vaddrs as [|x vaddrs]; [discriminate|]. destruct (v_ni_order t (ni_functions e)) as [|y ys] eqn:No; [discriminate|].
    apply ends_bind; [apply ends_candidates|]. intros found C. apply ends_bind; [|intros located _; apply ends_filterM; intros s; unfold keep_located; destruct (_ && _); [|discriminate]; destruct (sc_file s); [|discriminate]; apply ends_bind; [apply ends_rel|discriminate]].
    rewrite T. apply ends_bind.
    { apply ends_locations; [intros [|u l] D; [now apply Id|]; apply N; apply (hang_addr2line _ _ _ _ (u :: l)); [discriminate|exact D]|]. intros K D. apply N. now apply hang_search. }
    intros located L. apply ends_bind; [apply ends_metadata; intros start u D U; apply N; now apply (hang_string _ _ _ _ start u)|]. intros meta _. apply ends_mapM. intros s I.
    pose proof (candidates_fresh _ _ _ _ _ _ C) as Fr. assert (Forall (fun s => sc_good s = false) found) as B by (revert Fr; apply Forall_impl; intros z Q; apply Q).
    pose proof (extract_found _ _ _ _ _ _ _ _ _ B L) as F. apply In_nth_error in I as (i & I). destruct (L_Declared2.Forall2_nth_r _ _ _ _ _ F I) as (s0 & I0 & (Sm & G)).
    unfold sign. destruct (sc_esoteric s); [discriminate|]. destruct (sc_good s) eqn:Gd.
    - specialize (G eq_refl) as (f & l & content & text & E1 & E2 & E3 & X & D). rewrite E1, E2. destruct kdir as [k|]; [|discriminate]. cbn [assert_ bind].
      apply ends_bind; [|discriminate]. unfold syscall_signature_from_source. rewrite E3. intros H. apply source_hangs in H. apply N.
      destruct D as [D|D]; refine (hang_source _ _ _ _ f l content _ text _ E3 X D H); discriminate.
    - destruct meta as [d|]; [|discriminate]. destruct (dget _ _ _); [discriminate|]. destruct (dget _ _ _); discriminate.
  Qed.
End Ends.
Lemma extraction_ends t a e v w have p rdir kdir kres : v_annotate t = annotate w have (adjust_abi a e) e p kdir rdir kres ->
  (forall l, Permutation (v_ni_order t l) l) ->
  (forall vaddrs found, syscall_vaddrs t (adjust_abi a e) e = Ok vaddrs -> v_ni_order t (ni_functions e) <> [] -> M_Kernel.candidates (v_ni_order t) (adjust_abi a e) e v vaddrs = Ok found ->
    Forall fit_names found /\ (found = [] -> w_addr2line w [] <> Diverge)) ->
  ~ hang w (adjust_abi a e) e kdir -> ends (extract_syscalls t a e v kdir).
Proof.
  intros T Hp W N. assert (names_fine t a e v (Ok [])) as W0 by (intros vaddrs found V No C; split; [now apply (W vaddrs)|discriminate]).
  assert (w_addr2line w [] = Diverge \/ w_addr2line w [] <> Diverge) as [D|D] by (destruct (w_addr2line w []); (now left) || (right; discriminate)).
  2: now apply (extraction_ends_all t a e v have p rdir kdir kres w).
  set (w' := World (w_file w) (fun l => match l with [] => Ok [] | _ => w_addr2line w l end) (w_grep w)).
  assert (same_but_idle w w') as Sb by (split; [reflexivity|]; split; [reflexivity|]; intros [|x l] Q; [congruence|reflexivity]).
  rewrite (extract_with t a e v kdir (annotate w' have (adjust_abi a e) e p kdir rdir kres)).
  - apply (extraction_ends_all _ a e v have p rdir kdir kres w'); [reflexivity|exact W0| |discriminate].
    intros [addrs Q H|s K I Q H|K H|start u K U|f l c n x K K1 K2 K3 K4]; apply N.
    + destruct addrs as [|y l]; [congruence|]. now apply (hang_addr2line _ _ _ _ (y :: l)).
    + discriminate H.
    + now apply hang_search.
    + now apply (hang_string _ _ _ _ start u).
    + now apply (hang_source _ _ _ _ f l c n x).
  - intros vaddrs found V No C. rewrite T. apply annotate_idle; [exact Sb| |].
    + intros ->. now apply (proj2 (W _ _ V No C) eq_refl).
    + intros K. pose proof (candidates_symbols _ _ _ _ _ _ Hp C) as Sy. revert Sy. apply Forall_impl. intros s I Q. apply N. now apply (hang_idle _ _ _ _ (sc_symbol s)).
Qed.
Lemma bare_ends t a e v w have p rdir kres : v_annotate t = annotate w have (adjust_abi a e) e p None rdir kres ->
  (forall l, Permutation (v_ni_order t l) l) ->
  (forall vaddrs found, syscall_vaddrs t (adjust_abi a e) e = Ok vaddrs -> v_ni_order t (ni_functions e) <> [] -> M_Kernel.candidates (v_ni_order t) (adjust_abi a e) e v vaddrs = Ok found ->
    Forall fit_names found /\ (found = [] -> w_addr2line w [] <> Diverge)) ->
  dget str_eqb $"__start_syscalls_metadata" (e_symbols e) = None -> (forall addrs, addrs <> [] -> w_addr2line w addrs <> Diverge) ->
  extract_syscalls t a e v None <> Diverge.
Proof.
  intros T Hp W M A. apply (extraction_ends t a e v w have p rdir None kres T Hp W). intros [addrs D|s K|K D|start u D U|f l c n x K _ _ _ _]; [now apply (A addrs)|congruence|congruence| |congruence].
  pose proof (eq_trans (eq_sym M) D). discriminate.
Qed.
Lemma reads_as_universal s t : reads_as s t -> t = universal s.
Proof.
  intros H. induction H as [|s t H IH|s t H IH N|c s t H IH N]; [reflexivity|cbn; now rewrite IH| |].
  - cbn [universal]. rewrite Ascii.eqb_refl. destruct s as [|d s]; [now rewrite IH|]. destruct (Ascii.eqb_spec d NL) as [->|M]; [now elim (N s)|now rewrite IH].
  - cbn [universal]. destruct (Ascii.eqb_spec c CR) as [->|M]; [congruence|now rewrite IH].
Qed.
