(** Lemmas about the model of kernel.py: the order of the symbol table (C26). *)
From Coq Require Import List Bool Ascii String ZArith Lia Permutation Sorted.
From Verif Require Import PyBase PyFacts Regex M_Utils S_Utils M_Elf S_Elf L_Elf L_ElfText M_Syscall L_Syscall M_Arch S_Arch
  L_Arch L_Arch2 M_Emu S_Emu L_Emu3 M_Kconfig M_Kernel S_Kernel L_Kernel2 L_Kernel3 L_Kernel4 L_Kernel5 L_Kernel6 L_Kernel7 L_Kernel8
  L_Kernel9.
Import ListNotations.
Open Scope Z_scope.
Open Scope list_scope.

Lemma dget_perm {V} (d1 d2 : dict str V) k : NoDup (dkeys d1) -> Permutation d1 d2 ->
  dget str_eqb k d1 = dget str_eqb k d2.
Proof.
  intros N P. assert (NoDup (dkeys d2)) as N2 by (eapply Permutation_NoDup; [apply Permutation_map; exact P|exact N]).
  destruct (dget str_eqb k d1) as [x|] eqn:E.
  - symmetry. apply (dget_In_nodup str_eqb str_eqb_eq); [exact N2|]. eapply Permutation_in; [exact P|].
    now apply (dget_In str_eqb str_eqb_eq).
  - destruct (dget str_eqb k d2) as [y|] eqn:E2; [|reflexivity]. exfalso.
    apply (dget_In str_eqb str_eqb_eq) in E2. apply (Permutation_in _ (Permutation_sym P)) in E2.
    rewrite (dget_In_nodup str_eqb str_eqb_eq k y d1 N E2) in E. discriminate.
Qed.
Lemma dmem_dget {V} (d : dict str V) k : dmem str_eqb k d = match dget str_eqb k d with Some _ => true | None => false end.
Proof. reflexivity. Qed.

(** Two images that differ in the order of their symbols only. *)
Record same_image (e e' : elf) : Prop := Same {
  sa_file : e_file e' = e_file e; sa_sec : e_sections e' = e_sections e; sa_bits : e_bits32 e' = e_bits32 e;
  sa_big : e_big e' = e_big e; sa_machine : e_machine e' = e_machine e; sa_flags : e_flags e' = e_flags e;
  sa_syms : Permutation (e_symbols e) (e_symbols e'); sa_funs : Permutation (e_functions e) (e_functions e')
}.

Section Same.
  Context (e e' : elf).
  Hypothesis S : same_image e e'.
  Hypothesis W : wf e.

  Lemma s_sym k : dget str_eqb k (e_symbols e') = dget str_eqb k (e_symbols e).
  Proof. symmetry. apply dget_perm; [apply W|apply S]. Qed.
  Lemma s_fun k : dget str_eqb k (e_functions e') = dget str_eqb k (e_functions e).
  Proof. symmetry. apply dget_perm; [apply W|apply S]. Qed.
  Lemma s_has k : has_sym e' k = has_sym e k.
  Proof. unfold has_sym. now rewrite !dmem_dget, s_sym. Qed.

  Lemma s_off v : vaddr_to_file_offset e' v = vaddr_to_file_offset e v.
  Proof. unfold vaddr_to_file_offset. now rewrite (sa_sec _ _ S). Qed.
  Lemma s_vread v n : vaddr_read e' v n = vaddr_read e v n.
  Proof. unfold vaddr_read. now rewrite s_off, (sa_file _ _ S). Qed.
  Lemma s_read s : read_symbol e' s = read_symbol e s.
  Proof. unfold read_symbol. apply s_vread. Qed.
  Lemma s_long : long_size e' = long_size e.
  Proof. unfold long_size. now rewrite (sa_bits _ _ S). Qed.
  Lemma s_unpack v : unpack_long e' v = unpack_long e v.
  Proof. unfold unpack_long. now rewrite s_long, s_vread, (sa_big _ _ S). Qed.

  (** The next symbol may be another one, but at the same address. *)
  Lemma s_next s : option_map sym_vaddr (next_symbol e' s) = option_map sym_vaddr (next_symbol e s).
  Proof.
    unfold next_symbol.
    assert (Permutation (filter (fun x => sym_real s <? sym_real x) (dvalues (e_symbols e)))
                        (filter (fun x => sym_real s <? sym_real x) (dvalues (e_symbols e')))) as P.
    { apply filter_perm. unfold dvalues. apply Permutation_map. apply S. }
    destruct (filter _ (dvalues (e_symbols e))) as [|c cs], (filter _ (dvalues (e_symbols e'))) as [|d ds].
    - reflexivity.
    - apply Permutation_nil in P. discriminate.
    - apply Permutation_sym, Permutation_nil in P. discriminate.
    - cbn [option_map]. f_equal. apply Z.le_antisymm.
      + apply min_by_le. eapply Permutation_in; [exact P|]. apply min_by_in.
      + apply min_by_le. eapply Permutation_in; [apply Permutation_sym; exact P|]. apply min_by_in.
  Qed.

  Lemma s_adjust a : adjust_abi a e' = adjust_abi a e.
  Proof. unfold adjust_abi. now rewrite !s_has. Qed.

  Lemma s_table tbl target : unpack_syscall_table e' tbl target = unpack_syscall_table e tbl target.
  Proof.
    unfold unpack_syscall_table, iter_unpack_sized. rewrite s_off. cbv zeta.
    rewrite s_long, (sa_file _ _ S), (sa_big _ _ S).
    assert (match next_symbol e' tbl with Some s => Some (sym_vaddr s) | None => None end =
            match next_symbol e tbl with Some s => Some (sym_vaddr s) | None => None end) as -> by exact (s_next tbl).
    reflexivity.
  Qed.

  Lemma mapM_ext {A B} (f g : A -> outcome B) l : (forall x, f x = g x) -> mapM f l = mapM g l.
  Proof. intros H. induction l as [|x l IH]; cbn; [reflexivity|]. now rewrite H, IH. Qed.

  Lemma s_vaddrs t a : syscall_vaddrs t a e' = syscall_vaddrs t a e.
  Proof.
    unfold syscall_vaddrs, vaddrs_from_table, extract_syscall_vaddrs.
    destruct (a_table a) as [name|].
    - rewrite s_sym, (sa_sec _ _ S). destruct (dget str_eqb name (e_symbols e)) as [tbl|]; [|reflexivity].
      destruct (dget str_eqb $".text" (e_sections e)) as [text|]; [|reflexivity]. cbv zeta.
      rewrite !s_table. destruct (negb (a_fdesc a)); [reflexivity|]. rewrite s_unpack.
      destruct (unpack_long e (sym_vaddr tbl)); try reflexivity. cbn [bind]. destruct (in_target text a0); [reflexivity|].
      destruct (dget str_eqb $".opd" (e_sections e)) as [opd|]; [|reflexivity]. rewrite s_table.
      destruct (unpack_syscall_table e tbl opd); try reflexivity. cbn [bind].
      now rewrite (mapM_ext (unpack_long e') (unpack_long e)) by apply s_unpack.
    - destruct (a_class a); try reflexivity. rewrite s_fun. destruct (dget str_eqb _ (e_functions e)) as [sym|]; [|reflexivity].
      now rewrite s_read.
  Qed.

  Lemma s_eso a : extract_esoteric_syscalls a e' = extract_esoteric_syscalls a e.
  Proof.
    unfold extract_esoteric_syscalls, arm_esoteric, ppc_esoteric. rewrite !dmem_dget, s_fun, s_sym.
    destruct (a_class a); try reflexivity. destruct (_ || _); [reflexivity|].
    destruct (dget str_eqb _ (e_symbols e)) as [exc|]; [|reflexivity]. cbv zeta.
    assert (match next_symbol e' exc with Some s => sym_vaddr s | None => sym_vaddr exc + 128 end =
            match next_symbol e exc with Some s => sym_vaddr s | None => sym_vaddr exc + 128 end) as ->.
    { pose proof (s_next exc) as N. destruct (next_symbol e' exc), (next_symbol e exc); try discriminate N; cbn in N; congruence. }
    now rewrite s_vread, (sa_big _ _ S).
  Qed.

  Lemma s_make x : make_esoteric e' x = make_esoteric e x.
  Proof. destruct x as [[[[n nm] sn] sig] kc]. unfold make_esoteric. now rewrite s_sym. Qed.

  Lemma s_dummy a sym ref c : is_dummy_syscall a sym e' ref c = is_dummy_syscall a sym e ref c.
  Proof.
    unfold is_dummy_syscall. destruct (match ref with Some n => _ | None => false end); [reflexivity|].
    assert (dummy_syscall_code a sym e' = dummy_syscall_code a sym e) as ->.
    { unfold dummy_syscall_code, x86_dummy, mips_dummy, arm_dummy, ppc_dummy.
      now rewrite ?s_read, ?s_vread, ?(sa_big _ _ S). }
    destruct c; [now rewrite s_vread|reflexivity].
  Qed.

  Lemma s_ni : Permutation (ni_functions e) (ni_functions e').
  Proof. unfold ni_functions. apply filter_perm. unfold dvalues. apply Permutation_map. apply S. Qed.

  Lemma s_candidates o a v vaddrs (ni := ni_functions e) :
    candidates o a e' v vaddrs = candidates (fun _ => o (ni_functions e')) a e v vaddrs.
  Proof.
    unfold candidates. cbv zeta. destruct (o (ni_functions e')) as [|x l] eqn:E; [reflexivity|]. rewrite <- E.
    rewrite <- (by_vaddr_perm a e e' _ vaddrs (wf_sym_nodup e W) (sa_syms _ _ S)).
    destruct (common_syscall_symbol_prefixes _ 20); try reflexivity. cbn [bind].
    rewrite s_eso. destruct (extract_esoteric_syscalls a e) as [eso| | |]; try reflexivity. cbn [bind].
    rewrite (mapM_ext (make_esoteric e') (make_esoteric e)) by apply s_make.
    destruct (mapM (make_esoteric e) eso); try reflexivity. cbn [bind].
    destruct (assert_ _); try reflexivity. cbn [bind].
    destruct (match dkeys _ with [] => None | s :: l => Some _ end) as [f|]; rewrite ?s_read; [destruct (read_symbol e f)|]; try reflexivity; cbn [bind];
      (apply filterM_ext; intros s; now rewrite s_dummy).
  Qed.
End Same.

Lemma symbol_eq_dec (x y : symbol) : {x = y} + {x <> y}.
Proof.
  destruct (symbol_eqb x y) eqn:E; [left; now apply symbol_eqb_eq|right]. intros F. apply symbol_eqb_eq in F. congruence.
Qed.

Lemma candidates_order' ni1 ni2 a e v vaddrs :
  Permutation ni1 (ni_functions e) -> Permutation ni2 (ni_functions e) -> wf e -> one_ni_size e ->
  candidates (fun _ => ni1) a e v vaddrs = candidates (fun _ => ni2) a e v vaddrs.
Proof.
  intros P1 P2 W O.
  set (f := fun ni l => if list_eq_dec symbol_eq_dec l (ni_functions e) then ni else l).
  assert (forall ni, Permutation ni (ni_functions e) -> forall l, Permutation (f ni l) l) as F.
  { intros ni P l. unfold f. destruct (list_eq_dec _ _ _) as [->|]; [exact P|apply Permutation_refl]. }
  assert (forall ni, candidates (fun _ => ni) a e v vaddrs = candidates (f ni) a e v vaddrs) as G.
  { intros ni. unfold candidates. assert (f ni (ni_functions e) = ni) as ->; [|reflexivity].
    unfold f. destruct (list_eq_dec _ _ _); congruence. }
  rewrite !G. apply candidates_order; auto.
Qed.

Lemma extract_same t a e e' v kdir : same_image e e' -> loaded e -> one_ni_size e ->
  (forall l, Permutation (v_ni_order t l) l) ->
  extract_syscalls t a e' v kdir = extract_syscalls t a e v kdir.
Proof.
  intros S L O Hp. pose proof (loaded_wf e L) as W. unfold extract_syscalls.
  rewrite (sa_bits _ _ S). destruct (xorb _ _); [reflexivity|]. cbv zeta.
  rewrite (s_adjust e e' S W), (s_vaddrs e e' S W).
  destruct (syscall_vaddrs t (adjust_abi a e) e) as [l| | |]; try reflexivity. cbn [bind].
  destruct l as [|x l]; [reflexivity|].
  assert (Permutation (v_ni_order t (ni_functions e')) (v_ni_order t (ni_functions e))) as Q.
  { eapply Permutation_trans; [apply Hp|]. eapply Permutation_trans; [apply Permutation_sym, (s_ni e e' S)|apply Permutation_sym, Hp]. }
  destruct (v_ni_order t (ni_functions e')) as [|z zs] eqn:Z1.
  { apply Permutation_nil in Q. now rewrite Q. }
  destruct (v_ni_order t (ni_functions e)) as [|u us] eqn:Z2; [apply Permutation_sym, Permutation_nil in Q; discriminate|]. rewrite (s_candidates e e' S W).
  assert (candidates (v_ni_order t) (adjust_abi a e) e v (x :: l) =
          candidates (fun _ => v_ni_order t (ni_functions e)) (adjust_abi a e) e v (x :: l)) as -> by reflexivity.
  rewrite (candidates_order' (v_ni_order t (ni_functions e')) (v_ni_order t (ni_functions e))); [reflexivity| | |exact W|exact O].
  - eapply Permutation_trans; [apply Hp|apply Permutation_sym, (s_ni e e' S)].
  - apply Hp.
Qed.

(** At the level of the lines printed by readelf. *)
Lemma extract_lines t a file oS lines lines' items e e' v kdir :
  elf_open file oS (unlines lines) = Ok e -> elf_open file oS (unlines lines') = Ok e' ->
  Permutation lines lines' -> Forall2 (describes (e_machine e)) lines items ->
  NoDup (map sym_name (flat_map opt_list items)) -> one_ni_size e ->
  (forall l, Permutation (v_ni_order t l) l) ->
  extract_syscalls t a e' v kdir = extract_syscalls t a e v kdir.
Proof.
  intros H H' P F N O Hp. rewrite <- (sym_list_describes _ _ _ F) in N.
  assert (Forall row lines) as Hl.
  { clear -F. induction F as [|l o ls os [D _] F IH]; constructor; assumption. }
  destruct (open_perm _ _ _ _ _ _ Hl P H H' N) as (P1 & P2 & _ & E1 & E2 & E3 & E4 & E5 & E6).
  apply extract_same; [now constructor|now exists file, oS, (unlines lines)|exact O|exact Hp].
Qed.

Lemma choice_lines a file oS lines lines' items e e' ni vaddrs v :
  elf_open file oS (unlines lines) = Ok e -> elf_open file oS (unlines lines') = Ok e' ->
  Permutation lines lines' -> Forall2 (describes (e_machine e)) lines items ->
  NoDup (map sym_name (flat_map opt_list items)) ->
  dget Z.eqb v (symbols_by_vaddr a e' ni vaddrs) = dget Z.eqb v (symbols_by_vaddr a e ni vaddrs).
Proof.
  intros H H' P F N. rewrite <- (sym_list_describes _ _ _ F) in N.
  assert (Forall row lines) as Hl.
  { clear -F. induction F as [|l o ls os [D _] F IH]; constructor; assumption. }
  destruct (open_perm _ _ _ _ _ _ Hl P H H' N) as (P1 & P2 & N1 & _).
  now rewrite (by_vaddr_perm a e e' ni vaddrs N1 P1).
Qed.

(** ** Deciding the hypotheses for a given image *)

Definition is_ok {A} (o : outcome A) : bool := match o with Ok _ => true | _ => false end.
Definition sound_check (a : arch) (e : elf) : bool :=
  match extract_esoteric_syscalls a e with
  | Ok eso => forallb (fun x => dmem str_eqb (eso_symbol x) (e_symbols e)) eso
  | _ => false
  end &&
  forallb (fun f => match read_symbol e f with
                    | Ok c => forallb (fun s => is_ok (is_dummy_syscall a s e (Some f) (Some c))) (map snd (e_symbols e))
                    | _ => false
                    end) (map snd (e_functions e)) &&
  forallb (fun s => is_ok (is_dummy_syscall a s e None None)) (map snd (e_symbols e)).

Lemma is_ok_iff {A} (o : outcome A) : is_ok o = true -> exists x, o = Ok x.
Proof. destruct o; try discriminate. eauto. Qed.

Lemma sound_check_ok a e : sound_check a e = true -> sound_image a e.
Proof.
  unfold sound_check. intros H. apply andb_true_iff in H as [H H3]. apply andb_true_iff in H as [H1 H2].
  rewrite forallb_forall in H2, H3. constructor.
  - destruct (extract_esoteric_syscalls a e) as [eso| | |]; try discriminate. exists eso. split; [reflexivity|].
    rewrite forallb_forall in H1. intros x Hx. specialize (H1 x Hx). unfold sym_present. unfold dmem in H1.
    destruct (dget str_eqb _ (e_symbols e)) as [y|] eqn:Ey; [|discriminate].
    apply (dget_In str_eqb str_eqb_eq) in Ey. apply (in_map fst) in Ey. exact Ey.
  - intros v f (F & _). specialize (H2 f F). destruct (read_symbol e f) as [c| | |]; try discriminate. eauto.
  - intros s Hs. apply is_ok_iff. auto.
  - intros v f c s (F & _) Hc Hs. specialize (H2 f F). rewrite Hc in H2. rewrite forallb_forall in H2. apply is_ok_iff. auto.
Qed.

Lemma one_size_check e :
  forallb (fun f => forallb (fun g => negb (symbol_is_ni_syscall f && symbol_is_ni_syscall g && (sym_vaddr f =? sym_vaddr g)) || (sym_size f =? sym_size g))
    (map snd (e_functions e))) (map snd (e_functions e)) = true -> one_ni_size e.
Proof.
  intros H v f g (F1 & F2 & F3 & F4) (G1 & G2 & G3 & G4). rewrite forallb_forall in H. specialize (H f F1).
  rewrite forallb_forall in H. specialize (H g G1).
  assert (symbol_is_ni_syscall f = true) as E1 by (apply ni_symbol_iff; auto).
  assert (symbol_is_ni_syscall g = true) as E2 by (apply ni_symbol_iff; auto).
  rewrite E1, E2, F4, G4, Z.eqb_refl in H. cbn in H. lia.
Qed.

(** ** Tables of images as readelf describes them *)

Lemma sized_table_loaded e tbl target off : loaded e -> 128 < sym_size tbl ->
  place e (sym_vaddr tbl) off -> off + sym_size tbl <= len (e_file e) ->
  sym_size tbl mod Z.of_nat (pointer_bytes e) = 0 ->
  exists ps, len ps = sym_size tbl / Z.of_nat (pointer_bytes e) /\
    pointers_at e (sym_vaddr tbl) ps /\ unpack_syscall_table e tbl target = Ok ps.
Proof.
  intros L H1 P. apply sized_table_total; [exact H1|exact P|]. exact (wf_place e _ _ (loaded_wf e L) P).
Qed.
Lemma sized_table_odd_loaded e tbl target off : loaded e -> 128 < sym_size tbl ->
  place e (sym_vaddr tbl) off -> off + sym_size tbl <= len (e_file e) ->
  sym_size tbl mod Z.of_nat (pointer_bytes e) <> 0 ->
  unpack_syscall_table e tbl target = Raise StructError.
Proof.
  intros L H1 P. apply sized_table_odd; [exact H1|exact P|]. exact (wf_place e _ _ (loaded_wf e L) P).
Qed.
Lemma sized_entry e tbl target ps i p : 128 < sym_size tbl ->
  sym_size tbl = len ps * Z.of_nat (pointer_bytes e) -> pointers_at e (sym_vaddr tbl) ps ->
  nth_error ps i = Some p ->
  exists off l, place e (sym_vaddr tbl) off /\ unpack_syscall_table e tbl target = Ok l /\ nth_error l i = Some p /\
    file_read (e_file e) (off + Z.of_nat i * Z.of_nat (pointer_bytes e)) (Z.of_nat (pointer_bytes e)) =
      enc_uint (e_big e) (pointer_bytes e) p.
Proof.
  intros H1 H2 H3 H4. pose proof (sized_table e tbl target ps H1 H2 H3) as U.
  destruct H3 as (off & pre & post & P & L & F & _). exists off, ps. split; [exact P|]. split; [exact U|]. split; [exact H4|].
  apply nth_error_split in H4 as (l1 & l2 & -> & L1).
  assert (forall l, List.length (stored e l) = (List.length l * pointer_bytes e)%nat) as SL by (intros; apply stored_length).
  assert (e_file e = (pre ++ stored e l1) ++ enc_uint (e_big e) (pointer_bytes e) p ++ (stored e l2 ++ post)) as F'.
  { rewrite F. unfold stored. rewrite map_app, concat_app. cbn [map List.concat]. now rewrite <- !app_assoc. }
  unfold file_read. rewrite F'.
  rewrite (skipn_pre (pre ++ stored e l1)).
  - destruct (Z.ltb_spec (Z.of_nat (pointer_bytes e)) 0); [lia|]. rewrite Nat2Z.id.
    assert (List.length (enc_uint (e_big e) (pointer_bytes e) p) = pointer_bytes e) as El.
    { specialize (SL [p]). unfold stored in SL. cbn [map List.concat] in SL. rewrite app_nil_r in SL. cbn [List.length] in SL. lia. }
    rewrite <- El at 1. apply firstn_app_exact.
  - unfold len in *. rewrite app_length, SL, L1. nia.
Qed.
Lemma unsized_table_iff e tbl target ps : loaded e -> sym_size tbl <= 128 ->
  (unpack_syscall_table e tbl target = Ok ps <->
   exists stop, pointers_at e (sym_vaddr tbl) (ps ++ [stop]) /\
     (forall i p, nth_error ps i = Some p -> good_entry e tbl target (Z.of_nat i) p) /\
     ~ good_entry e tbl target (len ps) stop).
Proof.
  intros L H1. split.
  - intros H. apply unsized_table_Ok in H; [|exact H1|intros off P; exact (wf_place e _ _ (loaded_wf e L) P)].
    destruct H as [(H & _)|(_ & H)]; [lia|exact H].
  - intros (stop & H2 & H3 & H4). now apply (unsized_table e tbl target ps stop).
Qed.

Lemma read_entries_outcome fuel : forall big n sec b rest cur, 0 < n -> (List.length rest < fuel)%nat ->
  (exists l, read_entries fuel big n sec b rest cur = Ok l) \/ read_entries fuel big n sec b rest cur = Raise StructError.
Proof.
  induction fuel as [|fuel IH]; intros big n sec b rest cur Hn Hf; [lia|]. cbn [read_entries].
  unfold unpack_u.
  destruct (len (firstn (Z.to_nat n) rest) =? n) eqn:E; [|right; reflexivity]. cbn [bind].
  destruct (negb (in_target sec _)); [left; eauto|].
  destruct (match b with Some b => b <=? cur | None => false end); [left; eauto|].
  destruct (IH big n sec b (skipn (Z.to_nat n) rest) (cur + n) Hn) as [[l El]|El].
  - apply Z.eqb_eq in E. unfold len in E. rewrite firstn_length in E. rewrite skipn_length. lia.
  - left. rewrite El. cbn [bind]. eauto.
  - right. rewrite El. reflexivity.
Qed.

Lemma unsized_table_eof e tbl target off : loaded e -> sym_size tbl <= 128 ->
  place e (sym_vaddr tbl) off ->
  (forall ps stop, pointers_at e (sym_vaddr tbl) (ps ++ [stop]) ->
     (forall i p, nth_error ps i = Some p -> good_entry e tbl target (Z.of_nat i) p) ->
     good_entry e tbl target (len ps) stop) ->
  unpack_syscall_table e tbl target = Raise StructError.
Proof.
  intros L H1 P H. destruct (unpack_syscall_table e tbl target) as [ps| | |] eqn:E.
  - exfalso. apply (unsized_table_iff e tbl target ps L H1) in E as (stop & E1 & E2 & E3). apply E3. now apply H.
  - unfold unpack_syscall_table in E. apply place_iff in P. rewrite P in E. cbn [bind] in E.
    destruct (Z.ltb_spec 128 (sym_size tbl)); [lia|]. cbv zeta in E.
    match type of E with read_entries ?f ?b ?n ?s ?bd ?r ?c = _ => destruct (read_entries_outcome f b n s bd r c) as [[l El]|El] end;
      try (rewrite El in E; congruence); [unfold long_size; destruct (e_bits32 e); lia|lia].
  - exfalso. unfold unpack_syscall_table in E. apply place_iff in P. rewrite P in E. cbn [bind] in E.
    destruct (Z.ltb_spec 128 (sym_size tbl)); [lia|]. cbv zeta in E.
    match type of E with read_entries ?f ?b ?n ?s ?bd ?r ?c = _ => destruct (read_entries_outcome f b n s bd r c) as [[l El]|El] end;
      try (rewrite El in E; congruence); [unfold long_size; destruct (e_bits32 e); lia|lia].
  - exfalso. unfold unpack_syscall_table in E. apply place_iff in P. rewrite P in E. cbn [bind] in E.
    destruct (Z.ltb_spec 128 (sym_size tbl)); [lia|]. cbv zeta in E.
    match type of E with read_entries ?f ?b ?n ?s ?bd ?r ?c = _ => destruct (read_entries_outcome f b n s bd r c) as [[l El]|El] end;
      try (rewrite El in E; congruence); [unfold long_size; destruct (e_bits32 e); lia|lia].
Qed.

(** Lines whose description can be computed. *)
Lemma str_NoDup (l : list str) : forallb (fun x => Nat.eqb (count_occ (list_eq_dec ascii_dec) l x) 1) l = true -> NoDup l.
Proof.
  intros H. apply (NoDup_count_occ (list_eq_dec ascii_dec)). intros x.
  destruct (in_dec (list_eq_dec ascii_dec) x l) as [Hi|Hi].
  - rewrite forallb_forall in H. specialize (H x Hi). apply Nat.eqb_eq in H. lia.
  - apply (count_occ_not_In (list_eq_dec ascii_dec)) in Hi. lia.
Qed.
