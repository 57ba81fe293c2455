(** Giving up (C109). *)
From Coq Require Import List Bool Ascii String ZArith Lia Permutation.
From Verif Require Import PyBase PyFacts M_Utils M_Elf M_Syscall M_Arch M_Kernel M_Giveup S_Elf S_Arch S_Kernel S_Warn S_Giveup
  L_Utils L_Arch L_Kernel2 L_Kernel3 L_Kernel4 L_Kernel5 L_Kernel6 L_Kernel7 L_Kernel8 L_Kernel10.
Import ListNotations.
Open Scope Z_scope.
Open Scope list_scope.

(** ** The same result *)

Lemma enum_nil l : enum_from 0 l = [] -> l = (@nil Z).
Proof. destruct l; [reflexivity|discriminate]. Qed.

Lemma vaddrs_same a e name : vaddrs_from_table a e name = (x <- vaddrs_telling a e name ;; Ok (fst x)).
Proof.
  unfold vaddrs_from_table, vaddrs_telling. destruct (dget str_eqb name _) as [tbl|]; [|reflexivity].
  destruct (dget str_eqb $".text" _) as [text|]; [|reflexivity]. cbv zeta.
  assert ((l <- unpack_syscall_table e tbl text ;; Ok (enum_from 0 l)) =
    (x <- (l <- unpack_syscall_table e tbl text ;;
            Ok match l with
               | [] => ([], [$"Could not extract any valid function pointer from " ++ name ++ $", giving up!";
                             $"Is the kernel relocatable? Relocation entries for the syscall table are not supported."])
               | _ => (enum_from 0 l, [])
               end) ;; Ok (fst x))) as D.
  { destruct (unpack_syscall_table e tbl text) as [[|p l]| | |]; reflexivity. }
  destruct (negb (a_fdesc a)); [exact D|].
  destruct (unpack_long e (sym_vaddr tbl)) as [p| | |]; try reflexivity. cbn [bind].
  destruct (in_target text p); [exact D|].
  destruct (dget str_eqb $".opd" _) as [opd|]; [|reflexivity].
  destruct (unpack_syscall_table e tbl opd) as [ds| | |]; try reflexivity. cbn [bind].
  destruct (mapM (unpack_long e) ds) as [[|p' l]| | |]; try reflexivity. exact D.
Qed.

Lemma extract_same t a e v kdir : extract_syscalls t a e v kdir = (x <- extract_telling t a e v kdir ;; Ok (fst x)).
Proof.
  unfold extract_syscalls, extract_telling. destruct (xorb _ _); [reflexivity|]. cbv zeta.
  assert (syscall_vaddrs t (adjust_abi a e) e = (x <- match a_table (adjust_abi a e) with
         | Some name => vaddrs_telling (adjust_abi a e) e name
         | None => l <- syscall_vaddrs t (adjust_abi a e) e ;; Ok (l, [])
         end ;; Ok (fst x))) as V.
  { unfold syscall_vaddrs at 1. destruct (a_table (adjust_abi a e)) as [name|] eqn:T; [apply vaddrs_same|].
    unfold syscall_vaddrs. rewrite T. destruct (match a_class (adjust_abi a e) with KX86 => _ | _ => _ end); reflexivity. }
  revert V. set (X := match a_table (adjust_abi a e) with Some _ => _ | None => _ end). clearbody X. intros V. rewrite V. clear V.
  destruct X as [[vaddrs lines]| | |]; try reflexivity.
  cbn [bind fst]. destruct vaddrs as [|x vaddrs]; [reflexivity|]. destruct (v_ni_order t (ni_functions e)); [reflexivity|].
  destruct (M_Kernel.candidates _ _ _ _ _) as [found| | |]; try reflexivity. cbn [bind].
  destruct (v_annotate t found) as [located| | |]; try reflexivity. cbn [bind]. destruct (filterM _ located); reflexivity.
Qed.

(** ** The reasons *)

Lemma unpack_nothing e tbl text : loaded e -> unpack_syscall_table e tbl text = Ok [] -> unreadable e tbl text.
Proof.
  intros L U. destruct (Z_le_gt_dec (sym_size tbl) 128) as [S|S].
  - apply unsized_table_iff in U as (stop & P & _ & G); auto. exact (un_first e tbl text stop S P G).
  - unfold unpack_syscall_table in U. destruct (vaddr_to_file_offset e (sym_vaddr tbl)) as [off| | |] eqn:O; try discriminate U.
    cbn [bind] in U. destruct (Z.ltb_spec 128 (sym_size tbl)) as [_|X]; [|lia].
    apply place_iff in O. apply (un_end e tbl text off); [lia|exact O|].
    pose proof (wf_place e _ _ (loaded_wf e L) O) as OP.
    unfold iter_unpack_sized, iter_unpack_u in U.
    destruct (chunks _ _ _) as [l|] eqn:C; [|discriminate U].
    assert (0 < Z.to_nat (long_size e))%nat as LP by (unfold long_size; destruct (e_bits32 e); lia).
    apply (chunks_spec _ _ _ _ LP) in C as [C _]. destruct l; [|discriminate U]. cbn [List.concat] in C.
    unfold file_read in C. destruct (Z.ltb_spec (sym_size tbl) 0); [lia|].
    destruct (skipn (Z.to_nat off) (e_file e)) as [|c rest] eqn:K.
    + apply (f_equal (@List.length _)) in K. rewrite skipn_length in K. cbn [List.length] in K. unfold len. lia.
    + destruct (Z.to_nat (sym_size tbl)) eqn:N; [lia|]. discriminate C.
Qed.

Lemma get_In {A} k (d : dict str A) x : dget str_eqb k d = Some x -> In (k, x) d.
Proof. apply dget_In, str_eqb_eq. Qed.
Lemma get_not_In {A} k (d : dict str A) x : dget str_eqb k d = None -> ~ In (k, x) d.
Proof. intros G I. apply (dget_None _ str_eqb_eq) in G. apply G, in_map_iff. now exists (k, x). Qed.
Lemma Forall2_in_left {A B} (R : A -> B -> Prop) l m : Forall2 R l m -> forall x, In x l -> exists y, In y m /\ R x y.
Proof. induction 1 as [|x y l m H F IH]; intros z []; [subst; exists y; split; [now left|exact H]|]. destruct (IH z H0) as (w & I & E). exists w. split; [now right|exact E]. Qed.

Lemma table_hopeless t a e name : loaded e -> a_table (adjust_abi a e) = Some name ->
  forall lines vaddrs, vaddrs_telling (adjust_abi a e) e name = Ok (vaddrs, lines) ->
  (vaddrs = [] -> hopeless t a e (lines ++ [$"Unable to extract any syscall vaddr, giving up!"])) /\ (vaddrs <> [] -> lines = []).
Proof.
  intros L T lines vaddrs. unfold vaddrs_telling.
  destruct (dget str_eqb name (e_symbols e)) as [tbl|] eqn:G.
  2: { intros E. injection E as <- <-. split; [|congruence]. intros _. apply (hp_symbol t a e name T).
       intros I. unfold sym_present in I. apply in_map_iff in I as ([n s] & N & I). cbn [fst] in N. subst n.
       apply (get_not_In _ _ s) in G. exact (G I). }
  apply get_In in G. destruct (dget str_eqb $".text" (e_sections e)) as [text|] eqn:X; [|discriminate]. apply get_In in X. cbv zeta.
  assert (forall lines vaddrs, (l <- unpack_syscall_table e tbl text ;;
            Ok match l with
               | [] => ([], [$"Could not extract any valid function pointer from " ++ name ++ $", giving up!";
                             $"Is the kernel relocatable? Relocation entries for the syscall table are not supported."])
               | _ => (enum_from 0 l, [])
               end) = Ok (vaddrs, lines) ->
    (vaddrs = [] -> hopeless t a e (lines ++ [$"Unable to extract any syscall vaddr, giving up!"])) /\ (vaddrs <> [] -> lines = [])) as D.
  { clear lines vaddrs. intros lines vaddrs E. destruct (unpack_syscall_table e tbl text) as [l| | |] eqn:U; try discriminate E. cbn [bind] in E.
    destruct l as [|p l]; injection E as <- <-.
    - split; [|congruence]. intros _. exact (hp_table t a e name tbl text T G X (unpack_nothing e tbl text L U)).
    - split; [discriminate|reflexivity]. }
  destruct (a_fdesc (adjust_abi a e)) eqn:F; cbn [negb]; [|apply D].
  destruct (unpack_long e (sym_vaddr tbl)) as [p| | |] eqn:U; try discriminate. cbn [bind].
  destruct (in_target text p) eqn:IT; [apply D|].
  destruct (dget str_eqb $".opd" (e_sections e)) as [opd|] eqn:O.
  - destruct (unpack_syscall_table e tbl opd) as [ds| | |]; try discriminate. cbn [bind].
    destruct (mapM (unpack_long e) ds) as [[|p' l]| | |]; try discriminate; [apply D|].
    intros E. injection E as <- <-. split; [discriminate|reflexivity].
  - intros E. injection E as <- <-. split; [|congruence]. intros _.
    apply (hp_opd t a e name tbl text p T G X F).
    + apply unpack_long_Ok; [|exact U]. intros off. exact (wf_place e _ _ (loaded_wf e L)).
    + intros I. apply in_target_iff in I. congruence.
    + intros s. exact (get_not_In _ _ s O).
Qed.

Lemma extract_reason t a e v kdir r lines : loaded e -> (forall l, Permutation (v_ni_order t l) l) ->
  extract_telling t a e v kdir = Ok (r, lines) ->
  (lines <> [] /\ r = [] /\ hopeless t a e lines) \/
  (lines = [] /\ exists vaddrs found located, syscall_vaddrs t (adjust_abi a e) e = Ok vaddrs /\ vaddrs <> [] /\ (exists v, not_implemented e v) /\
     M_Kernel.candidates (v_ni_order t) (adjust_abi a e) e v vaddrs = Ok found /\ v_annotate t found = Ok located /\ filterM (keep_located kdir) located = Ok r).
Proof.
  intros L P. unfold extract_telling. destruct (xorb (a_bits32 a) (e_bits32 e)) eqn:B.
  { intros E. injection E as <- <-. left. split; [discriminate|]. split; [reflexivity|].
    assert (negb (a_bits32 a) = e_bits32 e) as -> by (destruct (a_bits32 a), (e_bits32 e); cbn in *; congruence).
    apply (hp_bits t a e). intros X. rewrite X in B. destruct (e_bits32 e); discriminate B. }
  cbv zeta. set (a' := adjust_abi a e).
  assert (forall x, match a_table a' with
         | Some name => vaddrs_telling a' e name
         | None => l <- syscall_vaddrs t a' e ;; Ok (l, [])
         end = Ok x -> syscall_vaddrs t a' e = Ok (fst x) /\
           (fst x = [] -> hopeless t a e (snd x ++ [$"Unable to extract any syscall vaddr, giving up!"])) /\ (fst x <> [] -> snd x = [])) as V.
  { intros [vaddrs l] E. cbn [fst snd]. destruct (a_table a') as [name|] eqn:T.
    - split; [|exact (table_hopeless t a e name L T _ _ E)].
      unfold syscall_vaddrs. rewrite T, vaddrs_same, E. reflexivity.
    - destruct (syscall_vaddrs t a' e) as [l'| | |] eqn:S; try discriminate E. cbn [bind] in E. injection E as <- <-.
      split; [reflexivity|]. split; [|reflexivity]. intros ->. exact (hp_dispatcher t a e T S). }
  destruct (match a_table a' with Some _ => _ | None => _ end) as [[vaddrs l]| | |]; try discriminate.
  destruct (V _ eq_refl) as (S & H1 & H2). cbn [fst snd] in *. clear V. cbn [bind].
  destruct vaddrs as [|x vaddrs].
  { intros E. injection E as <- <-. left. split; [intros X; apply app_eq_nil in X as [_ X]; discriminate X|]. split; [reflexivity|]. now apply H1. }
  rewrite H2 by discriminate. destruct (v_ni_order t (ni_functions e)) as [|y ys] eqn:N.
  { intros E. injection E as <- <-. left. split; [discriminate|]. split; [reflexivity|]. apply hp_ni.
    intros w (f & F). apply ni_at_iff in F as [F _]. apply (Permutation_in _ (Permutation_sym (P _))) in F. rewrite N in F. exact F. }
  destruct (M_Kernel.candidates (v_ni_order t) a' e v (x :: vaddrs)) as [found| | |] eqn:C; try discriminate. cbn [bind].
  destruct (v_annotate t found) as [located| | |] eqn:A; try discriminate. cbn [bind].
  destruct (filterM (keep_located kdir) located) as [r'| | |] eqn:K; try discriminate. cbn [bind].
  intros E. injection E as <- <-. right. split; [reflexivity|]. exists (x :: vaddrs), found, located.
  split; [exact S|]. split; [discriminate|]. split; [|auto].
  assert (In y (ni_functions e)) as I by (apply (Permutation_in _ (P _)); rewrite N; now left).
  exists (sym_vaddr y), y. now apply ni_functions_iff.
Qed.

Lemma silent_empty t k ver abi b a e v kdir : arch_new k ver abi b = Ok a -> loaded e -> (forall l, Permutation (v_ni_order t l) l) ->
  annotates (v_annotate t) -> extract_telling t a e v kdir = Ok ([], []) -> all_dropped t k ver abi b a e kdir.
Proof.
  intros Ha L P An E. apply extract_reason in E as [(N & _)|(_ & vaddrs & found & located & S & NE & NI & C & A & K)]; auto; [now destruct N|].
  pose proof (vaddrs_NoDup _ _ _ _ S) as ND.
  destruct (candidates_exact k ver abi b a e v _ vaddrs found Ha P ND NI C) as (main & eso & choice & ref & code & -> & Ch & R & _ & M & Es & _ & _ & Ex).
  apply An in A. apply filterM_Ok in K as [K KO].
  assert (Forall (dropped kdir) located) as D.
  { apply Forall_forall. intros s I. destruct (KO s I) as [[|] Ks].
    - exfalso. assert (In s (filter (fun x => okb (keep_located kdir x)) located)) as J by (apply filter_In; split; [exact I|now rewrite Ks]).
      rewrite <- K in J. destruct J.
    - apply keep_false in Ks as (E1 & E2 & E3). split; [unfold of_table; now rewrite E1|]. auto. }
  exists vaddrs, choice, ref, code, located. do 6 (split; [assumption|]).
  intros i w x I B Cx N1 N2 Du. destruct (proj2 (Ex i w x I B Cx)) as (s & Is & Ii & Ix); [auto|].
  destruct (Forall2_in_left _ _ _ A s (in_or_app _ _ _ (or_introl Is))) as (s' & I' & (E1 & _ & _ & _ & E5 & _)).
  exists s'. split; [exact I'|]. split; congruence.
Qed.
