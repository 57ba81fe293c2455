(** Lemmas for the properties of signature.py: ftrace metadata and the choice of the source. *)
From Coq Require Import List Bool Ascii String ZArith Lia.
From Verif Require Import PyBase PyFacts M_Utils M_Elf M_Syscall M_Build M_Signature S_Elf S_Dummy S_Build S_Signature
  L_Utils L_Elf L_Dummy3 L_Signature L_Signature2.
Import ListNotations.
Open Scope Z_scope.
Open Scope list_scope.

(** * Bytes *)

Lemma image_part e v a b : image_has e v (a ++ b) -> image_has e v a.
Proof. intros (off & rest & H & E). exists off, (b ++ rest). rewrite app_assoc. now split. Qed.
Lemma cstring_read e p s : cstring_at e p s -> vaddr_read_string e p = Ok s.
Proof.
  intros (_ & N & off & rest & H & E). unfold vaddr_read_string. rewrite H. cbn [bind]. rewrite E, <- app_assoc. cbn [app].
  now rewrite read_to_nul_found.
Qed.
Lemma psize_nat e : Z.of_nat (Z.to_nat (psize e)) = psize e.
Proof. unfold psize. destruct (e_bits32 e); reflexivity. Qed.
Lemma psize_pos e : 0 < psize e.
Proof. unfold psize. destruct (e_bits32 e); lia. Qed.
Lemma pointer_len e p : len (pointer e p) = psize e.
Proof. unfold pointer. rewrite len_enc. apply psize_nat. Qed.
Lemma pointer_val e p : is_pointer e p -> uint_of (e_big e) (pointer e p) = p.
Proof. intros H. unfold pointer. apply uint_of_enc. rewrite psize_nat. exact H. Qed.
Lemma pointer_read e v p : is_pointer e p -> image_has e v (pointer e p) -> read_ptr e v = Ok p.
Proof.
  intros P H. unfold read_ptr. fold (psize e). cbv zeta. rewrite <- (pointer_len e p). rewrite (has_vaddr_read _ _ _ H). cbn [bind].
  unfold unpack_u. rewrite Z.eqb_refl. now rewrite pointer_val.
Qed.
Lemma sint_small big z : 0 <= z < 2 ^ 31 -> sint_of big (enc_uint big 4 z) = z.
Proof.
  intros H. unfold sint_of. rewrite uint_of_enc by (change (256 ^ Z.of_nat 4) with (2 ^ 32); lia). rewrite len_enc.
  change (2 ^ (8 * Z.of_nat 4) / 2) with (2 ^ 31). cbv zeta. destruct (Z.ltb_spec z (2 ^ 31)); lia.
Qed.
Lemma slice_at {A} (a b c : list A) i j : i = len a -> j = len a + len b -> slice (a ++ b ++ c) i j = b.
Proof. intros -> ->. apply slice_mid. Qed.
Lemma meta_unpack e p name nr n types args :
  is_pointer e name -> is_pointer e types -> is_pointer e args -> List.length nr = 4%nat -> 0 <= n < 2 ^ 31 ->
  image_has e p (pointer e name ++ nr ++ enc_uint (e_big e) 4 n ++ pointer e types ++ pointer e args) ->
  unpack_meta e p = Ok (name, n, types, args).
Proof.
  intros P1 P2 P3 L N H. apply has_vaddr_read in H. unfold unpack_meta. fold (psize e). cbv zeta.
  assert (len nr = 4) as L' by (unfold len; lia).
  rewrite !len_app, !pointer_len, len_enc, L' in H.
  replace (psize e + (4 + (Z.of_nat 4 + (psize e + psize e)))) with (8 + 3 * psize e) in H by lia. rewrite H. cbn [bind].
  rewrite !len_app, !pointer_len, len_enc, L'.
  replace (psize e + (4 + (Z.of_nat 4 + (psize e + psize e)))) with (8 + 3 * psize e) by lia. rewrite Z.eqb_refl. cbn [negb].
  set (A := pointer e name). set (C := enc_uint (e_big e) 4 n). set (D := pointer e types). set (E := pointer e args).
  assert (len A = psize e) as LA by apply pointer_len. assert (len D = psize e) as LD by apply pointer_len.
  assert (len E = psize e) as LE by apply pointer_len. assert (len C = 4) as LC by apply len_enc.
  assert (slice (A ++ nr ++ C ++ D ++ E) 0 (psize e) = A) as ->.
  { apply (slice_at [] A (nr ++ C ++ D ++ E)); [reflexivity|now rewrite LA]. }
  assert (slice (A ++ nr ++ C ++ D ++ E) (psize e + 4) (psize e + 8) = C) as ->.
  { rewrite (app_assoc A). apply slice_at; rewrite len_app; lia. }
  assert (slice (A ++ nr ++ C ++ D ++ E) (psize e + 8) (psize e + 8 + psize e) = D) as ->.
  { rewrite (app_assoc A), (app_assoc (A ++ nr)). apply slice_at; rewrite !len_app; lia. }
  assert (slice (A ++ nr ++ C ++ D ++ E) (psize e + 8 + psize e) (psize e + 8 + 2 * psize e) = E) as ->.
  { rewrite (app_assoc A), (app_assoc (A ++ nr)), (app_assoc ((A ++ nr) ++ C)), <- (app_nil_r E) at 1. apply slice_at; rewrite !len_app; lia. }
  unfold A, C, D, E. rewrite !pointer_val by assumption. now rewrite sint_small.
Qed.

(** * Strings *)

Lemma trimmed_ends s : trimmed s -> no_blank_ends is_space s.
Proof.
  intros [H1 H2]. unfold no_blank_ends. split.
  - destruct s as [|c x]; [exact I|]. now apply (H1 c x).
  - destruct (rev s) as [|c x] eqn:E; [exact I|]. apply (H2 c (rev x)). apply (f_equal (@rev ascii)) in E. now rewrite rev_involutive in E.
Qed.
Lemma strip_trimmed s : trimmed s -> strip s = s.
Proof.
  intros H. pose proof (strip_by_pad is_space [] s [] eq_refl eq_refl (trimmed_ends s H)) as X. now rewrite app_nil_r in X.
Qed.

Lemma squeezed_ex n : forall s, (List.length s <= n)%nat -> squeezed s (replace s $"* *" $"**").
Proof.
  induction n as [|n IH]; intros s L.
  - destruct s; [|cbn in L; lia]. rewrite replace_nil. constructor.
  - destruct s as [|c s]; [rewrite replace_nil; constructor|].
    destruct (startswith (c :: s) $"* *") eqn:E.
    + apply startswith_iff in E as [x E]. rewrite E in *. rewrite replace_hit by discriminate. constructor. apply IH. rewrite app_length in L. cbn in L. lia.
    + rewrite replace_miss by exact E. constructor.
      * intros x X. assert (startswith (c :: s) $"* *" = true) by (apply startswith_iff; eauto). congruence.
      * apply IH. cbn in L. lia.
Qed.
Lemma squeezed_iff s t : squeezed s t <-> t = replace s $"* *" $"**".
Proof.
  split; [|intros ->; apply (squeezed_ex (List.length s)); lia].
  induction 1.
  - now rewrite replace_nil.
  - rewrite replace_hit by discriminate. now rewrite IHsqueezed.
  - rewrite replace_miss; [now rewrite IHsqueezed|]. destruct (startswith (c :: s) $"* *") eqn:E; [|reflexivity].
    apply startswith_iff in E as [x E]. exfalso. now apply (H x).
Qed.
Lemma squeezed_ne s t : squeezed s t -> s <> [] -> t <> [].
Proof. intros H. destruct H; [auto|discriminate|discriminate]. Qed.

Definition name_of (r : meta_rec) : str := noprefix (mr_name r) [$"sys_"].
Definition sig_of (r : meta_rec) : list str :=
  map (fun p => declare (replace (fst p) $"* *" $"**") (snd p)) (mr_params r).
Lemma meta_name_iff r n : meta_name r n <-> name_of r = n.
Proof.
  unfold meta_name, name_of. split.
  - intros [->|[-> H]].
    + apply (noprefix_first [] _ []). intros q u [].
    + apply noprefix_none. intros px t [<-|[]]. apply H.
  - intros <-. destruct (startswith (mr_name r) $"sys_") eqn:E.
    + left. apply startswith_iff in E as [t E]. rewrite E. pose proof (noprefix_first [] $"sys_" [] t) as X. cbn [app] in X. rewrite X; [reflexivity|]. intros q u [].
    + right. assert (forall x, mr_name r <> $"sys_" ++ x) as H.
      { intros x X. assert (startswith (mr_name r) $"sys_" = true) by (apply startswith_iff; eauto). congruence. }
      rewrite noprefix_none; [auto|]. intros px t [<-|[]]. apply H.
Qed.
Lemma meta_sig_iff r sig : meta_sig r sig <-> sig_of r = sig.
Proof.
  unfold meta_sig, sig_of. generalize (mr_params r) as ps. intros ps. revert sig. induction ps as [|p ps IH]; intros sig; cbn [map].
  - split; [now inversion 1|intros <-; constructor].
  - split.
    + intros H. inversion H as [|p' d ps' sig' (t & T & ->) Y]; subst. apply squeezed_iff in T. subst t. f_equal. now apply IH.
    + intros <-. constructor; [|now apply IH]. eexists. split; [|reflexivity]. now apply squeezed_iff.
Qed.

Lemma param_declare t n : t <> [] -> param_str t n = Ok (declare t n).
Proof.
  intros H. destruct (exists_last H) as (x & c & ->). unfold param_str, last_of, declare.
  assert (last_char (x ++ [c]) = Some c) as -> by (unfold last_char; now rewrite rev_app_distr). cbn [bind].
  destruct (Ascii.eqb_spec c "*") as [->|N]; [reflexivity|].
  destruct c as [[] [] [] [] [] [] [] []]; try reflexivity. now elim N.
Qed.

(** * Records *)

Lemma params_read e types args ps :
  (forall i ty nm, nth_error ps i = Some (ty, nm) -> exists tp np,
      image_has e (types + Z.of_nat i * psize e) (pointer e tp) /\ cstring_at e tp ty /\
      image_has e (args + Z.of_nat i * psize e) (pointer e np) /\ cstring_at e np nm) ->
  Forall (fun p => trimmed (fst p) /\ fst p <> [] /\ trimmed (snd p)) ps ->
  mapM (meta_param e types args) (zrange 0 (len ps)) =
  Ok (map (fun p => declare (replace (fst p) $"* *" $"**") (snd p)) ps).
Proof.
  intros H F. apply mapM_Ok. unfold zrange. rewrite Z.sub_0_r. unfold len. rewrite Nat2Z.id.
  rewrite <- (map_id ps) in F. 
  assert (forall k qs, (forall i p, nth_error qs i = Some p -> nth_error ps (k + i) = Some p) ->
    Forall (fun p => trimmed (fst p) /\ fst p <> [] /\ trimmed (snd p)) qs ->
    Forall2 (fun x y => meta_param e types args x = Ok y) (map (fun i => 0 + Z.of_nat i) (seq k (List.length qs)))
      (map (fun p => declare (replace (fst p) $"* *" $"**") (snd p)) qs)) as G.
  { intros k qs. revert k. induction qs as [|[ty nm] qs IH]; intros k S Fq; cbn [List.length seq map]; [constructor|]. constructor.
    - assert (nth_error ps k = Some (ty, nm)) as N by (rewrite <- (Nat.add_0_r k); now apply S).
      destruct (H k ty nm N) as (tp & np & H1 & H2 & H3 & H4). apply Forall_inv in Fq as (T1 & T2 & T3). cbn [fst snd] in *.
      unfold meta_param. fold (psize e). cbv zeta. rewrite Z.add_0_l.
      rewrite (pointer_read e _ tp) by (try assumption; apply H2). cbn [bind].
      rewrite (pointer_read e _ np) by (try assumption; apply H4). cbn [bind].
      rewrite (cstring_read e tp ty H2). cbn [bind]. rewrite (cstring_read e np nm H4). cbn [bind].
      rewrite !strip_trimmed by assumption. apply param_declare. apply (squeezed_ne ty); [now apply squeezed_iff|assumption].
    - apply IH; [|now apply Forall_inv_tail in Fq]. intros i p Hp. rewrite Nat.add_succ_comm. now apply S. }
  apply G; [intros i p Hp; exact Hp|]. now rewrite map_id in F.
Qed.

Lemma entry_read e p r : meta_at e p r -> clean_rec r -> meta_entry e p = Ok (name_of r, sig_of r).
Proof.
  intros (name & nr & types & args & Hn & Ln & Pt & Pa & Hz & Hl & Hi & Hp) (C1 & C2). unfold meta_entry.
  pose proof (len_nonneg (mr_params r)) as L0.
  rewrite (meta_unpack e p name nr (len (mr_params r)) types args); try assumption; [|apply Hn|lia]. cbn [bind].
  assert ((0 <=? len (mr_params r)) && ((len (mr_params r) =? 0) || negb (types =? 0) && negb (args =? 0)) = true) as ->.
  { destruct (Z.leb_spec 0 (len (mr_params r))); [|lia]. destruct (Z.eqb_spec (len (mr_params r)) 0) as [E|E]; [reflexivity|].
    destruct Hz as [Z1 Z2]; [intros X; rewrite X in E; now elim E|]. destruct (Z.eqb_spec types 0), (Z.eqb_spec args 0); try contradiction. reflexivity. }
  cbn [assert_ bind]. rewrite (cstring_read e name (mr_name r) Hn). cbn [bind].
  rewrite (params_read e types args (mr_params r) Hp C2). cbn [bind]. now rewrite strip_trimmed.
Qed.

Lemma last_recorded rs n sig :
  last_binding str_eqb n (map (fun r => (name_of r, sig_of r)) rs) = Some sig <-> recorded rs n sig.
Proof.
  unfold recorded. induction rs as [|r rs IH]; cbn [map last_binding].
  - split; [discriminate|]. intros (pre & r & post & E & _). destruct pre; discriminate.
  - destruct (last_binding str_eqb n (map _ rs)) as [w|] eqn:E.
    + rewrite IH. split.
      * intros (pre & r' & post & -> & X). exists (r :: pre), r', post. now split.
      * intros (pre & r' & post & X & X1 & X2 & X3). destruct pre as [|q pre].
        -- cbn in X. injection X as <- <-. apply last_binding_In in E; [|apply str_eqb_eq].
           apply in_map_iff in E as (r' & Er & Hr). injection Er as En Es. exfalso. apply (X3 r' Hr). now apply meta_name_iff.
        -- cbn in X. injection X as -> ->. exists pre, r', post. auto.
    + rewrite (last_binding_None str_eqb str_eqb_eq) in E. split.
      * destruct (str_eqb n (name_of r)) eqn:X; [|discriminate]. apply str_eqb_eq in X. intros Y. injection Y as <-.
        exists [], r, rs. split; [reflexivity|]. split; [now apply meta_name_iff|]. split; [now apply meta_sig_iff|].
        intros r' Hr N. apply meta_name_iff in N. apply (E (sig_of r')). apply in_map_iff. exists r'. now rewrite N.
      * intros (pre & r' & post & X & X1 & X2 & X3). apply meta_name_iff in X1. apply meta_sig_iff in X2. destruct pre as [|q pre].
        -- cbn in X. injection X as <- <-. rewrite X1, X2, str_eqb_refl. reflexivity.
        -- cbn in X. injection X as -> ->. exfalso. apply (E sig). apply in_map_iff. exists r'. rewrite X1, X2. split; [reflexivity|].
           apply in_or_app. right. now left.
Qed.

Lemma concat_len e ps : len (List.concat (map (pointer e) ps)) = psize e * len ps.
Proof.
  induction ps as [|p ps IH]; cbn [map List.concat]; [unfold len; cbn [List.length]; lia|]. rewrite len_app, pointer_len, IH, len_cons. lia.
Qed.
Lemma metadata_read e rs : metadata e rs -> Forall clean_rec rs ->
  exists d, read_metadata e = Ok (Some d) /\ forall n sig, dget str_eqb n d = Some sig <-> recorded rs n sig.
Proof.
  intros (start & stop & ps & H1 & H2 & H3 & H4 & H5 & H6 & H7) C.
  exists (dict_of str_eqb (map (fun r => (name_of r, sig_of r)) rs)). split.
  - unfold read_metadata. rewrite H1, H2. fold (psize e). cbv zeta.
    replace (sym_real stop - sym_real start) with (len (List.concat (map (pointer e) ps))) by (rewrite concat_len; lia).
    rewrite (has_vaddr_read _ _ _ H4). cbn [bind]. unfold iter_unpack_u. rewrite chunks_concat.
    + cbn [bind]. rewrite map_map.
      assert (map (fun x => uint_of (e_big e) (pointer e x)) ps = ps) as ->.
      { rewrite <- (map_id ps) at 2. apply map_ext_in. intros p Hp. apply pointer_val. rewrite Forall_forall in H5. now apply H5. }
      assert (mapM (meta_entry e) ps = Ok (map (fun r => (name_of r, sig_of r)) rs)) as M.
      { apply mapM_Ok. clear - H6 C. induction H6 as [|p r ps rs H6 H IH]; cbn [map]; [constructor|]. constructor.
        - apply entry_read; [exact H6|now apply Forall_inv in C].
        - apply IH. now apply Forall_inv_tail in C. }
      destruct (dget str_eqb $"__syscall_meta__open" (e_symbols e)) as [o|]; [|now rewrite M].
      destruct (H7 o eq_refl) as [->|Ho]; [now rewrite M|]. destruct (sym_size o =? 0); [now rewrite M|].
      destruct (Z.leb_spec (8 + 3 * psize e) (sym_size o)); [|lia]. cbn [assert_ bind]. now rewrite M.
    + pose proof (psize_pos e). lia.
    + apply Forall_forall. intros c Hc. apply in_map_iff in Hc as (p & <- & _). pose proof (pointer_len e p) as X. unfold len in X. lia.
    + lia.
  - intros n sig. rewrite dget_dict_of by apply str_eqb_eq. apply last_recorded.
Qed.

(** * Choice of the source *)

Lemma Forall2_weaken {A B} (P Q : A -> B -> Prop) l m : (forall x y, P x y -> Q x y) -> Forall2 P l m -> Forall2 Q l m.
Proof. intros H. induction 1; constructor; auto. Qed.

Lemma sign_iff files big meta known s s' :
  (forall n sig, match meta with Some d => dget str_eqb n d = Some sig | None => False end <-> known n sig) ->
  (sign files big true meta s = Ok s' <->
   same_but_signature s s' /\
   chosen (fun f l sig => syscall_signature_from_source files f l big = Ok sig) known s (sc_signature s')).
Proof.
  intros K. unfold sign.
  assert (forall sig, set_signature s sig = s' <-> same_but_signature s s' /\ sig = sc_signature s') as SS.
  { intros sig. unfold set_signature, same_but_signature. split; [intros <-; split; reflexivity|intros [H ->]; now symmetry]. }
  assert (s = s' <-> same_but_signature s s' /\ sc_signature s = sc_signature s') as S0.
  { rewrite <- SS. unfold set_signature. destruct s; cbn. reflexivity. }
  destruct (sc_esoteric s) eqn:E.
  - split.
    + intros H. injection H as H. apply S0 in H as [H1 H2]. split; [exact H1|]. rewrite <- H2. now constructor.
    + intros [H1 H2]. f_equal. apply S0. split; [exact H1|]. inversion H2; congruence.
  - destruct (sc_good s) eqn:G.
    + cbn [assert_ bind]. split.
      * destruct (sc_file s) as [f|] eqn:Ef; [|discriminate]. destruct (sc_line s) as [l|] eqn:El; [|discriminate].
        destruct (syscall_signature_from_source files f l big) as [sig| | |] eqn:R; try discriminate. cbn [bind]. intros H. injection H as H.
        apply SS in H as [H1 H2]. split; [exact H1|]. rewrite <- H2. now apply (from_source _ _ _ f l).
      * intros [H1 H2]. inversion H2 as [|f l sig _ _ Hf Hl R|? ? X|? ? X|? X]; try congruence.
        rewrite Hf, Hl. rewrite R. cbn [bind]. f_equal. now apply SS.
    + destruct meta as [d|].
      * destruct (dget str_eqb (sc_origname s) d) as [sig|] eqn:D1; [|destruct (dget str_eqb (sc_name s) d) as [sig|] eqn:D2].
        -- split.
           ++ intros H. injection H as H. apply SS in H as [H1 H2]. split; [exact H1|]. rewrite <- H2. apply from_original; auto. now apply K.
           ++ intros [H1 H2]. f_equal. apply SS. split; [exact H1|]. inversion H2 as [|? ? ? ? X|sig' ? ? X|sig' ? ? X|? ? X]; try congruence.
              ** apply K in X. congruence.
              ** exfalso. apply (X sig). now apply K.
              ** exfalso. apply (X sig). now apply K.
        -- split.
           ++ intros H. injection H as H. apply SS in H as [H1 H2]. split; [exact H1|]. rewrite <- H2. apply from_name; auto; [|now apply K].
              intros g X. apply K in X. congruence.
           ++ intros [H1 H2]. f_equal. apply SS. split; [exact H1|]. inversion H2 as [|? ? ? ? X|sig' ? ? X|sig' ? ? X Y|? ? X Y]; try congruence.
              ** apply K in X. congruence.
              ** apply K in Y. congruence.
              ** exfalso. apply (Y sig). now apply K.
        -- split.
           ++ intros H. injection H as H. apply S0 in H as [H1 H2]. split; [exact H1|]. rewrite <- H2. apply unknown; auto; intros g X; apply K in X; congruence.
           ++ intros [H1 H2]. f_equal. apply S0. split; [exact H1|]. inversion H2 as [|? ? ? ? X|sig' ? ? X|sig' ? ? X Y|? ? X Y]; try congruence.
              ** apply K in X. congruence.
              ** apply K in Y. congruence.
      * split.
        -- intros H. injection H as H. apply S0 in H as [H1 H2]. split; [exact H1|]. rewrite <- H2. apply unknown; auto; intros g X; now apply K in X.
        -- intros [H1 H2]. f_equal. apply S0. split; [exact H1|]. inversion H2 as [|? ? ? ? X|sig' ? ? X|sig' ? ? X Y|? ? X Y]; try congruence.
           ** now apply K in X.
           ** now apply K in Y.
Qed.
Lemma signatures_meta files scs e rs out : metadata e rs -> Forall clean_rec rs ->
  (extract_syscall_signatures files scs e true = Ok out <->
   Forall2 (fun s s' => same_but_signature s s' /\
     chosen (fun f l sig => syscall_signature_from_source files f l (e_big e) = Ok sig) (recorded rs) s (sc_signature s')) scs out).
Proof.
  intros M C. destruct (metadata_read e rs M C) as (d & E & K). unfold extract_syscall_signatures. rewrite E. cbn [bind]. rewrite mapM_Ok.
  split; intros H; (eapply Forall2_weaken; [|exact H]); intros s s'; now apply (sign_iff files (e_big e) (Some d) (recorded rs)).
Qed.
Lemma signatures_nometa files scs e out : dget str_eqb $"__start_syscalls_metadata" (e_symbols e) = None ->
  (extract_syscall_signatures files scs e true = Ok out <->
   Forall2 (fun s s' => same_but_signature s s' /\
     chosen (fun f l sig => syscall_signature_from_source files f l (e_big e) = Ok sig) (fun _ _ => False) s (sc_signature s')) scs out).
Proof.
  intros M. unfold extract_syscall_signatures, read_metadata. rewrite M. cbn [bind]. rewrite mapM_Ok.
  split; intros H; (eapply Forall2_weaken; [|exact H]); intros s s'; apply (sign_iff files (e_big e) None (fun _ _ => False)); reflexivity.
Qed.
Lemma chosen_fun (source : path -> Z -> option (list str) -> Prop) (known : str -> list str -> Prop) s a b : (forall f l x y, source f l x -> source f l y -> x = y) ->
  (forall n x y, known n x -> known n y -> x = y) -> chosen source known s a -> chosen source known s b -> a = b.
Proof.
  intros F K Ha Hb. destruct Ha; destruct Hb; try congruence;
    try match goal with H : forall g, ~ known ?n g, X : known ?n ?s |- _ => exfalso; exact (H s X) end.
  - assert (f0 = f) as -> by congruence. assert (l0 = l) as -> by congruence. now apply (F f l).
  - f_equal. now apply (K (sc_origname s)).
  - f_equal. now apply (K (sc_name s)).
Qed.
(** Without sources no location is good. *)
Lemma signatures_nosource files scs e rs out : Forall (fun s => sc_esoteric s = false -> sc_good s = false) scs ->
  extract_syscall_signatures files scs e false = Ok out <-> extract_syscall_signatures rs scs e true = Ok out.
Proof.
  intros F. unfold extract_syscall_signatures. destruct (read_metadata e) as [m| | |]; cbn [bind]; try reflexivity.
  rewrite !mapM_Ok. revert out. induction scs as [|s scs IH]; intros out.
  - split; inversion 1; constructor.
  - assert (forall s', sign files (e_big e) false m s = Ok s' <-> sign rs (e_big e) true m s = Ok s') as S.
    { intros s'. unfold sign. destruct (sc_esoteric s) eqn:E; [reflexivity|]. rewrite (Forall_inv F E). reflexivity. }
    split; intros H; inversion H as [|? s' ? out' X Y]; subst; (constructor; [now apply S|]); apply IH; try assumption; now apply Forall_inv_tail in F.
Qed.

(** * Concrete cases *)

Lemma truncated_diverges : signature_from_text $"SYSCALL_DEFINE2(foo, int, a," 1 false = Diverge.
Proof. vm_compute. reflexivity. Qed.
Definition no_ends_spec (s : str) : bool :=
  match s with [] => true | c :: _ => negb (is_space c) end && match rev s with [] => true | c :: _ => negb (is_space c) end.
Lemma no_ends_trimmed s : no_ends_spec s = true -> trimmed s.
Proof.
  unfold no_ends_spec. intros H. apply andb_true_iff in H as [H1 H2]. split.
  - intros c x ->. now apply negb_true_iff in H1.
  - intros c x ->. rewrite rev_app_distr in H2. cbn in H2. now apply negb_true_iff in H2.
Qed.
