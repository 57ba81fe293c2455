(** Lemmas for M_Pattern.v (C102). *)
From Coq Require Import List Bool Ascii String ZArith Lia.
From Verif Require Import PyBase PyFacts Regex RegexFacts M_Utils M_Elf M_Syscall M_Arch M_Kernel M_Build M_Location M_Config M_Search S_Elf S_Signature S_Location L_Location L_Location2 M_Pattern S_Pattern.
Import ListNotations.
Open Scope Z_scope.
Open Scope list_scope.

(** ** Regexps that do the same, for a relation between captures *)

Definition sim (E : caps -> caps -> Prop) (a b : re) : Prop :=
  forall R s cs cs' (k k' : st -> caps -> option R), E cs cs' -> (forall s c c', E c c' -> k s c = k' s c') -> m a s cs k = m b s cs' k'.
Definition loose (a b : caps) : Prop := True.

Lemma m_star_ext {R} f g r : (forall c, f c = g c) -> forall p i (k k' : st -> option R), (forall s, k s = k' s) -> m_star f r p i k = m_star g r p i k'.
Proof.
  intros H. induction r as [|c r IH]; intros p i k k' K; cbn [m_star]; [apply K|]. rewrite H. destruct (g c); [|apply K].
  rewrite (IH _ _ k k' K). destruct (m_star g r _ _ k'); [reflexivity|apply K].
Qed.
Section Sim.
  Context (E : caps -> caps -> Prop) (push_ok : forall x c c', E c c' -> E (x :: c) (x :: c')).
  Lemma sim_cls f g : (forall c, f c = g c) -> sim E (RCls f) (RCls g).
  Proof. intros H R s cs cs' k k' C K. cbn [m]. destruct (rest s) as [|c rs]; [reflexivity|]. rewrite H. destruct (g c); [now apply K|reflexivity]. Qed.
  Lemma sim_star f g : (forall c, f c = g c) -> sim E (RStar f) (RStar g).
  Proof. intros H R s cs cs' k k' C K. cbn [m]. apply m_star_ext; [exact H|]. intros s'. now apply K. Qed.
  Lemma sim_cat a a' b b' : sim E a a' -> sim E b b' -> sim E (RCat a b) (RCat a' b').
  Proof. intros A B R s cs cs' k k' C K. cbn [m]. apply A; [exact C|]. intros. now apply B. Qed.
  Lemma sim_alt a a' b b' : sim E a a' -> sim E b b' -> sim E (RAlt a b) (RAlt a' b').
  Proof. intros A B R s cs cs' k k' C K. cbn [m]. rewrite (A R s cs cs' k k' C K). destruct (m a' s cs' k'); [reflexivity|]. now apply B. Qed.
  Lemma sim_opt a a' : sim E a a' -> sim E (ROpt a) (ROpt a').
  Proof. intros A R s cs cs' k k' C K. cbn [m]. rewrite (A R s cs cs' k k' C K). destruct (m a' s cs' k'); [reflexivity|]. now apply K. Qed.
  Lemma sim_grp n a a' : sim E a a' -> sim E (RGrp n a) (RGrp n a').
  Proof. intros A R s cs cs' k k' C K. cbn [m]. apply A; [exact C|]. intros. apply K. now apply push_ok. Qed.
  Lemma sim_refl a : sim E a a.
  Proof.
    induction a; try (intros R s cs cs' k k' C K; cbn [m]; now rewrite (K s cs cs' C) || reflexivity).
    - now apply sim_cls.
    - now apply sim_cat.
    - now apply sim_alt.
    - now apply sim_opt.
    - now apply sim_star.
    - now apply sim_grp.
  Qed.
  Lemma sim_trans_like a b c : (forall R s cs (k : st -> caps -> option R), m a s cs k = m b s cs k) -> sim E b c -> sim E a c.
  Proof. intros H B R s cs cs' k k' C K. rewrite H. now apply B. Qed.
  Lemma sim_trans_like_r a b c : (forall R s cs (k : st -> caps -> option R), m c s cs k = m b s cs k) -> sim E a b -> sim E a c.
  Proof. intros H B R s cs cs' k k' C K. rewrite H. now apply B. Qed.
End Sim.

(** ** Reading names *)

Lemma read_app b ml s t x : read_all b ml (s ++ t) x = read_all b ml t (read_all b ml s x).
Proof. revert x. induction s as [|c s IH]; intros x; [reflexivity|]. cbn [app read_all]. apply IH. Qed.
Definition any_or (c : ascii) : piece := Single (if Ascii.eqb c "."%char then cls_any else chr_is c).
Definition named (name : str) (l : list piece) : list piece := rev (map any_or name) ++ l.
Lemma read_dotted b ml name : dotted name -> forall n stack g alts seq,
  read_all b ml name (More (Reader Normal n stack (Frame g alts seq))) = More (Reader Normal n stack (Frame g alts (named name seq))).
Proof.
  induction 1 as [|c name H F IH]; intros n stack g alts seq; [reflexivity|]. cbn [read_all read_char r_mode].
  assert (read_normal ml c (Reader Normal n stack (Frame g alts seq)) = More (Reader Normal n stack (Frame g alts (any_or c :: seq)))) as E.
  { destruct H as [->|H]; [reflexivity|]. unfold any_or. destruct (Ascii.eqb_spec c "."%char) as [->|_]; [exfalso; apply H; vm_compute; tauto|]. unfold read_normal.
    repeat match goal with |- context [Ascii.eqb c ?d] => destruct (Ascii.eqb_spec c d) as [->|_]; [exfalso; apply H; vm_compute; tauto|] end. reflexivity. }
  rewrite E, IH. unfold named. cbn [map rev]. rewrite <- app_assoc. reflexivity.
Qed.
Lemma seq_named name : RSeq (map re_of (map any_or name)) = RName name.
Proof. induction name as [|c name IH]; [reflexivity|]. cbn [map RSeq RName]. rewrite IH. unfold any_or. cbn [re_of]. unfold cls_any, RChr, chr_is. now destruct (Ascii.eqb c _). Qed.
Lemma m_seq_app {R} l1 l2 s cs (k : st -> caps -> option R) : m (RSeq (l1 ++ l2)) s cs k = m (RCat (RSeq l1) (RSeq l2)) s cs k.
Proof.
  revert s cs k. induction l1 as [|r l1 IH]; intros s cs k; [reflexivity|]. cbn [app RSeq m].
  apply (sim_refl eq ltac:(congruence) r); [reflexivity|]. intros s' c c' ->. rewrite IH. reflexivity.
Qed.
Lemma rev_named name l : rev (named name l) = rev l ++ map any_or name.
Proof. unfold named. rewrite rev_app_distr, rev_involutive. reflexivity. Qed.

(** ** Comparing *)

Section Steps.
  Context (E : caps -> caps -> Prop).
  Lemma sim_end a b : sim E (RCat a REps) (RCat b REps) -> sim E a b.
  Proof. exact (fun H => H). Qed.
  Lemma sim_eps_l a b : sim E a b -> sim E (RCat REps a) b.
  Proof. exact (fun H => H). Qed.
  Lemma sim_eps_r a b : sim E a b -> sim E a (RCat REps b).
  Proof. exact (fun H => H). Qed.
  Lemma sim_assoc_l a b c d : sim E (RCat a (RCat b c)) d -> sim E (RCat (RCat a b) c) d.
  Proof. exact (fun H => H). Qed.
  Lemma sim_assoc_r a b c d : sim E d (RCat a (RCat b c)) -> sim E d (RCat (RCat a b) c).
  Proof. exact (fun H => H). Qed.
  Lemma sim_seq_l l1 l2 a d : sim E (RCat (RSeq l1) (RCat (RSeq l2) a)) d -> sim E (RCat (RSeq (l1 ++ l2)) a) d.
  Proof. intros H. eapply sim_trans_like; [|exact H]. intros R s cs k. cbn [m]. rewrite m_seq_app. reflexivity. Qed.
End Steps.
Lemma loose_push : forall x c c', loose c c' -> loose (x :: c) (x :: c').
Proof. intros. exact I. Qed.
Lemma eq_push : forall (x : nat * (Z * str)) c c', c = c' -> x :: c = x :: c'.
Proof. intros. congruence. Qed.
Lemma sim_grp_l n a b d : sim loose (RCat a b) d -> sim loose (RCat (RGrp n a) b) d.
Proof.
  intros H R s cs cs' k k' C K. rewrite <- (H R s cs cs' k k' C K). cbn [m]. apply (sim_refl loose loose_push a); [exact I|].
  intros s' c c' _. apply (sim_refl loose loose_push b); [exact I|]. intros. rewrite (K _ c0 c0 I). symmetry. now apply K.
Qed.
Lemma sim_set E : sim E (RCls (union (chr_is ",") (chr_is ")"))) (RAlt (RLit $",") (RLit $")")).
Proof.
  intros R s cs cs' k k' C K. cbn [m RLit list_ascii_of_string RChr]. destruct (rest s) as [|c rs]; [reflexivity|].
  change (union (chr_is ",") (chr_is ")") c) with (Ascii.eqb "," c || Ascii.eqb ")" c). destruct (Ascii.eqb_spec "," c) as [<-|N]; cbn [orb].
  - rewrite (K _ _ cs' C). destruct (k' _ _); reflexivity.
  - destruct (Ascii.eqb ")" c); [now apply K|reflexivity].
Qed.
Ltac reading := cbv -[cls_s cls_w cls_d cls_S cls_any chr_is set_range union RPlus RLit RSeq named app map rev re_of].
Ltac same_class := let c := fresh in intros c; first [reflexivity | destruct c as [[] [] [] [] [] [] [] []]; reflexivity].
Ltac compare := apply sim_end; repeat compare_step
with compare_step :=
  lazymatch goal with
  | |- sim _ (RCat REps _) _ => apply sim_eps_l
  | |- sim _ _ (RCat REps _) => apply sim_eps_r
  | |- sim _ (RCat (RCat _ _) _) _ => apply sim_assoc_l
  | |- sim _ _ (RCat (RCat _ _) _) => apply sim_assoc_r
  | |- sim _ (RCat (RSeq (_ ++ _)) _) _ => apply sim_seq_l
  | |- sim _ (RCat (RName ?n) _) (RCat (RName ?n) _) => apply sim_cat; [apply sim_refl; first [exact loose_push | exact eq_push]|]
  | |- sim _ (RCat (RLit ?n) _) (RCat (RLit ?n) _) => apply sim_cat; [apply sim_refl; first [exact loose_push | exact eq_push]|]
  | |- sim _ (RCat (RCls _) _) (RCat (RCls _) _) => apply sim_cat; [apply sim_cls; same_class|]
  | |- sim _ (RCat (RCls _) _) (RCat (RAlt _ _) _) => apply sim_cat; [apply sim_set|]
  | |- sim _ (RCat (RStar _) _) (RCat (RStar _) _) => apply sim_cat; [apply sim_star; same_class|]
  | |- sim _ (RCat (ROpt _) _) (RCat (ROpt _) _) => apply sim_cat; [apply sim_opt; compare|]
  | |- sim _ (RCat (RAlt _ _) _) (RCat (RAlt _ _) _) => apply sim_cat; [apply sim_alt; [compare|compare]|]
  | |- sim _ (RCat (RGrp ?n _) _) (RCat (RGrp ?n _) _) => apply sim_cat; [apply sim_grp; [first [exact loose_push | exact eq_push]|compare]|]
  | |- sim loose (RCat (RGrp _ _) _) _ => apply sim_grp_l
  | |- sim _ (RCat (RWordB _) _) _ => apply sim_cat; [apply sim_refl; first [exact loose_push | exact eq_push]|]
  | |- sim _ (RCat RBol _) _ => apply sim_cat; [apply sim_refl; first [exact loose_push | exact eq_push]|]
  | |- sim _ (RCat RMBol _) _ => apply sim_cat; [apply sim_refl; first [exact loose_push | exact eq_push]|]
  | |- sim _ (RCat REol _) _ => apply sim_cat; [apply sim_refl; first [exact loose_push | exact eq_push]|]
  | |- sim _ REps REps => apply sim_refl; first [exact loose_push | exact eq_push]
  end.
Ltac spell := cbn [rev map app re_of RSeq RLit RName Ascii.eqb Bool.eqb list_ascii_of_string]; unfold RPlus, RChr.

Definition reads (E : caps -> caps -> Prop) (b ml : bool) (text : str) (r : re) : Prop :=
  exists r', compile b ml text = Compiled r' /\ sim E r' r.
Ltac literal_text := match goal with |- compile ?b ?ml ?t = _ => let t' := eval vm_compute in t in change t with t' end.

(** ** The regexps without a name *)

Lemma reads_sections : reads eq false false sections_text sections_re.
Proof. eexists. split; [reading; reflexivity|]. unfold sections_re. spell. compare. Qed.
Lemma reads_symbols : reads eq false false symbols_text symbols_re.
Proof. eexists. split; [reading; reflexivity|]. unfold symbols_re. spell. compare. Qed.
Lemma reads_version : reads eq false false version_text version_re.
Proof. eexists. split; [reading; reflexivity|]. unfold version_re. spell. compare. Qed.
Lemma reads_opt : reads eq false true opt_text opt_re.
Proof. eexists. split; [reading; reflexivity|]. unfold opt_re. spell. compare. Qed.
Lemma reads_search a : reads loose true false (search_text a) (search_exp a).
Proof.
  destruct a as [k ver abi b32 ab32 fd co tg tb ba nr ar]. unfold search_text, odd_text, search_exp, any_def_regexp, base_text, base_bexp.
  cbn [a_class a_abi a_compat a_bits32].
  destruct k; try (destruct (str_eqb abi _)); destruct co; try destruct b32; cbn [negb orb].
  all: eexists; split; [literal_text; reading; reflexivity|].
  all: unfold basm_any, basm, BWord, BSp, open_paren; cbn [RAlts app]; spell. 
  all: compare.
Qed.

(** ** Those with a name *)

Ltac literal_read := match goal with |- read_all ?b ?ml ?t ?x = _ => let t' := eval vm_compute in t in change t with t' end.
Lemma read_then b ml pre name post n stack g alts seq : dotted name ->
  read_all b ml pre (More reader0) = More (Reader Normal n stack (Frame g alts seq)) ->
  read_all b ml (pre ++ name ++ post) (More reader0) = read_all b ml post (More (Reader Normal n stack (Frame g alts (named name seq)))).
Proof. intros P H. rewrite !read_app, H, (read_dotted b ml name P). reflexivity. Qed.
Lemma compile_then b ml pre name post n stack g alts seq c : dotted name ->
  read_all b ml pre (More reader0) = More (Reader Normal n stack (Frame g alts seq)) ->
  match read_all b ml post (More (Reader Normal n stack (Frame g alts (named name seq)))) with
  | More (Reader Normal _ [] f) => Compiled (whole f)
  | Strange => Beyond
  | _ => RegexpError
  end = c ->
  compile b ml (pre ++ name ++ post) = c.
Proof. intros P H <-. unfold compile. rewrite (read_then _ _ _ _ _ _ _ _ _ _ P H). reflexivity. Qed.

Ltac normal := repeat progress (cbn [rev map app re_of]; rewrite ?rev_named); repeat rewrite <- app_assoc; rewrite ?map_app; cbn [map app re_of];
   unfold RSp, RWord, open_paren; spell.
Ltac by_names := apply sim_end; repeat first [compare_step | rewrite seq_named | apply sim_seq_l | rewrite map_app | progress spell].
Lemma reads_fullname name : dotted name -> reads loose false false (fullname_text name) (fullname name).
Proof.
  intros P. eexists. split. { unfold fullname_text. eapply compile_then; [exact P|reading; reflexivity|reading; reflexivity]. }
  unfold fullname, re_asmlinkage. normal. by_names.
Qed.
Lemma reads_grep a name : dotted name -> reads loose false false (grep_text a name) (grep_exp a name).
Proof.
  intros P. unfold grep_text, base_text, grep_exp, base_exp. rewrite app_assoc.
  destruct (a_compat a), (a_bits32 a); cbn [orb];
  (eexists; split; [eapply compile_then; [exact P|cbn [app list_ascii_of_string]; reading; reflexivity|reading; reflexivity]|normal; by_names]).
Qed.

Lemma compile_twice b ml pre name mid name' post n stack g alts seq n' stack' g' alts' seq' c : dotted name -> dotted name' ->
  read_all b ml pre (More reader0) = More (Reader Normal n stack (Frame g alts seq)) ->
  read_all b ml mid (More (Reader Normal n stack (Frame g alts (named name seq)))) = More (Reader Normal n' stack' (Frame g' alts' seq')) ->
  match read_all b ml post (More (Reader Normal n' stack' (Frame g' alts' (named name' seq')))) with
  | More (Reader Normal _ [] f) => Compiled (whole f)
  | Strange => Beyond
  | _ => RegexpError
  end = c ->
  compile b ml (pre ++ name ++ mid ++ name' ++ post) = c.
Proof. intros P P' H H' <-. unfold compile. rewrite (read_then _ _ _ _ _ _ _ _ _ _ P H), !read_app, H', (read_dotted _ _ _ P'). reflexivity. Qed.

Ltac once_ P := eapply compile_then; [exact P|reading; reflexivity|reading; reflexivity].
Ltac twice P := eapply compile_twice; [exact P|exact P|reading; reflexivity|reading; reflexivity|reading; reflexivity].
Lemma style_shape a name : style_text a name =
  (if a_compat a then $"^(COMPAT_)?SYSCALL(32)?_DEFINE\d\s*\(" else $"^SYSCALL(32)?_DEFINE\d\s*\(") ++ name ++
  $"\b|^asmlinkage\s*(unsigned\s+)?\w+\s*sys(32)?_" ++ name ++ $"\(".
Proof. unfold style_text. destruct (a_compat a); repeat rewrite <- app_assoc; reflexivity. Qed.
Lemma reads_style a name : dotted name -> reads loose false false (style_text a name) (RAlt (newstyle a name) (oldstyle name)).
Proof.
  intros P. rewrite style_shape. unfold newstyle, oldstyle, re_asmlinkage.
  destruct (a_compat a); (eexists; split; [twice P|normal; by_names]).
Qed.
Lemma asm_shape before name : asm_named before name = ($"\basmlinkage\s*(unsigned\s+)?\w+\s*" ++ before) ++ name ++ $"\s*\(".
Proof. apply app_assoc. Qed.

Lemma two_shape b1 b2 name : join $"|" [asm_named b1 name; asm_named b2 name] =
  ($"\basmlinkage\s*(unsigned\s+)?\w+\s*" ++ b1) ++ name ++ ($"\s*\(|\basmlinkage\s*(unsigned\s+)?\w+\s*" ++ b2) ++ name ++ $"\s*\(".
Proof. unfold asm_named. cbn [join]. repeat rewrite <- app_assoc. reflexivity. Qed.
Ltac closed_reading := literal_read; reading; reflexivity.
Ltac asm_once P := rewrite asm_shape; eexists; split; [eapply compile_then; [exact P|closed_reading|reading; reflexivity]|unfold odd_asm, re_asmlinkage; normal; by_names].
Ltac asm_twice P := rewrite two_shape; eexists; split; [eapply compile_twice; [exact P|exact P|closed_reading|closed_reading|reading; reflexivity]|unfold odd_asm, re_asmlinkage; cbn [RAlts app]; normal; by_names].
Lemma reads_odd a name : dotted name ->
  match odd_named_text a name, syscall_def_regexp a name with Some t, Some r => reads loose false false t r | None, None => True | _, _ => False end.
Proof.
  intros P. unfold odd_named_text, syscall_def_regexp. destruct (a_class a); try exact I.
  - destruct (str_eqb (a_abi a) $"oabi"); cbn [negb]; [|exact I]. destruct (startswith name $"sys_oabi_"); asm_once P.
  - destruct (str_eqb (a_abi a) $"n32"); cbn [app]; destruct (anyprefix name [$"sysm_"; $"mipsmt_sys_"]); try destruct (anyprefix name [$"sysn32_"]);
      first [asm_twice P | cbn [join RAlts]; asm_once P].
  - destruct (str_eqb (a_abi a) $"ppc32"); cbn [negb]; [|exact I]. eexists; split; [once_ P|normal; by_names].
  - destruct (str_eqb (a_abi a) $"x32"); cbn [negb]; [|exact I]. destruct (startswith name $"sys32_x32_"); asm_once P.
Qed.

(** ** Results *)

Lemma m_star_map {A B} (g : A -> B) f r : forall p i (k : st -> option A),
  m_star f r p i (fun s => option_map g (k s)) = option_map g (m_star f r p i k).
Proof.
  induction r as [|c r IH]; intros p i k; cbn [m_star]; [reflexivity|]. destruct (f c); [|reflexivity]. rewrite IH.
  destruct (m_star f r (Some c) (i + 1) k); reflexivity.
Qed.
Lemma m_map {A B} (g : A -> B) r : forall s cs (k : st -> caps -> option A),
  m r s cs (fun s' c => option_map g (k s' c)) = option_map g (m r s cs k).
Proof.
  induction r; intros s cs k; cbn [m].
  - reflexivity.
  - destruct (rest s); [reflexivity|]. destruct (f a); reflexivity.
  - etransitivity; [|apply IHr1]. apply (sim_refl eq eq_push r1); [reflexivity|]. intros s' c c' ->. apply IHr2.
  - rewrite IHr1. destruct (m r1 s cs k); [reflexivity|]. apply IHr2.
  - rewrite IHr. destruct (m r s cs k); reflexivity.
  - apply m_star_map.
  - apply IHr.
  - destruct (at_bol s); reflexivity.
  - destruct (at_mbol s); reflexivity.
  - destruct (at_eol s); reflexivity.
  - destruct (at_wordb w s); reflexivity.
Qed.
Definition no_caps (x : mres) : Z * st := fst x.
Lemma sim_match_at_loose r r' s : sim loose r r' -> option_map no_caps (re_match_at r s) = option_map no_caps (re_match_at r' s).
Proof. intros H. unfold re_match_at. rewrite <- !m_map. apply H; [exact I|]. reflexivity. Qed.
Lemma sim_match_at r r' s : sim eq r r' -> re_match_at r s = re_match_at r' s.
Proof. intros H. unfold re_match_at. apply H; [reflexivity|]. intros s' c c' ->. reflexivity. Qed.
Lemma sim_search_from r r' : sim eq r r' -> forall rs p i, search_from r p rs i = search_from r' p rs i.
Proof. intros H. induction rs as [|c rs IH]; intros p i; cbn [search_from]; rewrite (sim_match_at r r' _ H); [reflexivity|]. rewrite IH. reflexivity. Qed.
Lemma sim_search_from_loose r r' : sim loose r r' -> forall rs p i, option_map no_caps (search_from r p rs i) = option_map no_caps (search_from r' p rs i).
Proof.
  intros H. induction rs as [|c rs IH]; intros p i; cbn [search_from].
  - pose proof (sim_match_at_loose r r' (St p [] i) H) as M. destruct (re_match_at r _), (re_match_at r' _); try discriminate M; [exact M|reflexivity].
  - pose proof (sim_match_at_loose r r' (St p (c :: rs) i) H) as M. destruct (re_match_at r _), (re_match_at r' _); try discriminate M; [exact M|apply IH].
Qed.
Lemma sim_finditer r r' : sim eq r r' -> forall n s, finditer_from n r s = finditer_from n r' s.
Proof. intros H. induction n as [|n IH]; intros s; cbn [finditer_from]; [reflexivity|]. rewrite (sim_search_from r r' H). destruct (search_from r' _ _ _) as [[[i s'] cs]|]; [|reflexivity]. rewrite IH. reflexivity. Qed.
Lemma sim_matches r r' s : sim loose r r' -> matches r s = matches r' s.
Proof.
  intros H. unfold matches, re_match. pose proof (sim_match_at_loose r r' (start s) H) as M.
  destruct (re_match_at r _), (re_match_at r' _); try discriminate M; reflexivity.
Qed.
Lemma sim_found r r' s : sim loose r r' -> found r s = found r' s.
Proof.
  intros H. unfold found, re_search. pose proof (sim_search_from_loose r r' H s None 0) as M.
  destruct (search_from r _ _ _), (search_from r' _ _ _); try discriminate M; reflexivity.
Qed.

Lemma run_reads {A} E b ml text r (f : re -> A) : reads E b ml text r -> (forall r', sim E r' r -> f r' = f r) -> run b ml text f = Some (f r).
Proof. intros (r' & C & S) H. unfold run. rewrite C, (H r' S). reflexivity. Qed.
Lemma sections_run out : run false false sections_text (fun r => re_finditer r out) = Some (re_finditer sections_re out).
Proof. apply (run_reads eq _ _ _ _ (fun r => re_finditer r out) reads_sections). intros r' S. apply (sim_finditer _ _ S). Qed.
Lemma symbols_run line : run false false symbols_text (fun r => re_search r line) = Some (re_search symbols_re line).
Proof. apply (run_reads eq _ _ _ _ (fun r => re_search r line) reads_symbols). intros r' S. apply (sim_search_from _ _ S). Qed.
Lemma version_run s : run false false version_text (fun r => re_match r s) = Some (re_match version_re s).
Proof. apply (run_reads eq _ _ _ _ (fun r => re_match r s) reads_version). intros r' S. apply (sim_match_at _ _ _ S). Qed.
Lemma opt_run data : run false true opt_text (fun r => re_search r data) = Some (re_search opt_re data).
Proof. apply (run_reads eq _ _ _ _ (fun r => re_search r data) reads_opt). intros r' S. apply (sim_search_from _ _ S). Qed.
Lemma search_run a line : run true false (search_text a) (fun r => found r line) = Some (found (search_exp a) line).
Proof. apply (run_reads loose _ _ _ _ (fun r => found r line) (reads_search a)). intros r' S. now apply sim_found. Qed.
Lemma grep_run a name line : dotted name -> run false false (grep_text a name) (fun r => found r line) = Some (found (grep_exp a name) line).
Proof. intros P. apply (run_reads loose _ _ _ _ (fun r => found r line) (reads_grep a name P)). intros r' S. now apply sim_found. Qed.
Lemma match_run text r s : reads loose false false text r -> match_text text s = Some (matches r s).
Proof. intros H. apply (run_reads loose _ _ _ _ (fun r => matches r s) H). intros r' S. now apply sim_matches. Qed.
Lemma good_dotted a text name : dotted name -> good_definition_text a text name = Some (good_definition a text name).
Proof.
  intros P. unfold good_definition_text, good_definition. rewrite (match_run _ _ text (reads_style a name P)), (match_run _ _ text (reads_fullname name P)).
  pose proof (reads_odd a name P) as O.
  destruct (odd_named_text a name) as [t|], (syscall_def_regexp a name) as [r|]; try contradiction O.
  - rewrite (match_run _ _ text O). destruct (matches (RAlt _ _) text), (startswith name _), (matches (fullname name) text), (matches r text); reflexivity.
  - destruct (matches (RAlt _ _) text), (startswith name _), (matches (fullname name) text); reflexivity.
Qed.
Lemma word_char_plain c : is_word c = true -> ~ special c.
Proof. intros H S. unfold special in S. cbn [list_ascii_of_string In] in S. repeat (destruct S as [S|S]; [subst c; discriminate H|]). exact S. Qed.
Lemma some_plain name : some_of is_word name -> plain name.
Proof. intros [_ H]. apply Forall_forall. intros c I. apply word_char_plain. rewrite forallb_forall in H. now apply H. Qed.

Lemma plain_dotted name : plain name -> dotted name.
Proof. intros P. eapply Forall_impl; [|exact P]. intros c H. now right. Qed.
Lemma found_true r s : found r s = true -> re_search r s <> None.
Proof. unfold found. destruct (re_search r s); [discriminate|discriminate]. Qed.
Lemma found_intro r s : re_search r s <> None -> found r s = true.
Proof. unfold found. destruct (re_search r s); [reflexivity|congruence]. Qed.
Lemma dotted_runs a name : dotted name ->
  (forall text, good_definition_text a text name <> None) /\
  (forall line, run false false (grep_text a name) (fun r => found r line) <> None).
Proof. intros P. split; intros text; [rewrite good_dotted by exact P|rewrite grep_run by exact P]; discriminate. Qed.
Lemma word_definitions a text name : some_of is_word name ->
  (good_definition_text a text name = Some true <-> defines a name text) /\
  (good_definition_text a text name = Some false <-> ~ defines a name text).
Proof.
  intros W. rewrite (good_dotted a text name (plain_dotted name (some_plain name W))). rewrite <- (good_definition_spec a text name W).
  destruct (good_definition a text name); split; split; intros H; try reflexivity; try discriminate; try congruence.
Qed.
Lemma dotted_definitions a text name : dotted name ->
  (good_definition_text a text name = Some true <-> accepts a name text) /\
  (good_definition_text a text name = Some false <-> ~ accepts a name text).
Proof.
  intros P. rewrite (good_dotted a text name P). rewrite <- (good_definition_accepts a text name).
  destruct (good_definition a text name); split; split; intros H; try reflexivity; try discriminate; try congruence.
Qed.
Lemma plain_stands name n : plain name -> (stands_for name n <-> n = name).
Proof.
  intros P. split; [|intros ->; apply stands_refl]. apply stands_plain. unfold dotless. apply forallb_forall. intros c I. apply negb_true_iff, Ascii.eqb_neq. intros ->.
  unfold plain in P. rewrite Forall_forall in P. apply (P _ I). vm_compute. tauto.
Qed.
Lemma last_boundary name t : word_last name -> word_ends t -> boundary name t.
Proof. intros W E. split; [|intros _; exact W]. intros _ (c & x & -> & F). cbn in E. congruence. Qed.
Lemma dotted_found a text name : dotted name -> word_last name -> defines a name text -> good_definition_text a text name = Some true.
Proof.
  intros P L H. apply dotted_definitions; [exact P|].
  destruct H as [(c & b & d & w & t & C & Bb & D & W & -> & E)|b Bb H|x E H|f F H|H1 H2 (d & w & t & D & W & -> & E)].
  - apply (ac_new _ _ _ c b d w name t); conj; [apply stands_refl|now apply last_boundary].
  - apply (ac_old _ _ _ b name); conj. apply stands_refl.
  - apply (ac_full _ _ _ x name); conj. apply stands_refl.
  - apply (ac_odd _ _ _ f f); conj. apply stands_refl.
  - apply (ac_ppc _ _ _ d w name t); conj; [apply stands_refl|now apply last_boundary].
Qed.
Definition dot_arch : arch := Arch KX86 [] $"x64" false false false false [] None 0 None [].
Lemma dot_refuted : exists a text name, dotted name /\ good_definition_text a text name = Some true /\ ~ exists x y, text = x ++ name ++ y.
Proof.
  exists dot_arch, $"SYSCALL_DEFINE0(foo_isra)", $"foo.isra". split; [|split; [vm_compute; reflexivity|]].
  - repeat (apply Forall_cons; [first [left; reflexivity | right; apply word_char_plain; reflexivity]|]). apply Forall_nil.
  - intros (x & y & E). assert (In "."%char $"SYSCALL_DEFINE0(foo_isra)") as H.
    { rewrite E. apply in_app_iff. right. apply in_app_iff. left. vm_compute. tauto. }
    vm_compute in H. intuition discriminate.
Qed.
Lemma error_refuted : exists a text name, forallb (fun c => negb (is_space c)) name = true /\ good_definition_text a text name = None /\
  compile false false (style_text a name) = RegexpError.
Proof. exists dot_arch, $"int x;", $"operator(". split; [reflexivity|split; vm_compute; reflexivity]. Qed.
