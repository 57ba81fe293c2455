(** Lemmas for the properties of location.py: what good_definition() accepts. *)
From Coq Require Import List Bool Ascii String ZArith Lia.
From Verif Require Import PyBase PyFacts Regex RegexFacts RegexDen M_Utils M_Elf M_Syscall M_Arch M_Location
  S_Elf S_Signature S_Pattern S_Location L_Utils.
Import ListNotations.
Open Scope Z_scope.
Open Scope list_scope.

Lemma matches_den r s : matches r s = true <-> den r ktrue None s.
Proof. rewrite <- re_match_den. unfold matches. destruct (re_match r s); split; congruence. Qed.

Lemma den_seq_consE r l (K : cont) : den (RSeq (r :: l)) K = den r (den (RSeq l) K).
Proof. reflexivity. Qed.
Lemma last_word p name : some_of is_word name -> isw is_word (lastp p name) = true.
Proof.
  intros (N & F). unfold lastp. destruct (rev name) as [|c u] eqn:E.
  - apply (f_equal (@rev ascii)) in E. rewrite rev_involutive in E. now elim N.
  - cbn. rewrite forallb_forall in F. apply F. apply in_rev. rewrite E. now left.
Qed.
Lemma wordb_ends p name t : some_of is_word name ->
  (xorb (isw is_word (lastp p name)) (isw is_word (hd_opt t)) = true <-> word_ends t).
Proof.
  intros H. rewrite (last_word p name H). destruct t as [|c t]; cbn; [tauto|]. destruct (is_word c); cbn; intuition congruence.
Qed.
Lemma wordb_begins c l (K : cont) t : is_word c = true ->
  (den RWord (den (RLit (c :: l)) K) None t <-> den (RLit (c :: l)) K None t).
Proof.
  intros H. unfold RWord. cbn [den]. split; [tauto|]. intros D. split; [|exact D]. apply den_lit in D as (t' & -> & _). cbn. now rewrite H.
Qed.
Lemma den_sp (K : cont) p t : den RSp K p t <-> exists w t', t = w ++ t' /\ blanks w /\ K (lastp p w) t'.
Proof. unfold RSp. cbn [den]. reflexivity. Qed.
Lemma den_iff r (K L : cont) p t : (forall p t, K p t <-> L p t) -> (den r K p t <-> den r L p t).
Proof. intros H. split; apply den_mono; intros; now apply H. Qed.

(** Names within regexps *)
Lemma den_name name : forall (K : cont) p t, den (RName name) K p t <-> exists n t', stands_for name n /\ t = n ++ t' /\ K (lastp p n) t'.
Proof.
  induction name as [|c name IH]; intros K p t; cbn [RName den].
  - split; [intros H; exists [], t; split; [constructor|auto]|]. intros (n & t' & S & -> & H). inversion S; subst. exact H.
  - assert (forall (L : cont), den (if Ascii.eqb c "."%char then RCls c_dot else RChr c) L p t <-> exists d t1, (c = d \/ c = "."%char /\ d <> NL) /\ t = d :: t1 /\ L (Some d) t1) as G.
    { intros L. destruct (Ascii.eqb_spec c "."%char) as [->|N]; unfold RChr; cbn [den]; split.
      - intros (d & t1 & -> & E & H). exists d, t1. split; [|auto]. right. split; [reflexivity|]. unfold c_dot in E. apply negb_true_iff, Ascii.eqb_neq in E. exact E.
      - intros (d & t1 & E & -> & H). exists d, t1. split; [reflexivity|]. split; [|exact H]. unfold c_dot. apply negb_true_iff, Ascii.eqb_neq. destruct E as [<-|(_ & E)]; [discriminate|exact E].
      - intros (d & t1 & -> & E & H). apply Ascii.eqb_eq in E. subst d. exists c, t1. auto.
      - intros (d & t1 & E & -> & H). exists d, t1. split; [reflexivity|]. split; [|exact H]. apply Ascii.eqb_eq. destruct E as [<-|(E & _)]; [reflexivity|contradiction]. }
    rewrite G. split.
    + intros (d & t1 & E & -> & H). apply IH in H as (n & t' & S & -> & H). exists (d :: n), t'. split; [now constructor|]. split; [reflexivity|]. now rewrite lastp_cons.
    + intros (n & t' & S & -> & H). inversion S as [|? d ? n' E S']; subst. exists d, (n' ++ t'). split; [exact E|]. split; [reflexivity|]. apply IH. exists n', t'. rewrite lastp_cons in H. auto.
Qed.
Lemma stands_refl name : stands_for name name.
Proof. unfold stands_for. induction name; constructor; auto. Qed.
Definition dotless (s : str) : Prop := forallb (fun c => negb (Ascii.eqb c "."%char)) s = true.
Lemma stands_plain name n : dotless name -> stands_for name n -> n = name.
Proof.
  unfold dotless. intros P S. induction S as [|c d name n E S IH]; [reflexivity|]. cbn in P. apply andb_true_iff in P as [P1 P2]. apply negb_true_iff, Ascii.eqb_neq in P1.
  rewrite (IH P2). destruct E as [->|(E & _)]; [reflexivity|contradiction].
Qed.
Lemma stands_app pre name n' : dotless pre -> (stands_for (pre ++ name) n' <-> exists n, n' = pre ++ n /\ stands_for name n).
Proof.
  intros P. unfold stands_for. split.
  - intros S. apply Forall2_app_inv_l in S as (p & n & S1 & S2 & ->). apply (stands_plain pre p P) in S1. subst p. eauto.
  - intros (n & -> & S). apply Forall2_app; [apply stands_refl|exact S].
Qed.
Lemma word_plain name : some_of is_word name -> dotless name.
Proof.
  intros (_ & F). unfold dotless. apply forallb_forall. intros c I. rewrite forallb_forall in F. specialize (F c I). apply negb_true_iff, Ascii.eqb_neq. intros ->. discriminate F.
Qed.
Lemma last_isw n : isw is_word (lastp (Some "("%char) n) = true <-> word_last n.
Proof.
  unfold lastp, word_last. destruct n as [|x n _] using rev_ind.
  - split; [discriminate|]. intros (u & c & E & _). now destruct u.
  - rewrite rev_app_distr. cbn. split; [eauto|]. intros (u & c & E & F). apply app_inj_tail in E as [_ ->]. exact F.
Qed.
Lemma first_isw t : isw is_word (hd_opt t) = true <-> word_first t.
Proof.
  unfold word_first. destruct t as [|c t]; cbn; [split; [discriminate|]; intros (c & x & E & _); discriminate|].
  split; [eauto|]. intros (d & x & E & F). now injection E as -> _.
Qed.
Lemma wordb_boundary p n t : xorb (isw is_word (lastp (lastp p $"(") n)) (isw is_word (hd_opt t)) = true <-> boundary n t.
Proof.
  change (lastp p $"(") with (Some "("%char). unfold boundary. rewrite <- last_isw, <- first_isw.
  destruct (isw is_word (lastp _ n)), (isw is_word (hd_opt t)); cbn; intuition congruence.
Qed.
Lemma boundary_ends name t : some_of is_word name -> (boundary name t <-> word_ends t).
Proof. intros N. rewrite <- (wordb_boundary None). now apply wordb_ends. Qed.

Ltac conj := repeat (split; [assumption || reflexivity|]); try assumption; try reflexivity.
(** asmlinkage [unsigned] type, then [l] *)
Lemma den_head beg l t (B : forall K : cont, den beg (den (RLit $"asmlinkage") K) None t <-> den (RLit $"asmlinkage") K None t) :
  den (re_asmlinkage beg l) ktrue None t <->
  exists head t', asm_head head /\ t = head ++ t' /\ den (RSeq l) ktrue (lastp None head) t'.
Proof.
  unfold re_asmlinkage. cbn [app]. rewrite !den_seq_consE. rewrite B, den_lit. split.
  - intros (t1 & -> & H). apply den_sp in H as (w1 & t2 & -> & W1 & H). cbn [den] in H.
    assert (exists u t3, (u = [] \/ exists w, u = $"unsigned" ++ w /\ w <> [] /\ blanks w) /\ t2 = u ++ t3 /\
      den (RPlus c_w) (den (RSeq (RSp :: l)) ktrue) (lastp None ($"asmlinkage" ++ w1 ++ u)) t3) as (u & t3 & U & -> & H').
    { destruct H as [H|H].
      - exists [], t2. split; [now left|]. split; [reflexivity|]. rewrite app_nil_r, lastp_app. exact H.
      - apply den_lit in H as (t3 & -> & H). apply den_plus in H as (w & t4 & -> & N & W & H).
        exists ($"unsigned" ++ w), t4. split; [right; exists w; auto|]. split; [now rewrite app_assoc|]. rewrite !lastp_app. exact H. }
    apply den_plus in H' as (ty & t4 & -> & N & T & H'). rewrite den_seq_consE in H'. apply den_sp in H' as (w2 & t5 & -> & W2 & H').
    exists ($"asmlinkage" ++ w1 ++ u ++ ty ++ w2), t5. split; [|split].
    + exists w1, u, ty, w2. split; [exact W1|]. split; [exact U|]. split; [split; [exact N|exact T]|]. auto.
    + now rewrite <- !app_assoc.
    + rewrite !lastp_app in *. exact H'.
  - intros (head & t' & (w1 & u & ty & w2 & W1 & U & (N & T) & W2 & ->) & -> & H). rewrite <- !app_assoc. eexists. split; [reflexivity|].
    apply den_sp. eexists w1, _. split; [reflexivity|]. split; [exact W1|]. rewrite !lastp_app in H.
    assert (den (RPlus c_w) (den (RSeq (RSp :: l)) ktrue) (lastp (lastp (lastp None $"asmlinkage") w1) u) (ty ++ w2 ++ t')) as X.
    { apply den_plus. exists ty, (w2 ++ t'). split; [reflexivity|]. split; [exact N|]. split; [exact T|]. apply den_sp.
      exists w2, t'. conj. }
    cbn [den]. destruct U as [->|(w & -> & Nw & W)]; [left; exact X|right]. rewrite <- app_assoc. apply den_lit. eexists. split; [reflexivity|].
    apply den_plus. exists w, (ty ++ w2 ++ t'). rewrite lastp_app in X. auto.
Qed.
Lemma bol_begins l (K : cont) t : den RBol (den (RLit l) K) None t <-> den (RLit l) K None t.
Proof. cbn [den]. tauto. Qed.

Lemma den_func f p t : den (RSeq [RName f; RSp; open_paren]) ktrue p t <-> exists n w t', stands_for f n /\ blanks w /\ t = n ++ w ++ $"(" ++ t'.
Proof.
  rewrite !den_seq_consE, den_name. split.
  - intros (n & t1 & S & -> & H). apply den_sp in H as (w & t2 & -> & W & H). apply den_lit in H as (t3 & -> & _). exists n, w, t3. auto.
  - intros (n & w & t' & S & W & ->). eexists n, _. split; [exact S|]. split; [reflexivity|]. apply den_sp. exists w, ($"(" ++ t'). split; [reflexivity|]. split; [exact W|].
    apply den_lit. exists t'. split; [reflexivity|exact I].
Qed.
Lemma den_fullname beg f t (B : forall K : cont, den beg (den (RLit $"asmlinkage") K) None t <-> den (RLit $"asmlinkage") K None t) :
  den (re_asmlinkage beg [RName f; RSp; open_paren]) ktrue None t <-> exists n, stands_for f n /\ asm_definition n t.
Proof.
  rewrite den_head by exact B. unfold asm_definition. split.
  - intros (head & t' & A & -> & H). apply den_func in H as (n & w & t2 & S & W & ->). exists n. split; [exact S|]. exists head, w, t2. auto.
  - intros (n & S & head & w & t' & A & W & ->). exists head, (n ++ w ++ $"(" ++ t'). split; [exact A|]. split; [reflexivity|]. apply den_func. eauto 6.
Qed.
Lemma odd_asm_spec f t : den (odd_asm f) ktrue None t <-> exists n, stands_for f n /\ asm_definition n t.
Proof. apply den_fullname. intros K. now apply wordb_begins. Qed.
Lemma fullname_spec f t : den (fullname f) ktrue None t <-> exists n, stands_for f n /\ asm_definition n t.
Proof. apply den_fullname. intros K. apply bol_begins. Qed.
Lemma oldstyle_spec name t : den (oldstyle name) ktrue None t <->
  exists b n, maybe $"32" b /\ stands_for name n /\ asm_definition0 ($"sys" ++ b ++ $"_" ++ n) t.
Proof.
  unfold oldstyle. rewrite den_head by (intros K; apply bol_begins). unfold asm_definition0. split.
  - intros (head & t' & A & -> & H). rewrite !den_seq_consE in H. apply den_lit in H as (t1 & -> & H). apply den_opt_lit in H as (b & t2 & Bb & -> & H).
    apply den_lit in H as (t3 & -> & H). apply den_name in H as (n & t4 & S & -> & H). apply den_lit in H as (t5 & -> & _).
    exists b, n. split; [exact Bb|]. split; [exact S|]. exists head, t5. split; [exact A|]. now rewrite <- !app_assoc.
  - intros (b & n & Bb & S & head & t' & A & ->). eexists head, _. split; [exact A|]. split; [reflexivity|]. rewrite !den_seq_consE.
    rewrite <- !app_assoc. apply den_lit. eexists. split; [reflexivity|]. apply den_opt_lit. eexists b, _. split; [exact Bb|]. split; [reflexivity|].
    apply den_lit. eexists. split; [reflexivity|]. apply den_name. eexists n, _. split; [exact S|]. split; [reflexivity|]. apply den_lit. eexists. split; [reflexivity|exact I].
Qed.
(** SYSCALL...(name *)
Lemma den_args name p t :
  den (RSeq [RCls c_d; RSp; open_paren; RName name; RWord]) ktrue p t <->
   exists d w n t', is_dec d = true /\ blanks w /\ stands_for name n /\ boundary n t' /\ t = [d] ++ w ++ $"(" ++ n ++ t'.
Proof.
  rewrite !den_seq_consE. split.
  - intros H. cbn [den] in H. destruct H as (d & t1 & -> & D & H). apply den_sp in H as (w & t2 & -> & W & H).
    apply den_lit in H as (t3 & -> & H). apply den_name in H as (n & t4 & S & -> & H). destruct H as [H1 _]. apply wordb_boundary in H1.
    exists d, w, n, t4. conj.
  - intros (d & w & n & t' & D & W & S & E & ->). exists d. eexists. split; [reflexivity|]. split; [exact D|]. apply den_sp.
    eexists w, _. split; [reflexivity|]. split; [exact W|]. apply den_lit. eexists. split; [reflexivity|]. apply den_name. eexists n, _. split; [exact S|]. split; [reflexivity|].
    split; [|exact I]. now apply wordb_boundary.
Qed.
Definition new_accepted (compat : bool) (name text : str) : Prop :=
  exists c b d w n t, (if compat then maybe $"COMPAT_" c else c = []) /\ maybe $"32" b /\ is_dec d = true /\ blanks w /\
    stands_for name n /\ boundary n t /\ text = c ++ $"SYSCALL" ++ b ++ $"_DEFINE" ++ [d] ++ w ++ $"(" ++ n ++ t.
Lemma newstyle_spec a name t : den (newstyle a name) ktrue None t <-> new_accepted (a_compat a) name t.
Proof.
  unfold newstyle, new_accepted. rewrite app_assoc, den_seq_app.
  assert (forall p t, den (RSeq [RLit $"SYSCALL"; ROpt (RLit $"32"); RLit $"_DEFINE"; RCls c_d; RSp; open_paren; RName name; RWord]) ktrue p t <->
    exists b d w n t', maybe $"32" b /\ is_dec d = true /\ blanks w /\ stands_for name n /\ boundary n t' /\ t = $"SYSCALL" ++ b ++ $"_DEFINE" ++ [d] ++ w ++ $"(" ++ n ++ t') as T.
  { intros p u. change [RLit $"SYSCALL"; ROpt (RLit $"32"); RLit $"_DEFINE"; RCls c_d; RSp; open_paren; RName name; RWord] with
      (RLit $"SYSCALL" :: ROpt (RLit $"32") :: RLit $"_DEFINE" :: [RCls c_d; RSp; open_paren; RName name; RWord]).
    rewrite (den_seq_consE (RLit $"SYSCALL")), den_lit. split.
    - intros (t1 & -> & H). rewrite (den_seq_consE (ROpt _)) in H. apply den_opt_lit in H as (b & t2 & Bb & -> & H).
      rewrite (den_seq_consE (RLit _)) in H. apply den_lit in H as (t3 & -> & H). apply den_args in H as (d & w & n & t' & D & W & S & E & ->).
      exists b, d, w, n, t'. conj.
    - intros (b & d & w & n & t' & Bb & D & W & S & E & ->). eexists. split; [reflexivity|]. rewrite (den_seq_consE (ROpt _)). apply den_opt_lit.
      eexists b, _. split; [exact Bb|]. split; [reflexivity|]. rewrite (den_seq_consE (RLit _)). apply den_lit. eexists. split; [reflexivity|].
      apply den_args. exists d, w, n, t'. conj. }
  set (tail := [RLit $"SYSCALL"; ROpt (RLit $"32"); RLit $"_DEFINE"; RCls c_d; RSp; open_paren; RName name; RWord]) in *. clearbody tail.
  destruct (a_compat a); cbn [app]; rewrite !den_seq_consE; cbn [den RSeq].
  - split.
    + intros (_ & [H|H]).
      * apply T in H as (b & d & w & n & t' & Bb & D & W & S & E & ->). exists [], b, d, w, n, t'. split; [now left|]. conj.
      * apply den_lit in H as (t1 & -> & H). apply T in H as (b & d & w & n & t' & Bb & D & W & S & E & ->). exists $"COMPAT_", b, d, w, n, t'. split; [now right|]. conj.
    + intros (c & b & d & w & n & t' & C & Bb & D & W & S & E & ->). split; [reflexivity|]. destruct C as [->| ->].
      * left. apply T. exists b, d, w, n, t'. conj.
      * right. apply den_lit. eexists. split; [reflexivity|]. apply T. exists b, d, w, n, t'. conj.
  - split.
    + intros (_ & H). apply T in H as (b & d & w & n & t' & Bb & D & W & S & E & ->). exists [], b, d, w, n, t'. conj.
    + intros (c & b & d & w & n & t' & -> & Bb & D & W & S & E & ->). split; [reflexivity|]. apply T. exists b, d, w, n, t'. conj.
Qed.
Definition ppc_accepted (name text : str) : Prop :=
  exists d w n t, is_dec d = true /\ blanks w /\ stands_for name n /\ boundary n t /\ text = $"PPC32_SYSCALL_DEFINE" ++ [d] ++ w ++ $"(" ++ n ++ t.
Lemma ppc_spec name t :
  den (RSeq [RWord; RLit $"PPC32_SYSCALL_DEFINE"; RCls c_d; RSp; open_paren; RName name; RWord]) ktrue None t <-> ppc_accepted name t.
Proof.
  rewrite (den_seq_consE RWord), (den_seq_consE (RLit _)). unfold ppc_accepted.
  etransitivity; [apply wordb_begins; reflexivity|]. rewrite den_lit. split.
  - intros (t1 & -> & H). apply den_args in H as (d & w & n & t' & D & W & S & E & ->). exists d, w, n, t'. conj.
  - intros (d & w & n & t' & D & W & S & E & ->). eexists. split; [reflexivity|]. apply den_args. exists d, w, n, t'. conj.
Qed.
(** ** Odd names *)
Lemma startswith_no s p : startswith s p = false <-> forall x, s <> p ++ x.
Proof.
  rewrite <- not_true_iff_false, startswith_iff. split; [intros H x E; apply H; eauto|intros H (x & E); now apply (H x)].
Qed.
Lemma anyprefix_iff name l : anyprefix name l = true <-> exists p x, In p l /\ name = p ++ x.
Proof.
  unfold anyprefix. rewrite existsb_exists. split.
  - intros (p & I & H). apply startswith_iff in H as (x & ->). eauto.
  - intros (p & x & I & ->). exists p. split; [exact I|]. apply startswith_iff. eauto.
Qed.
Definition standing (f text : str) : Prop := exists n, stands_for f n /\ asm_definition n text.
Lemma mips_spec name t :
  den (re_asmlinkage RWord [RAlt (RLit $"sysm") (RLit $"mipsmt_sys"); RLit $"_"; RName name; RSp; open_paren]) ktrue None t <->
  standing ($"sysm_" ++ name) t \/ standing ($"mipsmt_sys_" ++ name) t.
Proof.
  assert (forall pre, dotless pre -> standing (pre ++ name) t <-> exists n, stands_for name n /\ asm_definition (pre ++ n) t) as P.
  { intros pre N. unfold standing. split.
    - intros (n' & S & A). apply stands_app in S as (n & -> & S); [|exact N]. eauto.
    - intros (n & S & A). exists (pre ++ n). split; [|exact A]. apply stands_app; [exact N|]. eauto. }
  rewrite !P by (vm_compute; reflexivity). clear P. rewrite den_head by (intros K; now apply wordb_begins). unfold asm_definition. split.
  - intros (head & t' & A & -> & H). rewrite (den_seq_consE (RAlt _ _)) in H. cbn [den] in H.
    destruct H as [H|H]; apply den_lit in H as (t1 & -> & H); rewrite (den_seq_consE (RLit _)) in H; apply den_lit in H as (t2 & -> & H);
      apply den_func in H as (n & w & t3 & S & W & ->); [left|right]; exists n; (split; [exact S|]); exists head, w, t3; repeat (split; [assumption|]); now rewrite <- !app_assoc.
  - assert (forall p n w u, stands_for name n -> blanks w -> den (RSeq [RLit $"_"; RName name; RSp; open_paren]) ktrue p ($"_" ++ n ++ w ++ $"(" ++ u)) as F.
    { intros p n w u S W. rewrite (den_seq_consE (RLit _)). apply den_lit. eexists. split; [reflexivity|]. apply den_func. exists n, w, u. auto. }
    intros [(n & S & head & w & t' & A & W & ->)|(n & S & head & w & t' & A & W & ->)]; eexists head, _; (split; [exact A|]); (split; [reflexivity|]);
      rewrite (den_seq_consE (RAlt _ _)); cbn [den]; [left|right].
    + change ($"sysm_" ++ n) with ($"sysm" ++ ($"_" ++ n)). rewrite <- !app_assoc. apply den_lit. eexists. split; [reflexivity|]. now apply F.
    + change ($"mipsmt_sys_" ++ n) with ($"mipsmt_sys" ++ ($"_" ++ n)). rewrite <- !app_assoc. apply den_lit. eexists. split; [reflexivity|]. now apply F.
Qed.

Lemma odd_one name pre t :
  matches (if startswith name pre then odd_asm name else odd_asm (pre ++ name)) t = true <->
  (exists x, name = pre ++ x /\ standing name t) \/ ((forall x, name <> pre ++ x) /\ standing (pre ++ name) t).
Proof.
  destruct (startswith name pre) eqn:S; rewrite matches_den, odd_asm_spec; [fold (standing name t)|fold (standing (pre ++ name) t)].
  - apply startswith_iff in S as (x & S). split; [intros H; left; eauto|]. intros [(y & _ & H)|(H & _)]; [exact H|now elim (H x)].
  - rewrite startswith_no in S. split; [auto|]. intros [(x & E & _)|(_ & H)]; [now elim (S x)|exact H].
Qed.
Lemma if_some (b : bool) (x y : re) : (if b then Some x else Some y) = Some (if b then x else y).
Proof. now destruct b. Qed.
Lemma odd_spec a name t :
  match syscall_def_regexp a name with
  | Some r => matches r t = true
  | None => False
  end <-> (exists f, odd_name a name f /\ standing f t) \/
          (a_class a = KPowerPC /\ a_abi a = $"ppc32" /\ ppc_accepted name t).
Proof.
  unfold syscall_def_regexp. destruct (a_class a) eqn:C.
  all: try (split; [intros []|]; intros [(f & O & D)|(D & _)]; [destruct O|]; congruence).
  - (* ARM *) destruct (str_eqb (a_abi a) $"oabi") eqn:B; cbn [negb].
    + apply str_eqb_eq in B. rewrite if_some, odd_one. split.
      * intros [(x & E & H)|(E & H)]; left; eexists; (split; [|exact H]); [now apply (odd_arm_full _ _ x)|now apply odd_arm].
      * intros [(f & O & H)|(H & _)]; [|congruence]. destruct O; try congruence; [right; auto|left; eauto].
    + apply str_eqb_neq in B. split; [intros []|]. intros [(f & O & D)|(D & _)]; [destruct O|]; congruence.
  - (* MIPS *)
    assert (matches (if anyprefix name [$"sysm_"; $"mipsmt_sys_"] then odd_asm name
         else re_asmlinkage RWord [RAlt (RLit $"sysm") (RLit $"mipsmt_sys"); RLit $"_"; RName name; RSp; open_paren]) t = true <->
       (exists x, (name = $"sysm_" ++ x \/ name = $"mipsmt_sys_" ++ x) /\ standing name t) \/
       ((forall x, name <> $"sysm_" ++ x) /\ (forall x, name <> $"mipsmt_sys_" ++ x) /\
        (standing ($"sysm_" ++ name) t \/ standing ($"mipsmt_sys_" ++ name) t))) as M.
    { destruct (anyprefix name _) eqn:S.
      - apply anyprefix_iff in S as (p & x & I & E). rewrite matches_den, odd_asm_spec; fold (standing name t). split.
        + intros H. left. exists x. split; [|exact H]. destruct I as [<-|[<-|[]]]; auto.
        + intros [(y & _ & H)|(H1 & H2 & _)]; [exact H|]. exfalso. destruct I as [<-|[<-|[]]]; [now apply (H1 x)|now apply (H2 x)].
      - assert (forall p x, In p [$"sysm_"; $"mipsmt_sys_"] -> name <> p ++ x) as S'.
        { intros p x I E. enough (anyprefix name [$"sysm_"; $"mipsmt_sys_"] = true) by congruence. apply anyprefix_iff. eauto. }
        rewrite matches_den, mips_spec. split.
        + intros H. right. split; [|split; [|exact H]]; intros x; apply S'; [now left|right; now left].
        + intros [(x & [E|E] & _)|(_ & _ & H)]; [| |exact H]; exfalso; eapply S'; [|exact E| |exact E]; [now left|right; now left]. }
    cbn [app]. destruct (str_eqb (a_abi a) $"n32") eqn:B.
    + apply str_eqb_eq in B. cbn [app RAlts]. rewrite matches_den. cbn [den]. rewrite <- !matches_den, M.
      assert (anyprefix name [$"sysn32_"] = startswith name $"sysn32_") as -> by (cbn; now rewrite orb_false_r).
      rewrite odd_one. split.
      * intros [[(x & E & H)|(E1 & E2 & [H|H])]|[(x & E & H)|(E & H)]]; left; eexists; (split; [|exact H]).
        -- now apply (odd_mips_full _ _ x).
        -- apply odd_mips; auto.
        -- apply odd_mips; auto.
        -- now apply (odd_n32_full _ _ x).
        -- now apply odd_n32.
      * intros [(f & O & H)|(H & _)]; [|congruence]. destruct O as [| |p ? [->| ->]| | | | |]; try congruence; eauto 8.
    + apply str_eqb_neq in B. cbn [app RAlts]. rewrite M. split.
      * intros [(x & E & H)|(E1 & E2 & [H|H])]; left; eexists; (split; [|exact H]).
        -- now apply (odd_mips_full _ _ x).
        -- apply odd_mips; auto.
        -- apply odd_mips; auto.
      * intros [(f & O & H)|(H & _)]; [|congruence]. destruct O as [| |p ? [->| ->]| | | | |]; try congruence; eauto 8.
  - (* PowerPC *) destruct (str_eqb (a_abi a) $"ppc32") eqn:B; cbn [negb].
    + apply str_eqb_eq in B. rewrite matches_den, ppc_spec. split; [auto|]. intros [(f & O & D)|(_ & _ & D)]; [destruct O; congruence|exact D].
    + apply str_eqb_neq in B. split; [intros []|]. intros [(f & O & D)|(_ & D & _)]; [destruct O|]; congruence.
  - (* x86 *) destruct (str_eqb (a_abi a) $"x32") eqn:B; cbn [negb].
    + apply str_eqb_eq in B. rewrite if_some, odd_one. split.
      * intros [(x & E & H)|(E & H)]; left; eexists; (split; [|exact H]); [now apply (odd_x32_full _ _ x)|now apply odd_x32].
      * intros [(f & O & H)|(H & _)]; [|congruence]. destruct O; try congruence; [right; auto|left; eauto].
    + apply str_eqb_neq in B. split; [intros []|]. intros [(f & O & D)|(D & _)]; [destruct O|]; congruence.
Qed.

Lemma good_definition_accepts a text name : good_definition a text name = true <-> accepts a name text.
Proof.
  unfold good_definition. rewrite !orb_true_iff, andb_true_iff, !matches_den. rewrite fullname_spec, startswith_iff. cbn [den].
  rewrite newstyle_spec, oldstyle_spec. pose proof (odd_spec a name text) as O.
  assert (match syscall_def_regexp a name with Some r => matches r text | None => false end = true <->
    (exists f, odd_name a name f /\ standing f text) \/ (a_class a = KPowerPC /\ a_abi a = $"ppc32" /\ ppc_accepted name text)) as O'.
  { rewrite <- O. destruct (syscall_def_regexp a name); [reflexivity|]. split; [discriminate|intros []]. }
  rewrite O'. split.
  - intros [[[(c & b & d & w & n & t & C & Bb & D & W & S & E & ->)|(b & n & Bb & S & H)]|((x & E) & n & S & H)]|[(f & F & n & S & H)|(H1 & H2 & d & w & n & t & D & W & S & E & ->)]].
    + now apply (ac_new _ _ _ c b d w n t).
    + now apply (ac_old _ _ _ b n).
    + now apply (ac_full _ _ _ x n).
    + now apply (ac_odd _ _ _ f n).
    + now apply (ac_ppc _ _ _ d w n t).
  - intros [c b d w n t C Bb D W S E ->|b n Bb S H|x n E S H|f n F S H|d w n t H1 H2 D W S E ->].
    + left. left. left. exists c, b, d, w, n, t. conj.
    + left. left. right. exists b, n. auto.
    + left. right. split; [eauto|]. exists n. auto.
    + right. left. exists f. split; [exact F|]. exists n. auto.
    + right. right. split; [exact H1|]. split; [exact H2|]. exists d, w, n, t. conj.
Qed.
Lemma odd_plain a name f : odd_name a name f -> dotless name -> dotless f.
Proof.
  assert (forall p : str, dotless p -> dotless name -> dotless (p ++ name)) as G by (intros p A B; unfold dotless in *; now rewrite forallb_app, A, B).
  intros [] N; try assumption; try (apply G; [vm_compute; reflexivity|exact N]). destruct H0 as [->| ->]; apply G; [vm_compute; reflexivity|exact N|vm_compute; reflexivity|exact N].
Qed.
Lemma accepts_defines a text name : some_of is_word name -> (accepts a name text <-> defines a name text).
Proof.
  intros N. pose proof (word_plain name N) as P. split.
  - intros [c b d w n t C Bb D W S E ->|b n Bb S H|x n E S H|f n F S H|d w n t H1 H2 D W S E ->].
    + apply stands_plain in S; [|exact P]. subst n. apply boundary_ends in E; [|exact N]. apply def_new. exists c, b, d, w, t. conj.
    + apply stands_plain in S; [|exact P]. subst n. now apply (def_old _ _ _ b).
    + apply stands_plain in S; [|exact P]. subst n. now apply (def_full _ _ _ x).
    + apply stands_plain in S; [|exact (odd_plain a name f F P)]. subst n. now apply (def_odd _ _ _ f).
    + apply stands_plain in S; [|exact P]. subst n. apply boundary_ends in E; [|exact N]. apply def_ppc; [exact H1|exact H2|]. exists d, w, t. conj.
  - intros [(c & b & d & w & t & C & Bb & D & W & -> & E)|b Bb H|x E H|f F H|H1 H2 (d & w & t & D & W & -> & E)].
    + apply (ac_new _ _ _ c b d w name t); conj; [apply stands_refl|now apply boundary_ends].
    + apply (ac_old _ _ _ b name); conj. apply stands_refl.
    + apply (ac_full _ _ _ x name); conj. apply stands_refl.
    + apply (ac_odd _ _ _ f f); conj. apply stands_refl.
    + apply (ac_ppc _ _ _ d w name t); conj; [apply stands_refl|now apply boundary_ends].
Qed.
Lemma word_dotted name : some_of is_word name -> dotted name.
Proof.
  intros (_ & F). apply Forall_forall. intros c I. right. rewrite forallb_forall in F. specialize (F c I). intros S. unfold special in S. cbn [list_ascii_of_string In] in S.
  repeat (destruct S as [S|S]; [subst c; discriminate F|]). exact S.
Qed.
Lemma word_fit s : word_names s -> fit_names s.
Proof. intros (A & B). split; now apply word_dotted. Qed.
Lemma accepts_starts a name text : accepts a name text -> exists c r, text = c :: r /\ In c (list_ascii_of_string "SCaP").
Proof.
  assert (forall f, asm_definition f text -> exists c r, text = c :: r /\ In c (list_ascii_of_string "SCaP")) as As.
  { intros f (h & w & t & (w1 & u & ty & w2 & _ & _ & _ & _ & ->) & _ & ->). eexists _, _. split; [reflexivity|cbn; tauto]. }
  intros [c b d w n t C _ _ _ _ _ ->|b n _ _ (h & t & (w1 & u & ty & w2 & _ & _ & _ & _ & ->) & ->)|x n _ _ D|f n _ _ D|d w n t _ _ _ _ _ _ ->].
  - assert (c = [] \/ c = $"COMPAT_") as [-> | ->] by (destruct (a_compat a); [exact C|now left]); eexists _, _; (split; [reflexivity|cbn; tauto]).
  - eexists _, _. split; [reflexivity|cbn; tauto].
  - now apply As in D.
  - now apply As in D.
  - eexists _, _. split; [reflexivity|cbn; tauto].
Qed.
Lemma accepts_ne a name : ~ accepts a name [].
Proof. intros H. apply accepts_starts in H as (c & r & E & _). discriminate. Qed.
Lemma good_definition_spec a text name : some_of is_word name -> (good_definition a text name = true <-> defines a name text).
Proof. intros N. rewrite good_definition_accepts. now apply accepts_defines. Qed.

(** ** Texts of the usual shape *)
Definition ends_by (f : ascii -> bool) (t : str) : Prop := match t with [] => True | c :: _ => f c = false end.
Lemma span_unique f x y r r' : forallb f x = true -> forallb f y = true -> ends_by f r -> ends_by f r' ->
  x ++ r = y ++ r' -> x = y /\ r = r'.
Proof.
  revert y. induction x as [|c x IH]; intros [|d y] X Y R R' E; cbn in *.
  - auto.
  - subst r. cbn in R. apply andb_true_iff in Y as [Y _]. congruence.
  - subst r'. cbn in R'. apply andb_true_iff in X as [X _]. congruence.
  - injection E as -> E. apply andb_true_iff in X as [_ X]. apply andb_true_iff in Y as [_ Y]. destruct (IH y X Y R R' E) as [-> ->]. auto.
Qed.
Lemma blank_not_word c : is_space c = true -> is_word c = false.
Proof. destruct c as [[] [] [] [] [] [] [] []]; vm_compute; congruence. Qed.
Lemma word_not_blank c : is_word c = true -> is_space c = false.
Proof. intros H. destruct (is_space c) eqn:S; [|reflexivity]. apply blank_not_word in S. congruence. Qed.
Lemma word_ends_blank x r : some_of is_word x -> ends_by is_space (x ++ r).
Proof. intros (N & F). destruct x as [|c x]; [contradiction|]. cbn in *. apply andb_true_iff in F as [F _]. now apply word_not_blank. Qed.
Lemma blank_ends_word w r : w <> [] -> blanks w -> ends_by is_word (w ++ r).
Proof. intros N F. unfold blanks in F. destruct w as [|c w]; [contradiction|]. cbn in *. apply andb_true_iff in F as [F _]. now apply blank_not_word. Qed.
Lemma blank_paren_word w r : blanks w -> ends_by is_word (w ++ $"(" ++ r).
Proof. intros F. destruct w as [|c w]; [reflexivity|]. apply (blank_ends_word (c :: w)); [discriminate|exact F]. Qed.
Lemma token x y r r' : some_of is_word x -> some_of is_word y -> ends_by is_word r -> ends_by is_word r' -> x ++ r = y ++ r' -> x = y /\ r = r'.
Proof. intros (_ & X) (_ & Y). now apply (span_unique is_word). Qed.
Lemma blank_run w w' x x' r r' : blanks w -> blanks w' -> some_of is_word x -> some_of is_word x' -> w ++ x ++ r = w' ++ x' ++ r' -> w = w' /\ x ++ r = x' ++ r'.
Proof. intros W W' X X'. apply (span_unique is_space); auto using word_ends_blank. Qed.
Lemma paren_run w w' x r r' : blanks w -> blanks w' -> some_of is_word x -> w ++ x ++ r <> w' ++ $"(" ++ r'.
Proof.
  intros W W' X E. apply (span_unique is_space) in E as [_ E]; [|exact W|exact W'|now apply word_ends_blank|reflexivity].
  destruct X as (N & F). destruct x as [|c x]; [contradiction|]. cbn in *. injection E as -> _. cbn in F. discriminate.
Qed.
Lemma paren_same w w' r r' : blanks w -> blanks w' -> w ++ $"(" ++ r = w' ++ $"(" ++ r' -> w = w' /\ r = r'.
Proof.
  intros W W' E. apply (span_unique is_space) in E as [-> E]; [|exact W|exact W'|reflexivity|reflexivity]. cbn in E. injection E as ->. auto.
Qed.

(** type function( *)
Lemma type_func ty w2 func w t ty' w2' f w' t' : some_of is_word ty -> some_of is_word func -> some_of is_word ty' -> some_of is_word f ->
  w2 <> [] -> blanks w2 -> blanks w -> blanks w2' -> blanks w' ->
  ty ++ w2 ++ func ++ w ++ $"(" ++ t = ty' ++ w2' ++ f ++ w' ++ $"(" ++ t' -> func = f /\ w = w'.
Proof.
  intros T F T' F' N2 W2 W W2' W' E. destruct w2' as [|c w2'].
  - exfalso. cbn [app] in E. rewrite (app_assoc ty' f) in E. apply token in E as [_ E].
    + now apply paren_run in E.
    + exact T.
    + destruct T' as (N & T'), F' as (_ & F'). split; [destruct ty'; [contradiction|discriminate]|]. rewrite forallb_app, T'. exact F'.
    + now apply blank_ends_word.
    + now apply blank_paren_word.
  - apply token in E as [_ E]; [|exact T|exact T'|now apply blank_ends_word|apply (blank_ends_word (c :: w2')); [discriminate|exact W2']].
    apply blank_run in E as [_ E]; [|assumption..]. apply token in E as [-> E]; [|assumption|assumption|now apply blank_paren_word|now apply blank_paren_word].
    now apply paren_same in E as [-> _].
Qed.
Lemma unsigned_word : some_of is_word $"unsigned".
Proof. split; [discriminate|reflexivity]. Qed.
Lemma asm_text_inv u ty func w t s f w' t' head : some_of is_word ty -> some_of is_word func -> some_of is_word f ->
  asm_text u ty func w t s -> asm_head head -> blanks w' -> s = head ++ f ++ w' ++ $"(" ++ t' -> func = f /\ w = w'.
Proof.
  intros T F F' (w1 & w2 & N1 & W1 & N2 & W2 & W & U & ->) (w1' & u' & ty' & w2' & W1' & U' & T' & W2' & ->) W' E.
  rewrite <- !app_assoc in E. apply app_inv_head in E.
  destruct U as [[-> TU]|(v & -> & Nv & V)], U' as [->|(v' & -> & Nv' & V')]; cbn [app] in E; rewrite <- ?app_assoc in E.
  - apply blank_run in E as [_ E]; [|assumption..]. now apply type_func in E.
  - apply blank_run in E as [_ E]; [|auto using unsigned_word..]. apply token in E as [E _]; [|auto using unsigned_word, blank_ends_word..]. contradiction.
  - exfalso. apply blank_run in E as [_ E]; [|auto using unsigned_word..]. destruct w2' as [|c w2'].
    + cbn [app] in E. rewrite (app_assoc ty' f) in E. apply token in E as [_ E].
      * now apply paren_run in E.
      * exact unsigned_word.
      * destruct T' as (N & T'), F' as (_ & F'). split; [destruct ty'; [contradiction|discriminate]|]. rewrite forallb_app, T'. exact F'.
      * now apply blank_ends_word.
      * now apply blank_paren_word.
    + apply token in E as [_ E]; [|exact unsigned_word|exact T'|now apply blank_ends_word|apply (blank_ends_word (c :: w2')); [discriminate|exact W2']].
      apply blank_run in E as [_ E]; [|assumption..]. apply token in E as [_ E]; [|assumption|assumption|now apply blank_ends_word|now apply blank_paren_word].
      now apply paren_run in E.
  - apply blank_run in E as [_ E]; [|auto using unsigned_word..]. apply token in E as [_ E]; [|auto using unsigned_word, blank_ends_word..].
    apply blank_run in E as [_ E]; [|assumption..]. now apply type_func in E.
Qed.
Lemma asm_text_head u ty func w t s : some_of is_word ty -> asm_text u ty func w t s ->
  exists head, asm_head head /\ blanks w /\ s = head ++ func ++ w ++ $"(" ++ t.
Proof.
  intros T (w1 & w2 & N1 & W1 & N2 & W2 & W & U & ->). exists ($"asmlinkage" ++ w1 ++ u ++ ty ++ w2). rewrite <- !app_assoc.
  split; [|split; [exact W|reflexivity]]. exists w1, u, ty, w2. split; [exact W1|]. split; [|auto]. destruct U as [[-> _]|(v & H)]; [now left|right; eauto].
Qed.
Lemma odd_name_word a name f : some_of is_word name -> odd_name a name f -> some_of is_word f.
Proof.
  assert (forall p, forallb is_word p = true -> some_of is_word name -> some_of is_word (p ++ name)) as A.
  { intros p P (N & F). split; [destruct p; [exact N|discriminate]|]. rewrite forallb_app, P. exact F. }
  intros N [| |p ? [->| ->]| | | | |]; try exact N; now apply A.
Qed.
Lemma asm_def_text f u ty func w t s : some_of is_word ty -> some_of is_word func -> some_of is_word f -> asm_text u ty func w t s ->
  (asm_definition f s <-> func = f) /\ (asm_definition0 f s <-> func = f /\ w = []).
Proof.
  intros T F F' A. destruct (asm_text_head _ _ _ _ _ _ T A) as (head & H & W & E). split; split.
  - intros (head' & w' & t' & H' & W' & E'). now apply (asm_text_inv u ty func w t s f w' t' head').
  - intros <-. exists head, w, t. auto.
  - intros (head' & t' & H' & E'). apply (asm_text_inv u ty func w t s f [] t' head'); auto. reflexivity.
  - intros (<- & ->). exists head, t. auto.
Qed.
Lemma asm_not_new a name u ty func w t s : asm_text u ty func w t s -> ~ new_definition (a_compat a) name s /\ ~ ppc_definition name s.
Proof.
  intros (w1 & w2 & _ & _ & _ & _ & _ & _ & ->). split.
  - intros (c & b & d & v & r & C & _ & _ & _ & E & _). destruct (a_compat a); [destruct C as [->| ->]|subst c]; discriminate E.
  - intros (d & v & r & _ & _ & E & _). discriminate E.
Qed.
Lemma good_asm a name u ty func w t s : some_of is_word name -> some_of is_word ty -> some_of is_word func -> asm_text u ty func w t s ->
  (good_definition a s name = true <->
   (w = [] /\ (func = $"sys_" ++ name \/ func = $"sys32_" ++ name)) \/
   (func = name /\ exists x, name = $"sys_" ++ x) \/ odd_name a name func).
Proof.
  intros N T F A. rewrite good_definition_spec by exact N. destruct (asm_not_new a name _ _ _ _ _ _ A) as [NN NP].
  assert (forall p, forallb is_word p = true -> some_of is_word (p ++ name)) as P.
  { intros p P. destruct N as (N & Fn). split; [destruct p; [exact N|discriminate]|]. rewrite forallb_app, P. exact Fn. }
  split.
  - intros [H|b Bb H|x E H|f O H|_ _ H]; try contradiction.
    + left. rewrite app_assoc, app_assoc in H.
      destruct Bb as [->| ->]; apply (asm_def_text _ u ty func w t s T F) in H as [-> ->]; auto.
    + right. left. apply (asm_def_text _ u ty func w t s T F) in H; eauto.
    + right. right. apply (asm_def_text _ u ty func w t s T F) in H; [now subst f|now apply (odd_name_word a name)|exact A].
  - intros [[-> [->| ->]]|[[-> (x & E)]|O]].
    + apply (def_old _ _ _ []); [now left|]. now apply (asm_def_text _ u ty _ [] t s T F).
    + apply (def_old _ _ _ $"32"); [now right|]. now apply (asm_def_text _ u ty _ [] t s T F).
    + apply (def_full _ _ _ x E). now apply (asm_def_text _ u ty name w t s T F).
    + apply (def_odd _ _ _ func O). now apply (asm_def_text _ u ty func w t s T F F A).
Qed.
Lemma good_new a name ident c b d w t : some_of is_word name -> some_of is_word ident ->
  (if a_compat a then maybe $"COMPAT_" c else c = []) -> maybe $"32" b -> is_dec d = true -> blanks w -> word_ends t ->
  (good_definition a (c ++ $"SYSCALL" ++ b ++ $"_DEFINE" ++ [d] ++ w ++ $"(" ++ ident ++ t) name = true <-> ident = name).
Proof.
  intros N Id C Bb D W E. rewrite good_definition_spec by exact N. split.
  - assert (forall head r, asm_head head -> c ++ $"SYSCALL" ++ b ++ $"_DEFINE" ++ [d] ++ w ++ $"(" ++ ident ++ t <> head ++ r) as NA.
    { intros head r (w1 & u & ty & w2 & _ & _ & _ & _ & ->). rewrite <- app_assoc. destruct (a_compat a); [destruct C as [->| ->]|subst c]; discriminate. }
    intros [H|b' _ (head & r & H & X)|x _ (head & v & r & H & _ & X)|f _ (head & v & r & H & _ & X)|_ _ (d' & w' & r & _ & _ & X & _)];
      try (now elim (NA _ _ H X)).
    + destruct H as (c' & b' & d' & w' & t' & C' & B' & D' & W' & X & E').
      assert (c = c') as <-.
      { destruct (a_compat a); [|congruence]. destruct C as [->| ->], C' as [->| ->]; try reflexivity; discriminate X. }
      apply app_inv_head in X. apply app_inv_head in X.
      assert (b = b') as <- by (destruct Bb as [->| ->], B' as [->| ->]; try reflexivity; discriminate X).
      apply app_inv_head in X. apply app_inv_head in X. cbn [app] in X. injection X as -> X.
      change (w ++ $"(" ++ ident ++ t = w' ++ $"(" ++ name ++ t') in X. apply paren_same in X as [_ X]; [|exact W|exact W'].
      now apply token in X as [-> _].
    + exfalso. destruct (a_compat a); [destruct C as [->| ->]|subst c]; discriminate X.
  - intros ->. apply def_new. exists c, b, d, w, t. auto 8.
Qed.
