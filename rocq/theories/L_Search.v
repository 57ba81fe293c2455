(** Lemmas about the search through the sources. *)
From Coq Require Import List Bool Ascii String ZArith Lia Permutation.
From Verif Require Import PyBase PyFacts Regex RegexFacts RegexDen M_Utils M_Elf M_Syscall M_Arch M_Config M_Location
  S_Elf S_Signature S_Location L_Utils L_Signature3 L_Location L_Location2 L_Location3 L_Location4 L_Location5 M_Search S_Search.
Import ListNotations.
Open Scope Z_scope.
Open Scope list_scope.

(** * The regexp *)

Lemma den_bsp (K : cont) p t : den BSp K p t <-> exists w t', t = w ++ t' /\ bblanks w /\ K (lastp p w) t'.
Proof. unfold BSp. cbn [den]. reflexivity. Qed.

Lemma after_word_lastp p : after_word p <-> isw is_bword (lastp None p) = true.
Proof.
  unfold after_word, lastp. split.
  - intros (x & c & -> & H). rewrite rev_app_distr. exact H.
  - intros H. destruct (rev p) as [|c u] eqn:E; [discriminate|]. apply (f_equal (@rev ascii)) in E. rewrite rev_involutive in E. cbn [rev] in E.
    exists (rev u), c. auto.
Qed.

(** A word boundary before text that starts with a word character. *)
Lemma den_bword r (K : cont) p t : (forall K p t, den r K p t -> exists c t', t = c :: t' /\ is_bword c = true) ->
  (den BWord (den r K) p t <-> isw is_bword p = false /\ den r K p t).
Proof.
  intros H. unfold BWord. cbn [den]. split.
  - intros [X D]. split; [|exact D]. destruct (H _ _ _ D) as (c & t' & -> & W). cbn [hd_opt isw] in X. rewrite W in X. destruct (isw is_bword p); [discriminate|reflexivity].
  - intros [X D]. split; [|exact D]. destruct (H _ _ _ D) as (c & t' & -> & W). cbn [hd_opt isw]. now rewrite X, W.
Qed.

(** The continuations here only look at the text. *)
Definition bhead (a : arch) : re :=
  RSeq ((if a_compat a then [ROpt (RLit $"COMPAT_")] else []) ++ [RLit $"SYSCALL"] ++
        (if a_compat a || a_bits32 a then [ROpt (RLit $"32")] else []) ++ [RLit $"_DEFINE"; RCls c_d; BSp; open_paren]).
Lemma den_bhead a (K : str -> Prop) p q : den (bhead a) (fun _ => K) p q <-> exists t, macro_head a q t /\ K t.
Proof.
  unfold bhead, macro_head. rewrite den_seq_app, den_if. split.
  - intros (c & t1 & C & -> & H). rewrite den_seq_app in H. rewrite den_seq_consE in H. apply den_lit in H as (t2 & -> & H).
    change (den (RSeq []) ?k) with k in H. rewrite den_seq_app in H. apply den_if in H as (b & t3 & B & -> & H). rewrite !den_seq_consE in H.
    apply den_lit in H as (t4 & -> & H). cbn [den] in H. destruct H as (d & t5 & -> & D & H). apply den_bsp in H as (w & t6 & -> & W & H).
    apply den_lit in H as (t7 & -> & H). exists t7. split; [|exact H]. exists c, b, d, w. conj.
  - intros (t' & (c & b & d & w & C & B & D & W & ->) & H). eexists c, _. split; [exact C|]. split; [reflexivity|]. rewrite den_seq_app, den_seq_consE. apply den_lit. eexists. split; [reflexivity|].
    change (den (RSeq []) ?k) with k. rewrite den_seq_app. apply den_if. eexists b, _. split; [exact B|]. split; [reflexivity|]. rewrite !den_seq_consE.
    apply den_lit. eexists. split; [reflexivity|]. cbn [den]. exists d. eexists. split; [reflexivity|]. split; [exact D|]. apply den_bsp. eexists w, _. split; [reflexivity|]. split; [exact W|].
    apply den_lit. eexists. split; [reflexivity|]. exact H.
Qed.
Lemma macro_head_starts a q t : macro_head a q t -> exists c q', q = c :: q' /\ is_bword c = true.
Proof.
  intros (c & b & d & w & C & _ & _ & _ & ->). destruct (a_compat a); [destruct C as [->| ->]|subst c]; eexists _, _; (split; [reflexivity|]); reflexivity.
Qed.
Lemma den_base_b a (K : str -> Prop) p q : den (base_bexp a) (fun _ => K) p q <-> isw is_bword p = false /\ exists t, macro_head a q t /\ K t.
Proof.
  unfold base_bexp. change ([BWord] ++ ?l) with (BWord :: l). rewrite den_seq_consE. fold (bhead a).
  rewrite <- (den_bhead a K p q). unfold BWord. cbn [den]. split.
  - intros [X D]. split; [|exact D]. apply den_bhead in D as (t & M & _). apply macro_head_starts in M as (c & q' & -> & W). cbn [hd_opt isw] in X. rewrite W in X.
    destruct (isw is_bword p); [discriminate|reflexivity].
  - intros [X D]. split; [|exact D]. apply den_bhead in D as (t & M & _). apply macro_head_starts in M as (c & q' & -> & W). cbn [hd_opt isw]. now rewrite X, W.
Qed.

(** asmlinkage ..., with what stands before the name given by [l]. *)
Lemma den_basm l prefixes (K : str -> Prop) p q :
  (forall (L : str -> Prop) p t, den (RSeq l) (fun _ => L) p t <-> exists pre t', In pre prefixes /\ t = pre ++ t' /\ L t') ->
  (den (basm_any l) (fun _ => K) p q <-> isw is_bword p = false /\ exists t, asm_call prefixes q t /\ K t).
Proof.
  intros HL. unfold basm_any, basm. cbn [app]. rewrite den_seq_consE.
  set (r := RSeq (RLit $"asmlinkage" :: BSp :: ROpt (RCat (RLit $"unsigned") (RPlus is_bspace)) :: RPlus is_bword :: BSp :: l ++ [RPlus is_bword; BSp; open_paren])).
  assert (forall p q, den r (fun _ => K) p q <-> exists t, asm_call prefixes q t /\ K t) as G.
  { clear p q. intros p q.
    assert (forall p t, den (RSeq (l ++ [RPlus is_bword; BSp; open_paren])) (fun _ => K) p t <->
      exists pre f w t', In pre prefixes /\ some_of is_bword f /\ bblanks w /\ t = pre ++ f ++ w ++ $"(" ++ t' /\ K t') as E.
    { intros p1 t1. rewrite den_seq_app.
      rewrite (den_iff (RSeq l) _ (fun _ t => exists f w t', some_of is_bword f /\ bblanks w /\ t = f ++ w ++ $"(" ++ t' /\ K t')).
      - rewrite HL. split.
        + intros (pre & t' & I & -> & f & w & t2 & F & W & -> & H). exists pre, f, w, t2. auto.
        + intros (pre & f & w & t2 & I & F & W & -> & H). exists pre, (f ++ w ++ $"(" ++ t2). split; [exact I|]. split; [reflexivity|]. exists f, w, t2. auto.
      - intros p2 t2. rewrite !den_seq_consE, den_plus. split.
        + intros (f & t3 & -> & N & F & H). apply den_bsp in H as (w & t4 & -> & W & H). apply den_lit in H as (t5 & -> & H). exists f, w, t5.
          split; [split; assumption|]. auto.
        + intros (f & w & t3 & [N F] & W & -> & H). exists f, (w ++ $"(" ++ t3). split; [reflexivity|]. split; [exact N|]. split; [exact F|].
          apply den_bsp. exists w, ($"(" ++ t3). split; [reflexivity|]. split; [exact W|]. apply den_lit. exists t3. auto. }
    unfold r. rewrite !den_seq_consE, den_lit. unfold asm_call. split.
    - intros (t1 & -> & H). apply den_bsp in H as (w1 & t2 & -> & W1 & H). cbn [den] in H.
      assert (exists u t3, (u = [] \/ exists w, u = $"unsigned" ++ w /\ w <> [] /\ bblanks w) /\ t2 = u ++ t3 /\
        exists p', den (RPlus is_bword) (den (RSeq (BSp :: l ++ [RPlus is_bword; BSp; open_paren])) (fun _ => K)) p' t3) as (u & t3 & U & -> & p' & H').
      { destruct H as [H|H].
        - exists [], t2. split; [now left|]. split; [reflexivity|]. eexists. exact H.
        - apply den_lit in H as (t3 & -> & H). apply den_plus in H as (w & t4 & -> & N & W & H).
          exists ($"unsigned" ++ w), t4. split; [right; exists w; auto|]. split; [now rewrite app_assoc|]. eexists. exact H. }
      apply den_plus in H' as (ty & t4 & -> & N & T & H'). rewrite den_seq_consE in H'. apply den_bsp in H' as (w2 & t5 & -> & W2 & H').
      apply E in H' as (pre & f & w & t' & I & F & W & -> & H'). exists t'. split; [|exact H'].
      exists w1, u, ty, w2, pre, f, w. split; [exact W1|]. split; [exact U|]. split; [split; [exact N|exact T]|]. conj.
    - intros (t & (w1 & u & ty & w2 & pre & f & w & W1 & U & (N & T) & W2 & I & F & W & ->) & H). eexists. split; [reflexivity|].
      apply den_bsp. eexists w1, _. split; [reflexivity|]. split; [exact W1|].
      assert (forall p', den (RPlus is_bword) (den (RSeq (BSp :: l ++ [RPlus is_bword; BSp; open_paren])) (fun _ => K)) p' (ty ++ w2 ++ pre ++ f ++ w ++ $"(" ++ t)) as X.
      { intros p'. apply den_plus. eexists ty, _. split; [reflexivity|]. split; [exact N|]. split; [exact T|]. rewrite den_seq_consE. apply den_bsp.
        eexists w2, _. split; [reflexivity|]. split; [exact W2|]. apply E. exists pre, f, w, t. conj. }
      cbn [den]. destruct U as [->|(v & -> & Nv & V)]; [left; apply X|right]. rewrite <- app_assoc. apply den_lit. eexists. split; [reflexivity|].
      apply den_plus. eexists v, _. split; [reflexivity|]. split; [exact Nv|]. split; [exact V|]. apply X. }
  rewrite <- (G p q). unfold BWord. cbn [den]. split.
  - intros [X D]. split; [|exact D]. apply G in D as (t & (w1 & u & ty & w2 & pre & f & w & _ & _ & _ & _ & _ & _ & _ & ->) & _).
    change (isw is_bword (hd_opt ($"asmlinkage" ++ w1 ++ u ++ ty ++ w2 ++ pre ++ f ++ w ++ $"(" ++ t))) with true in X. destruct (isw is_bword p); [discriminate|reflexivity].
  - intros [X D]. split; [|exact D]. apply G in D as (t & (w1 & u & ty & w2 & pre & f & w & _ & _ & _ & _ & _ & _ & _ & ->) & _).
    change (isw is_bword (hd_opt ($"asmlinkage" ++ w1 ++ u ++ ty ++ w2 ++ pre ++ f ++ w ++ $"(" ++ t))) with true. now rewrite X.
Qed.
Lemma den_one s (L : str -> Prop) p t : den (RSeq [RLit s]) (fun _ => L) p t <-> exists pre t', In pre [s] /\ t = pre ++ t' /\ L t'.
Proof.
  rewrite den_seq_consE, den_lit. change (den (RSeq []) ?k) with k. split.
  - intros (t' & -> & H). exists s, t'. split; [now left|auto].
  - intros (pre & t' & [<-|[]] & -> & H). exists t'. auto.
Qed.
Lemma den_two (L : str -> Prop) p t : den (RSeq [RAlt (RLit $"sysm") (RLit $"mipsmt_sys"); RLit $"_"]) (fun _ => L) p t <->
  exists pre t', In pre [$"sysm_"; $"mipsmt_sys_"] /\ t = pre ++ t' /\ L t'.
Proof.
  rewrite !den_seq_consE. cbn [den]. change (den (RSeq []) ?k) with k. split.
  - intros [H|H]; apply den_lit in H as (t1 & -> & H); apply den_lit in H as (t2 & -> & H); [exists $"sysm_"|exists $"mipsmt_sys_"]; exists t2; cbn [In]; auto.
  - intros (pre & t' & [<-|[<-|[]]] & -> & H); [left|right]; apply den_lit.
    + exists ($"_" ++ t'). split; [reflexivity|]. apply den_lit. exists t'. auto.
    + exists ($"_" ++ t'). split; [reflexivity|]. apply den_lit. exists t'. auto.
Qed.
Lemma den_ppc (K : str -> Prop) p q : den (RSeq [BWord; RLit $"PPC32_SYSCALL_DEFINE"; RCls c_d; BSp; open_paren]) (fun _ => K) p q <->
  isw is_bword p = false /\ exists d w t, is_dec d = true /\ bblanks w /\ q = $"PPC32_SYSCALL_DEFINE" ++ [d] ++ w ++ $"(" ++ t /\ K t.
Proof.
  rewrite den_seq_consE. set (r := RSeq [RLit $"PPC32_SYSCALL_DEFINE"; RCls c_d; BSp; open_paren]).
  assert (forall p q, den r (fun _ => K) p q <-> exists d w t, is_dec d = true /\ bblanks w /\ q = $"PPC32_SYSCALL_DEFINE" ++ [d] ++ w ++ $"(" ++ t /\ K t) as G.
  { clear p q. intros p q. unfold r. rewrite !den_seq_consE, den_lit. split.
    - intros (t1 & -> & H). cbn [den] in H. destruct H as (d & t2 & -> & D & H). apply den_bsp in H as (w & t3 & -> & W & H). apply den_lit in H as (t4 & -> & H).
      exists d, w, t4. auto.
    - intros (d & w & t & D & W & -> & H). eexists. split; [reflexivity|]. cbn [den]. exists d. eexists. split; [reflexivity|]. split; [exact D|].
      apply den_bsp. eexists w, _. split; [reflexivity|]. split; [exact W|]. apply den_lit. exists t. auto. }
  rewrite <- (G p q). unfold BWord. cbn [den]. split.
  - intros [X D]. split; [|exact D]. apply G in D as (d & w & t & _ & _ & -> & _).
    change (isw is_bword (hd_opt ($"PPC32_SYSCALL_DEFINE" ++ [d] ++ w ++ $"(" ++ t))) with true in X. destruct (isw is_bword p); [discriminate|reflexivity].
  - intros [X D]. split; [|exact D]. apply G in D as (d & w & t & _ & _ & -> & _).
    change (isw is_bword (hd_opt ($"PPC32_SYSCALL_DEFINE" ++ [d] ++ w ++ $"(" ++ t))) with true. now rewrite X.
Qed.

Lemma some_inj A (x y : A) : Some x = Some y -> y = x.
Proof. now intros [=]. Qed.
Lemma den_odd a r (K : str -> Prop) p q : any_def_regexp a = Some r ->
  (den r (fun _ => K) p q <-> isw is_bword p = false /\ exists t, odd_head a q t /\ K t).
Proof.
  unfold any_def_regexp. destruct (a_class a) eqn:Ec; try discriminate.
  - destruct (str_eqb (a_abi a) $"oabi") eqn:E; [|discriminate]. apply str_eqb_eq in E. intros ->%some_inj.
    rewrite (den_basm _ [$"sys_oabi_"]) by (exact (den_one $"sys_oabi_")). split; intros (X & t & H & k); (split; [exact X|]); exists t; (split; [|exact k]).
    + now apply oh_arm.
    + destruct H; congruence.
  - intros ->%some_inj. destruct (str_eqb (a_abi a) $"n32") eqn:E; cbn [app RAlts].
    + apply str_eqb_eq in E. cbn [den]. rewrite (den_basm _ [$"sysm_"; $"mipsmt_sys_"]) by (exact den_two). rewrite (den_basm _ [$"sysn32_"]) by (exact (den_one $"sysn32_")). split.
      * intros [(X & t & H & k)|(X & t & H & k)]; (split; [exact X|]); exists t; (split; [|exact k]); [now apply oh_mips|now apply oh_n32].
      * intros (X & t & H & k). destruct H; try congruence; [left|right]; (split; [exact X|]); exists t; auto.
    + rewrite (den_basm _ [$"sysm_"; $"mipsmt_sys_"]) by (exact den_two). apply str_eqb_neq in E. split; intros (X & t & H & k); (split; [exact X|]); exists t; (split; [|exact k]).
      * now apply oh_mips.
      * destruct H; congruence.
  - destruct (str_eqb (a_abi a) $"ppc32") eqn:E; [|discriminate]. apply str_eqb_eq in E. intros ->%some_inj. rewrite den_ppc. split.
    + intros (X & d & w & t & D & W & -> & k). split; [exact X|]. exists t. split; [|exact k]. now apply (oh_ppc _ _ _ d w).
    + intros (X & t & H & k). split; [exact X|]. destruct H as [| | | |d w H1 H2 D W ->]; try congruence. exists d, w, t. auto.
  - destruct (str_eqb (a_abi a) $"x32") eqn:E; [|discriminate]. apply str_eqb_eq in E. intros ->%some_inj.
    rewrite (den_basm _ [$"sys32_x32_"]) by (exact (den_one $"sys32_x32_")). split; intros (X & t & H & k); (split; [exact X|]); exists t; (split; [|exact k]).
    + now apply oh_x32.
    + destruct H; congruence.
Qed.
Lemma odd_none a q t : any_def_regexp a = None -> ~ odd_head a q t.
Proof.
  unfold any_def_regexp. intros H O. destruct O as [C A|C|C A|C A|d w C A]; rewrite C in H; try discriminate; rewrite ?A in H; discriminate.
Qed.

Lemma search_spec a text : re_search (search_exp a) text <> None <-> candidate a text.
Proof.
  rewrite re_search_den. unfold candidate, search_exp.
  set (K := fun t : str => exists w x t', t = w ++ [x] ++ t' /\ bblanks w /\ is_bword x = true).
  assert (forall p t, den (RSeq [BSp; RPlus is_bword]) ktrue p t <-> K t) as T.
  { intros p t. rewrite !den_seq_consE, den_bsp. split.
    - intros (w & t1 & -> & W & H). apply den_plus in H as (f & t2 & -> & N & F & _). destruct f as [|x f]; [congruence|]. cbn [forallb] in F. apply andb_prop in F as [F _].
      exists w, x, (f ++ t2). auto.
    - intros (w & x & t' & -> & W & X). exists w, ([x] ++ t'). split; [reflexivity|]. split; [exact W|]. apply den_plus. exists [x], t'. split; [reflexivity|]. split; [discriminate|].
      split; [cbn; now rewrite X|exact I]. }
  assert (forall p q, den (RSeq [match any_def_regexp a with Some odd => RAlt (base_bexp a) odd | None => base_bexp a end; BSp; RPlus is_bword]) ktrue p q <->
    isw is_bword p = false /\ exists t, (macro_head a q t \/ odd_head a q t) /\ K t) as G.
  { intros p q. rewrite den_seq_consE, (den_iff _ _ (fun _ => K)) by exact T. destruct (any_def_regexp a) as [r|] eqn:E.
    - cbn [den]. rewrite den_base_b, (den_odd a r K p q E). split.
      + intros [(X & t & H & k)|(X & t & H & k)]; (split; [exact X|]); exists t; auto.
      + intros (X & t & [H|H] & k); [left|right]; (split; [exact X|]); exists t; auto.
    - rewrite den_base_b. split.
      + intros (X & t & H & k); (split; [exact X|]); exists t; auto.
      + intros (X & t & [H|H] & k); [|destruct (odd_none a q t E H)]. split; [exact X|]. exists t. auto. }
  split.
  - intros (p & q & -> & H). apply G in H as (X & t & H & w & x & t' & -> & W & Wx). exists p, q, (w ++ [x] ++ t'), w, x, t'.
    split; [reflexivity|]. split; [rewrite after_word_lastp; congruence|]. auto.
  - intros (p & q & t & w & x & t' & -> & N & H & -> & W & X). exists p, q. split; [reflexivity|]. apply G.
    split; [rewrite after_word_lastp in N; now destruct (isw is_bword (lastp None p))|]. exists (w ++ [x] ++ t'). split; [exact H|]. exists w, x, t'. auto.
Qed.
