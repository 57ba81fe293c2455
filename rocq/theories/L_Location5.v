(** Lemmas for the properties of location.py: grepping (C57), paths (C59). *)
From Coq Require Import List Bool Ascii String ZArith Lia Permutation Sorted.
From Verif Require Import PyBase PyFacts Regex RegexFacts RegexDen M_Utils M_Elf M_Syscall M_Arch M_Location
  S_Elf S_Signature S_Location L_Utils L_Signature3 L_Location L_Location2 L_Location3 L_Location4.
Import ListNotations.
Open Scope Z_scope.
Open Scope list_scope.

(** * The lines that are searched for *)
Lemma den_if (b : bool) l (K : cont) p t : den (RSeq (if b then [ROpt (RLit l)] else [])) K p t <->
  exists x t', (if b then maybe l x else x = []) /\ t = x ++ t' /\ K (lastp p x) t'.
Proof.
  destruct b.
  - rewrite den_seq_consE. apply den_opt_lit.
  - split; [intros H; exists [], t; auto|]. intros (x & t' & -> & -> & H). exact H.
Qed.
Lemma den_base a (K : str -> Prop) t : den (base_exp a) (fun _ => K) (Some ":"%char) t <->
  exists c b d w t', (if a_compat a then maybe $"COMPAT_" c else c = []) /\
    (if a_compat a || a_bits32 a then maybe $"32" b else b = []) /\ is_dec d = true /\ blanks w /\
    t = c ++ $"SYSCALL" ++ b ++ $"_DEFINE" ++ [d] ++ w ++ $"(" ++ t' /\ K t'.
Proof.
  unfold base_exp. rewrite den_seq_app. cbn [RSeq]. unfold RWord. cbn [den].
  assert (forall p t, den (RSeq ((if a_compat a then [ROpt (RLit $"COMPAT_")] else []) ++ [RLit $"SYSCALL"] ++
        (if a_compat a || a_bits32 a then [ROpt (RLit $"32")] else []) ++ [RLit $"_DEFINE"; RCls c_d; RSp; open_paren])) (fun _ => K) p t <->
     exists c b d w t', (if a_compat a then maybe $"COMPAT_" c else c = []) /\
    (if a_compat a || a_bits32 a then maybe $"32" b else b = []) /\ is_dec d = true /\ blanks w /\
    t = c ++ $"SYSCALL" ++ b ++ $"_DEFINE" ++ [d] ++ w ++ $"(" ++ t' /\ K t') as G.
  { intros p u. rewrite den_seq_app, den_if. split.
    - intros (c & t1 & C & -> & H). rewrite den_seq_app in H. rewrite den_seq_consE in H. apply den_lit in H as (t2 & -> & H).
      change (den (RSeq []) ?k) with k in H. rewrite den_seq_app in H. apply den_if in H as (b & t3 & B & -> & H). rewrite !den_seq_consE in H.
      apply den_lit in H as (t4 & -> & H). cbn [den] in H. destruct H as (d & t5 & -> & D & H). apply den_sp in H as (w & t6 & -> & W & H).
      apply den_lit in H as (t7 & -> & H). exists c, b, d, w, t7. conj.
    - intros (c & b & d & w & t' & C & B & D & W & -> & H). eexists c, _. split; [exact C|]. split; [reflexivity|]. rewrite den_seq_app, den_seq_consE. apply den_lit. eexists. split; [reflexivity|].
      change (den (RSeq []) ?k) with k. rewrite den_seq_app. apply den_if. eexists b, _. split; [exact B|]. split; [reflexivity|]. rewrite !den_seq_consE.
      apply den_lit. eexists. split; [reflexivity|]. cbn [den]. exists d. eexists. split; [reflexivity|]. split; [exact D|]. apply den_sp. eexists w, _. split; [reflexivity|]. split; [exact W|].
      apply den_lit. eexists. split; [reflexivity|]. exact H. }
  rewrite G. split; [tauto|]. intros H. split; [|exact H]. destruct H as (c & b & d & w & t' & C & _ & _ & _ & -> & _).
  destruct (a_compat a); [destruct C as [->| ->]|subst c]; reflexivity.
Qed.
Lemma grep_exp_spec a name line : re_search (grep_exp a name) line <> None <-> grep_hit a name line.
Proof.
  rewrite re_search_den. unfold grep_exp, grep_hit. 
  assert (forall p t, den (RSeq [RLit $":"; base_exp a; RName name; RAlt (RLit $",") (RLit $")")]) ktrue p t <->
    exists t1, t = $":" ++ t1 /\ den (base_exp a) (fun _ t => exists n e t', stands_for name n /\ (e = $"," \/ e = $")") /\ t = n ++ e ++ t') (Some ":"%char) t1) as G.
  { intros p t. rewrite !den_seq_consE, den_lit. split; intros (t1 & -> & H); exists t1; (split; [reflexivity|]).
    - change (lastp p $":") with (Some ":"%char) in H. revert H. apply den_mono. intros p' t' H. apply den_name in H as (n & t2 & S & -> & H). cbn [den] in H.
      destruct H as [H|H]; apply den_lit in H as (t3 & -> & _); exists n; [exists $","|exists $")"]; exists t3; auto.
    - change (lastp p $":") with (Some ":"%char). revert H. apply den_mono. intros p' t' (n & e & t2 & S & E & ->). apply den_name. eexists n, _. split; [exact S|]. split; [reflexivity|]. cbn [den].
      destruct E as [->| ->]; [left|right]; apply den_lit; exists t2; (split; [reflexivity|exact I]). }
  split.
  - intros (p & t & -> & H). apply G in H as (t1 & -> & H). apply den_base in H as (c & b & d & w & t' & C & B & D & W & -> & n & e & t2 & S & E & ->).
    exists p, c, b, d, w, n, e, t2. conj.
  - intros (p & c & b & d & w & n & e & t & S & C & B & D & W & E & ->). eexists p, _. split; [reflexivity|]. apply G. eexists. split; [reflexivity|]. apply den_base.
    exists c, b, d, w, (n ++ e ++ t). conj. exists n, e, t. auto.
Qed.

(** * Order *)
Lemma grep_key_spec a line d n : priority a line d n -> grep_key a line = 3 * d + n /\ 0 <= n <= 2 /\ 0 <= d <= 1.
Proof.
  assert (forall d, mark (under_arch line) d -> (if startswith line $"arch" then 1 else 0) = d) as MA.
  { intros x M. pose proof (startswith_iff line $"arch") as S. unfold mark, under_arch in M.
    destruct (startswith line $"arch"); destruct M as [[M ->]|[M ->]]; try reflexivity; exfalso; [apply M, S; reflexivity|now apply S in M]. }
  assert (forall s x, mark (mentions s line) x -> (if contains line s then 1 else 0) = x) as MC.
  { intros s x M. pose proof (contains_iff line s) as S. unfold mark, mentions in M.
    destruct (contains line s); destruct M as [[M ->]|[M ->]]; try reflexivity; exfalso; [apply M, S; reflexivity|now apply S in M]. }
  assert (forall P x, mark P x -> x = 0 \/ x = 1) as MM by (intros P x [[_ ->]|[_ ->]]; auto).
  intros H. unfold grep_key. destruct H as [d x y C M1 M2 M3|d x C B M1 M2|d C B M1]; rewrite C, ?B.
  - rewrite (MA d M1), (MC _ x M2), (MC _ y M3). apply MM in M1, M2, M3. lia.
  - rewrite (MA d M1), (MC _ x M2). apply MM in M1, M2. lia.
  - rewrite (MA d M1). apply MM in M1. lia.
Qed.
Lemma before_key a l1 l2 : before a l1 l2 -> grep_key a l2 < grep_key a l1.
Proof.
  intros (d1 & n1 & d2 & n2 & P1 & P2 & H). apply grep_key_spec in P1 as (-> & ?), P2 as (-> & ?). lia.
Qed.
Lemma key_before a l1 l2 : grep_key a l2 < grep_key a l1 -> before a l1 l2.
Proof.
  assert (forall line, exists d n, priority a line d n) as T.
  { intros line. assert (forall s, exists x, mark (mentions s line) x) as MC.
    { intros s. destruct (contains line s) eqn:E; [exists 1; left|exists 0; right]; (split; [|reflexivity]); [now apply contains_iff in E|]. intros X. apply contains_iff in X. congruence. }
    assert (exists x, mark (under_arch line) x) as (d & D).
    { destruct (startswith line $"arch") eqn:E; [exists 1; left|exists 0; right]; (split; [|reflexivity]); [now apply startswith_iff in E|]. intros X. apply startswith_iff in X. congruence. }
    destruct (MC $"COMPAT") as (x & X), (MC $"SYSCALL32") as (y & Y).
    destruct (a_compat a) eqn:C; [exists d, (x + y); now apply prio_compat|]. destruct (a_bits32 a) eqn:B; [exists d, y; now apply prio_32|exists d, 0; now apply prio_64]. }
  destruct (T l1) as (d1 & n1 & P1), (T l2) as (d2 & n2 & P2). intros H. exists d1, n1, d2, n2. split; [exact P1|]. split; [exact P2|].
  apply grep_key_spec in P1 as (E1 & ?), P2 as (E2 & ?). lia.
Qed.

(** * Places *)
Lemma split_char_inv c s f l r : split_char c s = f :: l :: r -> ~ In c f /\ exists t, s = f ++ c :: l ++ t /\ (t = [] \/ exists t', t = c :: t').
Proof.
  assert (forall s x r, split_char c s = x :: r -> ~ In c x /\ (r = [] /\ s = x \/ exists t, s = x ++ c :: t /\ split_char c t = r)) as G.
  { induction s0 as [|d s0 IH]; intros x r0 H; cbn in H; [injection H as <- <-; split; [intros []|auto]|].
    destruct (Ascii.eqb_spec d c) as [->|N].
    - injection H as <- <-. split; [intros []|]. right. exists s0. auto.
    - destruct (split_char c s0) as [|y r1] eqn:E; [now apply split_char_ne in E|]. injection H as <- <-. destruct (IH _ _ eq_refl) as (N1 & [(-> & ->)|(t & -> & T)]).
      + split; [intros [X|X]; contradiction|]. left. auto.
      + split; [intros [X|X]; contradiction|]. right. exists t. auto. }
  intros H. apply G in H as (N & [(X & _)|(t & -> & H)]); [discriminate|]. split; [exact N|]. apply G in H as (_ & [(-> & ->)|(t' & -> & H)]).
  - exists []. rewrite app_nil_r. auto.
  - exists (c :: t'). split; [reflexivity|eauto].
Qed.
Lemma grep_loc_place kdir line f n : grep_loc kdir line = Ok (f, n) -> grep_place kdir line f n.
Proof.
  unfold grep_loc. destruct (split_char ":"%char line) as [|file [|l r]] eqn:E; try discriminate. destruct (negb (str_eqb l []) && forallb is_dec l) eqn:B; [|discriminate].
  intros H. injection H as <- <-. apply split_char_inv in E as (N & t & -> & T). apply andb_true_iff in B as [B1 B2]. apply negb_true_iff, str_eqb_neq in B1.
  exists file, l, t. split; [reflexivity|]. split; [exact T|]. split; [exact N|]. split; [split; [exact B1|exact B2]|auto].
Qed.

(** * One answer each *)
Lemma take_match_Some {A} line (exps : list (A * re)) x others : take_match line exps = Some (x, others) ->
  exists pre r post, exps = pre ++ (x, r) :: post /\ others = pre ++ post /\ re_search r line <> None /\ Forall (fun e => re_search (snd e) line = None) pre.
Proof.
  revert others. induction exps as [|(s & r) exps IH]; intros others H; cbn in H; [discriminate|]. destruct (re_search r line) eqn:R.
  - injection H as -> <-. exists [], r, exps. split; [reflexivity|]. split; [reflexivity|]. split; [congruence|constructor].
  - destruct (take_match line exps) as [(y & o)|]; [|discriminate]. injection H as -> <-. destruct (IH _ eq_refl) as (pre & r' & post & -> & -> & R' & F).
    exists ((s, r) :: pre), r', post. split; [reflexivity|]. split; [reflexivity|]. split; [exact R'|]. constructor; assumption.
Qed.
Lemma take_match_None {A} line (exps : list (A * re)) : take_match line exps = None -> Forall (fun e => re_search (snd e) line = None) exps.
Proof.
  induction exps as [|(s & r) exps IH]; intros H; cbn in H; [constructor|]. destruct (re_search r line) eqn:R; [discriminate|].
  destruct (take_match line exps) as [(? & ?)|]; [discriminate|]. constructor; auto.
Qed.

(** What is reported for a syscall: the line it was given, if any. *)
Definition reported {A} (kdir : path) (sorted out : list str) (left : list str) (scs : list (A * syscall)) (a : arch)
    (x : A * option (path * Z)) (y : A * syscall * option str) : Prop :=
  fst x = fst (fst y) /\ In (fst y) scs /\
  match snd y with
  | Some line => In line out /\ grep_hit a (sc_origname (snd (fst y))) line /\ (exists f n, snd x = Some (f, n) /\ grep_place kdir line f n) /\
      forall l, In l left -> grep_hit a (sc_origname (snd (fst y))) l -> exists u v, sorted = u ++ line :: v /\ In l v
  | None => snd x = None /\ forall l, In l left -> ~ grep_hit a (sc_origname (snd (fst y))) l
  end.
Definition lines_given {A} (l : list (A * syscall * option str)) : list str := flat_map (fun y => match snd y with Some s => [s] | None => [] end) l.

Lemma reported_weaken {A} kdir sorted sorted' out out' left left' scs scs' a (x : A * option (path * Z)) y :
  reported kdir sorted out left scs a x y -> incl out out' -> incl scs scs' ->
  (forall l, In l left' -> ~ In l left -> ~ grep_hit a (sc_origname (snd (fst y))) l) ->
  (forall u v line l, sorted = u ++ line :: v -> In l v -> exists u' v', sorted' = u' ++ line :: v' /\ In l v') ->
  reported kdir sorted' out' left' scs' a x y.
Proof.
  intros (E & I & H) O S L T. split; [exact E|]. split; [now apply S|]. destruct (snd y) as [line|].
  - destruct H as (H1 & H2 & H3 & H4). split; [now apply O|]. split; [exact H2|]. split; [exact H3|]. intros l I' G.
    destruct (in_dec (list_eq_dec ascii_dec) l left) as [X|X]; [|now elim (L l I' X)]. destruct (H4 l X G) as (u & v & E1 & E2). now apply (T u v line l).
  - destruct H as (H1 & H2). split; [exact H1|]. intros l I' G. destruct (in_dec (list_eq_dec ascii_dec) l left) as [X|X]; [now apply (H2 l)|now apply (L l)].
Qed.
Lemma grep_lines_spec {A} kdir a out : forall (scs : list (A * syscall)) r,
  grep_lines kdir (map (fun x => (fst x, grep_exp a (sc_origname (snd x)))) scs) out = Ok r ->
  exists given left, Forall2 (reported kdir out out left scs a) r given /\ Permutation (map fst given) scs /\ Permutation out (lines_given given ++ left).
Proof.
  induction out as [|line out IH]; intros scs r H; cbn [grep_lines] in H.
  - injection H as <-. exists (map (fun s => (s, None)) scs), []. split; [|split].
    + assert (forall l, incl l scs -> Forall2 (reported kdir [] [] [] scs a) (map (fun e : A * re => (fst e, @None (path * Z))) (map (fun x => (fst x, grep_exp a (sc_origname (snd x)))) l)) (map (fun s => (s, None)) l)) as G.
      { induction l as [|x l IH]; intros I; cbn [map]; constructor; [|apply IH; intros y Y; apply I; now right]. split; [reflexivity|]. split; [apply I; now left|]. cbn. split; [reflexivity|]. intros l' []. }
      apply G. apply incl_refl.
    + rewrite map_map. cbn. now rewrite map_id.
    + clear. induction scs; cbn; auto.
  - destruct (take_match line _) as [(x & others)|] eqn:T.
    + apply take_match_Some in T as (pre & rx & post & E & -> & R & F). apply bind_Ok in H as ((f & n) & G & H). apply bind_Ok in H as (r' & H & E'). injection E' as <-.
      apply map_eq_app in E as (pre' & post1 & -> & <- & E). apply map_eq_cons in E as (s & post' & -> & E1 & <-). injection E1 as <- <-.
      rewrite <- map_app in H. apply IH in H as (given & left & H1 & H2 & H3).
      exists ((s, Some line) :: given), left. split; [|split].
      * constructor.
        -- split; [reflexivity|]. split; [apply in_or_app; right; now left|]. cbn. split; [now left|]. split; [now apply grep_exp_spec|]. split; [exists f, n; split; [reflexivity|now apply grep_loc_place]|].
           intros l Il _. exists [], out. split; [reflexivity|]. apply (Permutation_in _ (Permutation_sym H3)), in_or_app. now right.
        -- eapply Forall2_weaken; [|exact H1]. intros y z Hy. apply (reported_weaken kdir out (line :: out) out (line :: out) left left (pre' ++ post') (pre' ++ s :: post')); [exact Hy| | |contradiction|].
           ++ intros l I. now right.
           ++ intros l I. apply in_app_iff in I as [I|I]; apply in_or_app; [left|right; right]; exact I.
           ++ intros u v line' l -> I. exists (line :: u), v. auto.
      * cbn [map fst]. rewrite H2. apply Permutation_middle.
      * cbn. now constructor.
    + apply take_match_None in T. rewrite Forall_map in T. apply IH in H as (given & left & H1 & H2 & H3). exists given, (line :: left). split; [|split].
      * eapply Forall2_weaken; [|exact H1]. intros y z Hy. apply (reported_weaken kdir out (line :: out) out (line :: out) left (line :: left) scs scs); [exact Hy| |apply incl_refl| |].
        -- intros l I. now right.
        -- intros l [<-|I] N; [|contradiction]. destruct Hy as (_ & I & _). rewrite Forall_forall in T. specialize (T _ I). cbn in T. intros X. apply grep_exp_spec in X. contradiction.
        -- intros u v line' l -> I. exists (line :: u), v. auto.
      * exact H2.
      * rewrite H3. apply Permutation_middle.
Qed.
Lemma sorted_after {A} (key : A -> Z) l u x v y : StronglySorted (fun a b => (key b <=? key a) = true) l -> l = u ++ x :: v -> In y v -> key y <= key x.
Proof.
  intros S. revert u. induction S as [|a l S IH F]; intros u E I; [now destruct u|]. destruct u as [|b u]; cbn in E; injection E as -> ->.
  - rewrite Forall_forall in F. specialize (F y I). lia.
  - now apply (IH u).
Qed.
Lemma grep_spec {A} w kdir a (scs : list (A * syscall)) r : grep_kernel_sources w kdir a scs = Ok r ->
  exists out given left, w_grep w = Ok out /\ Permutation (map fst given) scs /\ Permutation out (lines_given given ++ left) /\
    Forall2 (fun x y => fst x = fst (fst y) /\
      match snd y with
      | Some line => grep_hit a (sc_origname (snd (fst y))) line /\ (exists f n, snd x = Some (f, n) /\ grep_place kdir line f n) /\
          forall l, In l left -> grep_hit a (sc_origname (snd (fst y))) l -> ~ before a l line
      | None => snd x = None /\ forall l, In l left -> ~ grep_hit a (sc_origname (snd (fst y))) l
      end) r given.
Proof.
  intros H. unfold grep_kernel_sources in H. apply bind_Ok in H as (out & O & H). apply grep_lines_spec in H as (given & left & H1 & H2 & H3).
  exists out, given, left. split; [exact O|]. split; [exact H2|]. split; [rewrite <- H3; apply sort_perm|].
  eapply Forall2_weaken; [|exact H1]. intros x y (E & I & H). split; [exact E|]. destruct (snd y) as [line|]; [|exact H].
  destruct H as (_ & H4 & H5 & H6). split; [exact H4|]. split; [exact H5|]. intros l Il G B. apply before_key in B. destruct (H6 l Il G) as (u & v & E1 & E2).
  assert (grep_key a l <= grep_key a line) as X; [|lia]. eapply sorted_after; [|exact E1|exact E2]. unfold sort_by_rev. apply sort_sorted; intros; lia.
Qed.

(** * Remapping *)
Lemma root_dec (p : path) : root p = [] \/ root p <> [].
Proof. destruct (root p); [left; reflexivity|right; discriminate]. Qed.
Lemma path_join_abs d p : root p <> [] -> path_join d p = p.
Proof. unfold path_join. destruct p as [r t]. cbn. destruct r; [contradiction|]. reflexivity. Qed.
Lemma remap_spec kdir rdir p q : remap kdir rdir (Some p) = Ok (Some q) <-> remapped kdir rdir p q.
Proof.
  unfold remap. assert (forall p, outside rdir p -> remapped kdir rdir p (path_join kdir p)) as OK.
  { intros x O. destruct (root_dec x) as [R|R]; [now apply rm_relative|]. rewrite path_join_abs by exact R. now apply rm_absolute. }
  destruct rdir as [r|].
  - destruct (is_relative_to p r) eqn:E.
    + apply is_relative_to_join in E as (t & ->). rewrite maybe_rel_under. cbn [bind]. split.
      * intros H. injection H as <-. now apply rm_below.
      * assert (forall p q, remapped kdir (Some r) p q -> p = path_join r (Path [] t) -> Ok (Some (path_join kdir (Path [] t))) = Ok (Some q)) as G.
        { intros p' q' [r' t' Er|x O _|x O _] Ep.
          - injection Er as <-. unfold path_join in Ep. cbn in Ep. injection Ep as E'. apply app_inv_head in E'. now subst.
          - now elim (O t).
          - now elim (O t). }
        intros H. now apply (G _ _ H).
    + assert (forall t, p <> path_join r (Path [] t)) as O by (intros t ->; assert (is_relative_to (path_join r (Path [] t)) r = true) by (apply is_relative_to_join; eauto); congruence).
      rewrite maybe_rel_outside by exact O. cbn [bind]. split.
      * intros H. injection H as <-. now apply OK.
      * intros H. inversion H as [r' t' Er Ep|x _ R|x _ R]; subst.
        -- injection Er as <-. now elim (O t').
        -- now rewrite path_join_abs.
        -- reflexivity.
  - split.
    + intros H. injection H as <-. now apply OK.
    + intros [r' t' E|x _ R|x _ R]; [discriminate|now rewrite path_join_abs|reflexivity].
Qed.
Lemma remap_total kdir rdir p : exists q, remap kdir rdir (Some p) = Ok (Some q).
Proof.
  unfold remap. destruct rdir as [r|]; [|eauto]. destruct (maybe_rel_total p (Some r)) as (q & ->). cbn [bind]. eauto.
Qed.
