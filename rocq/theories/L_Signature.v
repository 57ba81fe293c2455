(** Lemmas about signature.py: cleaning and splitting the text of a definition (C48, C50). *)
From Coq Require Import List Bool Ascii String ZArith Lia.
From Verif Require Import PyBase PyFacts M_Utils M_Elf M_Syscall M_Build M_Signature S_Elf S_Signature.
Import ListNotations.
Open Scope Z_scope.
Open Scope list_scope.

(** * replace *)

Lemma replace_fuel_enough old new n s : old <> [] -> (List.length s <= n)%nat ->
  replace_fuel n s old new = replace s old new.
Proof.
  intros Ho. unfold replace. assert (forall k n m s, (List.length s <= k)%nat -> (List.length s <= n)%nat -> (List.length s <= m)%nat ->
    replace_fuel n s old new = replace_fuel m s old new) as G; [|intros; apply (G (List.length s)); lia].
  induction k as [|k IH]; intros [|n'] [|m'] s' Hk Hn Hm; destruct s' as [|c s']; cbn [List.length] in *; try lia; try reflexivity.
  cbn [replace_fuel]. destruct (startswith (c :: s') old).
  - f_equal. destruct old as [|o old]; [congruence|]. apply IH; rewrite skipn_length; cbn [List.length]; lia.
  - f_equal. apply IH; lia.
Qed.
Lemma replace_nil old new : replace [] old new = [].
Proof. reflexivity. Qed.
Lemma replace_miss c s old new : startswith (c :: s) old = false -> replace (c :: s) old new = c :: replace s old new.
Proof. intros H. unfold replace at 1. cbn [List.length replace_fuel]. now rewrite H. Qed.
Lemma replace_hit s old new : old <> [] -> replace (old ++ s) old new = new ++ replace s old new.
Proof.
  intros Ho. destruct old as [|c o]; [congruence|]. unfold replace at 1. cbn [app List.length replace_fuel].
  change (c :: o ++ s) with ((c :: o) ++ s). rewrite startswith_app. f_equal.
  change (c :: o ++ s) with ((c :: o) ++ s). rewrite <- (replace_fuel_enough (c :: o) new (List.length (o ++ s)) s) by (try discriminate; rewrite app_length; lia).
  f_equal. change (S (List.length o)) with (List.length (c :: o)). apply skipn_app_exact.
Qed.

(** * Removing __user *)

Inductive gap0 : str -> Prop :=
| gap0_one c : is_space c = true -> gap0 [c]
| gap0_more c g : is_space c = true -> gap0 g -> gap0 (c :: g).
Inductive spelled0 : str -> str -> Prop :=
| sp0_nil : spelled0 [] []
| sp0_char c s t : is_space c = false -> spelled0 s t -> spelled0 (c :: s) (c :: t)
| sp0_blank g s t : gap0 g -> spelled0 s t -> spelled0 (SP :: s) (g ++ t)
| sp0_stars g s t : gap0 g -> spelled0 s t -> spelled0 (STAR :: STAR :: s) (STAR :: g ++ STAR :: t).

Lemma gap_cons g : gap g -> exists c r, g = c :: r /\ is_space c = true.
Proof. intros [c H|c r H _|r _]; [now exists c, []|now exists c, r|]. exists SP, ($"__user" ++ r). split; reflexivity. Qed.

Lemma spelled_word s t w : spelled s t -> (forall c, In c w -> is_space c = false /\ c <> STAR) ->
  startswith t w = true -> startswith s w = true.
Proof.
  intros H. revert w. induction H as [|c s t Hc H IH|g s t G H IH|s t E H IH|g s t G H IH]; intros [|a w] Hw Hs; try reflexivity; try discriminate.
  - cbn in *. apply andb_true_iff in Hs as [H1 H2]. rewrite H1. apply IH; [|exact H2]. intros c' Hc'. apply Hw. now right.
  - destruct (gap_cons g G) as (c & r & -> & B). cbn in Hs. apply andb_true_iff in Hs as [H1 _]. apply ascii_eqb_eq in H1. subst c.
    destruct (Hw a (or_introl eq_refl)). congruence.
  - cbn -[list_ascii_of_string] in Hs. change ($" __user" ++ t) with (SP :: $"__user" ++ t) in Hs. cbn in Hs. apply andb_true_iff in Hs as [H1 _]. apply ascii_eqb_eq in H1.
    destruct (Hw a (or_introl eq_refl)) as [X _]. subst a. discriminate X.
  - cbn in Hs. apply andb_true_iff in Hs as [H1 _]. apply ascii_eqb_eq in H1.
    destruct (Hw a (or_introl eq_refl)) as [_ X]. congruence.
Qed.

Definition no_user (s : str) : Prop := forall a b, s <> a ++ $" __user" ++ b.
Lemma no_user_tail c s : no_user (c :: s) -> no_user s.
Proof. intros H a b E. apply (H (c :: a) b). cbn. now rewrite E. Qed.

Definition unuser (t : str) : str := replace t $" __user" [].
Lemma unuser_hit t : unuser ($" __user" ++ t) = unuser t.
Proof. unfold unuser. rewrite replace_hit by discriminate. reflexivity. Qed.
Lemma unuser_miss c t : startswith (c :: t) $" __user" = false -> unuser (c :: t) = c :: unuser t.
Proof. apply replace_miss. Qed.
Lemma unuser_nb c t : c <> SP -> unuser (c :: t) = c :: unuser t.
Proof. intros H. apply unuser_miss. cbn [list_ascii_of_string startswith]. destruct (Ascii.eqb_spec " " c) as [<-|]; [now elim H|reflexivity]. Qed.
Lemma unuser_blank c d t : is_space d = true -> unuser (c :: d :: t) = c :: unuser (d :: t).
Proof.
  intros H. apply unuser_miss. cbn [list_ascii_of_string startswith]. destruct (Ascii.eqb_spec "_" d) as [<-|]; [discriminate H|].
  now rewrite andb_false_r.
Qed.

(** A gap followed by something that is not "__user..." *)
Lemma unuser_gap g t : gap g -> startswith t $"__user" = false -> exists g0, gap0 g0 /\ unuser (g ++ t) = g0 ++ unuser t.
Proof.
  intros G Ht. induction G as [c Hc|c g Hc G (g0 & G0 & E)|g G (g0 & G0 & E)].
  - exists [c]. split; [now constructor|]. cbn [app]. apply unuser_miss. 
    change $" __user" with (SP :: $"__user"). cbn [startswith]. rewrite Ht. now rewrite andb_false_r.
  - exists (c :: g0). split; [now constructor|]. destruct (gap_cons g G) as (d & r & -> & Hd). cbn [app] in *. rewrite unuser_blank by exact Hd.
    now rewrite E.
  - exists g0. split; [exact G0|]. rewrite <- app_assoc, unuser_hit. exact E.
Qed.

Lemma nospace_ne c : is_space c = false -> c <> SP.
Proof. intros H ->. discriminate H. Qed.

Lemma spelled_unuser s t : spelled s t -> no_user s -> spelled0 s (unuser t).
Proof.
  induction 1 as [|c s t Hc H IH|g s t G H IH|s t E H IH|g s t G H IH]; intros N.
  - constructor.
  - rewrite unuser_nb by now apply nospace_ne. constructor; [exact Hc|]. apply IH. exact (no_user_tail _ _ N).
  - destruct (unuser_gap g t G) as (g0 & G0 & ->).
    + destruct (startswith t $"__user") eqn:E; [|reflexivity]. exfalso. 
      apply (spelled_word _ _ $"__user" H) in E.
      * apply startswith_iff in E as (b & ->). exact (N [] b eq_refl).
      * intros c Hc. repeat (destruct Hc as [<-|Hc]; [split; [reflexivity|discriminate]|]). destruct Hc.
    + constructor; [exact G0|]. apply IH. exact (no_user_tail _ _ N).
  - rewrite unuser_hit. now apply IH.
  - rewrite unuser_nb by discriminate. destruct (unuser_gap g (STAR :: t) G) as (g0 & G0 & ->); [reflexivity|].
    rewrite unuser_nb by discriminate. constructor; [exact G0|]. apply IH. exact (no_user_tail _ _ (no_user_tail _ _ N)).
Qed.

(** * Collapsing blanks *)

Fixpoint squash (t : str) : str :=
  match t with
  | [] => []
  | c :: r => if is_space c then match squash r with [] => [] | d :: x => if Ascii.eqb d SP then d :: x else SP :: d :: x end
              else c :: squash r
  end.
Definition lead (t : str) : str := dropwhile (fun c => Ascii.eqb c SP) t.

Lemma squash_head t d x : squash t = d :: x -> is_space d = true -> d = SP.
Proof.
  destruct t as [|c r]; [discriminate|]. cbn. destruct (is_space c) eqn:E.
  - destruct (squash r) as [|d' x']; [discriminate|]. destruct (Ascii.eqb_spec d' SP); intros X; injection X as <- <-; congruence.
  - intros X; injection X as <- <-. congruence.
Qed.

Lemma split_ws_aux_join t cur : (forall c, In c cur -> is_space c = false) ->
  join $" " (split_ws_aux t cur) =
    match cur with
    | [] => lead (squash t)
    | _ => rev cur ++ squash t
    end.
Proof.
  revert cur. induction t as [|c t IH]; intros cur Hc.
  - cbn. destruct cur; [reflexivity|]. cbn. now rewrite app_nil_r.
  - cbn [split_ws_aux squash]. destruct (is_space c) eqn:E.
    + specialize (IH [] (fun _ F => match F with end)). destruct cur as [|k cur].
      * rewrite IH. destruct (squash t) as [|d x] eqn:S; [reflexivity|]. destruct (Ascii.eqb d SP) eqn:D; [reflexivity|]. cbn. now rewrite D.
      * destruct (split_ws_aux t []) as [|w l] eqn:S.
        -- cbn in IH. cbn [join]. destruct (squash t) as [|d x] eqn:Q; [now rewrite app_nil_r|]. exfalso. 
           assert (forall x, lead (d :: x) = [] -> False).
           { cbn in IH. destruct (Ascii.eqb d SP) eqn:D; [|discriminate]. 
             (* a squashed text never is only blanks *) 
             assert (forall t, match squash t with [] => True | d :: x => lead (d :: x) <> [] end) as L.
             { clear. induction t as [|c t IH]; [exact I|]. cbn [squash]. destruct (is_space c) eqn:E.
               - destruct (squash t) as [|d x]; [exact I|]. destruct (Ascii.eqb d SP) eqn:D; [exact IH|]. cbn. now rewrite D.
               - cbn. destruct (Ascii.eqb_spec c SP); [subst; discriminate E|discriminate]. }
             specialize (L t). rewrite Q in L. cbn in L. rewrite D in L. congruence. }
           apply (H x). now symmetry.
        -- change (join $" " (rev (k :: cur) :: w :: l)) with (rev (k :: cur) ++ $" " ++ join $" " (w :: l)). rewrite IH. destruct (squash t) as [|d x] eqn:Q.
           ++ cbn in IH. destruct l; cbn in IH; [|destruct w; discriminate]. subst w. exfalso.
              assert (forall t cur, In [] (split_ws_aux t cur) -> False) as F.
              { clear. induction t as [|c t IH]; intros cur; cbn.
                - destruct cur as [|k cur]; [easy|]. intros [F|[]]. cbn in F. destruct (rev cur); discriminate.
                - destruct (is_space c); [|apply IH]. destruct cur as [|k cur]; [apply IH|]. intros [F|F]; [|eauto]. cbn in F. destruct (rev cur); discriminate. }
              apply (F t []). rewrite S. now left.
           ++ destruct (Ascii.eqb d SP) eqn:D.
              ** apply ascii_eqb_eq in D. subst d. cbn [lead dropwhile]. rewrite ascii_eqb_refl.
                 f_equal. change ($" " ++ dropwhile (fun c0 => Ascii.eqb c0 SP) x) with (SP :: dropwhile (fun c0 => Ascii.eqb c0 SP) x). f_equal.
                 (* only one *) assert (forall t x, squash t = SP :: x -> lead x = x) as L.
                 { clear. induction t as [|c t IH]; intros x; [discriminate|]. cbn [squash]. destruct (is_space c) eqn:E.
                   - destruct (squash t) as [|d y]; [discriminate|]. destruct (Ascii.eqb_spec d SP) as [->|D].
                     + intros X. injection X as <-. now apply IH.
                     + intros X. injection X as <-. cbn. destruct (Ascii.eqb_spec d SP); congruence.
                   - intros X. injection X as -> _. discriminate E. }
                 exact (L t x Q).
              ** cbn [lead dropwhile]. rewrite D. reflexivity.
    + rewrite IH.
      * destruct cur as [|k cur].
        -- cbn. destruct (Ascii.eqb_spec c SP); [subst; discriminate E|reflexivity].
        -- cbn [rev]. rewrite <- app_assoc. cbn [app]. rewrite <- !app_assoc. reflexivity.
      * intros d [<-|Hd]; [exact E|now apply Hc].
Qed.
Lemma split_join_ws t : join $" " (split_ws t) = lead (squash t).
Proof. unfold split_ws. apply (split_ws_aux_join t []). intros c []. Qed.

Inductive spelled1 : str -> str -> Prop :=
| sp1_nil : spelled1 [] []
| sp1_char c s t : spelled1 s t -> spelled1 (c :: s) (c :: t)
| sp1_stars s t : spelled1 s t -> spelled1 (STAR :: STAR :: s) (STAR :: SP :: STAR :: t).

Lemma spelled1_head s t : spelled1 s t -> match s, t with [], [] => True | c :: _, d :: _ => c = d | _, _ => False end.
Proof. intros [|c s' t' _|s' t' _]; cbn; auto. Qed.

Lemma squash_gap g t : gap0 g -> squash (g ++ t) = squash (SP :: t).
Proof.
  induction 1 as [c Hc|c g Hc G IH]; cbn [app]; [cbn; now rewrite Hc|]. cbn [squash]. rewrite Hc, IH. cbn [squash].
  change (is_space SP) with true. cbv iota. destruct (squash t) as [|d x]; [reflexivity|]. destruct (Ascii.eqb_spec d SP) as [->|D]; reflexivity.
Qed.

Lemma spelled_squash s t : spelled0 s t -> spelled1 (squash s) (squash t).
Proof.
  induction 1 as [|c s t Hc H IH|g s t G H IH|g s t G H IH].
  - constructor.
  - cbn. rewrite Hc. now constructor.
  - rewrite squash_gap by exact G. cbn. pose proof (spelled1_head _ _ IH) as X.
    destruct (squash s), (squash t); try contradiction; [constructor|]. subst. destruct (Ascii.eqb _ _); [exact IH|now constructor].
  - cbn [squash]. change (is_space STAR) with false. cbv iota. rewrite squash_gap by exact G.
    replace (squash (SP :: STAR :: t)) with (SP :: STAR :: squash t) by reflexivity. now constructor.
Qed.
Lemma spelled1_lead s t : spelled1 s t -> spelled1 (lead s) (lead t).
Proof.
  induction 1 as [|c s t H IH|s t H IH]; [constructor| |now constructor]. unfold lead in *. cbn [dropwhile].
  destruct (Ascii.eqb c SP); [exact IH|now constructor].
Qed.

(** * Joining double pointers *)

Definition no_gap_stars (s : str) : Prop := forall a b, s <> a ++ $"* *" ++ b.
Lemma spelled1_replace s t : spelled1 s t -> no_gap_stars s -> replace t $"* *" $"**" = s.
Proof.
  induction 1 as [|c s t H IH|s t H IH]; intros N.
  - reflexivity.
  - rewrite replace_miss.
    + f_equal. apply IH. intros a b E. apply (N (c :: a) b). cbn. now rewrite E.
    + destruct (startswith (c :: t) $"* *") eqn:E; [|reflexivity]. exfalso. apply startswith_iff in E as (x & E).
      cbn in E. injection E as -> ->. inversion H as [|c1 s1 t1 H1|]; subst. inversion H1 as [|c2 s2 t2 H2|s2 t2 H2]; subst.
      * exact (N [] s2 eq_refl).
      * exact (N [] (STAR :: s2) eq_refl).
  - change (STAR :: SP :: STAR :: t) with ($"* *" ++ t). rewrite replace_hit by discriminate. cbn [list_ascii_of_string app].
    do 2 f_equal. apply IH. intros a b E. apply (N (STAR :: STAR :: a) b). cbn. now rewrite E.
Qed.

Lemma clean_spelled s t : spelled s t -> no_user s -> no_gap_stars (lead (squash s)) -> clean_sig t = lead (squash s).
Proof.
  intros H N G. unfold clean_sig. fold (unuser t). rewrite split_join_ws. apply spelled1_replace; [|exact G].
  apply spelled1_lead, spelled_squash, spelled_unuser; assumption.
Qed.

(** * Lists of fields *)

Definition avoids (p s : str) : Prop := forall a b, s <> a ++ p ++ b.

Lemma avoids_sep p c x y : p <> [] -> ~ In c p -> avoids p x -> avoids p y -> avoids p (x ++ c :: y).
Proof.
  intros Hp Hc Hx Hy a b E. apply app_eq_app in E as (l & [(E1 & E2)|(E1 & E2)]).
  - apply app_eq_app in E2 as (l2 & [(E3 & E4)|(E3 & E4)]).
    + destruct l2 as [|d l2].
      * rewrite app_nil_r in E3. subst. apply (Hx a []). now rewrite app_nil_r.
      * cbn in E4. injection E4 as <- _. apply Hc. rewrite E3. apply in_or_app. right. now left.
    + apply (Hx a l2). now rewrite E1, E3.
  - destruct l as [|d l].
    + cbn in E2. destruct p as [|q p]; [congruence|]. cbn in E2. injection E2 as <- _. apply Hc. now left.
    + cbn in E2. injection E2 as <- E2. exact (Hy l b E2).
Qed.
Lemma avoids_snoc p c s : p <> [] -> last_char p <> Some c -> avoids p s -> avoids p (s ++ [c]).
Proof.
  intros Hp Hl H a b E. destruct (rev b) as [|d r] eqn:R.
  - assert (b = []) as -> by (apply (f_equal (@rev ascii)) in R; now rewrite rev_involutive in R).
    rewrite app_nil_r in E. destruct (exists_last Hp) as (q & d & ->). rewrite app_assoc in E. apply app_inj_tail in E as (_ & ->).
    apply Hl. unfold last_char. now rewrite rev_app_distr.
  - apply (f_equal (@rev ascii)) in R. rewrite rev_involutive in R. cbn in R. subst b. rewrite !app_assoc in E. apply app_inj_tail in E as (E & _).
    apply (H a (rev r)). now rewrite E, !app_assoc.
Qed.
Lemma avoids_cons p c s x q : p = x :: q -> c <> x -> avoids p s -> avoids p (c :: s).
Proof.
  intros -> Hc H [|d a] b E; cbn in E; injection E as -> E; [congruence|]. exact (H a b E).
Qed.
Lemma avoids_tail p c s : avoids p (c :: s) -> avoids p s.
Proof. intros H a b E. apply (H (c :: a) b). cbn. now rewrite E. Qed.

Lemma pad_user f a b : pad a -> pad b -> avoids $" __user" (SP :: f) -> avoids $" __user" (a ++ f ++ b).
Proof.
  intros Ha Hb H. assert (avoids $" __user" (f ++ b)) as G.
  { apply avoids_tail with (c := SP). destruct Hb as [-> | ->]; [now rewrite app_nil_r|].
    apply (avoids_snoc _ SP (SP :: f)); [discriminate|discriminate|exact H]. }
  destruct Ha as [-> | ->]; [exact G|]. destruct Hb as [-> | ->]; cbn [app].
  - rewrite app_nil_r in *. exact H.
  - apply (avoids_snoc _ SP (SP :: f)); [discriminate|discriminate|exact H].
Qed.
Lemma pad_stars f a b : pad a -> pad b -> avoids $"* *" f -> avoids $"* *" (a ++ f ++ b).
Proof.
  intros Ha Hb H. assert (avoids $"* *" (f ++ b)) as G.
  { destruct Hb as [-> | ->]; [now rewrite app_nil_r|]. apply avoids_snoc; [discriminate|discriminate|exact H]. }
  destruct Ha as [-> | ->]; [exact G|]. cbn [app]. eapply avoids_cons; [reflexivity|discriminate|exact G].
Qed.
Lemma tidy_user f : tidy f -> avoids $" __user" (SP :: f).
Proof. intros (_ & _ & _ & _ & _ & _ & H & _). exact H. Qed.
Lemma tidy_stars f : tidy f -> avoids $"* *" f.
Proof. intros (_ & _ & _ & _ & _ & _ & _ & H). exact H. Qed.
Lemma tidy_comma f : tidy f -> ~ In COMMA f.
Proof. intros (_ & _ & _ & _ & _ & H & _). exact H. Qed.
Lemma listed_user fs w : listed fs w -> Forall tidy fs -> no_user w.
Proof.
  induction 1 as [f a b Ha Hb|f fs a b w Ha Hb H IH]; intros F; inversion_clear F as [|? ? T F'].
  - apply pad_user; [exact Ha|exact Hb|now apply tidy_user].
  - assert (no_user ((a ++ f ++ b) ++ COMMA :: w)) as G; [|now rewrite <- !app_assoc in G].
    apply avoids_sep; [discriminate| |apply pad_user; [exact Ha|exact Hb|now apply tidy_user]|now apply IH].
    intros X. repeat (destruct X as [X|X]; [discriminate X|]). destruct X.
Qed.
Lemma listed_stars fs w : listed fs w -> Forall tidy fs -> no_gap_stars w.
Proof.
  induction 1 as [f a b Ha Hb|f fs a b w Ha Hb H IH]; intros F; inversion_clear F as [|? ? T F'].
  - apply pad_stars; [exact Ha|exact Hb|now apply tidy_stars].
  - assert (no_gap_stars ((a ++ f ++ b) ++ COMMA :: w)) as G; [|now rewrite <- !app_assoc in G].
    apply avoids_sep; [discriminate| |apply pad_stars; [exact Ha|exact Hb|now apply tidy_stars]|now apply IH].
    intros X. repeat (destruct X as [X|X]; [discriminate X|]). destruct X.
Qed.

Lemma tidy_first f : tidy f -> exists c r, f = c :: r /\ is_space c = false.
Proof.
  intros (N & B & _ & S & _). destruct f as [|c r]; [congruence|]. exists c, r. split; [reflexivity|].
  destruct (is_space c) eqn:E; [|reflexivity]. assert (c = SP) as -> by (apply B; [now left|exact E]). exfalso. exact (S r eq_refl).
Qed.
Lemma tidy_last f : tidy f -> exists c r, f = r ++ [c] /\ is_space c = false.
Proof.
  intros (N & B & _ & _ & S & _). destruct (exists_last N) as (r & c & ->). exists c, r. split; [reflexivity|].
  destruct (is_space c) eqn:E; [|reflexivity]. assert (c = SP) as -> by (apply B; [apply in_or_app; right; now left|exact E]).
  exfalso. exact (S r eq_refl).
Qed.

Lemma squash_tidy f r : (forall c, In c f -> is_space c = true -> c = SP) -> no_double_blank f ->
  (forall x, f <> x ++ [SP]) -> squash (f ++ r) = f ++ squash r.
Proof.
  induction f as [|c f IH]; intros B D S; [reflexivity|]. cbn [app squash].
  assert (squash (f ++ r) = f ++ squash r) as E.
  { apply IH; [intros d Hd; apply B; now right|intros a b X; apply (D (c :: a) b); cbn; now rewrite X|].
    intros x X. apply (S (c :: x)). cbn. now rewrite X. }
  rewrite E. destruct (is_space c) eqn:C; [|reflexivity]. assert (c = SP) as -> by (apply B; [now left|exact C]).
  destruct f as [|d f]; [exfalso; exact (S [] eq_refl)|]. cbn [app]. destruct (Ascii.eqb_spec d SP) as [->|]; [|reflexivity].
  exfalso. exact (D [] f eq_refl).
Qed.
Lemma squash_blank_nb c r : is_space c = false -> squash (SP :: c :: r) = SP :: c :: squash r.
Proof.
  intros H. cbn [squash]. change (is_space SP) with true. rewrite H. destruct (Ascii.eqb_spec c SP); [subst; discriminate H|reflexivity].
Qed.
Lemma squash_pad a f r : pad a -> tidy f -> squash (a ++ f ++ r) = a ++ f ++ squash r.
Proof.
  intros Ha T. assert (squash (f ++ r) = f ++ squash r) as E by (apply squash_tidy; apply T).
  destruct Ha as [-> | ->]; [exact E|]. destruct (tidy_first f T) as (c & x & -> & C). cbn [app] in *.
  rewrite squash_blank_nb by exact C. cbn [squash] in E. rewrite C in E. injection E as E. now rewrite E.
Qed.
Lemma listed_squash fs w : listed fs w -> Forall tidy fs -> listed fs (squash w).
Proof.
  induction 1 as [f a b Ha Hb|f fs a b w Ha Hb H IH]; intros F; inversion_clear F as [|? ? T F'].
  - rewrite squash_pad by assumption. destruct Hb as [-> | ->]; cbn; apply (listed_one f a []); auto; now left.
  - rewrite squash_pad by assumption. specialize (IH F'). destruct Hb as [-> | ->]; cbn [app].
    + apply (listed_cons f fs a []); auto. now left.
    + rewrite squash_blank_nb by reflexivity. apply (listed_cons f fs a [SP]); auto. now right.
Qed.
Lemma lead_nb c r : is_space c = false -> lead (c :: r) = c :: r.
Proof. intros H. cbn. destruct (Ascii.eqb_spec c SP); [subst; discriminate H|reflexivity]. Qed.
Lemma listed_lead fs w : listed fs w -> Forall tidy fs -> listed fs (lead w).
Proof.
  intros H F. destruct H as [f a b Ha Hb|f fs a b w Ha Hb H]; inversion_clear F as [|? ? T F'];
    destruct (tidy_first f T) as (c & x & E & C).
  - destruct Ha as [-> | ->].
    + rewrite E. cbn [app]. rewrite lead_nb by exact C. rewrite <- E. change (c :: x ++ b) with ((c :: x) ++ b). rewrite <- E. 
      apply (listed_one f []); auto. now left.
    + change (lead ([SP] ++ f ++ b)) with (lead (f ++ b)). rewrite E. cbn [app]. rewrite lead_nb by exact C.
      change (c :: x ++ b) with ((c :: x) ++ b). rewrite <- E. apply (listed_one f []); auto. now left.
  - assert (lead (f ++ b ++ COMMA :: w) = f ++ b ++ COMMA :: w) as L by (rewrite E; cbn [app]; now rewrite lead_nb).
    destruct Ha as [-> | ->].
    + cbn [app]. rewrite L. apply (listed_cons f fs []); auto. now left.
    + change (lead ([SP] ++ f ++ b ++ COMMA :: w)) with (lead (f ++ b ++ COMMA :: w)). rewrite L. apply (listed_cons f fs []); auto. now left.
Qed.

Lemma clean_listed fs w t : Forall tidy fs -> listed fs w -> spelled w t -> listed fs (clean_sig t).
Proof.
  intros F L S. assert (listed fs (lead (squash w))) as L' by (apply listed_lead; [now apply listed_squash|exact F]).
  rewrite (clean_spelled w t S); [exact L'| |].
  - exact (listed_user fs w L F).
  - exact (listed_stars fs _ L' F).
Qed.

Lemma pad_blank a : pad a -> forallb is_space a = true.
Proof. intros [-> | ->]; reflexivity. Qed.
Lemma tidy_ends f : tidy f -> no_blank_ends is_space f.
Proof.
  intros T. destruct (tidy_first f T) as (c & r & E & C). destruct (tidy_last f T) as (d & q & E' & D). split.
  - now rewrite E.
  - rewrite E', rev_app_distr. exact D.
Qed.
Lemma strip_tidy a f b : blanks a -> blanks b -> tidy f -> strip (a ++ f ++ b) = f.
Proof. intros Ha Hb T. unfold strip. apply strip_by_pad; [exact Ha|exact Hb|now apply tidy_ends]. Qed.

Lemma listed_split fs w : listed fs w -> Forall tidy fs -> map strip (split_char COMMA w) = fs.
Proof.
  induction 1 as [f a b Ha Hb|f fs a b w Ha Hb H IH]; intros F; inversion_clear F as [|? ? T F'].
  - rewrite split_char_no.
    + cbn [map]. now rewrite strip_tidy by (try apply pad_blank; assumption).
    + intros X. apply in_app_or in X as [X|X]; [destruct Ha as [-> | ->]; [destruct X|destruct X as [X|[]]; discriminate X]|].
      apply in_app_or in X as [X|X]; [exact (tidy_comma f T X)|]. destruct Hb as [-> | ->]; [destruct X|destruct X as [X|[]]; discriminate X].
  - replace (a ++ f ++ b ++ COMMA :: w) with ((a ++ f ++ b) ++ COMMA :: w) by now rewrite <- !app_assoc. rewrite split_char_app.
    + cbn [map]. rewrite strip_tidy by (try apply pad_blank; assumption). now rewrite IH.
    + intros X. apply in_app_or in X as [X|X]; [destruct Ha as [-> | ->]; [destruct X|destruct X as [X|[]]; discriminate X]|].
      apply in_app_or in X as [X|X]; [exact (tidy_comma f T X)|]. destruct Hb as [-> | ->]; [destruct X|destruct X as [X|[]]; discriminate X].
Qed.
Lemma listed_in fs w c : listed fs w -> In c w -> c = SP \/ c = COMMA \/ exists f, In f fs /\ In c f.
Proof.
  assert (forall x, pad x -> In c x -> c = SP) as P by (intros x [-> | ->]; [intros []|intros [<-|[]]; reflexivity]).
  induction 1 as [f a b Ha Hb|f fs a b w Ha Hb H IH]; intros X.
  - apply in_app_or in X as [X|X]; [left; exact (P _ Ha X)|]. apply in_app_or in X as [X|X]; [|left; exact (P _ Hb X)].
    right. right. exists f. split; [now left|exact X].
  - apply in_app_or in X as [X|X]; [left; exact (P _ Ha X)|]. apply in_app_or in X as [X|X]; [right; right; exists f; split; [now left|exact X]|].
    apply in_app_or in X as [X|X]; [left; exact (P _ Hb X)|]. destruct X as [<-|X]; [right; now left|].
    destruct (IH X) as [Y|[Y|(f' & I & Y)]]; auto. right. right. exists f'. split; [now right|exact Y].
Qed.
Lemma listed_contains fs w f p : listed fs w -> In f fs -> avoids p w -> avoids p f.
Proof.
  assert (forall (x y z : str), avoids p (x ++ y ++ z) -> avoids p y) as G.
  { intros x y z H a b ->. apply (H (x ++ a) (b ++ z)). now rewrite <- !app_assoc. }
  induction 1 as [g a b Ha Hb|g fs a b w Ha Hb H IH]; intros I A.
  - destruct I as [->|[]]. exact (G _ _ _ A).
  - destruct I as [->|I]; [exact (G _ _ _ A)|]. apply IH; [exact I|]. 
    apply (G (a ++ g ++ b ++ [COMMA]) w []). rewrite app_nil_r, <- !app_assoc. exact A.
Qed.

(** * C50 *)

Lemma no_paren_prefix s m : ~ In "("%char s -> In "("%char m -> startswith s m = false.
Proof.
  intros H Hm. destruct (startswith s m) eqn:E; [|reflexivity]. apply startswith_iff in E as (t & ->).
  exfalso. apply H. apply in_or_app. now left.
Qed.
Lemma expand_item big i : item_ok i -> expand_field big (item_text i) = Ok (expansion big i).
Proof.
  destruct i as [s|m a]; cbn [item_ok item_text].
  - intros (T & N1 & N2). unfold expand_field. assert (noprefix s macro_prefixes = s) as ->.
    { unfold macro_prefixes. cbn [noprefix].
      rewrite !no_paren_prefix by (try exact N1; cbn; auto 30). reflexivity. }
    now rewrite str_eqb_refl.
  - intros (I & _ & _). unfold expand_field. 
    assert (noprefix (m ++ $"(" ++ a ++ $")") macro_prefixes = a ++ $")") as ->.
    { destruct I as [<-|[<-|[<-|[<-|[]]]]]; cbn -[slice_from len]; rewrite (slice_from_app _ (a ++ $")")) || idtac; try reflexivity. }
    assert (str_eqb (a ++ $")") (m ++ $"(" ++ a ++ $")") = false) as ->.
    { apply str_eqb_neq. intros X. apply (f_equal (@List.length ascii)) in X. rewrite !app_length in X. cbn in X. lia. }
    unfold last_of, last_char. rewrite rev_app_distr. cbn [rev app list_ascii_of_string bind].
    change (Ascii.eqb ")" ")") with true. cbn [assert_ bind].
    change (-1) with (- len [")"%char]). rewrite (slice_to_neg a [")"%char]) by discriminate. destruct big; reflexivity.
Qed.

Lemma expand_items big l : Forall item_ok l -> expand_macros (map item_text l) big = Ok (flat_map (expansion big) l).
Proof.
  intros F. unfold expand_macros. assert (mapM (expand_field big) (map item_text l) = Ok (map (expansion big) l)) as ->.
  { induction F as [|i l I F IH]; [reflexivity|]. cbn [map mapM]. now rewrite (expand_item big i I), IH. }
  cbn [bind]. now rewrite flat_map_concat_map.
Qed.

Lemma item_tidy i : item_ok i -> tidy (item_text i).
Proof. destruct i; cbn; tauto. Qed.
Lemma items_tidy l : Forall item_ok l -> Forall tidy (map item_text l).
Proof. intros F. apply Forall_map. eapply Forall_impl; [exact item_tidy|exact F]. Qed.

Lemma parse_items big l w : Forall item_ok l -> listed (map item_text l) w ->
  parse_signature w big = Ok (flat_map (expansion big) l).
Proof.
  intros F L. unfold parse_signature. cbv zeta. change ","%char with COMMA. rewrite (listed_split _ w L (items_tidy l F)).
  destruct (negb (contains w $"SC_ARG64") && negb (contains w $"arg_u32p") && negb (contains w $"compat_arg_u64")) eqn:C;
    [|now apply expand_items].
  apply andb_true_iff in C as [C C3]. apply andb_true_iff in C as [C1 C2]. apply negb_true_iff in C1, C2, C3.
  (* no macro at all *)
  assert (forall m a, ~ In (Wide m a) l) as NW.
  { intros m a I. rewrite Forall_forall in F. pose proof (F _ I) as (Im & _). 
    assert (forall p, contains w p = false -> avoids p (item_text (Wide m a))) as A.
    { intros p Hp. eapply listed_contains; [exact L|apply in_map; exact I|]. intros x y ->. 
      assert (contains (x ++ p ++ y) p = true) by (apply contains_iff; eauto). congruence. }
    destruct Im as [<-|[<-|[<-|[<-|[]]]]].
    - exact (A _ C1 [] _ eq_refl).
    - exact (A _ C2 [] _ eq_refl).
    - exact (A _ C3 [] ($"_dual(" ++ a ++ $")") eq_refl).
    - exact (A _ C3 [] _ eq_refl). }
  assert (forall c, In c w -> c <> "("%char /\ c <> ")"%char) as NP.
  { intros c Hc. destruct (listed_in _ _ c L Hc) as [->|[->|(f & If & Ic)]]; [split; discriminate|split; discriminate|].
    apply in_map_iff in If as (i & <- & Ii). destruct i as [s|m a]; [|destruct (NW m a Ii)]. rewrite Forall_forall in F.
    destruct (F _ Ii) as (_ & N1 & N2). cbn in Ic. split; intros ->; auto. }
  assert (forall c, (c = "("%char \/ c = ")"%char) -> contains w [c] = false) as NC.
  { intros c Hc. apply contains_false. intros a b ->. destruct (NP c) as [X Y]; [apply in_or_app; right; now left|]. tauto. }
  change $"(" with ["("%char]. change $")" with [")"%char]. rewrite !NC by auto. cbn [negb andb assert_ bind]. f_equal.
  clear - NW. induction l as [|i l IH]; [reflexivity|]. destruct i as [s|m a]; [|exfalso; exact (NW m a (or_introl eq_refl))].
  cbn. f_equal. apply IH. intros m a I. exact (NW m a (or_intror I)).
Qed.
