(** Lemmas about the command line: its properties. *)
From Coq Require Import List Bool Ascii String ZArith Lia ZifyBool.
From Verif Require Import PyBase PyFacts M_Utils M_Elf M_Syscall M_Arch M_Kernel M_Output M_Main S_Utils S_Output S_Arch S_Main
  L_Utils L_Arch L_Output L_Main.
Import ListNotations.
Open Scope Z_scope.
Open Scope list_scope.

Lemma auto_checkout g : auto g = true <-> g_checkout g = Some $"auto".
Proof.
  unfold auto. destruct (g_checkout g) as [c|]; [|split; discriminate]. rewrite str_eqb_eq. split; [intros ->; reflexivity|intros [= ->]; reflexivity].
Qed.
Lemma checking_allowed m g v co : ~ misuse g -> checking g (path_arg (g_kdir g)) v co -> Forall (allowed m g) co.
Proof.
  intros NM [[A (tag & T & ->)]|[_ ->]]; [|constructor]. apply auto_checkout in A. constructor; [|constructor]. cbn [allowed].
  assert (present (g_checkout g)) as P by (exists $"auto"; split; [exact A|discriminate]).
  split; [exact (checkout_kdir g NM P)|]. split; [exact P|]. intros X. destruct X. exact A.
Qed.
Lemma main_allowed m g h r : main m g [] = (h, r) -> Forall (allowed m g) h.
Proof.
  intros E. apply main_cases in E. destruct E as [n|n| |h r|h0 h r F NM D AL P R|h0 h r F NM D AL P R]; try constructor; [assumption| |].
  - exact (post_run _ _ _ _ _ R (prepare_allowed m g h0 P AL)).
  - apply analysed_run in R. destruct R as [l r S _|e v a l co l2 r O S C S2 _|e v a l co scs shown d O S C SC N MP OUT]; forall_done;
      try (eapply checking_allowed; eassumption); try (apply sayings_allowed, told_sayings). exact P.
Qed.
Lemma main_misuse m g : arch_fine g -> misuse g -> main m g [] = ([], Ok 1).
Proof.
  intros F M. destruct (main m g []) as [h r] eqn:E. apply main_cases in E.
  destruct E as [n A H|n A H U| |h r|h0 h r _ NM|h0 h r _ NM]; try reflexivity; try contradiction.
  destruct (help_unknown n H (F n A)).
Qed.
Lemma main_unknown m g n : g_arch g = Some n -> ~ known_arch n ->
  (asks_help n -> main m g [] = ([], Ok 0)) /\ (~ asks_help n -> main m g [] = ([], Ok 1)).
Proof.
  intros A U. destruct (main m g []) as [h r] eqn:E. apply main_cases in E.
  destruct E as [n' A' H|n' A' H U'|F|h r F|h0 h r F|h0 h r F]; try (destruct (U (F n A))); rewrite A in A'; injection A' as <-; split; intros X;
    try reflexivity; contradiction.
Qed.
Lemma main_steps m g k h r : arch_fine g -> ~ misuse g -> preparing g -> kdir_of g k -> main m g [] = (h, r) ->
  exists a d, deeds h d /\ prefix_of d (preparation g k a) /\ (r = Ok 0 -> d = preparation g k a) /\
    (forall c, r = Ok c -> c = 0 \/ c = 1 \/ c = 127).
Proof.
  intros F NM P K E. assert (path_arg (g_kdir g) = Some k) as PK by (apply path_arg_Some; exact K).
  apply main_cases in E. destruct E as [n A H|n A H U|F' M|h r _ _ D AL N _|h0 h r _ _ D AL _ R|h0 h r _ _ D AL NP R]; try contradiction.
  - destruct (help_unknown n H (F n A)).
  - destruct (U (F n A)).
  - rewrite PK in D. exists some_arch, (explicit_checkout g (Some k)). split; [exact D|]. rewrite preparation_plan. split; [now eexists|].
    split; [intros X; destruct (N _ X)|intros c X; destruct (N _ X)].
  - rewrite PK in D, R. pose proof (post_run _ _ _ _ _ R (prepare_follows m g k (option_map lower (g_arch g)) _ h0 D)) as (a & d & X).
    exists a, d. rewrite preparation_plan. exact X.
Qed.
Lemma main_nowhere m g h r : ~ present (g_kdir g) -> preparing g -> arch_fine g -> main m g [] = (h, r) ->
  (exists d, deeds h d /\ forall x, In x d -> exists p, x = MadeDir p) /\ forall c, r = Ok c -> c = 1 \/ c = 127.
Proof.
  intros K P F E. apply path_arg_None in K. apply main_cases in E.
  destruct E as [n A H|n A H U|F' M|h r _ NM D AL N _|h0 h r _ NM D AL _ R|h0 h r _ NM D AL NP R]; try contradiction.
  - destruct (help_unknown n H (F n A)).
  - destruct (U (F n A)).
  - split; [exists []; split; [constructor|intros x []]|]. intros c [= <-]. auto.
  - split; [|intros c X; destruct (N _ X)]. eexists. split; [exact D|]. intros x I. exfalso.
    assert (present (g_checkout g)) as PC.
    { apply given_iff. unfold explicit_checkout in I. destruct (g_checkout g) as [[|c s]|]; [destruct I|reflexivity|destruct I]. }
    destruct (checkout_kdir g NM PC) as (k & _ & X). congruence.
  - rewrite K in D, R. assert (explicit_checkout g None = []) as E0.
    { unfold explicit_checkout. destruct (g_checkout g) as [[|c s]|] eqn:C; try reflexivity. destruct NM. apply mu_no_kdir; [now apply path_arg_None|].
      left. rewrite C. exists (c :: s). split; [reflexivity|discriminate]. }
    rewrite E0 in D. pose proof (post_run _ _ _ _ _ R (prepare_nowhere m g (option_map lower (g_arch g)) [] h0 D)) as [(d & Dd & q & Q) S].
    split; [|exact S]. exists d. split; [exact Dd|]. intros x I. cbn [app] in Q.
    assert (In x (match path_arg (g_out g) with Some o => [MadeDir o] | None => [] end)) as J by (rewrite Q; apply in_or_app; now left).
    destruct (path_arg (g_out g)); [|destruct J]. destruct J as [<-|[]]. eauto.
Qed.

(** ** Analysing *)

Lemma not_auto_explicit g k : auto g = true -> explicit_checkout g k = [].
Proof. intros A. apply auto_checkout in A. unfold explicit_checkout. now rewrite A. Qed.
Lemma show_path_shown g s s' : show_path (path_arg (g_kdir g)) (g_absolute g) s = Ok s' -> shown_as g s s'.
Proof.
  unfold show_path. destruct (sc_file s) as [f|] eqn:F; [|intros [= <-]; split; [rewrite F; constructor|repeat split]].
  destruct (path_arg (g_kdir g)) as [k|] eqn:K; [|intros [= <-]; split; [rewrite F; constructor; right; now apply path_arg_None|repeat split]].
  destruct (g_absolute g) eqn:A; [intros [= <-]; split; [rewrite F; constructor; now left|repeat split]|].
  destruct (maybe_rel_total f (Some k)) as [q Q]. rewrite Q. cbn [bind]. intros [= <-]. split; [|repeat split]. cbn [sc_file]. rewrite F.
  destruct (is_relative_to f k) eqn:R.
  - apply is_relative_to_join in R as [t ->]. rewrite maybe_rel_under in Q. injection Q as <-. unfold path_join. cbn [root parts].
    apply sf_under; [exact A|now apply kdir_path].
  - assert (forall t, f <> Path (root k) (parts k ++ t)) as N.
    { intros t ->. assert (is_relative_to (Path (root k) (parts k ++ t)) k = true) by (apply is_relative_to_join; exists t; reflexivity). congruence. }
    rewrite (maybe_rel_outside f k) in Q; [|intros t X; exact (N t X)]. injection Q as <-. apply (sf_outside g k); [exact A|now apply kdir_path|exact N].
Qed.
Lemma show_path_total kdir b s : exists s', show_path kdir b s = Ok s'.
Proof.
  unfold show_path. destruct (sc_file s) as [f|]; [|eauto]. destruct kdir as [k|]; [|eauto]. destruct b; [eauto|].
  destruct (maybe_rel_total f (Some k)) as [q ->]. cbn [bind]. eauto.
Qed.
Lemma show_paths_total kdir b scs : exists shown, mapM (show_path kdir b) scs = Ok shown.
Proof.
  induction scs as [|s scs [l IH]]; [cbn; eauto|]. destruct (show_path_total kdir b s) as [s' E]. cbn. rewrite E. cbn [bind]. rewrite IH. cbn. eauto.
Qed.
Lemma counted_filter {A} (P : A -> Prop) (f : A -> bool) l : (forall a, f a = true <-> P a) -> counted P l (len (filter f l)).
Proof.
  intros H. induction l as [|a l IH]; [constructor|]. cbn [filter]. destruct (f a) eqn:F.
  - rewrite len_cons, Z.add_comm. constructor; [now apply H|exact IH].
  - constructor; [|exact IH]. intros X. apply H in X. congruence.
Qed.
Lemma tally_line b a1 a2 n : 0 <= n ->
  tally b a1 a2 n (if n =? 0 then [] else [b ++ str_of_int n ++ a1 ++ plural n ++ a2]).
Proof.
  intros N. destruct (Z.eqb_spec n 0) as [->|Z0]; [constructor|]. unfold plural. destruct (Z.ltb_spec 1 n) as [L|L].
  - apply ty_more; [exact L|apply decimal_str; lia].
  - assert (n = 1) as -> by lia. cbn [app]. apply ty_one. now apply decimal_str.
Qed.
Lemma summary_report g scs : report g scs (summary (path_arg (g_kdir g)) scs).
Proof.
  unfold summary. cbv zeta. set (n1 := len (filter sc_grepped scs)). set (n2 := len (filter no_loc scs)).
  set (n3 := len (filter (no_sig (path_arg (g_kdir g))) scs)).
  pose proof (len_nonneg (filter sc_grepped scs)). pose proof (len_nonneg (filter no_loc scs)).
  pose proof (len_nonneg (filter (no_sig (path_arg (g_kdir g))) scs)).
  pose proof (tally_line $"Could not find definition location for " $" syscall" [] n2) as T2.
  pose proof (tally_line $"Could not extract signature for " $" syscall" [] n3) as T3.
  rewrite app_nil_r in T2, T3.
  eapply rp; [apply decimal_str, len_nonneg|..].
  - apply counted_filter with (f := sc_grepped). reflexivity.
  - now apply tally_line.
  - apply counted_filter with (f := no_loc). intros s. unfold no_loc. destruct (sc_file s); split; congruence.
  - now apply T2.
  - apply counted_filter with (f := no_sig (path_arg (g_kdir g))). intros s. unfold no_sig.
    destruct (path_arg (g_kdir g)) eqn:K; [|apply path_arg_None in K; destruct (sc_signature s); split; [discriminate|intros [X _]; contradiction|discriminate|intros [X _]; contradiction]].
    assert (present (g_kdir g)) by (apply path_arg_Some in K as (x & X & Y & _); now exists x).
    destruct (sc_signature s); split; try discriminate; auto; intros [_ X]; discriminate X.
  - now apply T3.
Qed.
Lemma told_says g l : says g l (told (silence g) l).
Proof.
  unfold told. destruct (silence g) eqn:S; [apply silent_iff in S as [A B]; now apply sy_silent|].
  apply sy_loud. intros X. apply silent_iff in X. unfold silence in S. congruence.
Qed.
Lemma image_image g p : image g (path_arg (g_kdir g)) p -> image_of g p.
Proof.
  unfold image. destruct (path_arg (g_vmlinux g)) as [v|] eqn:V.
  - intros ->. apply path_arg_Some in V as (s & S & N & ->). now apply im_given.
  - destruct (path_arg (g_kdir g)) as [k|] eqn:K; [|intros []]. intros ->. unfold path_join. cbn [root parts].
    apply im_kdir; [now apply path_arg_None|now apply kdir_path].
Qed.

Lemma checked_steps g v co : ~ misuse g -> checking g (path_arg (g_kdir g)) v co ->
  checked g v (explicit_checkout g (path_arg (g_kdir g)) ++ co).
Proof.
  intros NM [[A (tag & T & ->)]|[A ->]].
  - rewrite (not_auto_explicit g _ A). apply auto_checkout in A. assert (present (g_checkout g)) as P by (exists $"auto"; split; [exact A|discriminate]).
    destruct (checkout_kdir g NM P) as (k & K & ->). cbn [app]. now apply (ck_auto g v k tag).
  - rewrite app_nil_r. unfold explicit_checkout. destruct (g_checkout g) as [[|c s]|] eqn:C.
    + cbn. apply ck_none. rewrite C. intros (x & [= <-] & X). now destruct X.
    + assert (present (g_checkout g)) as P by (exists (c :: s); split; [exact C|discriminate]).
      destruct (checkout_kdir g NM P) as (k & K & ->). assert (str_eqb (c :: s) $"auto" = false) as AU by (unfold auto in A; now rewrite C in A).
      rewrite AU. replace (len (c :: s) =? 0) with false by (symmetry; apply Z.eqb_neq; rewrite len_cons; pose proof (len_nonneg s); lia).
      cbn [orb]. apply (ck_ref g v k (c :: s)); [exact C|discriminate| |exact K]. intros X. rewrite X in AU. discriminate AU.
    + apply ck_none. rewrite C. intros (x & X & _). discriminate X.
Qed.
Lemma main_result m g h : main m g [] = (h, Ok 0) -> ~ preparing g -> (forall n, g_arch g = Some n -> ~ asks_help n) ->
  exists p e v a scs shown d lines h0 h1 h2,
    image_of g p /\ mc_elf m h0 p = Ok e /\ version_from_vmlinux e = Ok (Some v) /\
    kernel_init (option_map lower (g_arch g)) (Some e) (match path_arg (g_kdir g) with Some _ => true | None => false end) (Ok v) = Ok a /\
    mc_syscalls m h1 a e v = Ok scs /\ scs <> [] /\ Forall2 (shown_as g) scs shown /\
    output_syscalls (mc_version m) (version_tag v) $"vmlinux" (adjust_abi a e) shown (g_format g) = Ok d /\
    report g scs lines /\ says g lines h2 /\ h = h1 ++ h2 ++ [Printed d] /\
    exists co, deeds h1 co /\ checked g v co.
Proof.
  intros E NP NH. apply main_cases in E. remember (Ok 0) as r eqn:R.
  destruct E as [n A H|n A H U|F M|h r F NM D AL N _|h0 h r F NM D AL P X|h0 h r F NM D AL _ X]; try discriminate R.
  - destruct (NH n A H).
  - destruct (N _ R).
  - contradiction.
  - apply analysed_run in X. destruct X as [l r S Z|e v a l co l2 r O S C S2 Z|e v a l co scs shown d O S C SC N MP OUT].
    + destruct (Z _ R); discriminate.
    + destruct (Z _ R); discriminate.
    + destruct O as [(p & I & EL) [V K]]. exists p, e, v, a, scs, shown, d, (summary (path_arg (g_kdir g)) scs), h0, ((h0 ++ l) ++ co),
        (told (silence g) (summary (path_arg (g_kdir g)) scs)).
      split; [now apply image_image|]. split; [exact EL|]. split; [exact V|]. split; [exact K|]. split; [exact SC|]. split; [exact N|].
      split. { apply mapM_Ok in MP. clear - MP. induction MP as [|s s' scs shown X MP IH]; constructor; [now apply show_path_shown|exact IH]. }
      split; [exact OUT|]. split; [apply summary_report|]. split; [apply told_says|]. split; [now rewrite <- !app_assoc|].
      exists (explicit_checkout g (path_arg (g_kdir g)) ++ co). split; [|now apply checked_steps].
      apply deeds_app.
      * rewrite <- (app_nil_r (explicit_checkout _ _)). apply deeds_app; [exact D|apply deeds_said, S].
      * destruct C as [[_ (tag & _ & ->)]|[_ ->]]; [apply deeds_one; intros [? Y]; discriminate Y|constructor].
Qed.
(** Nothing happens after the result is printed, and it is printed only then. *)
Lemma no_printed_sayings silent l d : sayings silent l -> ~ In (Printed d) l.
Proof. intros [F _] I. rewrite Forall_forall in F. destruct (F _ I) as [s X]. discriminate X. Qed.
Lemma no_printed_checkout g k d : ~ In (Printed d) (explicit_checkout g k).
Proof. unfold explicit_checkout. destruct (g_checkout g) as [s|]; [|intros []]. destruct (_ || _); [intros []|intros [X|[]]; discriminate X]. Qed.
Lemma no_printed_checking g k v co d : checking g k v co -> ~ In (Printed d) co.
Proof. intros [[_ (tag & _ & ->)]|[_ ->]]; [intros [X|[]]; discriminate X|intros []]. Qed.
Lemma said_not_printed d : ~ is_said (Printed d).
Proof. intros [s X]. discriminate X. Qed.
Lemma main_printed m g h r d : main m g [] = (h, r) -> In (Printed d) h ->
  r = Ok 0 /\ exists h1, h = h1 ++ [Printed d] /\ forall d', ~ In (Printed d') h1.
Proof.
  intros E I. pose proof (main_allowed m g h r E) as AL. rewrite Forall_forall in AL. pose proof (AL _ I) as NP. cbn [allowed] in NP.
  apply main_cases in E.
  destruct E as [n A H|n A H U|F M|h r F NM D _ N _|h0 h r F NM D _ P X|h0 h r F NM D _ _ X]; try (destruct I; fail); try contradiction.
  - apply (deeds_In _ _ _ D (said_not_printed d)) in I. destruct (no_printed_checkout _ _ _ I).
  - assert (forall d', ~ In (Printed d') h0) as H0.
    { intros d' J. apply (deeds_In _ _ _ D (said_not_printed d')) in J. exact (no_printed_checkout _ _ _ J). }
    apply analysed_run in X. destruct X as [l r S Z|e v a l co l2 r O S C S2 Z|e v a l co scs shown d0 O S C SC N MP OUT].
    + apply in_app_or in I as [I|I]; [destruct (H0 d I)|destruct (no_printed_sayings _ _ _ S I)].
    + repeat (apply in_app_or in I as [I|I]); [destruct (H0 d I)|destruct (no_printed_sayings _ _ _ S I)|destruct (no_printed_checking _ _ _ _ _ C I)|destruct (no_printed_sayings _ _ _ S2 I)].
    + assert (forall d', ~ In (Printed d') (((h0 ++ l) ++ co) ++ told (silence g) (summary (path_arg (g_kdir g)) scs))) as H1.
      { intros d' J. repeat (apply in_app_or in J as [J|J]); [destruct (H0 d' J)|destruct (no_printed_sayings _ _ _ S J)|destruct (no_printed_checking _ _ _ _ _ C J)|
          destruct (no_printed_sayings _ _ _ (told_sayings (silence g) _) J)]. }
      apply in_app_or in I as [I|[I|[]]]; [destruct (H1 d I)|]. injection I as ->. split; [reflexivity|]. eexists. split; [reflexivity|exact H1].
Qed.
Lemma main_empty m g h r : main m g [] = (h, r) -> ~ preparing g ->
  (forall h' a e v scs, mc_syscalls m h' a e v = Ok scs -> scs = []) -> (forall n, g_arch g = Some n -> ~ asks_help n) ->
  r <> Ok 0 /\ forall d, ~ In (Printed d) h.
Proof.
  intros E NP Z NH. assert (r <> Ok 0) as N.
  { intros ->. destruct (main_result m g h E NP NH) as (p & e & v & a & scs & shown & d & lines & h0 & h1 & h2 & _ & _ & _ & _ & SC & N & _).
    apply N. exact (Z _ _ _ _ _ SC). }
  split; [exact N|]. intros d I. apply N. exact (proj1 (main_printed m g h r d E I)).
Qed.

(** ** Exceptions *)

Lemma ends_Raise {A} (r : outcome A) x : ends r -> r <> Raise x.
Proof. intros [[a ->]|[c ->]]; discriminate. Qed.
Lemma instantiate_Raise {A} (r : outcome A) x : instantiate_kernel r = Raise x -> r = Raise x /\ ~ kernel_error x.
Proof.
  unfold instantiate_kernel, kernel_error. destruct r as [a|y|c|]; try discriminate.
  destruct y; try discriminate; intros [= <-]; split; try reflexivity; intros [X|[X|[X|X]]]; discriminate X.
Qed.
Lemma deeds_total l : exists d, deeds l d.
Proof.
  induction l as [|x l [d IH]]; [exists []; constructor|].
  destruct x; try (eexists; apply de_deed; [intros [? X]; discriminate X|exact IH]). exists d. now constructor.
Qed.
Lemma prepare_raises m g h : steady m -> arch_fine g ->
  post (prepare m g (silence g) (option_map lower (g_arch g)) (path_arg (g_kdir g))) h
    (fun h' r => forall x, r = Raise x -> escapes_preparing m g h' x).
Proof.
  intros ST F.
  assert (forall h h' x, instantiate_kernel (kernel_init (option_map lower (g_arch g)) None
            match path_arg (g_kdir g) with Some _ => true | None => false end
            (fst (get_version None (Some (mc_make_version m h)) vstate0))) = Raise x -> escapes_preparing m g h' x) as I.
  { intros h0 h' x E. apply instantiate_Raise in E as [E NK]. unfold kernel_init in E.
    destruct (path_arg (g_kdir g)) as [k|] eqn:K; cbn [negb andb bind] in E; [|injection E as <-; apply ep_lacking; right; now apply path_arg_None].
    destruct (g_arch g) as [n|] eqn:A; cbn [option_map] in E; [|injection E as <-; apply ep_lacking; now left].
    specialize (F n A). destruct F as (d & D & mm & M & S). pose proof (lower_names _ _ S) as L. rewrite (lower_plain mm (name_plain d mm D M)) in L.
    cbn in E. destruct (mc_make_version m h0) as [[v|]|y| |] eqn:MV; cbn [fst bind] in E; try discriminate E.
    - rewrite L in E. destruct (since_or_before (d_since d) v) as [V|V].
      + destruct (arch_name_supported d mm v D M V) as (b & B & _). rewrite B in E. discriminate E.
      + rewrite (arch_name_too_old d mm v D M V) in E. cbn [bind] in E. injection E as <-.
        apply (ep_too_old m g h' n d v h0); try assumption. split; [exact D|]. eauto.
    - injection E as <-. destruct NK. now left.
    - destruct (ends_Raise _ y (st_make m ST h0) MV). }
  assert (forall h0 h' k a x, (let '(r, s) := get_version None (Some (mc_make_version m h0)) vstate0 in
          v <- r ;; Ok (version_str v (match vs_source s with Some y => y | None => $"None" end))) = Raise x ->
          In (Cleaned k a) h' -> escapes_preparing m g h' x) as V.
  { intros h0 h' k a x E IC. destruct (deeds_total h') as [l DD].
    apply (deeds_In _ _ (Cleaned k a) DD) in IC; [|intros [? X]; discriminate X]. cbn in E. destruct (mc_make_version m h0) as [[v|]|y| |] eqn:MV; try discriminate E; cbn [bind] in E.
    - injection E as <-. exact (ep_version m g h' h0 k a l DD IC MV).
    - destruct (ends_Raise _ y (st_make m ST h0) MV). }
  unfold prepare. exec; intros x R; try discriminate R; injection R as <-.
  all: repeat match goal with E : _ = Raise ?x |- _ => first
    [ destruct (ends_Raise _ x (st_gcc m ST _ _) E) | destruct (ends_Raise _ x (st_clean m ST _ _) E)
    | destruct (ends_Raise _ x (st_configure m ST _ _) E) | destruct (ends_Raise _ x (st_build m ST _ _ _) E)
    | exact (I _ _ x E) | eapply (V _ _ _ _ x E); apply in_or_app; right; left; reflexivity ] end.
Qed.
Lemma kdir_flag g : match path_arg (g_kdir g) with Some _ => true | None => false end = match g_kdir g with Some (_ :: _) => true | _ => false end.
Proof. unfold path_arg. destruct (g_kdir g) as [[|c s]|]; reflexivity. Qed.
Lemma version_tag_raises v x : version_tag v = Raise x -> x = ValueError /\ List.length v <> 3%nat.
Proof. destruct v as [|a [|b [|c [|d v]]]]; cbn; try (intros [= <-]; split; [reflexivity|discriminate]). discriminate. Qed.
Lemma output_raises sv v source a shown fmt x : output_syscalls sv (version_tag v) source a shown fmt = Raise x -> shown <> [] ->
  x = ValueError /\ ((List.length v <> 3%nat /\ (fmt = $"json" \/ fmt = $"html")) \/
                     (fmt = $"html" /\ forall s, In s shown -> sc_signature s = None)).
Proof.
  unfold output_syscalls. intros E N. destruct (str_eqb fmt $"text").
  { unfold output_syscalls_text in E. destruct shown; [now destruct N|discriminate E]. }
  destruct (str_eqb fmt $"json") eqn:J.
  { apply str_eqb_eq in J. unfold json_document in E. destruct (version_tag v) as [t|y| |] eqn:T; cbn [bind] in E; try discriminate E.
    injection E as <-. apply version_tag_raises in T as [-> L]. auto. }
  destruct (str_eqb fmt $"html") eqn:H; [|discriminate E]. apply str_eqb_eq in H. unfold output_syscalls_html in E.
  destruct (max_args_cases shown) as [[mm M]|M]; rewrite M in E; cbn [bind] in E.
  - destruct (version_tag v) as [t|y| |] eqn:T; cbn [bind] in E; try discriminate E. injection E as <-. apply version_tag_raises in T as [-> L]. auto.
  - injection E as <-. split; [reflexivity|]. right. split; [exact H|]. now apply max_args_fails.
Qed.
Lemma analyse_raises m g h : steady m -> ~ misuse g ->
  post (analyse m g (silence g) (option_map lower (g_arch g)) (path_arg (g_kdir g))) h
    (fun h' r => forall x, r = Raise x -> escapes_analysing m g x).
Proof.
  intros ST NM. unfold analyse. fold (auto g).
  destruct (auto g && negb (given (g_vmlinux g))) eqn:G; [apply post_ret; intros x R; discriminate R|].
  apply post_bind, post_ret.
  destruct (match path_arg (g_vmlinux g) with
       | Some v => Ok v
       | None => match path_arg (g_kdir g) with Some k => Ok (path_join k {| root := []; parts := [$"vmlinux"] |}) | None => Raise TypeError end
       end) as [vm|y| |] eqn:V; cbn [after]; try (intros x R; discriminate R).
  2:{ exfalso. apply NM. destruct (path_arg (g_vmlinux g)) eqn:VV; [discriminate V|]. destruct (path_arg (g_kdir g)) eqn:K; [discriminate V|].
      apply mu_nothing; now apply path_arg_None. }
  assert (image_of g vm) as IM.
  { apply image_image. unfold image. destruct (path_arg (g_vmlinux g)); [congruence|]. destruct (path_arg (g_kdir g)); congruence. }
  apply post_bind, post_ask. cbn [after]. destruct (negb (mc_is_file m h vm)); [apply post_ret; intros x R; discriminate R|].
  apply post_bind, post_ask. cbn [after]. destruct (negb (mc_available m h $"readelf")); [apply post_ret; intros x R; discriminate R|].
  apply post_bind, post_try. destruct (instantiate_kernel (mc_elf m h vm)) as [e|y| |] eqn:E; cbn [after]; try (intros x R; discriminate R).
  2:{ apply instantiate_Raise in E as [E _]. destruct (ends_Raise _ y (st_elf m ST _ _) E). }
  apply instantiate_Ok in E. destruct (get_version _ None vstate0) as [rv s] eqn:GV. cbv zeta.
  assert (rv = match version_from_vmlinux e with Ok (Some v) => Ok v | Ok None => Raise KernelVersionError
                                       | Raise y => Raise y | Exit c => Exit c | Diverge => Diverge end) as RV.
  { cbn in GV. destruct (version_from_vmlinux e) as [[v|]| | |]; cbn in GV; congruence. }
  apply post_bind, post_ret. destruct (instantiate_kernel (kernel_init _ _ _ rv)) as [a|y| |] eqn:I; cbn [after]; try (intros x R; discriminate R).
  2:{ intros x [= <-]. apply instantiate_Raise in I as [I NK]. rewrite kdir_flag, RV in I. exact (ea_open m g h vm e y _ IM E eq_refl I NK). }
  apply instantiate_Ok in I. apply post_bind, post_ret. destruct rv as [v|y| |] eqn:RVE; cbn [after]; try (intros x R; discriminate R).
  2:{ exfalso. unfold kernel_init in I.
      destruct (negb _ && false); [discriminate I|]. cbn [bind] in I.
      destruct (e_symbols e); [destruct (option_map lower (g_arch g)); discriminate I|]. cbn [bind] in I.
      destruct (option_map lower (g_arch g)); [discriminate I|]. destruct (arch_from_vmlinux e) as [[[[k b] abis]|]| | |]; cbn [bind] in I; try discriminate I.
      destruct (1 <? len abis); discriminate I. }
  apply get_version_image in GV as [GV ->].
  apply post_bind, post_eprint'. intros l S. cbn [after].
  assert (forall h0, post (scs <-- try_ (fun h => mc_syscalls m h a e v) ;;
          match scs with
          | [] => ret (Ok 1)
          | _ => shown <-- ret (mapM (show_path (path_arg (g_kdir g)) (g_absolute g)) scs) ;;
                 _ <-- eprints (silence g) (summary (path_arg (g_kdir g)) scs) ;;
                 d <-- ret (output_syscalls (mc_version m) (version_tag v) $"vmlinux" (adjust_abi a e) shown (g_format g)) ;;
                 _ <-- act (Printed d) (fun _ => Ok tt) ;;
                 ret (Ok 0)
          end) h0 (fun h' r => forall x, r = Raise x -> escapes_analysing m g x)) as T.
  { intros h0. apply post_bind, post_try. destruct (mc_syscalls m h0 a e v) as [scs|y| |] eqn:SC; cbn [after]; try (intros x R; discriminate R).
    2: destruct (ends_Raise _ y (st_syscalls m ST _ _ _ _) SC).
    assert (scs = [] \/ scs <> []) as [->|N] by (destruct scs; [now left|right; discriminate]); [apply post_ret; intros x R; discriminate R|].
    replace (match scs with [] => ret (Ok 1) | _ => _ end) with
      (shown <-- ret (mapM (show_path (path_arg (g_kdir g)) (g_absolute g)) scs) ;;
       _ <-- eprints (silence g) (summary (path_arg (g_kdir g)) scs) ;;
       d <-- ret (output_syscalls (mc_version m) (version_tag v) $"vmlinux" (adjust_abi a e) shown (g_format g)) ;;
       _ <-- act (Printed d) (fun _ => Ok tt) ;;
       ret (Ok 0)) by (destruct scs; [now destruct N|reflexivity]).
    apply post_bind, post_ret. destruct (show_paths_total (path_arg (g_kdir g)) (g_absolute g) scs) as [shown MP]. rewrite MP. cbn [after].
    apply post_bind, post_eprints. cbn [after]. apply post_bind, post_ret.
    destruct (output_syscalls _ _ _ _ _ _) as [d|y| |] eqn:OUT; cbn [after]; try (intros x R; discriminate R).
    intros x [= <-]. apply mapM_Ok in MP. apply output_raises in OUT as [-> [[L FM]|[FM Z]]].
    - exact (ea_tag m g h vm e v IM E GV L (or_intror FM)).
    - apply (ea_html m g h0 a e v scs FM SC). intros s1 I1. clear - MP Z I1. induction MP as [|s s' scs shown X MP IH]; [destruct I1|].
        destruct I1 as [<-|I1]; [|apply IH; [intros s2 I2; apply Z; now right|exact I1]].
        rewrite <- (Z s' (or_introl eq_refl)). apply show_path_shown in X. symmetry. apply (sh_rest _ _ _ X).
    - intros ->. inversion MP; subst. now destruct N. }
  apply post_bind. destruct (auto g) eqn:AU; [|apply post_ret; cbn [after]; apply T].
  apply post_bind, post_ret. change (assert_ (str_eqb $"vmlinux" $"vmlinux")) with (Ok tt). cbn [after].
  apply post_bind, post_ret. destruct (version_tag v) as [tag|y| |] eqn:TG; cbn [after]; try (intros x R; discriminate R).
  2:{ intros x [= <-]. apply version_tag_raises in TG as [-> L]. apply (ea_tag m g h vm e v IM E GV L). left. now apply auto_checkout. }
  apply post_bind, post_eprint'. intros l' S'. cbn [after]. apply post_act.
  destruct (mc_checkout m _ _) as [u|y| |] eqn:CO; cbn [after]; try (intros x R; discriminate R); [apply T|].
  destruct (ends_Raise _ y (st_checkout m ST _ _) CO).
Qed.
Lemma main_raises m g h x : steady m -> main m g [] = (h, Raise x) ->
  (preparing g /\ escapes_preparing m g h x) \/ (~ preparing g /\ escapes_analysing m g x).
Proof.
  intros ST E. apply main_cases in E. remember (Raise x) as r eqn:R.
  destruct E as [n A H|n A H U|F M|h r F NM D AL N C|h0 h r F NM D AL P X|h0 h r F NM D AL P X]; try discriminate R.
  - destruct (C x R) as (h' & ref & C'). destruct (ends_Raise _ x (st_checkout m ST h' ref) C').
  - left. split; [exact P|]. exact (post_run _ _ _ _ _ X (prepare_raises m g h0 ST F) x R).
  - right. split; [exact P|]. exact (post_run _ _ _ _ _ X (analyse_raises m g h0 ST NM) x R).
Qed.

Lemma main_case m g n n' h : Forall2 same_letter n n' ->
  main m (Args (g_vmlinux g) (g_kdir g) (Some n) (g_build g) (g_config g) (g_clean g) (g_cross g) (g_out g) (g_format g) (g_absolute g)
    (g_remap g) (g_checkout g) (g_disable_opt g) (g_quiet g) (g_verbose g)) h =
  main m (Args (g_vmlinux g) (g_kdir g) (Some n') (g_build g) (g_config g) (g_clean g) (g_cross g) (g_out g) (g_format g) (g_absolute g)
    (g_remap g) (g_checkout g) (g_disable_opt g) (g_quiet g) (g_verbose g)) h.
Proof.
  intros S. apply lower_names in S. unfold main. cbn [g_arch g_kdir g_vmlinux g_checkout g_config g_build g_clean g_quiet g_verbose option_map].
  rewrite S. reflexivity.
Qed.
Lemma main_silent m g h r : 0 < g_quiet g -> g_verbose g <= 0 -> main m g [] = (h, r) -> forall l, ~ In (Said l) h.
Proof.
  intros Q V E l I. apply main_allowed in E. rewrite Forall_forall in E. apply (E _ I). auto.
Qed.

(** ** Checking out *)

Lemma explicit_cases g : ~ misuse g -> explicit_checkout g (path_arg (g_kdir g)) = [] \/
  exists k ref, explicit_checkout g (path_arg (g_kdir g)) = [CheckedOut (Some k) ref] /\ kdir_of g k /\ g_checkout g = Some ref /\ ref <> [] /\ ref <> $"auto".
Proof.
  intros NM. unfold explicit_checkout. destruct (g_checkout g) as [[|c s]|] eqn:C; auto. destruct (_ || _) eqn:O; auto. right.
  assert (present (g_checkout g)) as P by (exists (c :: s); split; [exact C|discriminate]).
  destruct (checkout_kdir g NM P) as (k & K & ->). exists k, (c :: s). repeat split; auto; [discriminate|]. intros X. rewrite X in O. discriminate O.
Qed.
Lemma plan_no_checkout g k a c ref : ~ In (CheckedOut c ref) (plan g k a).
Proof.
  unfold plan. intros I. apply in_app_or in I as [I|I]; [destruct (path_arg (g_out g)); [|destruct I]; destruct I as [I|[]]; discriminate I|].
  destruct (g_build g), (g_config g); repeat (destruct I as [I|I]; [discriminate I|]); destruct I.
Qed.
Lemma prefix_no_checkout d0 d p : prefix_of d (d0 ++ p) -> (forall c ref, ~ In (CheckedOut c ref) p) ->
  (exists d1 d2, d0 = d1 ++ d2 /\ d = d1) \/ (exists rest, d = d0 ++ rest /\ forall c ref, ~ In (CheckedOut c ref) rest).
Proof.
  intros [q Q] N. revert d Q. induction d0 as [|x d0 IH]; intros d Q.
  - right. exists d. split; [reflexivity|]. intros c ref I. apply (N c ref). cbn [app] in Q. rewrite Q. apply in_or_app. now left.
  - destruct d as [|y d]; [left; now exists [], (x :: d0)|]. cbn [app] in Q. injection Q as -> Q.
    destruct (IH d Q) as [(d1 & d2 & -> & ->)|(rest & -> & R)]; [left; now exists (y :: d1), d2|right; now exists rest].
Qed.
Lemma main_checkout_once m g h r : main m g [] = (h, r) -> exists co rest,
  deeds h (co ++ rest) /\ (forall k ref, ~ In (CheckedOut k ref) rest) /\ (co = [] \/ exists k ref, co = [CheckedOut (Some k) ref] /\ kdir_of g k).
Proof.
  intros E. apply main_cases in E.
  assert (deeds [] ([] ++ []) /\ (forall k ref, ~ In (CheckedOut k ref) []) /\ (@nil action = [] \/ exists k ref, [] = [CheckedOut (Some k) ref] /\ kdir_of g k)) as T
    by (split; [constructor|split; [intros k ref []|now left]]).
  destruct E as [n A H|n A H U|F M|h r F NM D AL N _|h0 h r F NM D AL P X|h0 h r F NM D AL P X]; try (exists [], []; exact T).
  - exists (explicit_checkout g (path_arg (g_kdir g))), []. rewrite app_nil_r. split; [exact D|]. split; [intros k ref []|].
    destruct (explicit_cases g NM) as [->|(k & ref & -> & K & _)]; [now left|right; eauto].
  - assert (forall d p, deeds h d -> prefix_of d (explicit_checkout g (path_arg (g_kdir g)) ++ p) -> (forall c ref, ~ In (CheckedOut c ref) p) ->
      exists co rest, deeds h (co ++ rest) /\ (forall k ref, ~ In (CheckedOut k ref) rest) /\ (co = [] \/ exists k ref, co = [CheckedOut (Some k) ref] /\ kdir_of g k)) as G.
    { intros d p DD PP NN. destruct (prefix_no_checkout _ _ _ PP NN) as [(d1 & d2 & Q & ->)|(rest & -> & R)].
      - exists d1, []. rewrite app_nil_r. split; [exact DD|]. split; [intros k ref []|].
        destruct (explicit_cases g NM) as [Z|(k & ref & Z & K & _)]; rewrite Z in Q.
        + left. destruct d1; [reflexivity|discriminate Q].
        + destruct d1 as [|y d1]; [now left|]. injection Q as <- Q. destruct d1; [|discriminate Q]. right. eauto.
      - exists (explicit_checkout g (path_arg (g_kdir g))), rest. split; [exact DD|]. split; [exact R|].
        destruct (explicit_cases g NM) as [->|(k & ref & -> & K & _)]; [now left|right; eauto]. }
    destruct (path_arg (g_kdir g)) as [k|] eqn:PK.
    + pose proof (post_run _ _ _ _ _ X (prepare_follows m g k (option_map lower (g_arch g)) _ h0 D)) as (a & d & DD & PP & _).
      apply (G d _ DD PP). intros c ref. apply plan_no_checkout.
    + pose proof (post_run _ _ _ _ _ X (prepare_nowhere m g (option_map lower (g_arch g)) _ h0 D)) as [(d & DD & PP) _].
      apply (G d _ DD PP). intros c ref I. destruct (path_arg (g_out g)); [|destruct I]. destruct I as [I|[]]. discriminate I.
  - apply analysed_run in X.
    assert (forall v co, checking g (path_arg (g_kdir g)) v co ->
      (co = [] /\ (explicit_checkout g (path_arg (g_kdir g)) = [] \/ exists k ref, explicit_checkout g (path_arg (g_kdir g)) = [CheckedOut (Some k) ref] /\ kdir_of g k)) \/
      (explicit_checkout g (path_arg (g_kdir g)) = [] /\ exists k ref, co = [CheckedOut (Some k) ref] /\ kdir_of g k)) as CC.
    { intros v co [[A (tag & T1 & ->)]|[_ ->]].
      - right. split; [now apply not_auto_explicit|]. apply auto_checkout in A.
        assert (present (g_checkout g)) as PC by (exists $"auto"; split; [exact A|discriminate]).
        destruct (checkout_kdir g NM PC) as (k & K & ->). eauto.
      - left. split; [reflexivity|]. destruct (explicit_cases g NM) as [->|(k & ref & -> & K & _)]; [now left|right; eauto]. }
    assert (forall l, sayings (silence g) l -> deeds l []) as DS by (intros l [S _]; now apply deeds_said).
    assert (forall v co, checking g (path_arg (g_kdir g)) v co -> deeds co co) as DC.
    { intros v co [[A (tag & T1 & ->)]|[_ ->]]; [apply deeds_one; intros [? Y]; discriminate Y|constructor]. }
    destruct X as [l r S _|e v a l co l2 r O S C S2 _|e v a l co scs shown d O S C SC N MP OUT].
    + exists (explicit_checkout g (path_arg (g_kdir g))), []. split; [apply deeds_app; [exact D|now apply DS]|]. split; [intros k ref []|].
      destruct (explicit_cases g NM) as [->|(k & ref & -> & K & _)]; [now left|right; eauto].
    + exists (explicit_checkout g (path_arg (g_kdir g)) ++ co), []. split.
      { apply deeds_app; [|now apply DS]. rewrite <- (app_nil_r (explicit_checkout _ _)). apply deeds_app; [|now apply (DC v)]. apply deeds_app; [exact D|now apply DS]. }
      split; [intros k ref []|]. destruct (CC v co C) as [[-> B]|[-> B]]; [rewrite app_nil_r; exact B|right; exact B].
    + exists (explicit_checkout g (path_arg (g_kdir g)) ++ co), [Printed d]. split.
      { apply deeds_app; [|apply deeds_one, said_not_printed]. rewrite <- (app_nil_r (explicit_checkout _ _ ++ co)).
        apply deeds_app; [|apply DS, told_sayings].
        rewrite <- (app_nil_r (explicit_checkout _ _)). apply deeds_app; [|now apply (DC v)]. apply deeds_app; [exact D|now apply DS]. }
      split; [intros k ref [Y|[]]; discriminate Y|]. destruct (CC v co C) as [[-> B]|[-> B]]; [rewrite app_nil_r; exact B|right; exact B].
Qed.
Lemma main_checkout_ref m g h r k ref : main m g [] = (h, r) -> In (CheckedOut k ref) h ->
  (g_checkout g = Some ref /\ ref <> [] /\ ref <> $"auto") \/
  (g_checkout g = Some $"auto" /\ ~ preparing g /\
   exists p e h0 v, image_of g p /\ mc_elf m h0 p = Ok e /\ version_from_vmlinux e = Ok (Some v) /\ version_tag v = Ok ref).
Proof.
  intros E I. apply main_cases in E.
  assert (~ is_said (CheckedOut k ref)) as NS by (intros [? Y]; discriminate Y).
  assert (~ misuse g -> In (CheckedOut k ref) (explicit_checkout g (path_arg (g_kdir g))) -> g_checkout g = Some ref /\ ref <> [] /\ ref <> $"auto") as EX.
  { intros NM J. destruct (explicit_cases g NM) as [Z|(k' & ref' & Z & _ & G)]; rewrite Z in J; [destruct J|]. destruct J as [J|[]]. injection J as <- <-. exact G. }
  destruct E as [n A H|n A H U|F M|h r F NM D AL N _|h0 h r F NM D AL P X|h0 h r F NM D AL P X]; try (destruct I; fail).
  - left. apply (deeds_In _ _ _ D NS) in I. auto.
  - left. apply EX; [exact NM|].
    assert (forall d p, deeds h d -> prefix_of d (explicit_checkout g (path_arg (g_kdir g)) ++ p) -> (forall c ref, ~ In (CheckedOut c ref) p) ->
      In (CheckedOut k ref) (explicit_checkout g (path_arg (g_kdir g)))) as G.
    { intros d p DD [q Q] NN. apply (deeds_In _ _ _ DD NS) in I.
      assert (In (CheckedOut k ref) (explicit_checkout g (path_arg (g_kdir g)) ++ p)) as J by (rewrite Q; apply in_or_app; now left).
      apply in_app_or in J as [J|J]; [exact J|destruct (NN _ _ J)]. }
    destruct (path_arg (g_kdir g)) as [kk|] eqn:PK.
    + pose proof (post_run _ _ _ _ _ X (prepare_follows m g kk (option_map lower (g_arch g)) _ h0 D)) as (a & d & DD & PP & _).
      apply (G d _ DD PP). intros c rf. apply plan_no_checkout.
    + pose proof (post_run _ _ _ _ _ X (prepare_nowhere m g (option_map lower (g_arch g)) _ h0 D)) as [(d & DD & PP) _].
      apply (G d _ DD PP). intros c rf J. destruct (path_arg (g_out g)); [|destruct J]. destruct J as [J|[]]. discriminate J.
  - apply analysed_run in X.
    assert (forall l, sayings (silence g) l -> ~ In (CheckedOut k ref) l) as SS.
    { intros l [S _] J. rewrite Forall_forall in S. exact (NS (S _ J)). }
    assert (In (CheckedOut k ref) h0 -> g_checkout g = Some ref /\ ref <> [] /\ ref <> $"auto") as E0.
    { intros J. apply (deeds_In _ _ _ D NS) in J. auto. }
    assert (forall e v a co, opened m g (option_map lower (g_arch g)) (path_arg (g_kdir g)) h0 e v a -> checking g (path_arg (g_kdir g)) v co -> In (CheckedOut k ref) co ->
       g_checkout g = Some $"auto" /\ ~ preparing g /\
       exists p e h0 v, image_of g p /\ mc_elf m h0 p = Ok e /\ version_from_vmlinux e = Ok (Some v) /\ version_tag v = Ok ref) as CO.
    { intros e v a co O [[A (tag & T & ->)]|[_ ->]] J; [|destruct J]. destruct J as [J|[]]. injection J as _ ->.
      destruct O as [(p & IM & EL) [V _]]. split; [now apply auto_checkout|]. split; [exact P|]. exists p, e, h0, v. split; [now apply image_image|auto]. }
    destruct X as [l r S _|e v a l co l2 r O S C S2 _|e v a l co scs shown d O S C SC N MP OUT].
    + apply in_app_or in I as [I|I]; [auto|destruct (SS l S I)].
    + repeat (apply in_app_or in I as [I|I]); [auto|destruct (SS l S I)|right; exact (CO e v a co O C I)|destruct (SS l2 S2 I)].
    + repeat (apply in_app_or in I as [I|I]); [auto|destruct (SS l S I)|right; exact (CO e v a co O C I)|
        destruct (SS _ (told_sayings (silence g) _) I)|destruct I as [I|[]]; discriminate I].
Qed.
Lemma logged_nothing q level : 4 <= q -> 0 <= level <= 50 -> logged (setup_logging q 0) level = false.
Proof.
  intros Q L. destruct (logged (setup_logging q 0) level) eqn:E; [|reflexivity].
  apply logged_iff in E; try lia.
Qed.
