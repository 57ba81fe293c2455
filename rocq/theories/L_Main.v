(** Lemmas about the command line. *)
From Coq Require Import List Bool Ascii String ZArith Lia ZifyBool.
From Verif Require Import PyBase PyFacts M_Utils M_Elf M_Syscall M_Arch M_Kernel M_Output M_Main S_Utils S_Output S_Arch S_Main
  L_Utils L_Arch L_Output.
Import ListNotations.
Open Scope Z_scope.
Open Scope list_scope.

(** ** Running *)

(** What holds after a computation *)
Definition post {A} (x : mio A) (h : list action) (Q : list action -> outcome A -> Prop) : Prop := Q (fst (x h)) (snd (x h)).
Lemma post_run {A} (x : mio A) h h' r Q : x h = (h', r) -> post x h Q -> Q h' r.
Proof. unfold post. now intros ->. Qed.
Definition after {A B} (f : A -> mio B) (Q : list action -> outcome B -> Prop) (h : list action) (r : outcome A) : Prop :=
  match r with
  | Ok a => post (f a) h Q
  | Raise e => Q h (Raise e)
  | Exit c => Q h (Exit c)
  | Diverge => Q h Diverge
  end.
Lemma post_bind {A B} (x : mio A) (f : A -> mio B) h Q : post x h (after f Q) -> post (mbind x f) h Q.
Proof. unfold post, mbind. destruct (x h) as [h' [a| | |]]; exact (fun H => H). Qed.
Lemma post_bind_inv {A B} (x : mio A) (f : A -> mio B) h Q : post (mbind x f) h Q -> post x h (after f Q).
Proof. unfold post, mbind. destruct (x h) as [h' [a| | |]]; exact (fun H => H). Qed.
Lemma post_ret {A} (r : outcome A) h (Q : list action -> outcome A -> Prop) : Q h r -> post (ret r) h Q.
Proof. exact (fun H => H). Qed.
Lemma post_ask {A} (f : list action -> A) h (Q : list action -> outcome A -> Prop) : Q h (Ok (f h)) -> post (ask f) h Q.
Proof. exact (fun H => H). Qed.
Lemma post_try {A} (f : list action -> outcome A) h (Q : list action -> outcome A -> Prop) : Q h (f h) -> post (try_ f) h Q.
Proof. exact (fun H => H). Qed.
Lemma post_act {A} a (f : list action -> outcome A) h (Q : list action -> outcome A -> Prop) : Q (h ++ [a]) (f h) -> post (act a f) h Q.
Proof. exact (fun H => H). Qed.
Lemma post_eprint silent l h (Q : list action -> outcome unit -> Prop) :
  (silent = true -> Q h (Ok tt)) -> (silent = false -> Q (h ++ [Said l]) (Ok tt)) -> post (eprint silent l) h Q.
Proof. destruct silent; intros S N; [exact (S eq_refl)|exact (N eq_refl)]. Qed.
Lemma post_imp {A} (x : mio A) h (Q Q' : list action -> outcome A -> Prop) :
  post x h Q -> (forall h' r, Q h' r -> Q' h' r) -> post x h Q'.
Proof. unfold post. auto. Qed.

(** ** Logging *)

Lemma logged_iff q v level : 0 <= q -> 0 <= v -> 0 <= level ->
  (logged (setup_logging q v) level = true <->
   (v = 0 /\ 30 + 10 * Z.max (q - 1) 0 <= level) \/ (0 < v /\ 30 - 10 * v <= level)).
Proof.
  intros Q V L. unfold logged, setup_logging. cbn [lc_level].
  destruct (Z.ltb_spec 0 v); [destruct (Z.leb_spec 1 0)|destruct (Z.leb_spec 1 q)]; rewrite Z.leb_le; lia.
Qed.
Lemma silent_iff q v : lc_silent (setup_logging q v) = true <-> 0 < q /\ v <= 0.
Proof.
  unfold setup_logging. cbn [lc_silent]. destruct (Z.ltb_spec 0 v); rewrite Z.leb_le; lia.
Qed.
Lemma high_iff q v : lc_high (setup_logging q v) = true <-> 3 <= v.
Proof. unfold setup_logging. cbn [lc_high]. rewrite andb_true_iff, Z.ltb_lt, Z.leb_le. lia. Qed.

(** ** Arguments *)

Lemma given_iff x : given x = true <-> present x.
Proof.
  unfold given, present. destruct x as [[|c s]|]; split; try discriminate; try reflexivity.
  - intros (s & [= <-] & N). now destruct N.
  - intros _. exists (c :: s). split; [reflexivity|discriminate].
  - intros (s & E & _). discriminate E.
Qed.
Lemma given_false x : given x = false <-> ~ present x.
Proof. rewrite <- given_iff. destruct (given x); split; congruence. Qed.
Lemma path_arg_Some x p : path_arg x = Some p <-> exists s, x = Some s /\ s <> [] /\ p = path_of_str s.
Proof.
  unfold path_arg. destruct x as [[|c s]|]; split; try discriminate.
  - intros (s & [= <-] & N & _). now destruct N.
  - intros [= <-]. exists (c :: s). repeat split. discriminate.
  - intros (s' & [= <-] & _ & ->). reflexivity.
  - intros (s & E & _). discriminate E.
Qed.
Lemma path_arg_None x : path_arg x = None <-> ~ present x.
Proof. rewrite <- given_false. unfold path_arg, given. destruct x as [[|c s]|]; split; congruence. Qed.

Lemma upper_plain c : 97 <= code c <= 122 -> is_upper c = false.
Proof. intros H. unfold is_upper, is_upper_ascii, in_range. lia. Qed.
Lemma lower_same_letter c d : same_letter c d -> lower_char c = lower_char d.
Proof.
  assert (forall c d, 65 <= code c <= 90 -> code d = code c + 32 -> lower_char c = lower_char d) as L.
  { intros c0 d0 R E. unfold lower_char. rewrite (upper_plain d0) by lia.
    assert (is_upper c0 = true) as -> by (unfold is_upper, is_upper_ascii, in_range; lia). rewrite <- E. apply chr_code. }
  intros [->|[[R E]|[R E]]]; [reflexivity|now apply L|symmetry; now apply L].
Qed.
Lemma lower_names n n' : Forall2 same_letter n n' -> lower n = lower n'.
Proof. induction 1 as [|c d n n' S _ IH]; [reflexivity|]. cbn [lower map]. f_equal; [now apply lower_same_letter|exact IH]. Qed.
(** Characters that are left alone, and that no other character but their capital becomes *)
Definition plain (c : ascii) : bool := (code c <? 128) && negb (is_upper c).
Lemma lower_plain n : forallb plain n = true -> lower n = n.
Proof.
  induction n as [|c n IH]; [reflexivity|]. cbn [forallb lower map]. intros H. apply andb_true_iff in H as [P H].
  unfold plain in P. apply andb_true_iff in P as [_ P]. f_equal; [|exact (IH H)]. unfold lower_char. now destruct (is_upper c).
Qed.
Lemma lower_to_plain n m : lower n = m -> forallb plain m = true -> Forall2 same_letter n m.
Proof.
  intros <-. induction n as [|c n IH]; [constructor|]. cbn [forallb lower map]. intros H. apply andb_true_iff in H as [P H].
  constructor; [|exact (IH H)]. unfold plain in P. apply andb_true_iff in P as [P _]. unfold lower_char in *.
  destruct (is_upper c) eqn:U; [|now left]. right. left. unfold is_upper, is_upper_ascii, in_range in U.
  rewrite code_chr in P |- *; lia.
Qed.

Lemma names_plain : forallb (fun d => forallb (forallb plain) (d_names d)) documented = true.
Proof. vm_compute. reflexivity. Qed.
Lemma name_plain d n : In d documented -> In n (d_names d) -> forallb plain n = true.
Proof.
  intros D N. pose proof names_plain as P. rewrite forallb_forall in P. specialize (P d D). rewrite forallb_forall in P. exact (P n N).
Qed.
Lemma known_lower n : known_arch n <-> dmem str_eqb (lower n) SUPPORTED_ARCHS = true.
Proof.
  split.
  - intros (d & D & m & M & S). apply lower_names in S. rewrite S, (lower_plain m (name_plain d m D M)).
    unfold dmem. now rewrite (doc_name_entry d m D M).
  - intros H. assert (In (lower n) (dkeys SUPPORTED_ARCHS)) as I by now apply dmem_str.
    pose proof supported_names_documented as Hs. rewrite forallb_forall in Hs. specialize (Hs _ I).
    apply existsb_exists in Hs as (d & D & N). apply existsb_str in N. exists d. split; [exact D|]. exists (lower n). split; [exact N|].
    apply lower_to_plain; [reflexivity|exact (name_plain d _ D N)].
Qed.
Lemma help_lower n : asks_help n <-> (str_eqb (lower n) $"help" || str_eqb (lower n) $"?") = true.
Proof.
  rewrite orb_true_iff, !str_eqb_eq. unfold asks_help. split.
  - intros [H| ->]; [left|right; reflexivity]. apply lower_names in H. exact H.
  - intros [H|H]; [left; now apply lower_to_plain|right].
    apply lower_to_plain in H; [|reflexivity]. inversion H as [|c d l l' S T]; subst. inversion T; subst. f_equal.
    destruct S as [->|[[R E]|[R E]]]; [reflexivity| |]; change (code "?"%char) with 63 in *; lia.
Qed.

(** ** The object *)

Lemma init_without_image an kdir gv a : kernel_init an None kdir gv = Ok a ->
  kdir = true /\ exists n v, an = Some n /\ gv = Ok v /\ arch_from_name n v = Ok a.
Proof.
  unfold kernel_init. destruct kdir; [|discriminate]. destruct an as [n|]; [|discriminate]. cbn [negb andb bind].
  destruct gv as [v| | |]; try discriminate. cbn [bind]. destruct (arch_from_name n v) as [b| | |] eqn:E; try discriminate. cbn [bind].
  intros [= <-]. split; [reflexivity|]. eauto.
Qed.
Lemma get_version_make r v : fst (get_version None (Some r) vstate0) = Ok v -> r = Ok (Some v).
Proof. cbn. destruct r as [[w|]| | |]; cbn; congruence. Qed.
Lemma instantiate_Ok {A} (x : outcome A) a : instantiate_kernel x = Ok a -> x = Ok a.
Proof. unfold instantiate_kernel. destruct x as [b|[]|c|]; congruence. Qed.
Lemma made_for_init m g kdir h a :
  kernel_init (option_map lower (g_arch g)) None kdir (fst (get_version None (Some (mc_make_version m h)) vstate0)) = Ok a ->
  kdir = true /\ made_for m g a.
Proof.
  intros I. apply init_without_image in I as (-> & n & v & N & G & A). split; [reflexivity|]. apply get_version_make in G.
  destruct (g_arch g) as [n0|] eqn:E0; [|discriminate]. cbn [option_map] in N. injection N as <-.
  assert (dmem str_eqb (lower n0) SUPPORTED_ARCHS = true) as K.
  { unfold arch_from_name in A. unfold dmem. destruct (dget str_eqb (lower n0) SUPPORTED_ARCHS); [reflexivity|discriminate]. }
  apply known_lower in K as (d & D & mm & M & S). pose proof (lower_names _ _ S) as L. rewrite (lower_plain mm (name_plain d mm D M)) in L.
  rewrite L in A.
  assert (since (d_since d) v) as V.
  { destruct (since_or_before (d_since d) v) as [V|V]; [exact V|]. rewrite (arch_name_too_old d mm v D M V) in A. discriminate. }
  destruct (arch_name_supported d mm v D M V) as (b & B & C1 & C2 & C3 & C4 & _). rewrite A in B. injection B as <-.
  split; [exists n0, d; rewrite C2; split; [exact E0|]; repeat split; eauto|]. exists h. now rewrite C2.
Qed.

(** ** Deeds *)

(** Messages *)
Definition sayings (silent : bool) (l : list action) : Prop := Forall is_said l /\ (silent = true -> l = []).
Lemma post_eprint' silent s h (Q : list action -> outcome unit -> Prop) :
  (forall l, sayings silent l -> Q (h ++ l) (Ok tt)) -> post (eprint silent s) h Q.
Proof.
  intros H. apply post_eprint; intros S.
  - specialize (H []). rewrite app_nil_r in H. apply H. split; [constructor|reflexivity].
  - apply H. split; [constructor; [now exists s|constructor]|intros T; congruence].
Qed.
Lemma deeds_app l d l' d' : deeds l d -> deeds l' d' -> deeds (l ++ l') (d ++ d').
Proof. induction 1; intros H'; [exact H'|constructor; auto|cbn [app]; constructor; auto]. Qed.
Lemma deeds_said l : Forall is_said l -> deeds l [].
Proof. induction 1 as [|x l [s ->] _ IH]; constructor; auto. Qed.
Lemma deeds_one x : ~ is_said x -> deeds [x] [x].
Proof. intros N. repeat constructor. exact N. Qed.
Lemma deeds_fun l d d' : deeds l d -> deeds l d' -> d = d'.
Proof.
  intros H. revert d'. induction H as [|s l d H IH|x l d N H IH]; intros d' H'; inversion H'; subst; auto.
  - destruct H2. now exists s.
  - destruct N. now exists s.
  - f_equal. auto.
Qed.
Lemma deeds_In l d x : deeds l d -> ~ is_said x -> (In x l <-> In x d).
Proof.
  intros H N. induction H as [|s l d H IH|y l d M H IH]; [reflexivity| |]; cbn [In]; rewrite IH; [|reflexivity].
  split; [|auto]. intros [<-|I]; [|exact I]. destruct N. now exists s.
Qed.

Ltac exec :=
  repeat (cbv zeta beta;
    lazymatch goal with
    | |- post (mbind _ _) _ _ => apply post_bind
    | |- post (ret _) _ _ => apply post_ret
    | |- post (ask _) _ _ => apply post_ask
    | |- post (try_ _) _ _ => apply post_try
    | |- post (act _ _) _ _ => apply post_act
    | |- post (eprint _ _) _ _ => let l := fresh "l" in let S := fresh "S" in apply post_eprint'; intros l S
    | |- post (if negb true then _ else _) _ _ => cbn [negb]
    | |- post (if negb false then _ else _) _ _ => cbn [negb]
    | |- post (if ?b then _ else _) _ _ => let E := fresh "E" in destruct b eqn:E
    | |- post (match ?x with _ => _ end) _ _ => let E := fresh "E" in destruct x eqn:E
    | |- after _ _ _ (Ok _) => cbn [after]
    | |- after _ _ _ (Raise _) => cbn [after]
    | |- after _ _ _ (Exit _) => cbn [after]
    | |- after _ _ _ Diverge => cbn [after]
    | |- after _ _ _ ?r => let E := fresh "E" in destruct r eqn:E; cbn [after]
    end).

Definition silence (g : args) : bool := lc_silent (setup_logging (g_quiet g) (g_verbose g)).
Lemma sayings_allowed m g l : sayings (silence g) l -> Forall (allowed m g) l.
Proof.
  intros [F N]. apply Forall_forall. intros x I. rewrite Forall_forall in F. destruct (F x I) as [s ->]. cbn [allowed].
  intros Q. apply silent_iff in Q. rewrite (N Q) in I. destruct I.
Qed.
Lemma kdir_path g k : path_arg (g_kdir g) = Some k -> kdir_of g k.
Proof. intros E. apply path_arg_Some in E. exact E. Qed.
Ltac forall_done :=
  repeat (apply Forall_app; split); try assumption; try (apply sayings_allowed; assumption);
  try (apply Forall_cons; [|apply Forall_nil]).

Lemma prepare_allowed m g h : preparing g -> Forall (allowed m g) h ->
  post (prepare m g (silence g) (option_map lower (g_arch g)) (path_arg (g_kdir g))) h (fun h' _ => Forall (allowed m g) h').
Proof.
  intros P H.
  assert (forall p, path_arg (g_out g) = Some p -> allowed m g (MadeDir p)) as O.
  { intros p E. apply path_arg_Some in E. split; [exact E|exact P]. }
  assert (forall h a, instantiate_kernel (kernel_init (option_map lower (g_arch g)) None
            match path_arg (g_kdir g) with Some _ => true | None => false end
            (fst (get_version None (Some (mc_make_version m h)) vstate0))) = Ok a ->
          (exists k, kdir_of g k /\ path_arg (g_kdir g) = Some k) /\ made_for m g a) as I.
  { intros h0 a E. apply instantiate_Ok, made_for_init in E as [K M]. split; [|exact M].
    destruct (path_arg (g_kdir g)) as [k|] eqn:E; [|discriminate]. exists k. split; [now apply kdir_path|reflexivity]. }
  assert (forall a, (exists k, kdir_of g k /\ path_arg (g_kdir g) = Some k) /\ made_for m g a -> g_config g = true \/ g_build g = true ->
          allowed m g (Configured (path_arg (g_kdir g)) a)) as C by (intros a [K M] G; cbn [allowed]; auto).
  assert (forall a, (exists k, kdir_of g k /\ path_arg (g_kdir g) = Some k) /\ made_for m g a -> g_build g = true ->
          allowed m g (Built (path_arg (g_kdir g)) a (g_disable_opt g))) as B by (intros a [K M] G; cbn [allowed]; auto).
  assert (forall a, (exists k, kdir_of g k /\ path_arg (g_kdir g) = Some k) /\ made_for m g a ->
          allowed m g (Cleaned (path_arg (g_kdir g)) a)) as D by (intros a [K M]; cbn [allowed]; auto).
  unfold prepare. exec; try match goal with E : instantiate_kernel _ = Ok _ |- _ => apply I in E end; clear I; forall_done.
  all: first [ apply O; reflexivity | eapply D; eassumption
             | eapply B; [eassumption|first [assumption|reflexivity]] | eapply C; [eassumption|first [left; assumption|right; assumption|left; reflexivity|right; reflexivity]] ].
Qed.

Definition prefix_of {A} (l p : list A) : Prop := exists r, p = l ++ r.
Definition plan (g : args) (k : path) (a : arch) : list action :=
  match path_arg (g_out g) with Some o => [MadeDir o] | None => [] end ++
  [Cleaned (Some k) a] ++
  (if g_build g then [Configured (Some k) a; Built (Some k) a (g_disable_opt g)] else
   if g_config g then [Configured (Some k) a] else []).
Lemma preparation_plan g k a : preparation g k a = explicit_checkout g (Some k) ++ plan g k a.
Proof.
  unfold preparation, plan. f_equal. f_equal; [destruct (g_out g) as [[|c s]|]; reflexivity|]. f_equal.
  now destruct (g_config g), (g_build g).
Qed.
Definition some_arch : arch := Arch KX86 [] [] false false false false [] None 0 None [].
Definition follows (g : args) (k : path) (d0 : list action) (h : list action) (r : outcome Z) : Prop :=
  exists a d, deeds h d /\ prefix_of d (d0 ++ plan g k a) /\ (r = Ok 0 -> d = d0 ++ plan g k a) /\
    (forall c, r = Ok c -> c = 0 \/ c = 1 \/ c = 127).
Ltac deeds_done D0 :=
  repeat (eapply deeds_app);
  first [ exact D0 | apply deeds_said; match goal with S : sayings _ ?l |- Forall is_said ?l => exact (proj1 S) end
        | apply deeds_one; let H := fresh in intros [? H]; discriminate H ].
Lemma prepare_follows m g k an d0 h : deeds h d0 ->
  post (prepare m g (silence g) an (Some k)) h (follows g k d0).
Proof.
  intros D. unfold prepare, follows, plan. exec.
  all: match goal with
       | a : arch |- _ => exists a
       | _ => exists some_arch
       end; eexists; split; [deeds_done D|]; cbn [app]; rewrite ?app_nil_r, <- ?app_assoc; cbn [app].
  all: split; [eexists; cbn [app]; rewrite <- ?app_assoc; cbn [app]; first [reflexivity | symmetry; apply app_nil_r]|].
  all: split; [intros R; first [reflexivity | discriminate R | idtac]|intros c R; first [discriminate R | injection R as <-; auto]].
Qed.
Lemma prepare_nowhere m g an d0 h : deeds h d0 ->
  post (prepare m g (silence g) an None) h
    (fun h' r => (exists d, deeds h' d /\ prefix_of d (d0 ++ match path_arg (g_out g) with Some o => [MadeDir o] | None => [] end)) /\
       forall c, r = Ok c -> c = 1 \/ c = 127).
Proof.
  intros D. unfold prepare. exec.
  all: try match goal with E : instantiate_kernel _ = Ok _ |- _ => apply instantiate_Ok, init_without_image in E as [E _]; discriminate E end.
  all: split; [|intros c R; first [discriminate R | injection R as <-; auto]].
  all: eexists; split; [deeds_done D|]; cbn [app]; rewrite ?app_nil_r, <- ?app_assoc; cbn [app].
  all: eexists; cbn [app]; rewrite <- ?app_assoc; cbn [app]; first [reflexivity | symmetry; apply app_nil_r].
Qed.

(** ** Analysing *)

Definition told (silent : bool) (l : list str) : list action := if silent then [] else map Said l.
Lemma post_eprints silent l : forall h (Q : list action -> outcome unit -> Prop),
  Q (h ++ told silent l) (Ok tt) -> post (eprints silent l) h Q.
Proof.
  induction l as [|s l IH]; intros h Q H; cbn [eprints].
  - apply post_ret. replace (told silent []) with (@nil action) in H by now destruct silent. now rewrite app_nil_r in H.
  - apply post_bind. unfold told in *. apply post_eprint; intros ->; cbn [after]; apply IH; cbn [map] in H; [exact H|].
    now rewrite <- app_assoc.
Qed.
Definition auto (g : args) : bool := match g_checkout g with Some c => str_eqb c $"auto" | None => false end.
Definition failed (r : outcome Z) : Prop := forall c, r = Ok c -> c = 1 \/ c = 127.
Definition image (g : args) (kdir : option path) (vm : path) : Prop :=
  match path_arg (g_vmlinux g), kdir with
  | Some v, _ => vm = v
  | None, Some k => vm = path_join k (Path [] [$"vmlinux"])
  | None, None => False
  end.
Definition opened (m : machine) (g : args) (an : option str) (kdir : option path) (h : list action)
    (e : elf) (v : version) (a : arch) : Prop :=
  (exists vm, image g kdir vm /\ mc_elf m h vm = Ok e) /\ version_from_vmlinux e = Ok (Some v) /\
  kernel_init an (Some e) (match kdir with Some _ => true | None => false end) (Ok v) = Ok a.
Definition checking (g : args) (kdir : option path) (v : version) (co : list action) : Prop :=
  (auto g = true /\ exists tag, version_tag v = Ok tag /\ co = [CheckedOut kdir tag]) \/ (auto g = false /\ co = []).
Inductive analysed (m : machine) (g : args) (silent : bool) (an : option str) (kdir : option path) (h : list action)
    : list action -> outcome Z -> Prop :=
| an_before l r : sayings silent l -> failed r -> analysed m g silent an kdir h (h ++ l) r
| an_after e v a l co l2 r : opened m g an kdir h e v a -> sayings silent l -> checking g kdir v co -> sayings silent l2 ->
    failed r -> analysed m g silent an kdir h (((h ++ l) ++ co) ++ l2) r
| an_done e v a l co scs shown d : opened m g an kdir h e v a -> sayings silent l -> checking g kdir v co ->
    mc_syscalls m ((h ++ l) ++ co) a e v = Ok scs -> scs <> [] ->
    mapM (show_path kdir (g_absolute g)) scs = Ok shown ->
    output_syscalls (mc_version m) (version_tag v) $"vmlinux" (adjust_abi a e) shown (g_format g) = Ok d ->
    analysed m g silent an kdir h ((((h ++ l) ++ co) ++ told silent (summary kdir scs)) ++ [Printed d]) (Ok 0).
Lemma get_version_image r v s : get_version (Some r) None vstate0 = (Ok v, s) -> r = Ok (Some v) /\ vs_source s = Some $"vmlinux".
Proof. cbn. destruct r as [[w|]| | |]; cbn; intros E; inversion E; auto. Qed.
Lemma sayings_nil silent : sayings silent [].
Proof. split; [constructor|reflexivity]. Qed.
Lemma sayings_app silent l l' : sayings silent l -> sayings silent l' -> sayings silent (l ++ l').
Proof. intros [F N] [F' N']. split; [apply Forall_app; auto|]. intros T. now rewrite (N T), (N' T). Qed.
Lemma told_sayings silent l : sayings silent (told silent l).
Proof.
  unfold told. destruct silent; [apply sayings_nil|]. split; [|discriminate]. induction l as [|s l IH]; constructor; [now exists s|assumption].
Qed.
Lemma failed_raise e : failed (Raise e). Proof. intros c E. discriminate E. Qed.
Lemma failed_exit n : failed (Exit n). Proof. intros c E. discriminate E. Qed.
Lemma failed_diverge : failed Diverge. Proof. intros c E. discriminate E. Qed.
Lemma failed_1 : failed (Ok 1). Proof. intros c [= <-]. auto. Qed.
Lemma failed_127 : failed (Ok 127). Proof. intros c [= <-]. auto. Qed.
#[local] Hint Resolve sayings_nil sayings_app told_sayings failed_raise failed_exit failed_diverge failed_1 failed_127 : main.

Lemma analyse_run m g silent an kdir h : post (analyse m g silent an kdir) h (analysed m g silent an kdir h).
Proof.
  assert (forall r, failed r -> analysed m g silent an kdir h h r) as A0.
  { intros r F. rewrite <- (app_nil_r h) at 2. apply an_before; auto with main. }
  unfold analyse. fold (auto g). destruct (auto g && negb (given (g_vmlinux g))) eqn:G; [apply post_ret, A0; auto with main|].
  apply post_bind, post_ret.
  destruct (match path_arg (g_vmlinux g) with
       | Some v => Ok v
       | None => match kdir with Some k => Ok (path_join k {| root := []; parts := [$"vmlinux"] |}) | None => Raise TypeError end
       end) as [vm|x| |] eqn:V; cbn [after]; try (apply A0; auto with main).
  assert (image g kdir vm) as IM.
  { unfold image. destruct (path_arg (g_vmlinux g)); [congruence|]. destruct kdir; congruence. }
  apply post_bind, post_ask. cbn [after]. destruct (negb (mc_is_file m h vm)); [apply post_ret, A0; auto with main|].
  apply post_bind, post_ask. cbn [after]. destruct (negb (mc_available m h $"readelf")); [apply post_ret, A0; auto with main|].
  apply post_bind, post_try. destruct (instantiate_kernel (mc_elf m h vm)) as [e| | |] eqn:E; cbn [after]; try (apply A0; auto with main).
  apply instantiate_Ok in E. destruct (get_version _ None vstate0) as [rv s] eqn:GV. cbv zeta.
  apply post_bind, post_ret. destruct (instantiate_kernel (kernel_init _ _ _ rv)) as [a| | |] eqn:I; cbn [after]; try (apply A0; auto with main).
  apply instantiate_Ok in I. apply post_bind, post_ret. destruct rv as [v| | |]; cbn [after]; try (apply A0; auto with main).
  apply get_version_image in GV as [GV ->].
  assert (opened m g an kdir h e v a) as O by (repeat split; eauto).
  assert (forall l co, sayings silent l -> checking g kdir v co ->
    post (scs <-- try_ (fun h => mc_syscalls m h a e v) ;;
          match scs with
          | [] => ret (Ok 1)
          | _ => shown <-- ret (mapM (show_path kdir (g_absolute g)) scs) ;;
                 _ <-- eprints silent (summary kdir scs) ;;
                 d <-- ret (output_syscalls (mc_version m) (version_tag v) $"vmlinux" (adjust_abi a e) shown (g_format g)) ;;
                 _ <-- act (Printed d) (fun _ => Ok tt) ;;
                 ret (Ok 0)
          end) ((h ++ l) ++ co) (analysed m g silent an kdir h)) as T.
  { intros l co S C.
    assert (forall r, failed r -> analysed m g silent an kdir h ((h ++ l) ++ co) r) as A1.
    { intros r F. rewrite <- (app_nil_r ((h ++ l) ++ co)). apply (an_after m g silent an kdir h e v a); auto with main. }
    apply post_bind, post_try. destruct (mc_syscalls m _ a e v) as [scs| | |] eqn:SC; cbn [after]; try (apply A1; auto with main).
    assert (scs = [] \/ scs <> []) as [->|N] by (destruct scs; [now left|right; discriminate]); [apply post_ret, A1; auto with main|].
    replace (match scs with [] => ret (Ok 1) | _ => _ end) with
      (shown <-- ret (mapM (show_path kdir (g_absolute g)) scs) ;;
       _ <-- eprints silent (summary kdir scs) ;;
       d <-- ret (output_syscalls (mc_version m) (version_tag v) $"vmlinux" (adjust_abi a e) shown (g_format g)) ;;
       _ <-- act (Printed d) (fun _ => Ok tt) ;;
       ret (Ok 0)) by (destruct scs; [now destruct N|reflexivity]).
    apply post_bind, post_ret. destruct (mapM _ scs) as [shown| | |] eqn:MP; cbn [after]; try (apply A1; auto with main).
    apply post_bind, post_eprints. cbn [after]. apply post_bind, post_ret.
    destruct (output_syscalls _ _ _ _ _ _) as [d| | |] eqn:OUT; cbn [after];
      try (apply (an_after m g silent an kdir h e v a); auto with main).
    apply post_bind, post_act. cbn [after]. apply post_ret. now apply (an_done m g silent an kdir h e v a l co scs shown d). }
  apply post_bind, post_eprint'. intros l S. cbn [after].
  apply post_bind. destruct (auto g) eqn:AU.
  - apply post_bind, post_ret. cbn [after]. change (assert_ (str_eqb $"vmlinux" $"vmlinux")) with (Ok tt). cbn [after].
    apply post_bind, post_ret. destruct (version_tag v) as [tag| | |] eqn:TG; cbn [after]; try (apply an_before; auto with main).
    apply post_bind, post_eprint'. intros l' S'. cbn [after]. apply post_act. rewrite <- (app_assoc h l l').
    assert (checking g kdir v [CheckedOut kdir tag]) as C by (left; eauto).
    destruct (mc_checkout m _ _) as [u| | |] eqn:CO; cbn [after]; try (rewrite <- (app_nil_r ((h ++ _) ++ _));
      apply (an_after m g silent an kdir h e v a); auto with main).
    apply T; auto with main.
  - apply post_ret. cbn [after]. rewrite <- (app_nil_r (h ++ l)). apply T; [exact S|]. right. auto.
Qed.

(** ** All of it *)

Definition arch_fine (g : args) : Prop := forall n, g_arch g = Some n -> known_arch n.
Lemma misuse_dec g : arch_fine g ->
  (negb (given (g_kdir g)) && negb (given (g_vmlinux g))
   || negb (given (g_kdir g)) && (given (g_checkout g) || g_config g || g_build g)
   || negb (given (option_map lower (g_arch g))) && (g_config g || g_build g) = true <-> misuse g).
Proof.
  intros F.
  assert (given (option_map lower (g_arch g)) = false <-> g_arch g = None) as A.
  { destruct (g_arch g) as [n|] eqn:E; [|split; reflexivity]. cbn [option_map]. split; [|discriminate]. intros G. exfalso.
    specialize (F n E). apply known_lower in F. destruct n as [|c n]; [discriminate F|discriminate G]. }
  assert (forall b, negb b = true <-> b = false) as N by (intros []; cbn; split; congruence).
  rewrite !orb_true_iff, !andb_true_iff, !orb_true_iff, !N, A, !given_false, given_iff. split.
  - intros [[[K V]|[K [[C|C]|C]]]|[B C]]; [apply mu_nothing|apply mu_no_kdir|apply mu_no_kdir|apply mu_no_kdir|apply mu_no_arch]; auto.
  - intros [K V|K C|B C]; tauto.
Qed.
Inductive ran (m : machine) (g : args) : list action -> outcome Z -> Prop :=
| ran_help n : g_arch g = Some n -> asks_help n -> ran m g [] (Ok 0)
| ran_unknown n : g_arch g = Some n -> ~ asks_help n -> ~ known_arch n -> ran m g [] (Ok 1)
| ran_misuse : arch_fine g -> misuse g -> ran m g [] (Ok 1)
| ran_checkout h r : arch_fine g -> ~ misuse g -> deeds h (explicit_checkout g (path_arg (g_kdir g))) -> Forall (allowed m g) h ->
    (forall c, r <> Ok c) -> (forall x, r = Raise x -> exists h' ref, mc_checkout m h' ref = Raise x) ->
    (forall n, r = Exit n -> exists h' ref, mc_checkout m h' ref = Exit n) -> ran m g h r
| ran_prepare h0 h r : arch_fine g -> ~ misuse g -> deeds h0 (explicit_checkout g (path_arg (g_kdir g))) -> Forall (allowed m g) h0 ->
    preparing g -> prepare m g (silence g) (option_map lower (g_arch g)) (path_arg (g_kdir g)) h0 = (h, r) -> ran m g h r
| ran_analyse h0 h r : arch_fine g -> ~ misuse g -> deeds h0 (explicit_checkout g (path_arg (g_kdir g))) -> Forall (allowed m g) h0 ->
    ~ preparing g -> analyse m g (silence g) (option_map lower (g_arch g)) (path_arg (g_kdir g)) h0 = (h, r) -> ran m g h r.
Lemma help_unknown n : asks_help n -> ~ known_arch n.
Proof.
  intros H K. apply help_lower in H. apply known_lower in K. apply orb_true_iff in H. rewrite !str_eqb_eq in H.
  destruct H as [H|H]; rewrite H in K; discriminate K.
Qed.
Lemma checkout_kdir g : ~ misuse g -> present (g_checkout g) -> exists k, kdir_of g k /\ path_arg (g_kdir g) = Some k.
Proof.
  intros M C. destruct (path_arg (g_kdir g)) as [k|] eqn:K; [exists k; split; [now apply kdir_path|reflexivity]|].
  destruct M. apply mu_no_kdir; [now apply path_arg_None|now left].
Qed.
Lemma main_ran m g : post (main m g) [] (ran m g).
Proof.
  unfold main. destruct (check_arch (option_map lower (g_arch g))) as [c|] eqn:CA.
  { apply post_ret. destruct (g_arch g) as [n|] eqn:A; [|discriminate]. cbn [option_map check_arch] in CA.
    destruct (dmem str_eqb (lower n) SUPPORTED_ARCHS) eqn:D; [discriminate|].
    destruct (str_eqb (lower n) $"help" || str_eqb (lower n) $"?") eqn:H; injection CA as <-.
    - apply (ran_help m g n A). now apply help_lower.
    - apply (ran_unknown m g n A); [intros X; apply help_lower in X; congruence|intros X; apply known_lower in X; congruence]. }
  assert (arch_fine g) as F.
  { intros n A. rewrite A in CA. cbn [option_map check_arch] in CA. apply known_lower.
    destruct (dmem str_eqb (lower n) SUPPORTED_ARCHS); [reflexivity|]. destruct (_ || _); discriminate CA. }
  pose proof (misuse_dec g F) as MD.
  destruct (negb (given (g_kdir g)) && negb (given (g_vmlinux g))); [apply post_ret, ran_misuse; [exact F|now apply MD]|].
  destruct (negb (given (g_kdir g)) && (given (g_checkout g) || g_config g || g_build g)); [apply post_ret, ran_misuse; [exact F|now apply MD]|].
  destruct (negb (given (option_map lower (g_arch g))) && (g_config g || g_build g)); [apply post_ret, ran_misuse; [exact F|now apply MD]|].
  assert (~ misuse g) as NM by (intros X; apply MD in X; discriminate X). clear MD. cbv zeta.
  fold (silence g). apply post_bind.
  assert (forall h0, deeds h0 (explicit_checkout g (path_arg (g_kdir g))) -> Forall (allowed m g) h0 ->
    post (if g_clean g || g_config g || g_build g
          then prepare m g (silence g) (option_map lower (g_arch g)) (path_arg (g_kdir g))
          else analyse m g (silence g) (option_map lower (g_arch g)) (path_arg (g_kdir g))) h0 (ran m g)) as T.
  { intros h0 D AL. destruct (g_clean g || g_config g || g_build g) eqn:P.
    - assert (preparing g) as PP by (unfold preparing; apply orb_true_iff in P; rewrite orb_true_iff in P; tauto).
      unfold post. destruct (prepare m g _ _ _ h0) as [h r] eqn:R. cbn [fst snd]. exact (ran_prepare m g h0 h r F NM D AL PP R).
    - assert (~ preparing g) as PP.
      { unfold preparing. apply orb_false_iff in P as [P C]. apply orb_false_iff in P as [P B]. intros [X|[X|X]]; congruence. }
      unfold post. destruct (analyse m g _ _ _ h0) as [h r] eqn:R. cbn [fst snd]. exact (ran_analyse m g h0 h r F NM D AL PP R). }
  assert (explicit_checkout g (path_arg (g_kdir g)) = [] -> post (ret (Ok tt)) []
    (after (fun _ => if g_clean g || g_config g || g_build g
          then prepare m g (silence g) (option_map lower (g_arch g)) (path_arg (g_kdir g))
          else analyse m g (silence g) (option_map lower (g_arch g)) (path_arg (g_kdir g))) (ran m g))) as T0.
  { intros E. apply post_ret. cbn [after]. apply T; [rewrite E; constructor|constructor]. }
  destruct (g_checkout g) as [[|c s]|] eqn:CO; [apply T0; unfold explicit_checkout; now rewrite CO| |apply T0; unfold explicit_checkout; now rewrite CO].
  destruct (str_eqb (c :: s) $"auto") eqn:AU; [apply T0; unfold explicit_checkout; rewrite CO, AU; now rewrite orb_true_r|].
  assert (explicit_checkout g (path_arg (g_kdir g)) = [CheckedOut (path_arg (g_kdir g)) (c :: s)]) as EC.
  { unfold explicit_checkout. rewrite CO, AU. replace (len (c :: s) =? 0) with false; [reflexivity|]. symmetry. apply Z.eqb_neq. rewrite len_cons. pose proof (len_nonneg s). lia. }
  apply post_bind, post_eprint'. intros l S. cbn [after app]. apply post_act.
  assert (deeds (l ++ [CheckedOut (path_arg (g_kdir g)) (c :: s)]) (explicit_checkout g (path_arg (g_kdir g)))) as D.
  { rewrite EC. apply (deeds_app l [] _ [_]); [apply deeds_said, S|apply deeds_one; intros [? X]; discriminate X]. }
  assert (Forall (allowed m g) (l ++ [CheckedOut (path_arg (g_kdir g)) (c :: s)])) as AL.
  { forall_done. cbn [allowed]. assert (present (g_checkout g)) as PC by (exists (c :: s); split; [exact CO|discriminate]).
    split; [exact (checkout_kdir g NM PC)|]. split; [exact PC|]. intros _. exact CO. }
  destruct (mc_checkout m _ _) as [u|y| |] eqn:MC; cbn [after]; [apply T; assumption| | |];
    apply ran_checkout; auto; try discriminate; intros x [= <-]; eauto.
Qed.
Lemma main_cases m g h r : main m g [] = (h, r) -> ran m g h r.
Proof. intros E. exact (post_run _ _ _ _ _ E (main_ran m g)). Qed.
Lemma analysed_run m g silent an kdir h0 h r : analyse m g silent an kdir h0 = (h, r) -> analysed m g silent an kdir h0 h r.
Proof. intros E. exact (post_run _ _ _ _ _ E (analyse_run m g silent an kdir h0)). Qed.
