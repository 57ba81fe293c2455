(** Lemmas about configure(). *)
From Coq Require Import List Bool Ascii String ZArith Lia.
From Verif Require Import PyBase PyFacts M_Utils M_KconfigTables M_Arch M_Kconfig M_Build M_Config
  S_Utils S_Config L_Utils L_Config L_Config2.
Import ListNotations.
Open Scope Z_scope.
Open Scope list_scope.

(** ** One make *)

Lemma make_runs k target : runs_make k target None (Ran (Command (make_argv k target) (k_kdir k) None)).
Proof.
  unfold make_argv, runs_make. eexists. exists (tl (removelast (make_argv k target))). split; [reflexivity|]. cbn [c_argv c_cwd c_stdin].
  assert (forall (l m : list str), removelast ($"make" :: l ++ m ++ [target]) = $"make" :: l ++ m) as R.
  { intros l m. rewrite app_assoc. change ($"make" :: (l ++ m) ++ [target]) with (($"make" :: l ++ m) ++ [target]). apply removelast_last. }
  unfold make_argv. set (j := $"-j" ++ _). set (a := $"ARCH=" ++ _). set (f := $"KCFLAGS='-fdebug-prefix-map=" ++ _).
  set (x := match k_cross k with [] => [] | c => _ end). set (o := match k_outdir k with None => [] | Some o => _ end).
  cbn [app]. change ($"make" :: j :: a :: f :: x ++ o ++ [target]) with ($"make" :: ([j; a; f] ++ x) ++ (o ++ [target])).
  rewrite R. cbn [tl]. split; [now rewrite <- !app_assoc|]. split; [reflexivity|]. split; [reflexivity|].
  split; [cbn [app In]; auto|]. split.
  { intros N. apply in_or_app. left. apply in_or_app. right. unfold x. destruct (k_cross k) as [|c l]; [congruence|now left]. }
  split.
  { intros p E. apply in_or_app. right. unfold o. rewrite E. now left. }
  exists (Z.max (k_ncpu k - 1) 1). split; [lia|]. cbn [app In]. auto.
Qed.

(** ** Every command, and its success *)

(** What the history [h] of an execution grows by: [P] holds of every event; every command
    succeeded unless it is the last event and the execution fails. *)
Definition careful {A} (ev : env) (P : event -> Prop) (x : io A) : Prop :=
  forall h, exists l r, x h = (h ++ l, r) /\ Forall P l /\
    forall l1 c l2, l = l1 ++ Ran c :: l2 ->
      (exists out, e_run ev (h ++ l1) c = Some (0, out)) \/ (l2 = [] /\ exists n, r = Exit n).

Lemma careful_ret {A} ev P (r : outcome A) : careful ev P (io_ret r).
Proof. intros h. exists [], r. rewrite app_nil_r. split; [reflexivity|]. split; [constructor|]. intros [|? ?] ? ? E; discriminate. Qed.
Lemma careful_emit ev (P : event -> Prop) e : P e -> (forall c, e <> Ran c) -> careful ev P (io_emit e).
Proof.
  intros H N h. exists [e], (Ok tt). split; [reflexivity|]. split; [now repeat constructor|]. intros [|y l1] c l2 E.
  - injection E as E _. destruct (N _ E).
  - injection E as _ E. destruct l1; discriminate.
Qed.
Lemma careful_ensure ev (P : event -> Prop) argv cwd stdin : P (Ran (Command argv cwd None)) -> careful ev P (ensure ev argv cwd stdin).
Proof.
  intros H h. unfold ensure, received. cbn iota. eexists [_], _. split; [reflexivity|]. split; [now repeat constructor|].
  intros [|y l1] c l2 E.
  - injection E as <- <-. rewrite app_nil_r. unfold ensure_command. destruct (e_run ev h _) as [[rc out]|]; [|right; eauto].
    destruct (rc =? 0) eqn:R; [|right; eauto]. left. apply Z.eqb_eq in R as ->. eauto.
  - injection E as _ E. destruct l1; discriminate.
Qed.
Lemma app_split {A} (a b c : list A) x d : a ++ b = c ++ x :: d ->
  (exists d', d = d' ++ b /\ a = c ++ x :: d') \/ (exists c', c = a ++ c' /\ b = c' ++ x :: d).
Proof.
  revert c. induction a as [|y a IH]; intros c E.
  - right. exists c. auto.
  - destruct c as [|z c].
    + injection E as -> <-. left. exists a. auto.
    + injection E as -> E. destruct (IH _ E) as [(d' & -> & ->)|(c' & -> & ->)]; [left; exists d'; auto|right; exists c'; auto].
Qed.
Lemma careful_bind {A B} ev P (x : io A) (f : A -> io B) : careful ev P x -> (forall a, careful ev P (f a)) -> careful ev P (io_bind x f).
Proof.
  intros X F h. destruct (X h) as (m & r & E & H & S). unfold io_bind. rewrite E.
  destruct r as [a|e|n|].
  - destruct (F a (h ++ m)) as (m' & r & E' & H' & S'). exists (m ++ m'), r. rewrite E', <- app_assoc. split; [reflexivity|].
    split; [now apply Forall_app|]. intros l1 c l2 D. apply app_split in D as [(d & -> & ->)|(d & -> & ->)].
    + destruct (S _ _ _ eq_refl) as [R|[_ [n [=]]]]. now left.
    + rewrite app_assoc. exact (S' _ _ _ eq_refl).
  - eexists m, _. split; [reflexivity|]. split; [exact H|]. intros l1 c l2 D. destruct (S _ _ _ D) as [R|[-> [n [=]]]]. now left.
  - eexists m, _. split; [reflexivity|]. split; [exact H|]. intros l1 c l2 D. destruct (S _ _ _ D) as [R|[-> _]]; eauto.
  - eexists m, _. split; [reflexivity|]. split; [exact H|]. intros l1 c l2 D. destruct (S _ _ _ D) as [R|[-> [n [=]]]]. now left.
Qed.
Lemma careful_each {A} ev P (f : A -> io unit) l : (forall a, In a l -> careful ev P (f a)) -> careful ev P (io_each f l).
Proof.
  induction l as [|a l IH]; intros H; [apply careful_ret|]. cbn [io_each]. apply careful_bind; [apply H; now left|].
  intros _. apply IH. intros b I. apply H. now right.
Qed.

(** The commands of configure() *)
Definition config_event (k : kern) (e : event) : Prop :=
  forall c, e = Ran c -> (exists target, runs_make k target None (Ran c)) \/ (exists args, c = script (k_kdir k) (config_file k) args).

Lemma careful_make ev k target stdin : careful ev (config_event k) (make ev k target stdin).
Proof.
  apply careful_bind; [|intros; apply careful_ret]. apply careful_ensure. intros c [= <-]. left. exists target. apply make_runs.
Qed.
Lemma careful_script ev k args : careful ev (config_event k) (run_config_script ev (k_kdir k) (config_file k) args).
Proof. apply careful_ensure. intros c [= <-]. right. exists args. reflexivity. Qed.
Lemma careful_edit ev k options : careful ev (config_event k) (edit_config ev (k_kdir k) (config_file k) options).
Proof.
  unfold edit_config. destruct options; [apply careful_ret|]. apply careful_bind; [apply careful_ret|]. intros a.
  apply careful_bind; [apply careful_script|intros; apply careful_ret].
Qed.
Lemma careful_check ev k toset config opt dep : careful ev (config_event k) (check_dep ev (k_kdir k) (config_file k) toset config opt dep).
Proof.
  unfold check_dep. destruct (split_char1 EQ dep) as [[n w]|]; [|apply careful_ret]. apply careful_bind.
  - unfold dep_value. destruct (match dget str_eqb n toset with Some (c :: s) => Some (c :: s) | _ => dget str_eqb n config end); [apply careful_ret|].
    apply careful_bind; [|intros; apply careful_ret]. apply careful_script.
  - intros a. destruct (opt_str_eqb a (Some w)); [apply careful_ret|]. destruct (str_eqb w $"n" && opt_str_eqb a None); [apply careful_ret|].
    destruct (str_eqb w $"y" && _ && _); apply careful_emit; try discriminate; intros c; discriminate.
Qed.
Lemma careful_deps ev k options : careful ev (config_event k) (edit_config_check_deps ev (k_kdir k) (config_file k) options).
Proof.
  unfold edit_config_check_deps. destruct options as [|o os]; [apply careful_ret|]. apply careful_bind; [apply careful_ret|]. intros toset.
  apply careful_bind.
  { intros h. exists [], (snd (parse_config ev (config_file k) h)). rewrite app_nil_r. split; [reflexivity|]. split; [constructor|].
    intros [|? ?] ? ? E; discriminate. }
  intros config. apply careful_bind; [|intros; apply careful_edit]. apply careful_each. intros [opt deps] _. apply careful_each.
  intros dep _. apply careful_check.
Qed.
Lemma careful_sync ev k : careful ev (config_event k) (sync_config ev k).
Proof. unfold sync_config. destruct (ver_geb _ _); apply careful_make. Qed.
Lemma careful_configure ev k opts : careful ev (config_event k) (configure ev k opts).
Proof.
  unfold configure. repeat (apply careful_bind; [|intros _]); try apply careful_sync; try apply careful_edit; try apply careful_deps.
  apply careful_each. intros t _. apply careful_make.
Qed.

(** ** The steps, when it ends well *)

Lemma make_Ok ev k target stdin h h' : make ev k target stdin h = (h', Ok tt) ->
  exists e, h' = h ++ [e] /\ runs_make k target None e.
Proof.
  intros E. apply io_bind_Ok in E as (h1 & a & E & D). injection D as <-. injection E as <- _. eexists. split; [reflexivity|]. apply make_runs.
Qed.
Lemma makes_Ok ev k targets h h' : io_each (fun t => make ev k t None) targets h = (h', Ok tt) ->
  exists es, h' = h ++ es /\ Forall2 (fun t e => runs_make k t None e) targets es.
Proof.
  revert h. induction targets as [|t ts IH]; intros h E.
  - injection E as <-. exists []. split; [now rewrite app_nil_r|constructor].
  - cbn [io_each] in E. apply io_bind_Ok in E as (h1 & [] & E1 & E). apply make_Ok in E1 as (e & -> & R). apply IH in E as (es & -> & F).
    exists (e :: es). split; [now rewrite <- app_assoc|]. now constructor.
Qed.
Lemma edit_Ok ev k f options h h' : edit_config ev (k_kdir k) f options h = (h', Ok tt) ->
  exists l, h' = h ++ l /\ applying k f options l.
Proof.
  intros E. destruct options as [|o os].
  - injection E as <-. exists []. rewrite app_nil_r. split; [reflexivity|]. left. auto.
  - destruct (applies_or (k_kdir k) f (o :: os)) as [[c A]|(o' & I & N')].
    + destruct (edit_command ev (k_kdir k) f (o :: os) c h) as (res & E5 & _); [discriminate|exact A|]. rewrite E5 in E. injection E as <- _.
      exists [Ran c]. split; [reflexivity|]. right. split; [discriminate|]. exists c. auto.
    + rewrite (edit_malformed _ _ _ _ o' _ I N') in E. discriminate.
Qed.
Lemma check_Ok ev k f options h h' : edit_config_check_deps ev (k_kdir k) f options h = (h', Ok tt) ->
  exists l, h' = h ++ l /\ checking k f (dkeys options) l.
Proof.
  intros E. destruct options as [|o os] eqn:EO.
  - injection E as <-. exists []. rewrite app_nil_r. split; [reflexivity|]. exists [], []. split; [reflexivity|]. split; [left; auto|]. intros c [].
  - rewrite <- EO in *. assert (options <> []) as N by (rewrite EO; discriminate).
    apply (check_applies _ _ _ _ _ _ N) in E as (mid & c & -> & A & H). exists (mid ++ [Ran c]). split; [reflexivity|].
    exists mid, [Ran c]. split; [reflexivity|]. split; [right; split; [subst; discriminate|eauto]|].
    intros c' I. rewrite Forall_forall in H. exact (H _ I).
Qed.
Definition sync_target (k : kern) : str := if ver_geb (k_version k) [3;7] then $"olddefconfig" else $"oldconfig".
Lemma sync_Ok ev k h h' : sync_config ev k h = (h', Ok tt) -> exists e, h' = h ++ [e] /\ runs_make k (sync_target k) None e.
Proof. unfold sync_config, sync_target. destruct (ver_geb _ _); apply make_Ok. Qed.

Lemma geb_lexle v w : ver_geb v w = true <-> lexle w v.
Proof. unfold ver_geb. rewrite <- ver_leb_lexle. reflexivity. Qed.

Lemma configure_Ok ev k opts h h' : configure ev k opts h = (h', Ok tt) ->
  exists base dbg s1 compat s2 more s3 arch s4,
    h' = h ++ base ++ dbg ++ [s1] ++ compat ++ [s2] ++ more ++ [s3] ++ arch ++ [s4] /\
    Forall2 (fun t e => runs_make k t None e) (a_targets (k_arch k)) base /\
    applying k (config_file k) (kconfig_debugging (k_version k)) dbg /\
    applying k (config_file k) (kconfig_compatibility (k_version k)) compat /\
    checking k (config_file k) (dkeys (kconfig_more_syscalls (k_version k))) more /\
    checking k (config_file k) (dkeys opts) arch /\
    Forall (runs_make k (sync_target k) None) [s1; s2; s3; s4].
Proof.
  unfold configure. intros E.
  apply io_bind_Ok in E as (h1 & [] & E1 & E). apply makes_Ok in E1 as (base & -> & B).
  apply io_bind_Ok in E as (h2 & [] & E1 & E). apply edit_Ok in E1 as (dbg & -> & D).
  apply io_bind_Ok in E as (h3 & [] & E1 & E). apply sync_Ok in E1 as (s1 & -> & S1).
  apply io_bind_Ok in E as (h4 & [] & E1 & E). apply edit_Ok in E1 as (compat & -> & C).
  apply io_bind_Ok in E as (h5 & [] & E1 & E). apply sync_Ok in E1 as (s2 & -> & S2).
  apply io_bind_Ok in E as (h6 & [] & E1 & E). apply check_Ok in E1 as (more & -> & M).
  apply io_bind_Ok in E as (h7 & [] & E1 & E). apply sync_Ok in E1 as (s3 & -> & S3).
  apply io_bind_Ok in E as (h8 & [] & E1 & E). apply check_Ok in E1 as (arch & -> & A).
  apply sync_Ok in E as (s4 & -> & S4).
  exists base, dbg, s1, compat, s2, more, s3, arch, s4. split; [now rewrite <- !app_assoc|]. repeat (split; [assumption|]). repeat constructor; assumption.
Qed.

(** ** Where the configuration is *)

Lemma app_self {A} (l m : list A) : l ++ m = l <-> m = [].
Proof.
  split; [|intros ->; apply app_nil_r]. intros E. apply (f_equal (@List.length A)) in E. rewrite app_length in E.
  destruct m; [reflexivity|cbn [List.length] in E; lia].
Qed.
Lemma path_eq p q : p = q <-> root p = root q /\ parts p = parts q.
Proof. destruct p, q; cbn [M_Utils.root M_Utils.parts]. split; [intros [= -> ->]; auto|intros [-> ->]; reflexivity]. Qed.
Lemma absolute_dec p : absolute p \/ root p = [].
Proof. unfold absolute. destruct (root p); [right; reflexivity|left; discriminate]. Qed.
Lemma join_abs d p : absolute p -> path_join d p = p.
Proof. unfold absolute, path_join. destruct (root p); congruence. Qed.
Lemma join_rel d p : root p = [] -> path_join d p = Path (root d) (parts d ++ parts p).
Proof. unfold path_join. now intros ->. Qed.

Lemma edited_used k : absolute (k_cwd k) ->
  (worked_on k (k_kdir k) (config_file k) = used_by_make k <->
   k_outdir k <> None \/ absolute (k_kdir k) \/ parts (k_kdir k) = []).
Proof.
  intros C. unfold worked_on, used_by_make, config_file, seen_from. destruct (k_outdir k) as [o|].
  - split; [left; discriminate|]. intros _. rewrite (join_rel o), (join_rel (path_join _ o)) by reflexivity.
    destruct (absolute_dec o) as [A|A].
    + rewrite (join_abs _ o A). now rewrite (join_abs _ (Path (root o) _)).
    + rewrite (join_rel _ o A). rewrite join_rel by (cbn [M_Utils.root]; exact A). cbn [M_Utils.root M_Utils.parts]. now rewrite app_assoc.
  - assert (forall X Y : Prop, X \/ Y <-> None (A := path) <> None \/ X \/ Y) as Z by (intros; tauto). rewrite <- Z. clear Z.
    destruct (absolute_dec (k_kdir k)) as [A|A].
    + split; [auto|]. intros _. rewrite (join_abs _ (k_kdir k) A). rewrite (join_rel (k_kdir k) (Path [] _)) by reflexivity.
      now rewrite join_abs by exact A.
    + rewrite (join_rel _ (k_kdir k) A). rewrite (join_rel (k_kdir k) (Path [] _)) by reflexivity. rewrite join_rel by (cbn [M_Utils.root]; exact A).
      rewrite join_rel by reflexivity. cbn [M_Utils.root M_Utils.parts]. rewrite path_eq. cbn [M_Utils.root M_Utils.parts]. split.
      * intros [_ E]. right. rewrite <- !app_assoc in E. apply app_inv_head in E.
        apply (f_equal (@List.length str)) in E. rewrite !app_length in E. destruct (parts (k_kdir k)); [reflexivity|cbn [List.length] in E; lia].
      * intros [F|E]; [destruct (F A)|]. rewrite E, !app_nil_r. auto.
Qed.

Lemma read_used k : seen_by_systrack k (config_file k) = used_by_make k <->
  (forall o, k_outdir k = Some o -> absolute o \/ seen_from (k_cwd k) (k_kdir k) = k_cwd k).
Proof.
  unfold seen_by_systrack, used_by_make, config_file, seen_from. destruct (k_outdir k) as [o|].
  - rewrite (join_rel o (Path [] _)) by reflexivity. rewrite (join_rel (path_join (path_join _ _) o) (Path [] _)) by reflexivity. cbn [M_Utils.parts].
    destruct (absolute_dec o) as [A|A].
    + rewrite (join_abs _ o A). rewrite join_abs by exact A. split; [|reflexivity]. intros _ o' [= <-]. auto.
    + rewrite (join_rel _ o A). rewrite join_rel by exact A. rewrite path_eq. cbn [M_Utils.root M_Utils.parts]. rewrite app_assoc. split.
      * intros [E1 E2] o' [= <-]. right. apply app_inv_tail in E2. rewrite path_eq. split; [congruence|]. now apply app_inv_tail in E2.
      * intros H. destruct (H o eq_refl) as [F|E]; [destruct (F A)|]. now rewrite E.
  - split; [intros _ o [=]|]. intros _. rewrite (join_rel (k_kdir k) (Path [] _)) by reflexivity.
    rewrite (join_rel (path_join _ _) (Path [] _)) by reflexivity. cbn [M_Utils.parts]. destruct (absolute_dec (k_kdir k)) as [A|A].
    + rewrite (join_abs _ _ A). now rewrite join_abs by exact A.
    + rewrite (join_rel _ _ A). rewrite join_rel by exact A. cbn [M_Utils.root M_Utils.parts]. now rewrite app_assoc.
Qed.

(** ** Only that file is read *)

Definition same_on (ev ev' : env) (f : path) : Prop :=
  (forall h c, e_run ev h c = e_run ev' h c) /\ (forall h, e_file ev h f = e_file ev' h f).
Lemma bind_ext {A B} (x x' : io A) (f f' : A -> io B) h : x h = x' h -> (forall a h', f a h' = f' a h') -> io_bind x f h = io_bind x' f' h.
Proof. intros E F. unfold io_bind. rewrite E. destruct (x' h) as [h' [a|e|c|]]; auto. Qed.
Lemma each_ext {A} (f f' : A -> io unit) l : (forall a h, f a h = f' a h) -> forall h, io_each f l h = io_each f' l h.
Proof. intros H. induction l as [|a l IH]; intros h; [reflexivity|]. cbn [io_each]. apply bind_ext; auto. Qed.
Lemma ensure_ext ev ev' f argv cwd stdin h : same_on ev ev' f -> ensure ev argv cwd stdin h = ensure ev' argv cwd stdin h.
Proof. intros [H _]. unfold ensure. now rewrite H. Qed.
Lemma make_ext ev ev' f k t stdin h : same_on ev ev' f -> make ev k t stdin h = make ev' k t stdin h.
Proof. intros H. apply bind_ext; [now apply (ensure_ext ev ev' f)|reflexivity]. Qed.
Lemma edit_ext ev ev' f kdir options h : same_on ev ev' f -> edit_config ev kdir f options h = edit_config ev' kdir f options h.
Proof.
  intros H. unfold edit_config. destruct options; [reflexivity|]. apply bind_ext; [reflexivity|]. intros a h'. apply bind_ext; [|reflexivity].
  now apply (ensure_ext ev ev' f).
Qed.
Lemma check_ext ev ev' f kdir toset config opt dep h : same_on ev ev' f -> check_dep ev kdir f toset config opt dep h = check_dep ev' kdir f toset config opt dep h.
Proof.
  intros H. unfold check_dep. destruct (split_char1 EQ dep) as [[n w]|]; [|reflexivity]. apply bind_ext.
  - unfold dep_value. destruct (match dget str_eqb n toset with Some (c :: s) => Some (c :: s) | _ => dget str_eqb n config end); [reflexivity|].
    apply bind_ext; [now apply (ensure_ext ev ev' f)|reflexivity].
  - reflexivity.
Qed.
Lemma deps_ext ev ev' f kdir options h : same_on ev ev' f -> edit_config_check_deps ev kdir f options h = edit_config_check_deps ev' kdir f options h.
Proof.
  intros H. unfold edit_config_check_deps. destruct options as [|o os]; [reflexivity|]. apply bind_ext; [reflexivity|]. intros toset h1.
  apply bind_ext; [unfold parse_config; now rewrite (proj2 H)|]. intros config h2. apply bind_ext; [|intros; now apply edit_ext].
  apply each_ext. intros [opt deps] h3. apply each_ext. intros dep h4. now apply check_ext.
Qed.
Lemma sync_ext ev ev' f k h : same_on ev ev' f -> sync_config ev k h = sync_config ev' k h.
Proof. intros H. unfold sync_config. destruct (ver_geb _ _); now apply (make_ext ev ev' f). Qed.
Lemma configure_ext ev ev' k opts h : same_on ev ev' (config_file k) -> configure ev k opts h = configure ev' k opts h.
Proof.
  intros H. unfold configure.
  apply bind_ext; [apply each_ext; intros; now apply (make_ext ev ev' (config_file k))|intros _ h1].
  apply bind_ext; [now apply edit_ext|intros _ h2]. apply bind_ext; [now apply (sync_ext ev ev' (config_file k))|intros _ h3].
  apply bind_ext; [now apply edit_ext|intros _ h4]. apply bind_ext; [now apply (sync_ext ev ev' (config_file k))|intros _ h5].
  apply bind_ext; [now apply deps_ext|intros _ h6]. apply bind_ext; [now apply (sync_ext ev ev' (config_file k))|intros _ h7].
  apply bind_ext; [now apply deps_ext|intros _ h8]. now apply (sync_ext ev ev' (config_file k)).
Qed.
Lemma sync_target_cases k : (lexle [3;7] (k_version k) /\ sync_target k = $"olddefconfig") \/
  (~ lexle [3;7] (k_version k) /\ sync_target k = $"oldconfig").
Proof.
  unfold sync_target. destruct (ver_geb (k_version k) [3;7]) eqn:E; [left|right]; (split; [|reflexivity]); rewrite <- geb_lexle; congruence.
Qed.
