(** Lemmas about checking the dependencies of configuration options. *)
From Coq Require Import List Bool Ascii String ZArith Lia.
From Verif Require Import PyBase PyFacts M_Utils M_KconfigTables M_Arch M_Kconfig M_Build M_Config S_Utils S_Config L_Utils L_Config.
Import ListNotations.
Open Scope Z_scope.
Open Scope list_scope.

(** ** Histories only grow *)

Definition grows {A} (P : event -> Prop) (x : io A) : Prop :=
  forall h, exists mid res, x h = (h ++ mid, res) /\ Forall P mid.

Lemma grows_ret {A} P (r : outcome A) : grows P (io_ret r).
Proof. intros h. exists [], r. rewrite app_nil_r. split; [reflexivity|constructor]. Qed.
Lemma grows_bind {A B} P (x : io A) (f : A -> io B) : grows P x -> (forall a, grows P (f a)) -> grows P (io_bind x f).
Proof.
  intros X F h. destruct (X h) as (m & r & E & H). unfold io_bind. rewrite E.
  destruct r as [a|e|c|]; try (eexists m, _; split; [reflexivity|exact H]).
  destruct (F a (h ++ m)) as (m' & r & E' & H'). exists (m ++ m'), r. rewrite E', <- app_assoc. split; [reflexivity|]. now apply Forall_app.
Qed.
Lemma grows_each {A} P (f : A -> io unit) l : (forall a, In a l -> grows P (f a)) -> grows P (io_each f l).
Proof.
  induction l as [|a l IH]; intros H; [apply grows_ret|]. cbn [io_each]. apply grows_bind; [apply H; now left|].
  intros _. apply IH. intros b I. apply H. now right.
Qed.
Lemma grows_emit (P : event -> Prop) e : P e -> grows P (io_emit e).
Proof. intros H h. exists [e], (Ok tt). split; [reflexivity|now repeat constructor]. Qed.
Lemma grows_ensure (P : event -> Prop) ev argv cwd stdin : P (Ran (Command argv cwd None)) -> grows P (ensure ev argv cwd stdin).
Proof. intros H h. eexists [_], _. split; [reflexivity|now repeat constructor]. Qed.

(** Events of the checks: reports and queries *)
Definition harmless (kdir file : path) (e : event) : Prop :=
  match e with Ran c => is_query kdir file c | _ => True end.

Lemma grows_check ev kdir f toset config opt dep : grows (harmless kdir f) (check_dep ev kdir f toset config opt dep).
Proof.
  unfold check_dep. destruct (split_char1 EQ dep) as [[n w]|]; [|apply grows_ret]. apply grows_bind.
  - unfold dep_value. destruct (match dget str_eqb n toset with Some (c :: s) => Some (c :: s) | _ => dget str_eqb n config end); [apply grows_ret|].
    apply grows_bind; [|intros; apply grows_ret]. apply grows_ensure. exists n. reflexivity.
  - intros a. destruct (opt_str_eqb a (Some w)); [apply grows_ret|]. destruct (str_eqb w $"n" && opt_str_eqb a None); [apply grows_ret|].
    destruct (str_eqb w $"y" && _ && _); now apply grows_emit.
Qed.

(** ** What is applied *)

Lemma io_bind_Ok {A B} (x : io A) (f : A -> io B) h h' b : io_bind x f h = (h', Ok b) ->
  exists h1 a, x h = (h1, Ok a) /\ f a h1 = (h', Ok b).
Proof. unfold io_bind. destruct (x h) as [h1 [a|e|c|]]; try discriminate. intros E. exists h1, a. auto. Qed.

Lemma check_applies ev kdir f options h h' : options <> [] ->
  edit_config_check_deps ev kdir f options h = (h', Ok tt) ->
  exists mid c, h' = h ++ mid ++ [Ran c] /\ applies kdir f (dkeys options) c /\ Forall (harmless kdir f) mid.
Proof.
  intros N E. unfold edit_config_check_deps in E. destruct options as [|o os]; [congruence|].
  set (options := o :: os) in *. apply io_bind_Ok in E as (h1 & toset & E1 & E). injection E1 as <- _.
  apply io_bind_Ok in E as (h2 & config & E2 & E). injection E2 as <- _.
  apply io_bind_Ok in E as (h3 & u & E3 & E). match type of E3 with ?x h = _ => assert (grows (harmless kdir f) x) as G end.
  { apply grows_each. intros [opt deps] _. apply grows_each. intros dep _. apply grows_check. }
  destruct (G h) as (mid & r & E4 & H). rewrite E4 in E3. injection E3 as <- _.
  destruct (applies_or kdir f (dkeys options)) as [[c A]|(o' & I & N')].
  - destruct (edit_command ev kdir f (dkeys options) c (h ++ mid)) as (res & E5 & _); [discriminate|exact A|].
    rewrite E5 in E. injection E as <- _. exists mid, c. rewrite <- app_assoc. auto.
  - rewrite (edit_malformed _ _ _ _ o' _ I N') in E. discriminate.
Qed.

(** ** Values of dependencies *)

Lemma requests_cons o os n v : requests (o :: os) n v <->
  requests os n v \/ (asks o n v /\ forall o' v', In o' os -> ~ asks o' n v').
Proof.
  split.
  - intros ([|x l1] & y & l2 & E & S & N); injection E as -> ->; [right; auto|left]. exists l1, y, l2. auto.
  - intros [(l1 & y & l2 & -> & S & N)|[S N]]; [exists (o :: l1), y, l2; auto|exists [], o, os; auto].
Qed.
Lemma last_requests options pairs : Forall2 (fun o p => asks o (fst p) (snd p)) options pairs ->
  forall n v, last_binding str_eqb n pairs = Some v <-> requests options n v.
Proof.
  induction 1 as [|o [m w] os ps A F IH]; intros n v.
  - split; [discriminate|]. intros ([|? ?] & ? & ? & E & _); discriminate E.
  - cbn [fst snd] in A. cbn [last_binding]. rewrite requests_cons.
    assert (last_binding str_eqb n ps = None <-> forall o' v', In o' os -> ~ asks o' n v') as HN.
    { rewrite (last_binding_None str_eqb str_eqb_eq). split.
      - intros H o' v' I A'. clear - F H I A'. induction F as [|x [m w] xs ps A F IH]; [destruct I|]. destruct I as [->|I].
        + cbn in A. destruct (asks_fun _ _ _ _ _ A A') as [-> ->]. apply (H v'). now left.
        + apply IH; [|exact I]. intros v'' X. apply (H v''). now right.
      - intros H v' I. clear - F H I. induction F as [|x [m w] xs ps A F IH]; [destruct I|]. destruct I as [[= -> ->]|I].
        + apply (H x v'); [now left|exact A].
        + apply IH; [|exact I]. intros o' v'' X. apply H. now right. }
    destruct (last_binding str_eqb n ps) as [v1|] eqn:L.
    + split; [intros [= ->]; left; now apply IH|]. intros [R|[A' N]]; [rewrite <- L; now apply IH|].
      apply HN in N. discriminate.
    + assert (forall o' v', In o' os -> ~ asks o' n v') as N by now apply HN. destruct (str_eqb n m) eqn:E.
      * apply str_eqb_eq in E. subst m. split; [intros [= ->]; right; auto|].
        intros [(l1 & y & l2 & -> & S & _)|[A' _]].
        -- exfalso. apply (N y v); [apply in_or_app; right; now left|exact S].
        -- now destruct (asks_fun _ _ _ _ _ A A') as [_ ->].
      * apply str_eqb_neq in E. split; [discriminate|]. intros [(l1 & y & l2 & -> & S & _)|[A' _]].
        -- exfalso. apply (N y v); [apply in_or_app; right; now left|exact S].
        -- destruct (asks_fun _ _ _ _ _ A A') as [-> _]. congruence.
Qed.
Lemma to_set_ok options : Forall (fun o => exists n v, asks o n v) options ->
  exists d, to_set options = Ok d /\ forall n v, dget str_eqb n d = Some v <-> requests options n v.
Proof.
  intros F. unfold to_set.
  assert (exists ps, Forall2 (fun o p => asks o (fst p) (snd p)) options ps) as [ps P].
  { induction F as [|o os (n & v & A) F [ps IH]]; [exists []; constructor|]. exists ((n, v) :: ps). now constructor. }
  rewrite (proj2 (mapM_Ok _ options ps)).
  - exists (dict_of str_eqb ps). split; [reflexivity|]. intros n v. rewrite (dget_dict_of str_eqb str_eqb_eq). now apply last_requests.
  - eapply Forall2_imp; [|exact P]. intros o [n v] A. cbn in A. apply asks_iff in A. now rewrite A.
Qed.
Lemma to_set_fail options o : In o options -> ~ In "="%char o -> to_set options = Raise ValueError.
Proof.
  intros I N. unfold to_set.
  assert (mapM (fun o => match split_char1 EQ o with Some p => Ok p | None => Raise ValueError end) options = Raise ValueError) as ->; [|reflexivity].
  induction options as [|x l IH]; [destruct I|]. cbn [mapM]. destruct (split_char1 EQ x) as [p|] eqn:E; [|reflexivity].
  cbn [bind]. destruct I as [->|I]; [exfalso; apply (split_char1_None EQ) in N; congruence|]. now rewrite (IH I).
Qed.

Lemma default_value_iff s r : default_value s r <-> r = (if str_eqb (strip s) $"undef" then None else Some (strip s)).
Proof.
  split.
  - intros (b & x & b' & -> & B & B' & T1 & T2 & H). assert (strip (b ++ x ++ b') = x) as -> by (apply strip_iff; exists b, b'; auto).
    destruct H as [[-> ->]|[N ->]]; [reflexivity|]. apply str_eqb_neq in N. now rewrite N.
  - intros ->. destruct (proj1 (strip_iff s (strip s)) eq_refl) as (b & b' & B & B' & E & T1 & T2).
    exists b, (strip s), b'. do 5 (split; [assumption|]). destruct (str_eqb (strip s) $"undef") eqn:X.
    + left. apply str_eqb_eq in X. auto.
    + right. apply str_eqb_neq in X. auto.
Qed.

Section Values.
  Variables (options ls : list str) (answer : str -> str) (toset config : dict str str).
  Hypothesis Ht : forall n v, dget str_eqb n toset = Some v <-> requests options n v.
  Hypothesis Hc : forall n v, dget str_eqb n config = Some v <-> file_sets ls n v.

  Definition known (n : str) : option str :=
    match dget str_eqb n toset with Some (c :: s) => Some (c :: s) | _ => dget str_eqb n config end.
  Definition value_of (n : str) : option str :=
    match known n with
    | Some x => Some x
    | None => if str_eqb (strip (answer n)) $"undef" then None else Some (strip (answer n))
    end.

  Lemma effective_iff n r : effective options ls answer n r <-> r = value_of n.
  Proof.
    unfold value_of, known. split.
    - intros [v R N|v R F|r0 R F D].
      + apply Ht in R. rewrite R. destruct v; [congruence|reflexivity].
      + apply Hc in F. assert (match dget str_eqb n toset with Some (c :: s) => Some (c :: s) | _ => dget str_eqb n config end = Some v) as ->; [|reflexivity].
        destruct (dget str_eqb n toset) as [[|c s]|] eqn:E; auto. apply Ht in E. apply R in E. discriminate.
      + assert (dget str_eqb n config = None) as C.
        { destruct (dget str_eqb n config) as [v|] eqn:E; [|reflexivity]. apply Hc in E. destruct (F v E). }
        rewrite C. destruct (dget str_eqb n toset) as [[|c s]|] eqn:E; try (now apply default_value_iff).
        apply Ht in E. apply R in E. discriminate.
    - intros ->. destruct (dget str_eqb n toset) as [[|c s]|] eqn:E.
      2: { apply ef_requested; [now apply Ht|discriminate]. }
      + assert (forall v', requests options n v' -> v' = []) as R by (intros v' X; apply Ht in X; congruence).
        destruct (dget str_eqb n config) as [v|] eqn:C; [apply ef_file; [exact R|now apply Hc]|].
        apply ef_default; [exact R| |now apply default_value_iff]. intros v' X. apply Hc in X. congruence.
      + assert (forall v', requests options n v' -> v' = []) as R by (intros v' X; apply Ht in X; congruence).
        destruct (dget str_eqb n config) as [v|] eqn:C; [apply ef_file; [exact R|now apply Hc]|].
        apply ef_default; [exact R| |now apply default_value_iff]. intros v' X. apply Hc in X. congruence.
  Qed.

  Variables (ev : env) (kdir f : path).
  Hypothesis Ha : forall h n, e_run ev h (script kdir f [$"-s"; n]) = Some (0, answer n).

  Lemma dep_value_run n h : exists q, dep_value ev kdir f toset config n h = (h ++ q, Ok (value_of n)) /\
    (q = [] \/ q = [Ran (script kdir f [$"-s"; n])]).
  Proof.
    unfold dep_value, value_of. change (match dget str_eqb n toset with Some (c :: s) => Some (c :: s) | _ => dget str_eqb n config end) with (known n).
    destruct (known n) as [x|].
    - exists []. rewrite app_nil_r. auto.
    - exists [Ran (script kdir f [$"-s"; n])]. split; [|now right]. unfold io_bind, run_config_script, ensure, received.
      change (Command ([$"./scripts/config"; $"--file"; str_of_path f] ++ [$"-s"; n]) kdir None) with (script kdir f [$"-s"; n]).
      rewrite Ha. reflexivity.
  Qed.

  Lemma opt_str_eqb_eq a b : opt_str_eqb a b = true <-> a = b.
  Proof.
    destruct a as [a|], b as [b|]; cbn; try (split; congruence). rewrite str_eqb_eq. split; congruence.
  Qed.
  Lemma as_wanted_b w a : opt_str_eqb a (Some w) || (str_eqb w $"n" && opt_str_eqb a None) = true <-> as_wanted w a.
  Proof. unfold as_wanted. rewrite orb_true_iff, andb_true_iff, !opt_str_eqb_eq, str_eqb_eq. reflexivity. Qed.
  Lemma unsupported_b n w a : str_eqb w $"y" && (opt_str_eqb a (Some $"n") || opt_str_eqb a None) && anyprefix n [$"HAVE_"; $"ARCH_HAS_"] = true
    <-> unsupported n w a.
  Proof.
    unfold unsupported. rewrite !andb_true_iff, orb_true_iff, !opt_str_eqb_eq, str_eqb_eq, anyprefix_iff. split.
    - intros [[A B] (px & t & [<-|[<-|[]]] & E)]; (split; [exact A|]; split; [exact B|]); exists t; auto.
    - intros (A & B & t & [E|E]); (split; [auto|]); eexists _, t; (split; [|exact E]); cbn; auto.
  Qed.

  Definition report (opt n w : str) : list event :=
    if opt_str_eqb (value_of n) (Some w) || (str_eqb w $"n" && opt_str_eqb (value_of n) None) then []
    else if str_eqb w $"y" && (opt_str_eqb (value_of n) (Some $"n") || opt_str_eqb (value_of n) None) && anyprefix n [$"HAVE_"; $"ARCH_HAS_"]
    then [Warned opt n (value_of n)] else [Errored opt n w (value_of n)].

  Lemma check_dep_run opt dep n w h : asks dep n w -> exists q,
    check_dep ev kdir f toset config opt dep h = (h ++ q ++ report opt n w, Ok tt) /\ Forall (fun e => exists c, e = Ran c) q.
  Proof.
    intros A. unfold check_dep. rewrite (proj2 (asks_iff _ _ _) A). destruct (dep_value_run n h) as (q & E & Q).
    unfold io_bind. rewrite E. exists q. split; [|destruct Q as [->| ->]; repeat constructor; eauto]. unfold report.
    destruct (opt_str_eqb (value_of n) (Some w)); [cbn [orb]; now rewrite app_nil_r|]. cbn [orb].
    destruct (str_eqb w $"n" && opt_str_eqb (value_of n) None); [now rewrite app_nil_r|].
    destruct (_ && _ && _); unfold io_emit; now rewrite <- app_assoc.
  Qed.

  (** Reports of a list of checks *)
  Definition reports (mid : list event) : list event := filter (fun e => match e with Ran _ => false | _ => true end) mid.
  Lemma reports_app a b : reports (a ++ b) = reports a ++ reports b.
  Proof. apply filter_app. Qed.
  Lemma reports_ran q : Forall (fun e => exists c, e = Ran c) q -> reports q = [].
  Proof. induction 1 as [|e q [c ->] F IH]; [reflexivity|exact IH]. Qed.
  Lemma reports_report opt n w : reports (report opt n w) = report opt n w.
  Proof. unfold report. destruct (_ || _); [reflexivity|]. now destruct (_ && _ && _). Qed.

  Lemma check_deps_run opt deps : Forall (fun d => exists n w, asks d n w) deps -> forall h, exists mid,
    io_each (check_dep ev kdir f toset config opt) deps h = (h ++ mid, Ok tt) /\
    forall e, In e (reports mid) <-> exists dep n w, In dep deps /\ asks dep n w /\ In e (report opt n w).
  Proof.
    induction 1 as [|d deps (n & w & A) F IH]; intros h.
    - exists []. rewrite app_nil_r. split; [reflexivity|]. intros e. split; [intros []|intros (? & ? & ? & [] & _)].
    - cbn [io_each]. destruct (check_dep_run opt d n w h A) as (q & E & Q). unfold io_bind. rewrite E.
      destruct (IH (h ++ q ++ report opt n w)) as (mid & E' & H). exists ((q ++ report opt n w) ++ mid). rewrite E', <- !app_assoc.
      split; [reflexivity|]. intros e. rewrite !reports_app, (reports_ran q Q), reports_report. cbn [app]. rewrite in_app_iff, H. split.
      + intros [I|(dep & n' & w' & I & A' & I')]; [exists d, n, w; split; [now left|auto]|exists dep, n', w'; split; [now right|auto]].
      + intros (dep & n' & w' & [->|I] & A' & I'); [left; now destruct (asks_fun _ _ _ _ _ A A') as [-> ->]|right; exists dep, n', w'; auto].
  Qed.
  Lemma check_all_run (opts : list (str * list str)) : Forall (fun x => Forall (fun d => exists n w, asks d n w) (snd x)) opts -> forall h, exists mid,
    io_each (fun '(opt, deps) => io_each (check_dep ev kdir f toset config opt) deps) opts h = (h ++ mid, Ok tt) /\
    forall e, In e (reports mid) <-> exists opt n w, depends opts opt n w /\ In e (report opt n w).
  Proof.
    induction 1 as [|[opt deps] opts D F IH]; intros h.
    - exists []. rewrite app_nil_r. split; [reflexivity|]. intros e. split; [intros []|intros (? & ? & ? & (? & ? & [] & _) & _)].
    - cbn [io_each snd] in *. destruct (check_deps_run opt deps D h) as (m1 & E1 & H1). unfold io_bind. rewrite E1.
      destruct (IH (h ++ m1)) as (m2 & E2 & H2). exists (m1 ++ m2). rewrite E2, <- app_assoc. split; [reflexivity|].
      intros e. rewrite reports_app, in_app_iff, H1, H2. split.
      + intros [(dep & n & w & I & A & I')|(o & n & w & (ds & d & I & I2 & A) & I')].
        * exists opt, n, w. split; [|exact I']. exists deps, dep. split; [now left|auto].
        * exists o, n, w. split; [|exact I']. exists ds, d. split; [now right|auto].
      + intros (o & n & w & (ds & d & [[= -> ->]|I] & I2 & A) & I').
        * left. exists d, n, w. auto.
        * right. exists o, n, w. split; [|exact I']. exists ds, d. auto.
  Qed.

  Lemma in_report opt n w e : In e (report opt n w) <->
    exists actual, effective options ls answer n actual /\ ~ as_wanted w actual /\
      ((unsupported n w actual /\ e = Warned opt n actual) \/ (~ unsupported n w actual /\ e = Errored opt n w actual)).
  Proof.
    unfold report. destruct (opt_str_eqb (value_of n) (Some w) || (str_eqb w $"n" && opt_str_eqb (value_of n) None)) eqn:W.
    - apply as_wanted_b in W. split; [intros []|]. intros (a & ->%effective_iff & X & _). contradiction.
    - assert (~ as_wanted w (value_of n)) as NW by (intros X; apply as_wanted_b in X; congruence).
      destruct (str_eqb w $"y" && (opt_str_eqb (value_of n) (Some $"n") || opt_str_eqb (value_of n) None) && anyprefix n [$"HAVE_"; $"ARCH_HAS_"]) eqn:U.
      + apply unsupported_b in U. split.
        * intros [<-|[]]. exists (value_of n). split; [now apply effective_iff|]. auto.
        * intros (a & ->%effective_iff & _ & [[_ ->]|[X _]]); [now left|contradiction].
      + assert (~ unsupported n w (value_of n)) as NU by (intros X; apply unsupported_b in X; congruence). split.
        * intros [<-|[]]. exists (value_of n). split; [now apply effective_iff|]. auto.
        * intros (a & ->%effective_iff & _ & [[X _]|[_ ->]]); [contradiction|now left].
  Qed.
End Values.

(** ** The whole check *)

Lemma reports_in e l : (forall c, e <> Ran c) -> (In e (reports l) <-> In e l).
Proof. intros N. unfold reports. rewrite filter_In. split; [tauto|]. intros I. split; [exact I|]. destruct e; [exfalso; eapply N; reflexivity|reflexivity..]. Qed.

Lemma check_deps_reports ev kdir f options (answer : str -> str) text ls c h :
  options <> [] ->
  Forall (fun x => (exists n v, asks (fst x) n v) /\ Forall (fun d => exists n v, asks d n v) (snd x)) options ->
  (forall h n, e_run ev h (script kdir f [$"-s"; n]) = Some (0, answer n)) ->
  e_file ev h f = Some text -> text_lines text ls -> Forall meaning ls ->
  applies kdir f (dkeys options) c ->
  exists mid res, edit_config_check_deps ev kdir f options h = (h ++ mid ++ [Ran c], res) /\
    must_succeed (e_run ev (h ++ mid) c) tt res /\
    (forall opt n w actual, In (Errored opt n w actual) mid <->
       depends options opt n w /\ effective (dkeys options) ls answer n actual /\ ~ as_wanted w actual /\ ~ unsupported n w actual) /\
    (forall opt n actual, In (Warned opt n actual) mid <->
       exists w, depends options opt n w /\ effective (dkeys options) ls answer n actual /\ ~ as_wanted w actual /\ unsupported n w actual) /\
    (forall c', In (Ran c') mid -> is_query kdir f c').
Proof.
  intros N F Ha Hf T M A.
  destruct (to_set_ok (dkeys options)) as (toset & Es & Ht).
  { unfold dkeys. apply Forall_forall. intros o I. apply in_map_iff in I as (x & <- & I). rewrite Forall_forall in F. apply (F x I). }
  destruct (config_parsed text ls T M) as (config & Ec & Hc).
  destruct (check_all_run answer toset config ev kdir f Ha options) with (h := h) as (mid & E & H).
  { eapply Forall_impl; [|exact F]. intros x X. exact (proj2 X). }
  destruct (edit_command ev kdir f (dkeys options) c (h ++ mid)) as (res & E5 & S); [destruct options; [congruence|discriminate]|exact A|].
  exists mid, res.
  assert (grows (harmless kdir f) (io_each (fun '(opt, deps) => io_each (check_dep ev kdir f toset config opt) deps) options)) as G.
  { apply grows_each. intros [opt deps] _. apply grows_each. intros dep _. apply grows_check. }
  destruct (G h) as (mid' & r' & E' & Q). rewrite E in E'. injection E' as E' _. apply app_inv_head in E'. subst mid'.
  split; [|split; [exact S|split; [|split]]].
  - unfold edit_config_check_deps. destruct options as [|o os]; [congruence|]. set (options := o :: os) in *.
    unfold io_bind at 1, io_ret at 1. rewrite Es. unfold io_bind at 1, parse_config at 1. rewrite Hf, Ec. unfold io_bind at 1. rewrite E.
    rewrite E5, <- app_assoc. reflexivity.
  - intros opt n w actual. rewrite <- reports_in by discriminate. rewrite H. split.
    + intros (o & n' & w' & D & I). apply (in_report (dkeys options) ls answer toset config Ht Hc) in I as (a & Ef & W & [[_ X]|[U [= -> -> -> ->]]]); [discriminate|auto].
    + intros (D & Ef & W & U). exists opt, n, w. split; [exact D|]. apply (in_report (dkeys options) ls answer toset config Ht Hc). exists actual. auto.
  - intros opt n actual. rewrite <- reports_in by discriminate. rewrite H. split.
    + intros (o & n' & w' & D & I). apply (in_report (dkeys options) ls answer toset config Ht Hc) in I as (a & Ef & W & [[U [= -> -> ->]]|[_ X]]); [eauto|discriminate].
    + intros (w & D & Ef & W & U). exists opt, n, w. split; [exact D|]. apply (in_report (dkeys options) ls answer toset config Ht Hc). exists actual. auto.
  - intros c' I. rewrite Forall_forall in Q. exact (Q _ I).
Qed.
