(** Lemmas for C96 *)
From Coq Require Import List Bool Ascii String ZArith Lia.
From Verif Require Import PyBase PyFacts M_Utils M_Command S_Command.
From Verif Require S_Config L_Config S_Location L_Location S_Elf L_ElfText.
Import ListNotations.
Open Scope Z_scope.
Open Scope list_scope.

Lemma strip_blank l : strip l = [] <-> blank l.
Proof.
  split.
  - intros H. destruct (L_Config.strip_pads l) as (a & b & A & B & E). rewrite H in E. rewrite E.
    apply Forall_app. now split.
  - intros H. apply (proj2 (L_Config.strip_iff l [])). exists l, []. repeat split.
    + exact H.
    + constructor.
    + now rewrite app_nil_r.
    + intros. discriminate.
    + intros t c E. destruct t; discriminate.
Qed.

Lemma shifted_indent ls : shifted ls (List.concat (map (fun l => match strip l with [] => l | _ => TAB :: l end) ls)).
Proof.
  induction ls as [|l ls IH]; [constructor|]. cbn [map List.concat].
  destruct (strip l) as [|c r] eqn:E.
  - apply sf_blank; [now apply strip_blank|exact IH].
  - change ((TAB :: l) ++ ?x) with (TAB :: l ++ x). apply sf_line; [|exact IH].
    intros B. apply strip_blank in B. rewrite E in B. discriminate.
Qed.

Lemma error_part_ok err :
  error_part err (match strip err with [] => $" (no stderr output)" | _ => NL :: indent err end).
Proof.
  destruct (strip err) as [|c r] eqn:E.
  - constructor. now apply strip_blank.
  - apply ep_text with (ls := lines_keep err).
    + intros B. apply strip_blank in B. rewrite E in B. discriminate.
    + exact (L_Location.lines_of_ex err).
    + apply shifted_indent.
Qed.

(** The first word *)
Lemma split_ws_cur s : forall cur, cur <> [] -> exists x rest, split_ws_aux s cur = (rev cur ++ x) :: rest /\
  Forall (fun a => is_space a = false) x /\ exists r, s = x ++ r /\ (r = [] \/ exists a t, r = a :: t /\ is_space a = true).
Proof.
  induction s as [|a s IH]; intros cur N.
  - exists [], []. cbn. destruct cur as [|b cur]; [contradiction|]. rewrite app_nil_r. repeat split; [constructor|].
    exists []. auto.
  - cbn [split_ws_aux]. destruct (is_space a) eqn:E.
    + destruct cur as [|b cur]; [contradiction|]. exists [], (split_ws_aux s []). rewrite app_nil_r. repeat split; [constructor|].
      exists (a :: s). split; [reflexivity|]. right. eauto.
    + destruct (IH (a :: cur)) as (x & rest & X & F & r & R & D); [discriminate|].
      exists (a :: x), rest. rewrite X. cbn [rev]. rewrite <- app_assoc. repeat split; [now constructor|].
      exists r. rewrite R. split; [reflexivity|exact D].
Qed.

Lemma split_ws_first s : (exists a, In a s /\ is_space a = false) -> exists p l, split_ws s = p :: l /\ first_word (Shell s) p.
Proof.
  unfold split_ws. induction s as [|a s IH]; intros (b & I & B); [contradiction|].
  cbn [split_ws_aux]. destruct (is_space a) eqn:E.
  - destruct I as [<-|I]; [congruence|]. destruct IH as (p & l & S & F); [eauto|].
    exists p, l. split; [exact S|]. inversion F as [|sp q rest SP P Q R]; subst.
    apply (fw_shell (a :: sp) p rest); auto.
  - destruct (split_ws_cur s [a]) as (x & rest & X & F & r & R & D); [discriminate|].
    exists (a :: x), rest. split; [exact X|]. rewrite R.
    apply (fw_shell [] (a :: x) r); auto. discriminate.
Qed.

Lemma words c : names_program c -> exists p l, (match c with Shell l => split_ws l | Argv a => a end) = p :: l /\ first_word c p.
Proof.
  destruct c as [line|args]; cbn; intros H.
  - now apply split_ws_first.
  - destruct args as [|p l]; [contradiction|]. exists p, l. split; [reflexivity|constructor].
Qed.

(** do_popen *)
Lemma popen_ok w c cwd : names_program c -> usable w c cwd ->
  (starts w c cwd /\ do_popen w c cwd = ([], Ok (Some (sys_run w c cwd)))) \/
  (~ starts w c cwd /\ exists m, trouble w c cwd m /\ do_popen w c cwd = ([m], Ok None)).
Proof.
  intros N U. unfold do_popen, popen_, starts. destruct cwd as [d|].
  - destruct (sys_entry w d) eqn:E.
    + right. split.
      * intros [_ H]. rewrite (H d eq_refl) in E. discriminate.
      * exists (LNoDir (Some d)). split; [now constructor|reflexivity].
    + right. split.
      * intros [_ H]. rewrite (H d eq_refl) in E. discriminate.
      * exists (LNotDir (Some d)). split; [now constructor|reflexivity].
    + destruct (sys_found w (Some d) (program c)) eqn:F.
      * left. split; [split; [reflexivity|intros d' [= <-]; exact E]|].
        destruct (sys_run w c (Some d)) as [[st out] err]. reflexivity.
      * right. split; [intros [H _]; discriminate|].
        destruct (words c N) as (p & l & W & P). rewrite W.
        exists (LNotFound p). split; [now constructor|reflexivity].
  - destruct U as [U|U]; [now contradiction U|]. rewrite U. left.
    split; [split; [reflexivity|discriminate]|]. destruct (sys_run w c None) as [[st out] err]. reflexivity.
Qed.

Lemma ensure_ok w c cwd capture console : names_program c -> usable w c cwd -> capture && console = false ->
  ensured w c cwd capture console (ensure_command w c cwd capture console).
Proof.
  intros N U X. unfold ensure_command.
  assert (B : negb (negb console || negb capture) = false) by (destruct capture, console; now try discriminate).
  rewrite B. destruct (popen_ok w c cwd N U) as [[S E]|(S & m & T & E)]; rewrite E.
  - left. split; [exact S|]. destruct (sys_run w c cwd) as [[status out] err]. exists status, out, err.
    split; [reflexivity|]. destruct (status =? 0) eqn:Z; cbn [negb].
    + apply Z.eqb_eq in Z. left. auto.
    + apply Z.eqb_neq in Z. right. split; [exact Z|]. eexists. split; [reflexivity|].
      destruct console; [reflexivity|apply error_part_ok].
  - right. split; [exact S|]. exists m. auto.
Qed.

Lemma run_ok w c cwd : names_program c -> usable w c cwd ->
  (starts w c cwd /\ exists status out err, sys_run w c cwd = (status, out, err) /\ run_command w c cwd = ([], Ok status)) \/
  (~ starts w c cwd /\ exists m, trouble w c cwd m /\ run_command w c cwd = ([m], Ok 127)).
Proof.
  intros N U. unfold run_command. destruct (popen_ok w c cwd N U) as [[S E]|(S & m & T & E)]; rewrite E.
  - left. split; [exact S|]. destruct (sys_run w c cwd) as [[status out] err]. exists status, out, err. auto.
  - right. split; [exact S|]. exists m. auto.
Qed.

Lemma missing_program w c capture console : sys_found w None (program c) = false -> capture && console = false ->
  ensure_command w c None capture console = ([], Raise AttributeError) /\
  run_command w c None = ([], Raise AttributeError).
Proof.
  intros F X. unfold ensure_command, run_command, do_popen, popen_. rewrite F.
  destruct capture, console; now try discriminate.
Qed.

(** gcc_version *)
Lemma trimmed_strip s : trimmed s (strip s).
Proof.
  destruct (proj1 (L_Config.strip_iff s (strip s)) eq_refl) as (a & b & A & B & E & H & T).
  exists a, b. repeat split; auto. intros c r R. exact (T r c R).
Qed.
Lemma first_of_lines s : match splitlines s with [] => s = [] | l :: _ => first_line s l end.
Proof.
  induction s as [|c s IH]; [reflexivity|]. cbn [splitlines]. destruct (is_break c) eqn:E.
  - change (c :: s) with ([] ++ c :: s). constructor; [constructor|now apply L_ElfText.is_break_iff].
  - assert (S_Elf.row [c]) as R by (apply L_ElfText.break_row; intros d [<-|[]]; exact E).
    destruct (splitlines s) as [|l ls].
    + subst s. constructor; [discriminate|exact R].
    + inversion IH as [x d r X D|x N X]; subst.
      * change (c :: l ++ d :: r) with ((c :: l) ++ d :: r). constructor; [constructor; [now inversion R|exact X]|exact D].
      * constructor; [discriminate|]. constructor; [now inversion R|exact X].
Qed.

Lemma gcc_ok w (gcc : str) : sys_found w None gcc = true ->
  exists status out err, sys_run w (Argv [gcc; $"--version"]) None = (status, out, err) /\
  ((status = 0 /\ out = [] /\ gcc_version w gcc = ([], Raise IndexError)) \/
   (status = 0 /\ exists line v, first_line out line /\ trimmed line v /\ gcc_version w gcc = ([], Ok v)) \/
   (status <> 0 /\ exists part, error_part err part /\
      gcc_version w gcc = ([LFailed status (Argv [gcc; $"--version"]) part], Exit 1))).
Proof.
  intros F. unfold gcc_version.
  destruct (ensure_ok w (Argv [gcc; $"--version"]) None true false) as [(S & status & out & err & R & D)|(S & _)].
  { cbn. discriminate. } { right. exact F. } { reflexivity. }
  2: { exfalso. apply S. split; [exact F|discriminate]. }
  exists status, out, err. split; [exact R|]. destruct D as [[Z E]|(Z & part & E & P)]; rewrite E.
  - pose proof (first_of_lines out) as L. unfold bind. destruct (splitlines out) as [|l ls].
    + left. split; [exact Z|]. split; [exact L|reflexivity].
    + right. left. split; [exact Z|]. exists l, (strip l). repeat split; auto. apply trimmed_strip.
  - right. right. split; [exact Z|]. exists part. split; [exact P|reflexivity].
Qed.

Lemma git_ok w repo (ref : str) :
  (starts w (Argv [$"git"; $"checkout"; ref]) (Some repo) /\
   exists status out err, sys_run w (Argv [$"git"; $"checkout"; ref]) (Some repo) = (status, out, err) /\
   ((status = 0 /\ git_checkout w repo ref = ([], Ok tt)) \/
    (status <> 0 /\ exists part, error_part err part /\
      git_checkout w repo ref = ([LFailed status (Argv [$"git"; $"checkout"; ref]) part], Exit 1)))) \/
  (~ starts w (Argv [$"git"; $"checkout"; ref]) (Some repo) /\
   exists m, trouble w (Argv [$"git"; $"checkout"; ref]) (Some repo) m /\ git_checkout w repo ref = ([m], Exit 127)).
Proof.
  unfold git_checkout. destruct (ensure_ok w (Argv [$"git"; $"checkout"; ref]) (Some repo) false false)
    as [(S & status & out & err & R & D)|(S & m & T & E)]; [cbn; discriminate|left; discriminate|reflexivity| |].
  - left. split; [exact S|]. exists status, out, err. split; [exact R|]. destruct D as [[Z E]|(Z & part & E & P)].
    + left. split; [exact Z|]. now rewrite E.
    + right. split; [exact Z|]. exists part. split; [exact P|]. now rewrite E.
  - right. split; [exact S|]. exists m. rewrite E. auto.
Qed.

Lemma missing_readelf : exists w c, names_program c /\ sys_found w None (program c) = false /\
  ensure_command w c None true false = ([], Raise AttributeError).
Proof.
  exists (System (fun _ => Dir) (fun _ _ => false) (fun _ _ => (0, [], []))), (Argv [$"readelf"; $"-WS"; $"vmlinux"]).
  split; [cbn; discriminate|]. split; [reflexivity|]. vm_compute. reflexivity.
Qed.
