(** Property C115: options that do not concern what is found do not change it. *)
From Coq Require Import List Bool Ascii String ZArith Lia.
From Verif Require Import PyBase PyFacts M_Utils M_Elf M_Syscall M_Arch M_Kernel M_Search M_Command M_Output M_Main M_Args M_Program
  S_Main S_Args S_Program S_Options L_Args4 L_Args7 L_Args8 L_Main L_Main2 L_Options P_Program.
Import ListNotations.
Open Scope Z_scope.
Open Scope list_scope.

(** -q and -v change what is said only: the run ends in the same way, and the same is done and printed. *)
Theorem C115_messages : forall c argv argv' g g' h r, unmoved c -> asks argv g -> asks argv' g' -> same_work g g' ->
  on_computer c argv [] = (h, r) -> exists h' d, on_computer c argv' [] = (h', r) /\ deeds h d /\ deeds h' d.
Proof.
  intros c argv argv' g g' h r U P P' S E.
  destruct (run_deaf c argv argv' g g' U (proj2 (L_Args7.accepts _ _) P) (proj2 (L_Args7.accepts _ _) P') S) as [R (d & D & D')].
  rewrite E in R, D. destruct (on_computer c argv' []) as [h' r']. cbn [fst snd] in *. subst r'. exists h', d. auto.
Qed.
Print Assumptions C115_messages.
(** If neither or both are silent, even the same is said. *)
Theorem C115_loud : forall c argv argv' g g' h, asks argv g -> asks argv' g' -> same_work g g' ->
  ((0 < g_quiet g /\ g_verbose g = 0) <-> (0 < g_quiet g' /\ g_verbose g' = 0)) -> on_computer c argv h = on_computer c argv' h.
Proof.
  intros c argv argv' g g' h P P' S E. apply (run_loud c argv argv' g g' h (proj2 (L_Args7.accepts _ _) P) (proj2 (L_Args7.accepts _ _) P') S).
  destruct (asked_ok _ _ P) as (_ & _ & V). destruct (asked_ok _ _ P') as (_ & _ & V'). lia.
Qed.
Print Assumptions C115_loud.

(** The format, --absolute-paths and the options for preparing sources: an analysis is the same, or the same
    syscalls are found after the same steps, and shown in the two forms; they differ in the paths only. *)
Theorem C115_form : forall c argv argv' g g' h, asks argv g -> asks argv' g' -> same_search g g' -> ~ preparing g ->
  on_computer c argv h = on_computer c argv' h \/
  exists v a scs shown shown' h1, scs <> [] /\ Forall2 (shown_as g) scs shown /\ Forall2 (shown_as g') scs shown' /\
    closes c v a shown (g_format g) h1 (on_computer c argv h) /\ closes c v a shown' (g_format g') h1 (on_computer c argv' h).
Proof.
  intros c argv argv' g g' h P P' S NP.
  exact (run_ways c argv argv' g g' h (proj2 (L_Args7.accepts _ _) P) (proj2 (L_Args7.accepts _ _) P') (proj1 (asked_ok _ _ P)) (proj1 (asked_ok _ _ P')) S NP).
Qed.
Print Assumptions C115_form.
(** So what can be shown in some form can be shown as text. *)
Theorem C115_text : forall c argv argv' g g' h, asks argv g -> asks argv' g' -> same_search g g' -> ~ preparing g ->
  (forall n, g_arch g = Some n -> ~ asks_help n) -> g_format g' = $"text" ->
  on_computer c argv [] = (h, Ok 0) -> exists h1 d d', h = h1 ++ [Printed d] /\ on_computer c argv' [] = (h1 ++ [Printed d'], Ok 0).
Proof.
  intros c argv argv' g g' h P P' S NP NH T E. destruct (C115_form c argv argv' g g' [] P P' S NP) as [Q|(v & a & scs & shown & shown' & h1 & _ & _ & _ & Q & Q')].
  - pose proof E as R. unfold on_computer in R. rewrite (proj2 (L_Args7.accepts _ _) P) in R.
    destruct (main_result _ _ _ R NP NH) as (p & e & v & a & scs & shown & d & lines & h0 & h1 & h2 & _ & _ & _ & _ & _ & _ & _ & _ & _ & _ & Eh & _).
    exists (h1 ++ h2), d, d. rewrite <- app_assoc, <- Eh. split; [reflexivity|]. now rewrite <- Q, E.
  - rewrite E in Q. exists h1. destruct (on_computer c argv' []) as [h' r'] eqn:E'. remember (h, Ok 0) as p eqn:Ep. destruct Q as [d O|N O]; [|discriminate Ep].
    injection Ep as <-. exists d. remember (h', r') as p' eqn:Ep'. destruct Q' as [d' O'|N' O']; [|now destruct N'].
    exists d'. now split.
Qed.
Print Assumptions C115_text.

(** --cross, --out and --disable-opt have no effect on an analysis, and neither has --absolute-paths without sources. *)
Theorem C115_unused : forall c argv argv' g g' h, asks argv g -> asks argv' g' -> same_search g g' -> ~ preparing g ->
  g_format g = g_format g' -> g_absolute g = g_absolute g' \/ ~ present (g_kdir g) -> on_computer c argv h = on_computer c argv' h.
Proof.
  intros c argv argv' g g' h P P'. exact (run_unused c argv argv' g g' h (proj2 (L_Args7.accepts _ _) P) (proj2 (L_Args7.accepts _ _) P')).
Qed.
Print Assumptions C115_unused.
(** Without sources --remap has no effect. *)
Theorem C115_remap : forall c argv argv' g r h, asks argv g -> asks argv' (remapped r g) -> ~ present (g_kdir g) ->
  on_computer c argv h = on_computer c argv' h.
Proof.
  intros c argv argv' g r h P P'. exact (run_unmapped c argv argv' g r h (proj2 (L_Args7.accepts _ _) P) (proj2 (L_Args7.accepts _ _) P')).
Qed.
Print Assumptions C115_remap.

(** ** Examples: the computer of C103 *)

Definition ex_line (l : list str) : list str := l ++ [$"--arch"; $"x86-64"; $"--kdir"; $"/k"; $"/b/vmlinux"].
Definition ex_asked (l : list str) : args := match parse_args (ex_line l) with inr g => g | inl _ => namespace0 end.
Example C115_example_unmoved : unmoved ex_pc.
Proof. intros h h' d _ _. repeat split. Qed.
Example C115_example_asks : Forall (fun l => asks (ex_line l) (ex_asked l))
  [[$"-q"]; [$"-vvv"]; [$"--format"; $"json"]; [$"--absolute-paths"; $"-f"; $"html"; $"-o"; $"x"]] /\
  same_work (ex_asked [$"-q"]) (ex_asked [$"-vvv"]) /\
  same_search (ex_asked [$"--format"; $"json"]) (ex_asked [$"--absolute-paths"; $"-f"; $"html"; $"-o"; $"x"]) /\ ~ preparing (ex_asked [$"--format"; $"json"]).
Proof.
  split; [|split; [|split]].
  - repeat (apply Forall_cons; [apply (L_Args7.accepts _ _); vm_compute; reflexivity|]). apply Forall_nil.
  - vm_compute. repeat split.
  - vm_compute. repeat split.
  - intros [H|[H|H]]; vm_compute in H; discriminate H.
Qed.
Example C115_example_runs : map (fun l => let '(h, r) := on_computer ex_pc (ex_line l) [] in
    (List.length h, List.length (filter (fun x => match x with Said _ => false | _ => true end) h), r))
    [[$"-q"]; [$"-vvv"]; [$"--format"; $"json"]; [$"--absolute-paths"; $"-f"; $"html"; $"-o"; $"x"]] =
  [(1%nat, 1%nat, Ok 0); (4%nat, 1%nat, Ok 0); (4%nat, 1%nat, Ok 0); (4%nat, 1%nat, Ok 0)].
Proof. vm_compute. reflexivity. Qed.
