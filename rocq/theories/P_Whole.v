(** Property C98: the analysis of sound input succeeds. *)
From Coq Require Import List Bool Ascii String ZArith Lia Permutation.
From Verif Require Import PyBase PyFacts M_Utils M_Elf S_Elf M_Syscall M_Arch M_Emu M_Kconfig M_Kernel S_Kernel M_Location M_Annotate
  S_Build S_Signature S_Location S_Declared S_Whole L_Kernel4 L_Kernel7 L_Location L_Whole2 P_Kernel P_Declared.
Import ListNotations.
Open Scope Z_scope.
Open Scope list_scope.

(** Addresses were found, all of them have symbols and one is implemented; the rest of the image is
    in order; the debug information and the search name existing lines, and definitions there are
    written as usual. *)
Theorem C98_succeeds : forall t a e v vaddrs w have p rdir kres ans dir kdir out,
  v_annotate t = annotate w have (adjust_abi a e) e p (Some kdir) rdir kres ->
  (forall l, Permutation (v_ni_order t l) l) -> syscall_vaddrs t (adjust_abi a e) e = Ok vaddrs -> sound_input (adjust_abi a e) e (map snd vaddrs) ->
  (exists i v', In (i, v') vaddrs /\ has_symbol e v' /\ ~ not_implemented e v') ->
  (forall i v', In (i, v') vaddrs -> has_symbol e v' \/ not_implemented e v') ->
  addr2line_says (w_addr2line w) ans -> parent_of p dir -> w_grep w = Ok out -> Forall (honest_line (w_file w) kdir) out ->
  answers_fit (w_file w) ans dir kdir rdir -> definitions_fine (w_file w) ans dir kdir rdir out (adjust_abi a e) (e_big e) -> metadata_fine e ->
  (forall s, In s (map snd (e_symbols e)) -> steady_symbol (w_file w) ans dir kdir rdir s) ->
  (forall found, candidates (v_ni_order t) (adjust_abi a e) e v vaddrs = Ok found -> Forall fit_names found) ->
  exists r, extract_syscalls t a e v (Some kdir) = Ok r.
Proof. exact whole_total. Qed.
Print Assumptions C98_succeeds.

(** The same from the contents of the table in the image. *)
Theorem C98_table : forall t a e v name ps w have p rdir kres ans dir kdir out,
  v_annotate t = annotate w have (adjust_abi a e) e p (Some kdir) rdir kres ->
  (forall l, Permutation (v_ni_order t l) l) -> a_table (adjust_abi a e) = Some name -> table_of (adjust_abi a e) e name ps ->
  sound_input (adjust_abi a e) e ps ->
  (exists v', In v' ps /\ has_symbol e v' /\ ~ not_implemented e v') ->
  (forall v', In v' ps -> has_symbol e v' \/ not_implemented e v') ->
  addr2line_says (w_addr2line w) ans -> parent_of p dir -> w_grep w = Ok out -> Forall (honest_line (w_file w) kdir) out ->
  answers_fit (w_file w) ans dir kdir rdir -> definitions_fine (w_file w) ans dir kdir rdir out (adjust_abi a e) (e_big e) -> metadata_fine e ->
  (forall s, In s (map snd (e_symbols e)) -> steady_symbol (w_file w) ans dir kdir rdir s) ->
  (forall found, candidates (v_ni_order t) (adjust_abi a e) e v (enum_from 0 ps) = Ok found -> Forall fit_names found) ->
  exists r, extract_syscalls t a e v (Some kdir) = Ok r.
Proof. exact table_total. Qed.
Print Assumptions C98_table.

(** Without sources the debug information need not fit anything. *)
Theorem C98_without_sources : forall t a e v vaddrs w have p rdir kres ans,
  v_annotate t = annotate w have (adjust_abi a e) e p None rdir kres ->
  (forall l, Permutation (v_ni_order t l) l) -> syscall_vaddrs t (adjust_abi a e) e = Ok vaddrs -> sound_input (adjust_abi a e) e (map snd vaddrs) ->
  (exists i v', In (i, v') vaddrs /\ has_symbol e v' /\ ~ not_implemented e v') ->
  (forall i v', In (i, v') vaddrs -> has_symbol e v' \/ not_implemented e v') ->
  addr2line_says (w_addr2line w) ans -> metadata_fine e ->
  exists r, extract_syscalls t a e v None = Ok r.
Proof. exact sourceless_total. Qed.
Print Assumptions C98_without_sources.

(** The image and the source of C97's example meet all of this. *)
Definition ex_fork_a : arch := adjust_abi ex_a ex_fork_e.
Example C98_example_image : (forall l, Permutation (v_ni_order ex_fork_t l) l) /\ sound_input ex_fork_a ex_fork_e [4112; 4096] /\ metadata_fine ex_fork_e /\
  (exists v', In v' [4112; 4096] /\ has_symbol ex_fork_e v' /\ ~ not_implemented ex_fork_e v') /\
  (forall v', In v' [4112; 4096] -> has_symbol ex_fork_e v' \/ not_implemented ex_fork_e v').
Proof.
  assert (has_symbol ex_fork_e 4112) as H1.
  { exists (Symbol 4112 4112 16 $"FUNC" $"stub_fork"). split; [vm_compute; auto 10|reflexivity]. }
  assert (forall v f, ni_at ex_fork_e v f -> f = Symbol 4096 4096 16 $"FUNC" $"sys_ni_syscall") as Ni.
  { intros v f N. assert (ni_at ex_fork_e (sym_vaddr f) f) as N' by (destruct N as (N1 & N2 & N3 & N4); split; [exact N1|split; [exact N2|split; [exact N3|reflexivity]]]).
    apply ni_functions_iff in N'. vm_compute in N'. destruct N' as [<-|[]]. reflexivity. }
  split; [intros l; apply Permutation_refl|]. split; [|split; [left; vm_compute; reflexivity|split]].
  - constructor; [| |discriminate|discriminate].
    + intros v f N. rewrite (Ni v f N). eexists _, _. split; vm_compute; reflexivity.
    + intros v s _ (I & E). split; [|discriminate]. vm_compute in I.
      repeat destruct I as [<-|I]; try contradiction; [exists []|exists (firstn 16 (skipn 64 (e_file ex_fork_e)))|exists (firstn 16 (skipn 80 (e_file ex_fork_e)))|exists []];
        (split; [eexists _, _; split; vm_compute; reflexivity|vm_compute; reflexivity]).
  - exists 4112. split; [now left|]. split; [exact H1|]. intros (f & F). pose proof (Ni _ _ F) as ->. destruct F as (_ & _ & _ & V). discriminate.
  - intros v' [<-|[<-|[]]]; [now left|]. left. exists (Symbol 4096 4096 16 $"FUNC" $"sys_ni_syscall"). split; [vm_compute; auto 10|reflexivity].
Qed.
Lemma ex_fork_places dir v f n : place_of dir (path_of_str $"/k") None (ex_fork_ans v) f n -> v = 4112 /\ n = 6 /\ (dir = path_of_str $"/b" -> f = ex_fork_f).
Proof.
  unfold ex_fork_ans. destruct (Z.eqb_spec v 4112) as [->|N]; intros H; inversion H as [g m p q M R]; subst. split; [reflexivity|]. split; [reflexivity|]. intros ->.
  match type of M with moved _ _ ?x _ => remember x as q0 eqn:Q end. revert Q R. clear H. destruct M as [t|p' O]; intros Q R.
  - apply (f_equal (fun q => hd [] (parts q))) in Q. vm_compute in Q. discriminate.
  - subst p'. inversion R as [r t E|p' O' E|p' O' E]; [discriminate|reflexivity|]. vm_compute in E. discriminate.
Qed.
Example C98_example_sources : let file := w_file ex_fork_w in let b := path_of_str $"/b" in let k := path_of_str $"/k" in
  w_grep ex_fork_w = Ok [] /\ answers_fit file ex_fork_ans b k None /\ definitions_fine file ex_fork_ans b k None [] ex_fork_a (e_big ex_fork_e) /\
  (forall s, In s (map snd (e_symbols ex_fork_e)) -> steady_symbol file ex_fork_ans b k None s).
Proof.
  intros file b k. split; [reflexivity|]. split; [|split].
  - intros v f n content ls P W L. apply ex_fork_places in P as (-> & -> & E). rewrite (E eq_refl) in W. injection W as <-. rewrite <- (lines_of_keep _ _ L). vm_compute. discriminate.
  - intros f l content text name R W T N D. inversion R as [v n c ls P W' L A|line I]; [|contradiction]. apply ex_fork_places in P as (-> & -> & E). rewrite (E eq_refl) in *.
    assert (c = content) as -> by congruence. injection W as <-. assert (l = 3) as ->; [|exists [$"int flags"; $"char *p"]; exact C97_example_declares].
    assert (w_file ex_fork_w ex_fork_f = Some ex_fork_c) as W by reflexivity.
    pose proof (adjust_line_spec ex_fork_w ex_fork_f ex_fork_c ls 6 W L) as X. rewrite <- (lines_of_keep _ _ L) in X, A. specialize (X ltac:(vm_compute; discriminate) l). apply X in A.
    vm_compute in A. now injection A as <-.
  - intros s I v f n B P _. apply ex_fork_places in P as (-> & _). exfalso. vm_compute in I. repeat destruct I as [<-|I]; cbn in B; lia || contradiction.
Qed.
Lemma ex_fork_open : elf_open (ex_header ++ ex_code ++ ex_words [4112; 4096; 0]) ex_sections (unlines
  [ex_line "0000000000002000" "0" "OBJECT" "sys_call_table"; ex_line "0000000000001000" "16" "FUNC" "sys_ni_syscall";
   ex_line "0000000000001010" "16" "FUNC" "stub_fork"; ex_line "0000000000002100" "0" "OBJECT" "after_table"]) = Ok ex_fork_e.
Proof. vm_compute. reflexivity. Qed.
Example C98_example_table : table_of ex_fork_a ex_fork_e $"sys_call_table" [4112; 4096].
Proof.
  apply (table_no_descriptors _ _ _ (Symbol 8192 8192 0 $"OBJECT" $"sys_call_table") (Section_ $".text" 4096 64 64)); [vm_compute; reflexivity|vm_compute; reflexivity|vm_compute; reflexivity|].
  right. split; [vm_compute; discriminate|]. apply C20_unsized_table; [|vm_compute; discriminate|vm_compute; reflexivity].
  eexists _, _, _. exact ex_fork_open.
Qed.
Example C98_example_names : forall found, candidates (v_ni_order ex_fork_t) ex_fork_a ex_fork_e [5;10] [(0, 4112); (1, 4096)] = Ok found -> Forall fit_names found.
Proof.
  intros found H. vm_compute in H. injection H as <-. constructor; [|constructor]. apply L_Location2.word_fit. split; (split; [discriminate|reflexivity]).
Qed.
(** So C98_table applies to them. *)
Example C98_example : exists r, extract_syscalls ex_fork_t ex_a ex_fork_e [5;10] (Some (path_of_str $"/k")) = Ok r.
Proof.
  destruct C98_example_image as (H1 & H2 & H3 & H4 & H5). destruct C98_example_sources as (S1 & S2 & S3 & S4). destruct C97_example_says as (A1 & A2).
  apply (C98_table ex_fork_t ex_a ex_fork_e [5;10] $"sys_call_table" [4112; 4096] ex_fork_w true (path_of_str $"/b/vmlinux") None (path_of_str $"/k")
    ex_fork_ans (path_of_str $"/b") (path_of_str $"/k") []); try assumption; [reflexivity|vm_compute; reflexivity|exact C98_example_table|constructor|exact C98_example_names].
Qed.
