(** Property C119 (preparing a debug message). *)
From Coq Require Import List Bool Ascii String ZArith Lia Permutation.
From Verif Require Import PyBase PyFacts M_Utils M_Elf M_Arch M_Emu M_Skipped S_Emu S_Default S_Skipped L_Emu L_Emu2 L_Emu3 L_Skipped P_Kernel P_Emu P_Program P_Default.
Import ListNotations.
Open Scope Z_scope.
Open Scope list_scope.

(** If instructions can be compared with [<], the message changes nothing. *)
Theorem C119_ordered : forall decode same lt nop order a e, (forall x y, exists v, lt x y = Ok v) ->
  extract_with_debug decode same lt nop order a e = extract_syscall_vaddrs decode same order a e.
Proof. exact debug_fine. Qed.
Print Assumptions C119_ordered.

(** If they cannot, a dispatcher that is understood is an exception exactly if two different
    instructions not followed occur equally often. *)
Theorem C119_unordered : forall same nop, an_equality same ->
  forall decode order a e sym code, a_table a = None -> dget str_eqb (a_abi a ++ $"_sys_call") (e_functions e) = Some sym -> 16 <= sym_size sym ->
  read_symbol e sym = Ok code ->
  let prog := decode (a_bits32 a) code (sym_real sym) in
  let r := extract_with_debug decode same (fun _ _ => Raise TypeError) nop order a e in
  (tied same nop prog /\ emulate same (sym_real sym) (sym_real sym + sym_size sym) prog <> Ok None /\ r = Raise TypeError) \/
  ((~ tied same nop prog \/ emulate same (sym_real sym) (sym_real sym + sym_size sym) prog = Ok None) /\ r = extract_syscall_vaddrs decode same order a e).
Proof. exact debug_exact. Qed.
Print Assumptions C119_unordered.

(** PUSH RBP; MOV RBP, RSP; and a dispatcher for one syscall.  Here instructions are equal if they are of
    one kind and have the same length. *)
Definition same_size (a b : insn) : bool := same_kind a b && (i_next a - i_ip a =? i_next b - i_ip b).
Definition C119_prog : list insn :=
  [Insn 4128 4129 IOther; Insn 4129 4132 IOther; Insn 4132 4134 (ITest [OReg 1; OReg 1]); Insn 4134 4136 (IJcc CE 4112); Insn 4136 4144 (IJmp 4096)].
Lemma same_size_equality : an_equality same_size.
Proof.
  destruct same_kind_equality as (R & S & T & K). unfold same_size. split; [intros a; rewrite R, Z.eqb_refl; reflexivity|]. split; [|split].
  - intros a b H. apply andb_true_iff in H as [H1 H2]. rewrite (S _ _ H1). apply Z.eqb_eq in H2. rewrite H2. apply Z.eqb_refl.
  - intros a b c H H'. apply andb_true_iff in H as [H1 H2]. apply andb_true_iff in H' as [H1' H2']. rewrite (T _ _ _ H1 H1').
    apply Z.eqb_eq in H2. apply Z.eqb_eq in H2'. rewrite H2, H2'. apply Z.eqb_refl.
  - intros a b H. apply andb_true_iff in H as [H _]. auto.
Qed.
Lemma C119_dispatcher : dispatcher 1 4128 4144 C119_prog.
Proof.
  unfold C119_prog. split.
  - repeat match goal with |- code_from _ (?i :: _) _ => apply (cf_cons i); [cbn; lia|cbn [i_next]] end. apply cf_nil.
  - repeat constructor; unfold supported; cbn; eauto; discriminate.
  - assert (forall i, In i C119_prog -> ~ branches_to i 4134) as No.
    { intros i I B. repeat destruct I as [<-|I]; destruct B as [B|[B|(c & B)]]; cbn in B; try discriminate; try contradiction. }
    intros pre j post E (c & t & K).
    repeat (destruct pre as [|? pre]; injection E; clear E; intros E; intros; subst; try discriminate).
    all: try (destruct pre; discriminate).
    match goal with |- exists _ _ _, [?a;?b;?c] = _ /\ _ => exists [a;b], c, [] end.
    split; [reflexivity|]. split; [exact I|]. split; [apply Forall_nil|]. intros k i [<-|[]] Hi. now apply No.
  - exists (Insn 4132 4134 (ITest [OReg 1; OReg 1])). split; [right; right; now left|exact I].
  - intros a i j b E [ops K].
    repeat (destruct a as [|? a]; injection E; clear E; intros E; intros; subst; try discriminate).
    all: try (exists 4112; now left).
    all: try (destruct a as [|? [|? ?]]; discriminate).
Qed.
Theorem C119_message_refuted : exists same nop decode order a e start stop prog r, an_equality same /\ (forall l, Permutation (order l) l) /\
  has_dispatcher decode a e start stop prog /\ extract_syscall_vaddrs decode same order a e = Ok r /\ r <> [] /\
  extract_with_debug decode same (fun _ _ => Raise TypeError) nop order a e = Raise TypeError.
Proof.
  exists same_size, (fun _ => false), (fun _ _ _ => C119_prog), (fun l => l), ex_px_b, ex_px_e, 4128, 4144, C119_prog, [(0, 4112)].
  split; [exact same_size_equality|]. split; [reflexivity|]. split.
  { split; [vm_compute; reflexivity|]. exists (Symbol 4128 4128 16 $"FUNC" $"x64_sys_call"), 1, (repeat (chr 2) 16).
    split; [vm_compute; reflexivity|]. split; [vm_compute; discriminate|]. split; [reflexivity|]. split; [reflexivity|]. split; [vm_compute; reflexivity|]. split; [reflexivity|exact C119_dispatcher]. }
  split; [vm_compute; reflexivity|]. split; [discriminate|]. vm_compute. reflexivity.
Qed.
Print Assumptions C119_message_refuted.

(** With one of them twice, or as NOPs, there is no tie. *)
Example C119_example :
  extract_with_debug (fun _ _ _ => Insn 4127 4128 IOther :: C119_prog) same_size (fun _ _ => Raise TypeError) (fun _ => false) (fun l => l) ex_px_b ex_px_e
    = extract_syscall_vaddrs (fun _ _ _ => Insn 4127 4128 IOther :: C119_prog) same_size (fun l => l) ex_px_b ex_px_e /\
  extract_with_debug (fun _ _ _ => C119_prog) same_size (fun _ _ => Raise TypeError) (fun _ => true) (fun l => l) ex_px_b ex_px_e = Ok [(0, 4112)] /\
  skipped same_size (fun _ => false) (Insn 4127 4128 IOther :: C119_prog) = [(Insn 4127 4128 IOther, 2); (Insn 4129 4132 IOther, 1)].
Proof. vm_compute. repeat split. Qed.
Example C119_example_tied : tied same_size (fun _ => false) C119_prog.
Proof.
  apply (tied_iff same_size (fun _ => false) same_size_equality). exists (Insn 4128 4129 IOther, 1), (Insn 4129 4132 IOther, 1).
  split; [now left|]. split; [right; now left|]. split; reflexivity.
Qed.
