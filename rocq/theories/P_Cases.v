(** Cases in which the theorems on unique numbers (C25), on the emulation of the dispatcher (C41-C43) and
    on full-range adjustment (C56) say something. *)
From Coq Require Import List Bool Ascii String ZArith Lia Permutation.
From Verif Require Import PyBase PyFacts M_Utils M_Elf M_Syscall M_Arch M_Kernel M_Emu S_Emu P_Emu S_Kernel P_Kernel.
Import ListNotations.
Open Scope Z_scope.
Open Scope list_scope.

Example C25_example : exists r, extract_syscalls ex_env ex_a ex_e [5;10] None = Ok r /\ map sc_number r = [0; 2] /\
  arch_new KX86 [5;10] $"x64" false = Ok ex_a /\ (forall l, Permutation (v_ni_order ex_env l) l) /\ annotates (v_annotate ex_env).
Proof.
  eexists. split; [vm_compute; reflexivity|]. split; [reflexivity|]. split; [exact ex_arch_ok|]. split; [exact ex_order|exact ex_annotates].
Qed.

Ltac inside := unfold C40_prog; cbn [In]; tauto.
Lemma go_cmp n ip nx r z f : reach 100 C40_prog n ip f -> In (Insn ip nx (ICmp [OReg r; OImm z])) C40_prog -> reach 100 C40_prog n nx (Some z).
Proof. intros R I. exact (rc_step 100 C40_prog n (Insn ip nx (ICmp [OReg r; OImm z])) f _ _ R I (st_cmp n (Insn ip nx (ICmp [OReg r; OImm z])) f r z eq_refl)). Qed.
Lemma go_test n ip nx r f : reach 100 C40_prog n ip f -> In (Insn ip nx (ITest [OReg r; OReg r])) C40_prog -> reach 100 C40_prog n nx (Some 0).
Proof. intros R I. exact (rc_step 100 C40_prog n (Insn ip nx (ITest [OReg r; OReg r])) f _ _ R I (st_test n (Insn ip nx (ITest [OReg r; OReg r])) f r eq_refl)). Qed.
Lemma go_jmp n ip nx t f : reach 100 C40_prog n ip f -> In (Insn ip nx (IJmp t)) C40_prog -> reach 100 C40_prog n t f.
Proof. intros R I. exact (rc_step 100 C40_prog n (Insn ip nx (IJmp t)) f _ _ R I (st_jmp n (Insn ip nx (IJmp t)) f t eq_refl)). Qed.
Lemma go_taken n ip nx c t z : reach 100 C40_prog n ip (Some z) -> In (Insn ip nx (IJcc c t)) C40_prog -> holds c n z -> reach 100 C40_prog n t (Some z).
Proof. intros R I H. exact (rc_step 100 C40_prog n (Insn ip nx (IJcc c t)) _ _ _ R I (st_taken n (Insn ip nx (IJcc c t)) _ c t z eq_refl eq_refl H)). Qed.
Lemma go_on n ip nx c t z : reach 100 C40_prog n ip (Some z) -> In (Insn ip nx (IJcc c t)) C40_prog -> ~ holds c n z -> reach 100 C40_prog n nx (Some z).
Proof. intros R I H. exact (rc_step 100 C40_prog n (Insn ip nx (IJcc c t)) _ _ _ R I (st_not_taken n (Insn ip nx (IJcc c t)) _ c t z eq_refl eq_refl H)). Qed.
(** 9 goes through 100, 103, 105 and 108 to 2000. *)
Lemma C41_nine : reach 100 C40_prog 9 108 (Some 9).
Proof.
  apply (go_cmp 9 105 108 1 9 (Some 3)); [|inside]. apply (go_on 9 103 105 CBE 112 3); [|inside|cbn; lia].
  apply (go_cmp 9 100 103 1 3 None); [apply rc_start|inside].
Qed.
Example C41_example : dispatcher 1 100 118 C40_prog /\
  exists i f f', reach 100 C40_prog 9 (i_ip i) f /\ In i C40_prog /\ step 9 i f 2000 f' /\ exits 100 118 i 2000.
Proof.
  split; [exact C40_is_dispatcher|]. exists (Insn 108 110 (IJcc CE 2000)), (Some 9), (Some 9). split; [exact C41_nine|]. split; [cbn; tauto|]. split.
  - apply (st_taken 9 _ _ CE 2000 9); reflexivity.
  - split; [right; right; now exists CE|lia].
Qed.
(** 2 jumps to 112 first and comes back to 105. *)
Example C42_example : reaches 100 C40_prog 2 3000 /\ exists m l c, emulate same_kind 100 118 C40_prog = Ok (Some (m, l)) /\
  In c l /\ target_of c = 3000 /\ In 2 (get m 3000) /\ ~ In 9 (get m 3000).
Proof.
  split.
  - exists (Some 9). apply (go_jmp 2 110 112 3000); [|inside]. apply (go_on 2 108 110 CE 2000 9); [|inside|cbn; lia].
    apply (go_cmp 2 105 108 1 9 (Some 0)); [|inside]. apply (go_jmp 2 116 118 105); [|inside].
    apply (go_on 2 114 116 CE 1000 0); [|inside|cbn; lia]. apply (go_test 2 112 114 1 (Some 3)); [|inside].
    apply (go_taken 2 103 105 CBE 112 3); [|inside|cbn; lia]. apply (go_cmp 2 100 103 1 3 None); [apply rc_start|inside].
  - destruct (C40_dispatchers_accepted same_kind same_kind_kind 1 100 118 C40_prog C40_is_dispatcher) as (m & l & E).
    pose proof C40_example as X. rewrite E in X. destruct X as (_ & _ & _ & T & _).
    assert (In 3000 (map target_of l)) as I by (rewrite T; cbn; tauto). apply in_map_iff in I. destruct I as (c & C & I).
    exists m, l, c. split; [exact E|]. split; [exact I|]. split; [exact C|].
    assert (existsb (Z.eqb 2) (get m 3000) = true /\ existsb (Z.eqb 9) (get m 3000) = false) as [A B].
    { replace m with (match emulate same_kind 100 118 C40_prog with Ok (Some (m, _)) => m | _ => m end) by (now rewrite E). vm_compute. split; reflexivity. }
    split.
    + apply existsb_exists in A. destruct A as (x & X & Q). apply Z.eqb_eq in Q. now subst.
    + intros H. assert (existsb (Z.eqb 9) (get m 3000) = true) as Q by (apply existsb_exists; exists 9; split; [exact H|reflexivity]). congruence.
Qed.
(** The order of the exits does not matter here, and two exits for a crowd make the result empty. *)
Example C43_example : match emulate same_kind 100 118 C40_prog with
  | Ok (Some (m, l)) => map target_of (rev l) = [1000; 3000; 2000] /\ collect m (rev l) [] false = [(0, 1000); (9, 2000)] /\
      collect m (l ++ [Insn 0 0 (IJmp 3000)]) [] false = []
  | _ => False
  end.
Proof. vm_compute. repeat split. Qed.
