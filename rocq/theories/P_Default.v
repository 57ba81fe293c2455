(** Property C105: the default case of the x86 dispatcher. *)
From Coq Require Import List Bool Ascii String ZArith Lia Permutation.
From Verif Require Import PyBase PyFacts M_Utils M_Elf M_Arch M_Emu S_Dummy S_Elf S_Emu S_Default L_Dummy3 L_Emu L_Emu2 L_Emu3 L_Emu4 P_Kernel P_Emu P_Program.
Import ListNotations.
Open Scope Z_scope.
Open Scope list_scope.

(** The result is empty only if there is an exit that no number takes, or there are two different
    instructions that leave for addresses of more than 100 numbers, or there is nothing to map. *)
Theorem C105_empty : forall same decode order a e start stop prog, an_equality same -> (forall l, Permutation (order l) l) ->
  has_dispatcher decode a e start stop prog ->
  (extract_syscall_vaddrs decode same order a e = Ok [] <-> muddled same start stop prog \/ forall n v, ~ leads_to start stop prog n v).
Proof.
  intros same decode order a e start stop prog (Er & Es & Et & Ek) O (T & sym & reg & code & F & Sz & -> & -> & R & P & D). split.
  - exact (extract_empty same Ek decode order a e sym reg code prog O T F Sz R P D).
  - intros [M|N]; [exact (extract_muddled same Ek Es Et Er decode order a e sym reg code prog O T F Sz R P D M)|].
    destruct (extract_exact same Ek decode order a e sym reg code prog O T F Sz R P D) as (r & E & X). rewrite E. f_equal. destruct r as [|(n & v) r]; [reflexivity|].
    exfalso. apply (N n v). apply (X n v). cbn [dget]. now rewrite Z.eqb_refl.
Qed.
Print Assumptions C105_empty.
(** Otherwise all are given. *)
Theorem C105_given : forall same decode order a e start stop prog, an_equality same -> (forall l, Permutation (order l) l) ->
  has_dispatcher decode a e start stop prog -> ~ muddled same start stop prog ->
  exists r, extract_syscall_vaddrs decode same order a e = Ok r /\ forall n v, dget Z.eqb n r = Some v <-> leads_to start stop prog n v.
Proof.
  intros same decode order a e start stop prog (Er & Es & Et & Ek) O (T & sym & reg & code & F & Sz & -> & -> & R & P & D) M.
  destruct (extract_exact same Ek decode order a e sym reg code prog O T F Sz R P D) as (r & E & X). exists r. split; [exact E|]. intros n v. split; [apply (X n v)|].
  intros L. pose proof L as (L1 & L2 & L3 & L4). apply (X n v); try assumption. intros ->.
  destruct (extract_empty same Ek decode order a e sym reg code prog O T F Sz R P D E) as [Q|Q]; [contradiction|]. exact (Q n v L).
Qed.
Print Assumptions C105_given.

(** 0 -> 4112, all others -> 4096, once by a conditional jump and once by a jump *)
Definition ex_twice_prog : list insn :=
  [Insn 4128 4130 (ITest [OReg 1; OReg 1]); Insn 4130 4132 (IJcc CE 4112); Insn 4132 4136 (ICmp [OReg 1; OImm 200]);
   Insn 4136 4140 (IJcc CA 4096); Insn 4140 4144 (IJmp 4096)].
Lemma ex_twice_dispatcher : dispatcher 1 4128 4144 ex_twice_prog.
Proof.
  unfold ex_twice_prog. split.
  - repeat match goal with |- code_from _ (?i :: _) _ => apply (cf_cons i); [cbn; lia|cbn [i_next]] end. apply cf_nil.
  - repeat constructor; unfold supported; cbn; eauto; discriminate.
  - assert (forall k i, k = 4130 \/ k = 4136 -> In i ex_twice_prog -> ~ branches_to i k) as No.
    { intros k i Hk I B. repeat destruct I as [<-|I]; destruct B as [B|[B|(c & B)]]; cbn in B; try discriminate; try contradiction; destruct Hk as [->| ->]; discriminate. }
    intros pre j post E (c & t & K).
    repeat (destruct pre as [|? pre]; injection E; clear E; intros E; intros; subst; try discriminate).
    all: try (destruct pre; discriminate).
    all: try match goal with |- exists _ _ _, [?a] = _ /\ _ => exists [], a, [] end.
    all: try match goal with |- exists _ _ _, [?a;?b;?c] = _ /\ _ => exists [a;b], c, [] end.
    all: split; [reflexivity|]; split; [exact I|]; split; [apply Forall_nil|]; intros k i [<-|[]]; apply No; cbn; auto.
  - eexists. split; [now left|exact I].
  - intros a i j b E [ops K].
    repeat (destruct a as [|? a]; injection E; clear E; intros E; intros; subst; try discriminate).
    all: try (exists 4112; now left).
    all: try (destruct a as [|? [|? ?]]; discriminate).
Qed.
Lemma same_kind_equality : an_equality same_kind.
Proof.
  unfold same_kind. split; [intros a; now destruct (ikind_eq_dec _ _)|]. split; [|split; [|exact same_kind_kind]].
  - intros a b. destruct (ikind_eq_dec (i_kind a) (i_kind b)) as [->|]; [|discriminate]. now destruct (ikind_eq_dec _ _).
  - intros a b c. destruct (ikind_eq_dec (i_kind a) (i_kind b)) as [->|]; [|discriminate]. auto.
Qed.
Lemma ex_twice_has : has_dispatcher (fun _ _ _ => ex_twice_prog) ex_px_b ex_px_e 4128 4144 ex_twice_prog.
Proof.
  split; [vm_compute; reflexivity|]. exists (Symbol 4128 4128 16 $"FUNC" $"x64_sys_call"), 1, (repeat (chr 2) 16).
  split; [vm_compute; reflexivity|]. split; [vm_compute; discriminate|]. split; [reflexivity|]. split; [reflexivity|]. split; [vm_compute; reflexivity|]. split; [reflexivity|exact ex_twice_dispatcher].
Qed.

(** One default case is not enough: here all exits are taken and only those for 4096 by more than 100
    numbers, but there are two of them. *)
Theorem C105_one_default_refuted : exists same decode order a e start stop prog d n v, an_equality same /\ (forall l, Permutation (order l) l) /\
  has_dispatcher decode a e start stop prog /\
  (forall i t, In i prog -> exits start stop i t -> (exists n, 0 <= n < 4096 /\ reaches start prog n t) /\ (crowded start prog t -> t = d)) /\
  leads_to start stop prog n v /\ extract_syscall_vaddrs decode same order a e = Ok [].
Proof.
  exists same_kind, (fun _ _ _ => ex_twice_prog), (fun l => l), ex_px_b, ex_px_e, 4128, 4144, ex_twice_prog, 4096, 0, 4112.
  split; [exact same_kind_equality|]. split; [reflexivity|]. split; [exact ex_twice_has|].
  destruct (emulate_exact same_kind 1 4128 4144 ex_twice_prog ex_twice_dispatcher same_kind_kind) as (m & l & E & H1 & _).
  assert (get m 4112 = [0] /\ zin 1 (get m 4096) = true) as (G1 & G2).
  { assert (match emulate same_kind 4128 4144 ex_twice_prog with Ok (Some (m, _)) => get m 4112 = [0] /\ zin 1 (get m 4096) = true | _ => False end) as X by (vm_compute; auto).
    rewrite E in X. exact X. }
  assert (numbers_of 4128 ex_twice_prog 4112 [0]) as N0.
  { split; [repeat constructor; auto|]. intros n. rewrite <- G1. apply H1. }
  assert (reaches 4128 ex_twice_prog 0 4112) as R0 by (apply N0; now left).
  assert (reaches 4128 ex_twice_prog 1 4096) as R1.
  { apply (H1 1 4096). unfold zin in G2. apply existsb_exists in G2 as (x & I & X). apply Z.eqb_eq in X. now subst x. }
  split; [|split; [|vm_compute; reflexivity]].
  - intros i t I X. assert (t = 4112 \/ t = 4096) as [->| ->].
    { destruct X as [X _]. repeat destruct I as [<-|I]; try contradiction; destruct X as [X|[X|(c & X)]]; cbn in X; try discriminate X; injection X; intros; subst; auto. }
    + split; [exists 0; split; [lia|exact R0]|]. intros (ns & (M1 & M2) & M3). exfalso. enough (len ns = 1) by lia. change 1 with (len [0]). unfold len. f_equal. apply Permutation_length.
      apply NoDup_Permutation; [exact M1|apply N0|]. intros n. rewrite M2. symmetry. apply N0.
    + split; [exists 1; split; [lia|exact R1]|reflexivity].
  - split; [lia|]. split; [exact R0|]. split; [|exists [0]; split; [exact N0|vm_compute; discriminate]].
    eexists. split; [right; left; reflexivity|]. split; [right; right; exists CE; reflexivity|lia].
Qed.
Print Assumptions C105_one_default_refuted.

(** With one instruction for the default case all is well. *)
Example C105_example : has_dispatcher (fun _ _ _ => ex_px_prog) ex_px_b ex_px_e 4128 4144 ex_px_prog /\ ~ muddled same_kind 4128 4144 ex_px_prog.
Proof.
  assert (has_dispatcher (fun _ _ _ => ex_px_prog) ex_px_b ex_px_e 4128 4144 ex_px_prog) as H.
  { split; [vm_compute; reflexivity|]. exists (Symbol 4128 4128 16 $"FUNC" $"x64_sys_call"), 1, (repeat (chr 2) 16).
    split; [vm_compute; reflexivity|]. split; [vm_compute; discriminate|]. split; [reflexivity|]. split; [reflexivity|]. split; [vm_compute; reflexivity|]. split; [reflexivity|exact ex_px_dispatcher]. }
  split; [exact H|]. intros M.
  pose proof (proj2 (C105_empty same_kind (fun _ _ _ => ex_px_prog) (fun l => l) ex_px_b ex_px_e 4128 4144 ex_px_prog same_kind_equality (fun l => Permutation_refl l) H) (or_introl M)) as X.
  vm_compute in X. discriminate.
Qed.
