(** Properties C40-C43 (the x86 dispatcher). *)
From Coq Require Import List Bool Ascii String ZArith Lia Permutation.
From Verif Require Import PyBase PyFacts M_Utils M_Elf M_Arch M_Emu S_Emu L_Emu L_Emu2 L_Emu3.
Import ListNotations.
Open Scope Z_scope.
Open Scope list_scope.

(** ** C40: for every list of instructions, whatever they are. *)
Theorem C40_terminates : forall same start stop insns, emulate same start stop insns <> Diverge.
Proof. exact emulate_terminates. Qed.
Print Assumptions C40_terminates.

(** On a dispatcher the analysis does not give up.  [same] is equality of instructions. *)
Theorem C40_dispatchers_accepted : forall same, (forall a b, same a b = true -> i_kind a = i_kind b) ->
  forall reg start stop prog, dispatcher reg start stop prog ->
  exists m l, emulate same start stop prog = Ok (Some (m, l)).
Proof. exact emulate_succeeds. Qed.
Print Assumptions C40_dispatchers_accepted.

(** ** C41 *)
Theorem C41_every_run_is_covered : forall same, (forall a b, same a b = true -> i_kind a = i_kind b) ->
  forall reg start stop prog m l n i f t f', dispatcher reg start stop prog ->
  emulate same start stop prog = Ok (Some (m, l)) -> 0 <= n < 4096 ->
  reach start prog n (i_ip i) f -> In i prog -> step n i f t f' -> exits start stop i t ->
  In n (get m t) /\ exists c, In c l /\ target_of c = t.
Proof. exact emulate_complete. Qed.
Print Assumptions C41_every_run_is_covered.

(** The condition that jumps follow their comparison is needed: here 5 leads to 2000, but
    the analysis takes the flags from the comparison before the jump in memory. *)
Theorem C41_fresh_flags_needed : exists m l n,
  emulate (fun _ _ => false) 100 114 stale_prog = Ok (Some (m, l)) /\
  code_from 100 stale_prog 114 /\ Forall (supported 1 100 114) stale_prog /\
  0 <= n < 4096 /\ reaches 100 stale_prog n 2000 /\ ~ In n (get m 2000) /\ In n (get m 3000).
Proof. exact stale_flags. Qed.
Print Assumptions C41_fresh_flags_needed.

(** ** C42 *)
Theorem C42_no_impossible_number : forall same, (forall a b, same a b = true -> i_kind a = i_kind b) ->
  forall reg start stop prog m l n c, dispatcher reg start stop prog ->
  emulate same start stop prog = Ok (Some (m, l)) -> In c l -> In n (get m (target_of c)) ->
  0 <= n < 4096 /\ reaches start prog n (target_of c) /\ In c prog /\ exits start stop c (target_of c).
Proof. exact emulate_sound. Qed.
Print Assumptions C42_no_impossible_number.

(** ** C43 *)
Theorem C43_conflicts_and_mapping : forall m l, let r := collect m l [] false in let ts := map target_of l in
  (conflict (get m) ts /\ r = []) \/
  (~ conflict (get m) ts /\ forall n v, dget Z.eqb n r = Some v <->
     In v ts /\ ~ default_case (get m) v /\ In n (get m v)).
Proof. exact collect_cases. Qed.
Print Assumptions C43_conflicts_and_mapping.

Theorem C43_order_independent : forall m l l', Permutation l l' ->
  forall n, dget Z.eqb n (collect m l [] false) = dget Z.eqb n (collect m l' [] false).
Proof. exact collect_order. Qed.
Print Assumptions C43_order_independent.

(** A dispatcher never makes two addresses clash. *)
Theorem C43_no_clash : forall same, (forall a b, same a b = true -> i_kind a = i_kind b) ->
  forall reg start stop prog m l c c', dispatcher reg start stop prog ->
  emulate same start stop prog = Ok (Some (m, l)) -> In c l -> In c' l ->
  ~ clash (get m) (target_of c) (target_of c').
Proof. exact emulate_no_clash. Qed.
Print Assumptions C43_no_clash.

(** From the image to the mapping: a number is mapped to an address only if running the
    dispatcher with it leaves the function there; if the result is not empty, all numbers
    are there whose address has at most 100 of them. *)
Theorem C43_extraction_exact : forall same, (forall a b, same a b = true -> i_kind a = i_kind b) ->
  forall decode order a e sym reg code prog,
  (forall l, Permutation (order l) l) ->
  a_table a = None -> dget str_eqb (a_abi a ++ $"_sys_call") (e_functions e) = Some sym -> 16 <= sym_size sym ->
  read_symbol e sym = Ok code -> prog = decode (a_bits32 a) code (sym_real sym) ->
  dispatcher reg (sym_real sym) (sym_real sym + sym_size sym) prog ->
  exists r, extract_syscall_vaddrs decode same order a e = Ok r /\
    forall n v,
    (dget Z.eqb n r = Some v ->
     0 <= n < 4096 /\ reaches (sym_real sym) prog n v /\
     (exists i, In i prog /\ exits (sym_real sym) (sym_real sym + sym_size sym) i v) /\
     exists ns, numbers_of (sym_real sym) prog v ns /\ len ns <= 100) /\
    (r <> [] ->
     0 <= n < 4096 -> reaches (sym_real sym) prog n v ->
     (exists i, In i prog /\ exits (sym_real sym) (sym_real sym + sym_size sym) i v) ->
     (exists ns, numbers_of (sym_real sym) prog v ns /\ len ns <= 100) ->
     dget Z.eqb n r = Some v).
Proof. exact extract_exact. Qed.
Print Assumptions C43_extraction_exact.

(** A dispatcher with a backward jump: 0 -> 1000, 9 -> 2000, the rest -> 3000 *)
Definition C40_prog : list insn :=
  [Insn 100 103 (ICmp [OReg 1; OImm 3]); Insn 103 105 (IJcc CBE 112);
   Insn 105 108 (ICmp [OReg 1; OImm 9]); Insn 108 110 (IJcc CE 2000); Insn 110 112 (IJmp 3000);
   Insn 112 114 (ITest [OReg 1; OReg 1]); Insn 114 116 (IJcc CE 1000); Insn 116 118 (IJmp 105)].
Definition ikind_eq_dec (a b : ikind) : {a = b} + {a <> b}.
Proof. repeat decide equality. Defined.
Definition same_kind (a b : insn) : bool := if ikind_eq_dec (i_kind a) (i_kind b) then true else false.
Lemma same_kind_kind a b : same_kind a b = true -> i_kind a = i_kind b.
Proof. unfold same_kind. now destruct (ikind_eq_dec _ _). Qed.

Lemma C40_is_dispatcher : dispatcher 1 100 118 C40_prog.
Proof.
  unfold C40_prog. split.
  - repeat match goal with |- code_from _ (?i :: _) _ => apply (cf_cons i); [cbn; lia|cbn [i_next]] end. apply cf_nil.
  - repeat constructor; unfold supported; cbn; eauto; discriminate.
  - assert (Hno : forall (ks : list insn) (l : list insn),
      forallb (fun k => forallb (fun i => negb (match i_kind i with IJmp t | ICall t | IJcc _ t => t =? i_ip k | _ => false end)) l) ks = true ->
      forall k i, In k ks -> In i l -> ~ branches_to i (i_ip k)).
    { intros ks l H k i Hk Hi Hb. rewrite forallb_forall in H. specialize (H k Hk). rewrite forallb_forall in H. specialize (H i Hi).
      destruct Hb as [K|[K|[c K]]]; rewrite K, Z.eqb_refl in H; discriminate. }
    intros pre j post E (c & t & K).
    repeat (destruct pre as [|? pre]; injection E; clear E; intros E; intros; subst; try discriminate).
    all: try (destruct pre; discriminate).
    all: try match goal with |- exists _ _ _, [?a] = _ /\ _ => exists [], a, [] end.
    all: try match goal with |- exists _ _ _, [?a;?b;?c] = _ /\ _ => exists [a;b], c, [] end.
    all: try match goal with |- exists _ _ _, [?a;?b;?c;?d;?e;?f] = _ /\ _ => exists [a;b;c;d;e], f, [] end.
    all: split; [reflexivity|]; split; [exact I|]; split; [apply Forall_nil|]; apply Hno; reflexivity.
  - exists (Insn 100 103 (ICmp [OReg 1; OImm 3])). split; [now left|exact I].
  - intros a i j b E [ops K].
    repeat (destruct a as [|? a]; injection E; clear E; intros E; intros; subst; try discriminate).
    all: try (exists 1000; now left).
    all: try (destruct a as [|? [|? ?]]; discriminate).
Qed.
Example C40_example :
  match emulate same_kind 100 118 C40_prog with
  | Ok (Some (m, l)) =>
      get m 1000 = [0] /\ get m 2000 = [9] /\ len (get m 3000) = 4094 /\ map target_of l = [2000; 3000; 1000] /\
      collect m l [] false = [(9, 2000); (0, 1000)]
  | _ => False
  end.
Proof. vm_compute. repeat split. Qed.
