(** Property C118 (a dispatcher that cannot be read is announced). *)
From Coq Require Import List Bool Ascii String ZArith Lia Permutation.
From Verif Require Import PyBase PyFacts M_Utils M_Elf M_Arch M_Emu M_Dispatch S_Emu S_Dispatch S_Default L_Dispatch L_Dispatch2 P_Kernel P_Emu P_Program P_Default.
Import ListNotations.
Open Scope Z_scope.
Open Scope list_scope.

(** ** The code: the message is about the first instruction with which something is wrong,
    and says what; it depends neither on the numbers nor on [same]. *)
Theorem C118_code : forall same start stop prog c,
  emulate_complaint same start stop prog = Some c <-> unreadable start stop prog c.
Proof. exact emulate_complaint_iff. Qed.
Print Assumptions C118_code.

(** The emulation gives up exactly then; one message, not two. *)
Theorem C118_gives_up : forall same start stop prog,
  emulate same start stop prog = Ok None <-> exists c, unreadable start stop prog c.
Proof. exact emulate_gives_up. Qed.
Print Assumptions C118_gives_up.
Theorem C118_one_reason : forall start stop prog c c', unreadable start stop prog c -> unreadable start stop prog c' -> c = c'.
Proof. exact unreadable_fun. Qed.
Print Assumptions C118_one_reason.

(** ** The targets *)
Theorem C118_targets : forall m l,
  match collect_complaint m l [] false with
  | Some c => tells (get m) l c /\ collect m l [] false = []
  | None => ~ conflict (get m) (map target_of l) /\ forall n v, dget Z.eqb n (collect m l [] false) = Some v <->
      In v (map target_of l) /\ ~ default_case (get m) v /\ In n (get m v)
  end.
Proof. exact collect_says. Qed.
Print Assumptions C118_targets.

(** ** The image: with a message the result is empty and the message is true; without one
    there is nothing to be announced. *)
Theorem C118_announced : forall decode same order a e, (forall l, Permutation (order l) l) ->
  match extract_complaint decode same order a e with
  | Ok (Some c) => extract_syscall_vaddrs decode same order a e = Ok [] /\ announced decode same a e c
  | Ok None => (forall c, ~ announced decode same a e c) /\ exists r, extract_syscall_vaddrs decode same order a e = Ok r
  | Raise x => extract_syscall_vaddrs decode same order a e = Raise x
  | Exit x => extract_syscall_vaddrs decode same order a e = Exit x
  | Diverge => extract_syscall_vaddrs decode same order a e = Diverge
  end.
Proof. exact extract_announced. Qed.
Print Assumptions C118_announced.

(** No syscalls and no message: the function does nothing but the default case. *)
Theorem C118_silent : forall decode same order a e, (forall l, Permutation (order l) l) ->
  extract_complaint decode same order a e = Ok None -> extract_syscall_vaddrs decode same order a e = Ok [] ->
  exists sym code m l, dget str_eqb (a_abi a ++ $"_sys_call") (e_functions e) = Some sym /\ read_symbol e sym = Ok code /\
    emulate same (sym_real sym) (sym_real sym + sym_size sym) (decode (a_bits32 a) code (sym_real sym)) = Ok (Some (m, l)) /\
    len l <= 1 /\ forall i, In i l -> default_case (get m) (target_of i).
Proof. exact extract_silent. Qed.
Print Assumptions C118_silent.

(** On a dispatcher as compilers make them: only two messages are possible, and they are
    true of its runs. *)
Theorem C118_dispatchers : forall decode same order a e, (forall l, Permutation (order l) l) ->
  (forall x y, same x y = true -> i_kind x = i_kind y) ->
  forall sym reg code prog c,
  a_table a = None -> dget str_eqb (a_abi a ++ $"_sys_call") (e_functions e) = Some sym -> 16 <= sym_size sym ->
  read_symbol e sym = Ok code -> prog = decode (a_bits32 a) code (sym_real sym) ->
  dispatcher reg (sym_real sym) (sym_real sym + sym_size sym) prog ->
  extract_complaint decode same order a e = Ok (Some c) ->
  (exists i v, c = Unreached v i /\ In i prog /\ exits (sym_real sym) (sym_real sym + sym_size sym) i v /\
     forall n, 0 <= n < 4096 -> ~ reaches (sym_real sym) prog n v) \/
  (c = TwoDefaults /\ exists i j v w, In i prog /\ In j prog /\ same j i = false /\
     exits (sym_real sym) (sym_real sym + sym_size sym) i v /\ exits (sym_real sym) (sym_real sym + sym_size sym) j w /\
     crowded (sym_real sym) prog v /\ crowded (sym_real sym) prog w).
Proof. exact extract_dispatcher. Qed.
Print Assumptions C118_dispatchers.

(** And they are logged exactly if an exit is unreached or two are the default case. *)
Theorem C118_muddled : forall decode same order a e start stop prog, an_equality same -> (forall l, Permutation (order l) l) ->
  has_dispatcher decode a e start stop prog ->
  (exists c, extract_complaint decode same order a e = Ok (Some c)) <-> muddled same start stop prog.
Proof. exact told_muddled. Qed.
Print Assumptions C118_muddled.

(** ** Examples *)
Definition C118_cmp := Insn 100 103 (ICmp [OReg 1; OImm 3]).
(** A jump table: the number is compared once, then JG (not supported) *)
Example C118_example_jcc : emulate_complaint same_kind 100 118 [C118_cmp; Insn 103 105 (IJcc COther 2000)]
  = Some (BadJcc (Insn 103 105 (IJcc COther 2000))).
Proof. reflexivity. Qed.
Example C118_example_unreadable : unreadable 100 118 [C118_cmp; Insn 103 105 (IJcc COther 2000)] (BadJcc (Insn 103 105 (IJcc COther 2000))).
Proof. apply (emulate_complaint_iff same_kind). reflexivity. Qed.
(** The others; the immediate is looked at before the register, the condition before the comparison. *)
Example C118_example_code :
  emulate_complaint same_kind 100 118 [Insn 100 103 IOther] = Some NoRegister /\
  emulate_complaint same_kind 100 118 [Insn 100 102 (ITest [OReg 1; OReg 1]); Insn 102 104 (IJcc CA 2000)] = Some (AfterTest (Insn 102 104 (IJcc CA 2000))) /\
  emulate_complaint same_kind 100 118 [Insn 100 102 (ITest [OReg 1; OImm 1])] = Some (BadTest (Insn 100 102 (ITest [OReg 1; OImm 1]))) /\
  emulate_complaint same_kind 100 118 [C118_cmp; Insn 103 105 (ICmp [OReg 2; OReg 1])] = Some (BadCmp (Insn 103 105 (ICmp [OReg 2; OReg 1]))) /\
  emulate_complaint same_kind 100 118 [C118_cmp; Insn 103 105 (ICmp [OReg 2; OImm 1])] = Some (OtherRegister (Insn 103 105 (ICmp [OReg 2; OImm 1]))) /\
  emulate_complaint same_kind 100 118 [Insn 98 100 (IJcc CE 2000); C118_cmp] = Some (NoCompare (Insn 98 100 (IJcc CE 2000))) /\
  emulate_complaint same_kind 100 118 [Insn 98 100 (IJcc COther 2000); C118_cmp] = Some (BadJcc (Insn 98 100 (IJcc COther 2000))) /\
  emulate_complaint same_kind 100 118 [C118_cmp; Insn 103 108 (ICall 110)] = Some (CallsItself (Insn 103 108 (ICall 110))) /\
  emulate_complaint same_kind 100 118 C40_prog = None.
Proof. vm_compute. repeat split. Qed.
(** An exit behind a condition that cannot hold, two default cases, one number for two targets *)
Example C118_example_targets :
  collect_complaint [(2000, [])] [Insn 103 105 (IJmp 2000)] [] false = Some (Unreached 2000 (Insn 103 105 (IJmp 2000))) /\
  collect_complaint [(2000, range 0 101); (3000, range 200 101)] [Insn 103 105 (IJmp 2000); Insn 105 107 (IJmp 3000)] [] false = Some TwoDefaults /\
  collect_complaint [(2000, range 0 100); (3000, [99])] [Insn 103 105 (IJmp 2000); Insn 105 107 (IJmp 3000)] [] false = Some (TwoTargets 99 2000 3000) /\
  collect_complaint [(2000, range 0 100); (3000, [100])] [Insn 103 105 (IJmp 2000); Insn 105 107 (IJmp 3000)] [] false = None.
Proof. vm_compute. repeat split. Qed.
(** From an image: two exits for the default case, none, and a kernel without the function *)
Example C118_example_image :
  extract_complaint (fun _ _ _ => ex_twice_prog) same_kind (fun l => l) ex_px_b ex_px_e = Ok (Some TwoDefaults) /\
  extract_complaint (fun _ _ _ => ex_px_prog) same_kind (fun l => l) ex_px_b ex_px_e = Ok None /\
  extract_complaint (fun _ _ _ => [C118_cmp; Insn 103 105 (IJcc COther 2000)]) same_kind (fun l => l) ex_px_b ex_px_e
    = Ok (Some (BadJcc (Insn 103 105 (IJcc COther 2000)))) /\
  extract_complaint (fun _ _ _ => ex_px_prog) same_kind (fun l => l) ex_px_b (Elf [] false false 62 0 [] [] [])
    = Ok (Some (NoFunction $"x64_sys_call")) /\
  extract_complaint (fun _ _ _ => ex_px_prog) same_kind (fun l => l) ex_px_b
    (Elf [] false false 62 0 [] [] [($"x64_sys_call", Symbol 4128 4128 15 $"FUNC" $"x64_sys_call")]) = Ok (Some (TooSmall $"x64_sys_call" 15)).
Proof. vm_compute. repeat split. Qed.
(** The first of them is a dispatcher as in C118_dispatchers. *)
Example C118_example_dispatcher : exists sym code, dget str_eqb (a_abi ex_px_b ++ $"_sys_call") (e_functions ex_px_e) = Some sym /\
  16 <= sym_size sym /\ read_symbol ex_px_e sym = Ok code /\
  dispatcher 1 (sym_real sym) (sym_real sym + sym_size sym) ex_twice_prog.
Proof.
  exists (Symbol 4128 4128 16 $"FUNC" $"x64_sys_call"), (repeat (chr 2) 16).
  split; [vm_compute; reflexivity|]. split; [vm_compute; discriminate|]. split; [vm_compute; reflexivity|exact ex_twice_dispatcher].
Qed.
