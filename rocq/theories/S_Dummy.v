(** Specifications for dummy syscalls and the PowerPC endian switch (C31-C36), in terms of
    instruction encodings and not of the functions of the model. *)
From Coq Require Import List Bool Ascii String ZArith.
From Verif Require Import PyBase PyFacts S_Utils M_Elf.
Import ListNotations.
Open Scope Z_scope.
Open Scope list_scope.

Definition ENOSYS : Z := 38.
Definition EINVAL : Z := 22.
Definition MIPS_ENOSYS : Z := 89.

(** [n] as an unsigned number of [k] bytes (two's complement). *)
Definition twos (k : Z) (n : Z) : Z := n mod 256 ^ k.

(** ** x86 (Intel SDM): [endbr] mov; then ret, jmp rel8 or jmp rel32 *)
Inductive endbr : bytes -> Prop :=
| eb_none : endbr []
| eb_64 : endbr [chr 243; chr 15; chr 30; chr 250]        (* F3 0F 1E FA *)
| eb_32 : endbr [chr 243; chr 15; chr 30; chr 251].       (* F3 0F 1E FB *)
Inductive mov_ax (err : Z) : bytes -> Prop :=
| mv_eax : mov_ax err (chr 184 :: enc_uint false 4 (twos 4 (- err)))                    (* B8 id *)
| mv_rax : mov_ax err (chr 72 :: chr 199 :: chr 192 :: enc_uint false 4 (twos 4 (- err))). (* REX.W C7 /0 id *)
Inductive leave : bytes -> Prop :=
| lv_ret : leave [chr 195]                                (* C3 *)
| lv_jmp8 d : leave [chr 235; d]                          (* EB cb *)
| lv_jmp32 a b c d : leave [chr 233; a; b; c; d].         (* E9 cd *)
Definition x86_stub (c : bytes) : Prop :=
  exists p m l err, In err [ENOSYS; EINVAL] /\ endbr p /\ mov_ax err m /\ leave l /\ c = p ++ m ++ l.

(** ** MIPS: jr ra; addiu v0,zero,-err in the delay slot *)
Definition mips_stub (big : bool) (c : bytes) : Prop :=
  exists err, In err [EINVAL; MIPS_ENOSYS] /\
    c = enc_uint big 4 (0 * 2 ^ 26 + 31 * 2 ^ 21 + 8)                     (* SPECIAL, rs = ra, JR *)
        ++ enc_uint big 4 (9 * 2 ^ 26 + 0 * 2 ^ 21 + 2 * 2 ^ 16 + twos 2 (- err)). (* ADDIU v0, zero *)

(** ** Thumb-2: mvn.w r0,#(err - 1); bx lr; halfwords are little-endian *)
Definition arm_stub (c : bytes) : Prop :=
  exists err, In err [EINVAL; ENOSYS] /\
    c = enc_uint false 2 (* 0xf06f *) 61551 ++ enc_uint false 2 (err - 1) ++ enc_uint false 2 (* 0x4770 *) 18288.

(** ** PowerPC *)
Definition is_word32 (w : Z) : Prop := 0 <= w < 2 ^ 32.
Definition ppc_code (big : bool) (ws : list Z) : bytes := List.concat (map (enc_uint big 4) ws).

(** D-form instruction: primary opcode, two registers, 16-bit displacement. *)
Definition dform (op rt ra d : Z) : Z := op * 2 ^ 26 + rt * 2 ^ 21 + ra * 2 ^ 16 + d.
Definition li_r3 (n : Z) : Z := dform 14 3 0 (twos 2 n).
Definition blr : Z := 1317011488.        (* 4e800020 *)
Definition mflr_r0 : Z := 2080899750.    (* 7c0802a6 *)
Definition mtlr_r0 : Z := 2080900006.    (* 7c0803a6 *)
Definition nop : Z := 1610612736.        (* 60000000 *)

(** A branch (I-form, opcode 18) with a negative displacement; LK is bit 0, AA bit 1. *)
Definition back_branch (w : Z) : Prop := exists li, 3 * 2 ^ 24 <= li < 4 * 2 ^ 24 /\ w = 18 * 2 ^ 26 + li.

(** stw, std/stdu, lwz, ld/ldu/lwa of r0 relative to r1 *)
Definition r0_spill (w : Z) : Prop :=
  exists op d, In op [36; 62; 32; 58] /\ 0 <= d < 2 ^ 16 /\ w = dform op 0 1 d.
Definition filler (w : Z) : Prop :=
  In w [mflr_r0; mtlr_r0; nop] \/ back_branch w \/ r0_spill w.
(** stwu r1 / std r1 / stdu r1 relative to r1, read as moving r1 down by [n] *)
Inductive down : Z -> Z -> Prop :=
| dn_stwu d : 0 <= d < 2 ^ 16 -> down (dform 37 1 1 d) (2 ^ 16 - d)
| dn_stdu d : 0 <= d < 2 ^ 16 -> d mod 4 = 1 -> down (dform 62 1 1 d) (2 ^ 16 - (d - 1))
| dn_std d : 0 <= d < 2 ^ 16 -> d mod 4 <> 1 -> down (dform 62 1 1 d) (2 ^ 16 - d).
(** addi r1,r1,n *)
Inductive up : Z -> Z -> Prop :=
| up_addi n : 0 <= n < 2 ^ 16 -> up (dform 14 1 1 n) n.

(** [kept ws l]: [l] is what is left of [ws] without fillers and stack adjustments. *)
Inductive kept : list Z -> list Z -> Prop :=
| kp_nil : kept [] []
| kp_drop w ws l : filler w \/ (exists n, down w n) \/ (exists n, up w n) -> kept ws l -> kept (w :: ws) l
| kp_keep w ws l : ~ filler w -> (forall n, ~ down w n) -> (forall n, ~ up w n) -> kept ws l ->
    kept (w :: ws) (w :: l).
(** [n] is the amount of the last adjustment of the given kind. *)
Definition last_amount (R : Z -> Z -> Prop) (ws : list Z) (o : option Z) : Prop :=
  match o with
  | Some n => exists a w b, ws = a ++ w :: b /\ R w n /\ forall w' n', In w' b -> ~ R w' n'
  | None => forall w' n', In w' ws -> ~ R w' n'
  end.
Definition ppc_stub (ws : list Z) : Prop :=
  kept ws [li_r3 (- ENOSYS); blr] /\
  (forall a w b n, ws = a ++ w :: b -> up w n -> exists w' n', In w' a /\ down w' n') /\
  exists o, last_amount down ws o /\ last_amount up ws o.

(** Running straight-line code: [ppc_runs ws r3 v] when a run from the start of [ws] with
    [r3] may reach a return to the caller with [v] in r3.  A call may change r3 in any way;
    a branch without link goes elsewhere and may return anything. *)
Inductive ppc_runs : list Z -> Z -> Z -> Prop :=
| pr_blr ws r3 : ppc_runs (blr :: ws) r3 r3
| pr_li ws n r3 v : - 2 ^ 15 <= n < 2 ^ 15 -> ppc_runs ws n v -> ppc_runs (li_r3 n :: ws) r3 v
| pr_plain w ws r3 v : In w [mflr_r0; mtlr_r0; nop] \/ r0_spill w \/ (exists n, down w n) \/ (exists n, up w n) ->
    ppc_runs ws r3 v -> ppc_runs (w :: ws) r3 v
| pr_bl w ws r3 r3' v : back_branch w -> Z.odd w = true -> ppc_runs ws r3' v -> ppc_runs (w :: ws) r3 v
| pr_b w ws r3 v : back_branch w -> Z.odd w = false -> ppc_runs (w :: ws) r3 v.

(** *** The fast endian switch *)
Definition cmpdi_r0_1ebe : Z := 740302526.   (* 2c201ebe *)
Definition mfsrr1_r12 : Z := 2107310758.     (* 7d9b02a6 *)
Definition xori_r12_1 : Z := 1770782721.     (* 698c0001 *)
Definition mtsrr1_r12 : Z := 2107311014.     (* 7d9b03a6 *)
Definition rfid : Z := 1275068452.           (* 4c000024 *)
(** bc (B-form, opcode 16) on CR0[EQ] set, any hint: 16 low bits [d], BD||AA||LK *)
Definition beq (w d : Z) : Prop :=
  exists bo, In bo [12; 13; 14; 15] /\ 0 <= d < 2 ^ 16 /\ w = 16 * 2 ^ 26 + bo * 2 ^ 21 + 2 * 2 ^ 16 + d.
Definition at_ (ws : list Z) (i : Z) (w : Z) : Prop := 0 <= i /\ nth_error ws (Z.to_nat i) = Some w.

(** The switch is there; [tgt i d t]: a beq at index [i] with low half [d] goes to index [t]. *)
Definition endian_switch (tgt : Z -> Z -> Z -> Prop) (ws : list Z) : Prop :=
  exists i w d t j k l,
    at_ ws i cmpdi_r0_1ebe /\ (forall i', i' < i -> ~ at_ ws i' cmpdi_r0_1ebe) /\
    at_ ws (i + 1) w /\ beq w d /\ tgt (i + 1) d t /\
    at_ ws t mfsrr1_r12 /\ t < j /\ at_ ws j xori_r12_1 /\ j < k /\ at_ ws k mtsrr1_r12 /\
    k < l /\ at_ ws l rfid.
(** The 16 low bits as an unsigned number of bytes. *)
Definition tgt_low (i d t : Z) : Prop := t = i + d / 4.
(** The target by the PowerISA for a relative branch: 14-bit signed word displacement. *)
Definition tgt_isa (i d t : Z) : Prop :=
  t = i + (if d / 4 <? 2 ^ 13 then d / 4 else d / 4 - 2 ^ 14).

(** *** Code of an image *)

(** The bytes [x] are in the image at the address [v]. *)
Definition image_has (e : elf) (v : Z) (x : bytes) : Prop :=
  exists off rest, vaddr_to_file_offset e v = Ok off /\ skipn (Z.to_nat off) (e_file e) = x ++ rest.

(** The beq goes forward (by the PowerISA). *)
Definition tgt_forward (i d t : Z) : Prop := tgt_isa i d t /\ i <= t.
