(** Property C94 (sorting the HTML table). *)
From Coq Require Import List Bool Ascii String ZArith Lia Permutation Sorted.
From Verif Require Import PyBase PyFacts M_Utils M_Elf S_Elf M_Syscall M_Arch M_Kernel S_Kernel M_Location M_Annotate M_Output L_Utils S_Output M_Html M_Sort S_Html S_Sort L_Sort L_Sort2 P_Kernel P_Output P_Esoteric P_Html.
Import ListNotations.
Open Scope Z_scope.
Open Scope list_scope.

(** A click on one of the first five headings: the same rows, in the order of that column, ties in
    the order they had, and the one mark set. *)
Theorem C94_click tag m mark l d i : shows tag m mark l d -> Forall (fun x => 0 <= sc_number (snd x)) l -> l <> [] -> (i < 5)%nat ->
  exists l' d', click_head i d = Ok d' /\ shows tag m (next_mark mark i) l' d' /\ Permutation l l' /\ ordered (next_mark mark i) (map snd l') /\
    forall f : bool * syscall -> bool, (forall x y, f x = true -> f y = true -> column_le i (snd x) (snd y)) -> filter f l' = filter f l.
Proof. exact (head_clicked tag m mark l d i). Qed.
Print Assumptions C94_click.

(** Any clicks on a page just loaded. *)
Theorem C94_clicks sv copy tag a scs text ts es : output_html sv copy (Ok tag) a scs = Ok text -> Forall (fun s => 0 <= sc_number s) scs ->
  html_read text = Some ts -> Forall (hits (len scs)) es ->
  exists m l d, longest scs m /\ reacts es (dom_of (table_of ts)) = Ok d /\ shows tag m (last_mark (0%nat, true) es) l d /\ Permutation scs (map snd l) /\
    (ordered (0%nat, true) scs \/ (exists i, In (Head i) es) -> ordered (last_mark (0%nat, true) es) (map snd l)).
Proof. exact (page_clicks sv copy tag a scs text ts es). Qed.
Print Assumptions C94_clicks.

(** The page of an extraction always has the order that is marked, from the start; 7870 is the
    number of the endian switch of PowerPC, the smallest outside a table. *)
Theorem C94_result k ver abi b a t e v kdir w have p rdir kres r sv copy tag text ts es : arch_new k ver abi b = Ok a ->
  (forall l, Permutation (v_ni_order t l) l) -> v_annotate t = annotate w have (adjust_abi a e) e p kdir rdir kres -> loaded e ->
  (forall d, kdir = Some d -> good_path d) ->
  (forall vaddrs i v', syscall_vaddrs t (adjust_abi a e) e = Ok vaddrs -> In (i, v') vaddrs -> i < 7870) ->
  extract_syscalls t a e v kdir = Ok r -> output_html sv copy (Ok tag) a r = Ok text -> html_read text = Some ts -> Forall (hits (len r)) es ->
  exists m l d, longest r m /\ reacts es (dom_of (table_of ts)) = Ok d /\ shows tag m (last_mark (0%nat, true) es) l d /\ Permutation r (map snd l) /\
    ordered (last_mark (0%nat, true) es) (map snd l).
Proof. exact (result_clicks k ver abi b a t e v kdir w have p rdir kres r sv copy tag text ts es). Qed.
Print Assumptions C94_result.

(** Numbers of different lengths, texts with a tie; rows keep their highlighting. *)
Definition C94_scs : list syscall := [ex_read; ex_fork; ex_bpf; C93_odd].
Definition C94_seen (es : list event) : outcome (list (list str) * list (bool * list Z)) :=
  match output_html $"0.7" $"(C)" (Ok $"v5.10") ex_a C94_scs with
  | Ok text => match html_read text with
      | Some ts => d <- reacts es (dom_of (table_of ts)) ;; Ok (firstn 3 (d_heads d), map (fun r => (fst r, nth 2 (snd r) [])) (d_rows d))
      | None => Diverge
      end
  | _ => Diverge
  end.
Example C94_example :
  C94_seen [] = Ok ([[$"sortable"; $"ascending"]; [$"sortable"]; [$"sortable"]],
    [(false, codes $"read"); (false, codes $"fork"); (false, codes $"bpf"); (false, codes $"a<b>&amp;'")]) /\
  C94_seen [Row 1; Head 1] = Ok ([[$"sortable"]; [$"sortable"; $"ascending"]; [$"sortable"]],
    [(false, codes $"a<b>&amp;'"); (false, codes $"bpf"); (true, codes $"fork"); (false, codes $"read")]) /\
  C94_seen [Head 1; Head 0; Head 0; Row 0] = Ok ([[$"sortable"; $"descending"]; [$"sortable"]; [$"sortable"]],
    [(true, codes $"bpf"); (false, codes $"fork"); (false, codes $"a<b>&amp;'"); (false, codes $"read")]) /\
  last_mark (0%nat, true) [Head 1; Head 0; Head 0; Row 0] = (0%nat, false) /\ Forall (hits 4) [Head 1; Head 0; Head 0; Row 0].
Proof.
  split; [vm_compute; reflexivity|]. split; [vm_compute; reflexivity|]. split; [vm_compute; reflexivity|]. split; [reflexivity|].
  repeat constructor.
Qed.
Example C94_numbers : map parse_int16 [codes $"99"; codes $"100"; codes $"0x1f"; codes $" 12 "; codes $"-5"; codes $"xyz"] =
  [Some 153; Some 256; Some 31; Some 18; Some (-5); None].
Proof. vm_compute. reflexivity. Qed.
(** An extraction that meets what C94_result asks for *)
Example C94_extraction : exists e r vaddrs, ex_arm_elf = Ok e /\ extract_syscalls (ex_arm_env e) ex_arm_a e [5;10] None = Ok r /\
  syscall_vaddrs (ex_arm_env e) (adjust_abi ex_arm_a e) e = Ok vaddrs /\ Forall (fun x => fst x < 7870) vaddrs /\ len r = 7.
Proof.
  eexists _, _, _. split; [vm_compute; reflexivity|]. split; [vm_compute; reflexivity|]. split; [vm_compute; reflexivity|].
  split; [repeat constructor|vm_compute; reflexivity].
Qed.
