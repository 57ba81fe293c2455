(** Property C93 (reading the HTML page). *)
From Coq Require Import List Bool Ascii String ZArith Lia.
From Verif Require Import PyBase PyFacts M_Utils M_Elf M_Syscall M_Arch M_Kernel M_Location M_Annotate M_Output L_Utils S_Output L_Print M_Html S_Html L_Html3 P_Kernel P_Output P_Esoteric.
Import ListNotations.
Open Scope Z_scope.
Open Scope list_scope.

(** The page is well-formed, and a reader finds the documented titles and table in it, whatever
    characters the texts have. *)
Theorem C93_page sv copy tag a scs text : output_html sv copy (Ok tag) a scs = Ok text -> Forall (fun s => 0 <= sc_number s) scs ->
  exists m ts, longest scs m /\ html_read text = Some ts /\ nested [] ts = true /\
    texts $"title" None ts = [codes (title_text tag a)] /\
    texts $"h1" None ts = [codes ($"Linux " ++ tag ++ $" syscall table")] /\
    texts $"h2" None ts = [codes ($"Architecture: " ++ arch_name a); codes ($"ABI: " ++ abi_name a)] /\
    table_of ts = headings a m :: map (row_of tag m) scs.
Proof. exact (html_page sv copy tag a scs text). Qed.
Print Assumptions C93_page.

(** The cells found cover the columns that C79 is about. *)
Theorem C93_spans sv copy tag a scs text ts : output_html sv copy (Ok tag) a scs = Ok text -> Forall (fun s => 0 <= sc_number s) scs ->
  html_read text = Some ts -> output_syscalls_html (Ok tag) scs = Ok (map (map span_of) (table_of ts)).
Proof. exact (html_spans sv copy tag a scs text ts). Qed.
Print Assumptions C93_spans.

(** Extractions with the same page are the same in all that is shown. *)
Theorem C93_same_page k ver abi b a t e v kdir w have p rdir kres r k' ver' abi' b' a' t' e' v' kdir' w' have' p' rdir' kres' r' sv copy tag sv' copy' tag' text :
  arch_new k ver abi b = Ok a -> arch_new k' ver' abi' b' = Ok a' ->
  v_annotate t = annotate w have (adjust_abi a e) e p kdir rdir kres -> v_annotate t' = annotate w' have' (adjust_abi a' e') e' p' kdir' rdir' kres' ->
  (forall d, kdir = Some d -> good_path d) -> (forall d, kdir' = Some d -> good_path d) ->
  extract_syscalls t a e v kdir = Ok r -> extract_syscalls t' a' e' v' kdir' = Ok r' ->
  output_html sv copy (Ok tag) a r = Ok text -> output_html sv' copy' (Ok tag') a' r' = Ok text ->
  tag = tag' /\ a_class a = a_class a' /\ a_bits32 a = a_bits32 a' /\ a_compat a = a_compat a' /\ a_abi_bits32 a = a_abi_bits32 a' /\ a_abi a = a_abi a' /\
  reg_text a = reg_text a' /\
  (forall m i, longest r m -> Z.of_nat i < m -> nth i (a_arg_regs a) [] = nth i (a_arg_regs a') []) /\
  map shown_of r = map shown_of r'.
Proof. exact (result_pages k ver abi b a t e v kdir w have p rdir kres r k' ver' abi' b' a' t' e' v' kdir' w' have' p' rdir' kres' r' sv copy tag sv' copy' tag' text). Qed.
Print Assumptions C93_same_page.

(** A page with characters to escape and an absolute path. *)
Definition C93_odd : syscall :=
  ex_sc 3 3 $"a<b>&amp;'" $"x&y" (Some (path_of_str $"/tmp/a&b/<i>.c")) (Some 7) (Some $"CONFIG_A") (Some [$"int <x> a"; $"b"]) true.
Example C93_example : exists text ts, output_html $"0.7" $"(C)" (Ok $"v5.10") ex_a [ex_read; ex_fork; ex_bpf; C93_odd] = Ok text /\
  html_read text = Some ts /\ len (table_of ts) = 5 /\ contains text $"a<b>" = false /\
  nth 4 (table_of ts) [] =
    [plain (codes $"3"); plain (codes $"0x3"); plain (codes $"a<b>&amp;'"); plain (codes $"x&y");
     plain (10 :: repeat 9 6 ++ codes $"/tmp/a&b/<i>.c:7" ++ 10 :: repeat 9 5); plain (codes $"A=y");
     plain (codes $"int <x> a"); plain (codes $"b"); marked [($"colspan", $"1")] [] []] /\
  c_links (nth 4 (nth 1 (table_of ts) []) (plain [])) = [codes $"https://elixir.bootlin.com/linux/v5.10/source/fs/read_write.c#L613"].
Proof.
  eexists _, _. split; [unfold output_html; vm_compute; reflexivity|]. split; [vm_compute; reflexivity|].
  repeat split; vm_compute; reflexivity.
Qed.
(** Texts that the reader does not take *)
Example C93_rejects : map html_read [$"<td"; $"a < b"; $"&amp"; $"&unknown;"; $"<td class=x>"; $"<script>a</b>"] = [None; None; None; None; None; None] /\
  html_read $"<b>&lt;&#39;&#x2014;</b>" = Some [TStart $"b" []; TChar 60; TChar 39; TChar 8212; TEnd $"b"] /\
  nested [] [TStart $"b" []; TStart $"i" []; TEnd $"b"; TEnd $"i"] = false.
Proof. repeat split; vm_compute; reflexivity. Qed.
(** The page of an extraction *)
Example C93_result : exists e r text ts, ex_arm_elf = Ok e /\ extract_syscalls (ex_arm_env e) ex_arm_a e [5;10] None = Ok r /\
  output_html $"0.7" $"(C)" (Ok $"v5.10") ex_arm_a r = Ok text /\ html_read text = Some ts /\ len (table_of ts) = 8 /\
  map c_text (nth 3 (table_of ts) []) =
    map codes [$"983042"; $"0xf0002"; $"cacheflush"; $"arm_syscall"; $"unknown"; []; $"unsigned long start"; $"unsigned long end"; $"int flags"].
Proof.
  eexists _, _, _, _. split; [vm_compute; reflexivity|]. split; [vm_compute; reflexivity|]. split; [vm_compute; reflexivity|].
  split; [vm_compute; reflexivity|]. split; vm_compute; reflexivity.
Qed.
