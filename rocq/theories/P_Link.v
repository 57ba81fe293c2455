(** Property C114 (where the links of the HTML page lead). *)
From Coq Require Import List Bool Ascii String ZArith Lia.
From Verif Require Import PyBase PyFacts M_Utils M_Elf M_Syscall M_Arch M_Kernel M_Output L_Utils M_Html S_Html L_Html3 P_Kernel P_Output P_Esoteric P_Html S_Link L_Link.
Import ListNotations.
Open Scope Z_scope.
Open Scope list_scope.

(** In the page, next to a file that is relative to the sources there is one link.  It leads to the line of
    that file, in the version of the kernel, exactly if the file can be linked as it is. *)
Theorem C114_links : forall sv copy v a scs text ts i s f, Forall (fun z => 0 <= z) v -> Forall (fun s => 0 <= sc_number s) scs ->
  output_html sv copy (version_tag v) a scs = Ok text -> html_read text = Some ts ->
  nth_error scs i = Some s -> sc_file s = Some f -> root f = [] -> Forall good_part (parts f) -> parts f <> [] ->
  exists tag row c link, version_tag v = Ok tag /\ nth_error (table_of ts) (S i) = Some row /\ nth_error row 4 = Some c /\ c_links c = [link] /\
    (leads_home link tag f (sc_line s) <-> linkable_file f (sc_line s)).
Proof.
  intros sv copy v a scs text ts i s f V N H T I F R G P.
  assert (exists tag, version_tag v = Ok tag) as (tag & E).
  { unfold output_html in H. destruct (max_args scs); try discriminate H. cbn [bind] in H. destruct (version_tag v); try discriminate H. eauto. }
  pose proof (tag_itself v tag V E) as IT. rewrite E in H. destruct (C93_page _ _ _ _ _ _ H N) as (m & ts' & _ & T' & _ & _ & _ & _ & TB). rewrite T in T'. injection T' as <-.
  exists tag, (row_of tag m s), (location tag s), (source_link tag f (anchor (sc_line s))).
  split; [exact E|]. rewrite TB. cbn [nth_error]. rewrite (map_nth_error _ _ _ I). split; [reflexivity|]. split; [reflexivity|]. split.
  - unfold location. rewrite F. unfold relative. rewrite R. destruct (sc_line s); reflexivity.
  - split; [now apply leads_only with (tag := tag)|now apply leads_there].
Qed.
Print Assumptions C114_links.

(** There is no link if there is no file or its path is absolute. *)
Theorem C114_none : forall sv copy tag a scs text ts i s, Forall (fun s => 0 <= sc_number s) scs ->
  output_html sv copy (Ok tag) a scs = Ok text -> html_read text = Some ts ->
  nth_error scs i = Some s -> (forall f, sc_file s = Some f -> root f <> []) ->
  exists row c, nth_error (table_of ts) (S i) = Some row /\ nth_error row 4 = Some c /\ c_links c = [].
Proof.
  intros sv copy tag a scs text ts i s N H T I F.
  destruct (C93_page _ _ _ _ _ _ H N) as (m & ts' & _ & T' & _ & _ & _ & _ & TB). rewrite T in T'. injection T' as <-.
  exists (row_of tag m s), (location tag s). rewrite TB. cbn [nth_error]. rewrite (map_nth_error _ _ _ I). split; [reflexivity|]. split; [reflexivity|].
  unfold location. destruct (sc_file s) as [f|]; [|reflexivity]. specialize (F f eq_refl). unfold relative. destruct (root f); [congruence|]. destruct (sc_line s); reflexivity.
Qed.
Print Assumptions C114_none.

(** Where a link leads is determined. *)
Theorem C114_one_place : forall link h w q p h' w' q' p', leads link h w q p -> leads link h' w' q' p' -> h' = h /\ w' = w /\ q' = q /\ p' = p.
Proof. exact leads_one. Qed.
Print Assumptions C114_one_place.

(** The files of the kernel can be linked: names of letters, digits, dots, dashes and the like. *)
Theorem C114_ordinary : forall f line,
  Forall (fun n => n <> $".." /\ forall c, In c n -> is_word c = true \/ In c $".-+,=@~") (parts f) -> linkable_file f line.
Proof.
  intros f line F. rewrite Forall_forall in F. split.
  - apply Forall_forall. intros n I. destruct (F n I) as [U C]. apply ordinary_linkable; [exact U|]. intros c J. destruct (C c J) as [W|W]; [now left|right].
    vm_compute in W |- *. tauto.
  - intros _ l n c E. destruct (F (n ++ [c])) as [_ C]; [rewrite E; apply in_or_app; right; now left|].
    destruct (C c) as [W|W]; [apply in_or_app; right; now left|destruct c as [[] [] [] [] [] [] [] []]; vm_compute in W |- *; congruence|].
    vm_compute in W. repeat (destruct W as [<-|W]; [reflexivity|]). destruct W.
Qed.
Print Assumptions C114_ordinary.

(** Other links lead elsewhere, as the path is put into them as it is: this one to another file. *)
Theorem C114_elsewhere_refuted : exists tag f l other p, root f = [] /\ Forall good_part (parts f) /\
  leads (source_link tag f ($"#L" ++ str_of_int l)) elixir (page_way tag other) None p /\ other <> f /\ p <> line_place (Some l).
Proof.
  exists $"v6.1", (Path [] [$"fs"; $"a#b.c"]), 7, (Path [] [$"fs"; $"a"]), (Some (codes $"b.c#L7")).
  split; [reflexivity|]. split; [|split; [|split; discriminate]].
  - repeat constructor; try discriminate; intros I; vm_compute in I; intuition discriminate.
  - assert (Forall (fun x => exists n, x = codes n /\ itself n) (page_way $"v6.1" (Path [] [$"fs"; $"a"]))) as W.
    { assert (forall n, n <> [] -> forallb is_word n = true -> exists m, codes n = codes m /\ itself m) as S by (intros n A B; exists n; split; [reflexivity|now apply simple_itself]).
      constructor; [now apply S|]. constructor; [exists $"v6.1"; split; [reflexivity|]; apply (tag_itself [6; 1; 0]); [repeat constructor; discriminate|reflexivity]|].
      constructor; [now apply S|]. constructor; [now apply S|]. constructor; [now apply S|constructor]. }
    eapply (leads_to _ _ _ _ _ _ _ _ (page_way $"v6.1" (Path [] [$"fs"; $"a"])) (page_way $"v6.1" (Path [] [$"fs"; $"a"]))); try (vm_compute; reflexivity).
    + apply (walked_same (page_way $"v6.1" (Path [] [$"fs"; $"a"]))) with (done := []). eapply Forall_impl; [|exact W]. intros x (n & -> & N). now apply itself_dots.
    + induction W as [|x l (n & -> & N) _ IH]; [constructor|]. constructor; [|exact IH]. apply unescaped_same. exact (lk_percent n (proj2 N)).
Qed.
Print Assumptions C114_elsewhere_refuted.

(** *** Examples *)

Example C114_example : linkable_file (Path [] [$"arch"; $"x86"; $"kernel"; $"sys_x86_64.c"]) (Some 91) /\
  ~ linkable_file (Path [] [$"fs"; $"100%25.c"]) (Some 1) /\ ~ linkable_file (Path [] [$".."; $"fs"; $"open.c"]) None /\
  ~ linkable_file (Path [] [$"fs"; $"open.c "]) None /\ linkable_file (Path [] [$"fs"; $"100%.c "]) (Some 5).
Proof.
  split; [|split; [|split; [|split]]].
  - apply C114_ordinary. apply Forall_forall. intros n N. destruct N as [<-|[<-|[<-|[<-|[]]]]]; (split; [discriminate|]); intros c I; vm_compute in I;
    repeat (destruct I as [<-|I]; [first [left; reflexivity|right; vm_compute; tauto]|]); destruct I.
  - intros [F _]. rewrite Forall_forall in F. specialize (F $"100%25.c" ltac:(right; now left)).
    discriminate (lk_percent _ F (codes $"100") (codes $"%25.c") eq_refl).
  - intros [F _]. rewrite Forall_forall in F. now apply (lk_up _ (F $".." ltac:(now left))).
  - intros [_ E]. discriminate (E eq_refl [$"fs"] $"open.c" " "%char eq_refl).
  - split; [|discriminate]. constructor; [apply (simple_itself $"fs"); [discriminate|reflexivity]|]. constructor; [|constructor]. split; [| |discriminate].
    + intros c I. vm_compute in I. repeat (destruct I as [<-|I]; [split; [intros H; vm_compute in H; intuition discriminate|reflexivity]|]). destruct I.
    + intros x y E. do 7 (destruct x as [|? x]; [cbn [app] in E; subst y; vm_compute; reflexivity|]; injection E as _ E). destruct x; [cbn [app] in E; subst y; reflexivity|discriminate E].
Qed.
(** The page of C93's example: the links of its rows. *)
Example C114_example_page : exists text ts, output_html $"0.7" $"(C)" (version_tag [5; 10; 0]) ex_a [ex_read; ex_fork; ex_bpf] = Ok text /\ html_read text = Some ts /\
  map (fun r => map (map chr) (c_links (nth 4 r (plain [])))) (table_of ts) =
    [[]; [$"https://elixir.bootlin.com/linux/v5.10/source/fs/read_write.c#L613"]; []; [$"https://elixir.bootlin.com/linux/v5.10/source/kernel/bpf/syscall.c#L0"]].
Proof. eexists _, _. split; [vm_compute; reflexivity|]. split; vm_compute; reflexivity. Qed.
