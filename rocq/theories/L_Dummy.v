(** Lemmas about dummy syscalls and the PowerPC endian switch (C31-C36). *)
From Coq Require Import List Bool Ascii String ZArith Lia ZifyBool ZifyNat.
From Verif Require Import PyBase PyFacts M_Utils S_Utils L_Utils M_Elf M_Syscall M_Arch S_Arch L_Arch S_Dummy.
Import ListNotations.
Open Scope Z_scope.
Open Scope list_scope.

(** * x86 *)

Lemma bytes_in_iff b l : bytes_in b l = true <-> In b l.
Proof. unfold bytes_in. apply existsb_str. Qed.

Definition bad_imm := [bts [218; 255; 255; 255]; bts [234; 255; 255; 255]].

Lemma x86_stub_dummy sym e c : read_symbol e sym = Ok c -> len c = sym_size sym -> x86_stub c ->
  x86_dummy sym e = Ok (Some c).
Proof.
  intros Hr Hl (p & m & l & err & He & Hp & Hm & Hv & ->). unfold x86_dummy. rewrite Hr, <- Hl. clear Hr Hl.
  cbn [In] in He. destruct He as [<-|[<-|[]]]; destruct Hp, Hm, Hv; vm_compute; reflexivity.
Qed.

Lemma len_cons {A} (x : A) l : len (x :: l) = len l + 1.
Proof. unfold len. cbn [List.length]. lia. Qed.
Lemma len_nil_iff {A} (l : list A) : len l = 0 -> l = [].
Proof. destruct l; [reflexivity|]. rewrite len_cons. pose proof (len_nonneg l). lia. Qed.
Lemma len_S {A} (l : list A) n : 0 < n -> len l = n -> exists x l', l = x :: l' /\ len l' = n - 1.
Proof. destruct l as [|x l]; [change (len (@nil A)) with 0; lia|]. rewrite len_cons. intros. exists x, l. split; [reflexivity|lia]. Qed.

Lemma code_eq_chr c n : 0 <= n < 256 -> code c = n -> c = chr n.
Proof. intros H <-. symmetry. apply chr_code. Qed.

Ltac explode l H :=
  match type of H with
  | len ?l' = 0 => apply len_nil_iff in H; subst
  | len ?l' = ?n =>
     let x := fresh "x" in let l2 := fresh l in let E := fresh in
     apply len_S in H; [|reflexivity]; destruct H as (x & l2 & E & H); subst;
     match type of H with len _ = ?k - 1 => let v := eval vm_compute in (k - 1) in change (k - 1) with v in H end;
     explode l2 H
  end.

Lemma core32 c n (t : Z) : len c = n -> n = 6 \/ n = 7 \/ n = 10 ->
  slice_to c 1 = bts [184] -> In (slice c 1 5) bad_imm ->
  exists err l, In err [ENOSYS; EINVAL] /\ c = (chr 184 :: enc_uint false 4 (twos 4 (- err))) ++ l /\ len l = n - 5 /\
    index_ c 5 = match l with x :: _ => Ok x | [] => Raise IndexError end.
Proof.
  intros Hl Hn H1 H2.
  destruct Hn as [->|[->| ->]]; explode c Hl; cbv in H1; injection H1 as ->;
    cbv in H2; (destruct H2 as [H2|[H2|[]]]; injection H2 as <- <- <- <-;
      [exists ENOSYS|exists EINVAL]; eexists; (split; [cbn; auto|]); (split; [cbv; reflexivity|]); split; reflexivity).
Qed.
Lemma core64 c n (t : Z) : len c = n -> n = 8 \/ n = 9 \/ n = 12 ->
  slice_to c 3 = bts [72; 199; 192] -> In (slice c 3 7) bad_imm ->
  exists err l, In err [ENOSYS; EINVAL] /\
    c = (chr 72 :: chr 199 :: chr 192 :: enc_uint false 4 (twos 4 (- err))) ++ l /\ len l = n - 7 /\
    index_ c 7 = match l with x :: _ => Ok x | [] => Raise IndexError end.
Proof.
  intros Hl Hn H1 H2.
  destruct Hn as [->|[->| ->]]; explode c Hl; cbv in H1; injection H1 as -> -> ->;
    cbv in H2; (destruct H2 as [H2|[H2|[]]]; injection H2 as <- <- <- <-;
      [exists ENOSYS|exists EINVAL]; eexists; (split; [cbn; auto|]); (split; [cbv; reflexivity|]); split; reflexivity).
Qed.

Definition x86_core (code_ : bytes) (sz : Z) : outcome bool :=
  let check sz' i b := if sz =? sz' then (c <- index_ code_ i ;; Ok (code c =? b)) else Ok false in
  r32 <- (if str_eqb (slice_to code_ 1) (bts [184]) && bytes_in (slice code_ 1 5) bad_imm then
            a <- check 6 5 195 ;;
            if a : bool then Ok true else
            b <- check 7 5 235 ;;
            if b : bool then Ok true else check 10 5 233
          else Ok false) ;;
  if r32 : bool then Ok true else
  (if str_eqb (slice_to code_ 3) (bts [72; 199; 192]) && bytes_in (slice code_ 3 7) bad_imm then
            a <- check 8 7 195 ;;
            if a : bool then Ok true else
            b <- check 9 7 235 ;;
            if b : bool then Ok true else check 12 7 233
          else Ok false).

Lemma two_step {C} (A B : outcome bool) (c : C) :
  (r32 <- A ;; if r32 : bool then Ok (Some c) else r64 <- B ;; if r64 : bool then Ok (Some c) else Ok None) =
  (r <- (r32 <- A ;; if r32 : bool then Ok true else B) ;; Ok (if r : bool then Some c else None)).
Proof. destruct A as [[|]| | |]; try reflexivity. destruct B as [[|]| | |]; reflexivity. Qed.
Lemma x86_dummy_core sym e : x86_dummy sym e =
  if (sym_size sym <? 6) || (16 <? sym_size sym) then Ok None else
  orig <- read_symbol e sym ;;
  let eb := startswith orig (bts [243; 15; 30; 250]) || startswith orig (bts [243; 15; 30; 251]) in
  r <- x86_core (if eb then slice_from orig 4 else orig) (if eb then sym_size sym - 4 else sym_size sym) ;;
  Ok (if r : bool then Some orig else None).
Proof.
  unfold x86_dummy, x86_core. destruct ((sym_size sym <? 6) || (16 <? sym_size sym)); [reflexivity|].
  destruct (read_symbol e sym) as [orig| | |]; [|reflexivity..]. cbn [bind]. cbv zeta. fold bad_imm.
  set (eb := startswith orig _ || startswith orig _).
  apply two_step.
Qed.

Definition core_stub (c : bytes) : Prop :=
  exists m l err, In err [ENOSYS; EINVAL] /\ mov_ax err m /\ leave l /\ c = m ++ l.

Lemma check_true c sz sz' i b : (if sz =? sz' then (x <- index_ c i ;; Ok (code x =? b)) else Ok false) = Ok true ->
  sz = sz' /\ exists x, index_ c i = Ok x /\ code x = b.
Proof.
  destruct (sz =? sz') eqn:E; [|discriminate]. destruct (index_ c i) as [x| | |]; cbn; try discriminate.
  intros [= H]. split; [lia|]. exists x. split; [reflexivity|lia].
Qed.
Lemma check_total c sz sz' i b : len c = sz -> 0 <= i < sz' ->
  exists r, (if sz =? sz' then (x <- index_ c i ;; Ok (code x =? b)) else Ok false) = Ok r.
Proof.
  intros Hl Hi. destruct (sz =? sz') eqn:E; [|eauto]. unfold index_.
  destruct (i <? 0) eqn:E1; [lia|]. cbn zeta. rewrite E1.
  destruct (nth_error c (Z.to_nat i)) eqn:En; [cbn; eauto|]. apply nth_error_None in En. unfold len in Hl. lia.
Qed.

Lemma or3 {A} (x y z : outcome bool) : (a <- x ;; if a : bool then Ok true else b <- y ;; if b : bool then Ok true else z) = Ok A ->
  (x = Ok true \/ y = Ok true \/ z = Ok true) \/ A = false.
Proof.
  destruct x as [[|]| | |]; cbn; try discriminate; [auto|]. destruct y as [[|]| | |]; cbn; try discriminate; [auto|].
  destruct z as [[|]| | |]; cbn; try discriminate; [auto|]. intros [= <-]. auto.
Qed.
Lemma or3_total (x y z : outcome bool) : (exists r, x = Ok r) -> (exists r, y = Ok r) -> (exists r, z = Ok r) ->
  exists r, (a <- x ;; if a : bool then Ok true else b <- y ;; if b : bool then Ok true else z) = Ok r.
Proof.
  intros [[|] ->] [[|] ->] [r ->]; cbn; eauto.
Qed.

Lemma if_total (b : bool) (x : outcome bool) : (exists r, x = Ok r) -> exists r, (if b then x else Ok false) = Ok r.
Proof. destruct b; eauto. Qed.
Lemma step_total (x y : outcome bool) : (exists r, x = Ok r) -> (exists r, y = Ok r) ->
  exists r, (r32 <- x ;; if r32 : bool then Ok true else y) = Ok r.
Proof. intros [[|] ->] [r ->]; cbn; eauto. Qed.
Lemma step_true (x y : outcome bool) : (r32 <- x ;; if r32 : bool then Ok true else y) = Ok true -> x = Ok true \/ y = Ok true.
Proof. destruct x as [[|]| | |]; cbn; try discriminate; auto. Qed.

Lemma leave1 l x : len l = 1 -> (match l with y :: _ => Ok y | [] => Raise IndexError end) = Ok x -> code x = 195 -> leave l.
Proof. intros Hl Hx Hc. explode l Hl. injection Hx as ->. apply code_eq_chr in Hc; [|lia]. subst. constructor. Qed.
Lemma leave2 l x : len l = 2 -> (match l with y :: _ => Ok y | [] => Raise IndexError end) = Ok x -> code x = 235 -> leave l.
Proof. intros Hl Hx Hc. explode l Hl. injection Hx as ->. apply code_eq_chr in Hc; [|lia]. subst. constructor. Qed.
Lemma leave5 l x : len l = 5 -> (match l with y :: _ => Ok y | [] => Raise IndexError end) = Ok x -> code x = 233 -> leave l.
Proof. intros Hl Hx Hc. explode l Hl. injection Hx as ->. apply code_eq_chr in Hc; [|lia]. subst. constructor. Qed.

Lemma x86_core_total c sz : len c = sz -> exists r, x86_core c sz = Ok r.
Proof.
  intros Hl. unfold x86_core.
  apply step_total; apply if_total, or3_total; apply check_total; lia.
Qed.
Lemma x86_core_stub c sz : len c = sz -> x86_core c sz = Ok true -> core_stub c.
Proof.
  intros Hl H. unfold x86_core in H.
  apply step_true in H. destruct H as [H|H].
  - destruct (str_eqb (slice_to c 1) (bts [184])) eqn:E1; [|discriminate].
    destruct (bytes_in (slice c 1 5) bad_imm) eqn:E2; [|discriminate]. cbn [andb] in H.
    apply str_eqb_eq in E1. apply bytes_in_iff in E2.
    apply or3 in H as [H|H]; [|discriminate].
    assert (Hsz : sz = 6 \/ sz = 7 \/ sz = 10).
    { destruct H as [H|[H|H]]; apply check_true in H as [H _]; lia. }
    destruct (core32 c sz 0 Hl Hsz E1 E2) as (err & l & He & Hc & Hll & Hi).
    exists (chr 184 :: enc_uint false 4 (twos 4 (- err))), l, err. split; [assumption|]. split; [constructor|]. split; [|assumption].
    destruct H as [H|[H|H]]; apply check_true in H as (Hs & x & Hx & Hcode); rewrite Hi in Hx;
      [eapply leave1|eapply leave2|eapply leave5]; try eassumption; lia.
  - destruct (str_eqb (slice_to c 3) (bts [72; 199; 192])) eqn:E1; [|discriminate].
    destruct (bytes_in (slice c 3 7) bad_imm) eqn:E2; [|discriminate]. cbn [andb] in H.
    apply str_eqb_eq in E1. apply bytes_in_iff in E2.
    apply or3 in H as [H|H]; [|discriminate].
    assert (Hsz : sz = 8 \/ sz = 9 \/ sz = 12).
    { destruct H as [H|[H|H]]; apply check_true in H as [H _]; lia. }
    destruct (core64 c sz 0 Hl Hsz E1 E2) as (err & l & He & Hc & Hll & Hi).
    eexists _, l, err. split; [eassumption|]. split; [apply mv_rax|]. split; [|exact Hc].
    destruct H as [H|[H|H]]; apply check_true in H as (Hs & x & Hx & Hcode); rewrite Hi in Hx;
      [eapply leave1|eapply leave2|eapply leave5]; try eassumption; lia.
Qed.

Lemma x86_dummy_total sym e c : read_symbol e sym = Ok c -> len c = sym_size sym ->
  exists o, x86_dummy sym e = Ok o /\ (o = None \/ o = Some c).
Proof.
  intros Hr Hl. rewrite x86_dummy_core. destruct (_ || _); [eauto|]. rewrite Hr. cbn [bind].
  set (eb := startswith c _ || startswith c _).
  destruct (x86_core_total (if eb then slice_from c 4 else c) (if eb then sym_size sym - 4 else sym_size sym)) as [r Hc].
  - destruct eb eqn:E; [|assumption]. subst eb.
    assert (exists p t, c = p ++ t /\ len p = 4) as (p & t & -> & Hp).
    { apply orb_true_iff in E as [E|E]; apply startswith_iff in E as [t ->]; eexists _, t; (split; [reflexivity|]); reflexivity. }
    rewrite <- Hp, slice_from_app. rewrite len_app in Hl. lia.
  - cbv zeta. match goal with |- context [bind ?x _] => assert (x = Ok r) as -> by exact Hc end. cbn. destruct r; eauto.
Qed.

Lemma x86_dummy_stub sym e c : read_symbol e sym = Ok c -> len c = sym_size sym ->
  x86_dummy sym e = Ok (Some c) -> x86_stub c.
Proof.
  intros Hr Hl H. rewrite x86_dummy_core in H. destruct (_ || _); [discriminate|]. rewrite Hr in H. cbn [bind] in H.
  cbv zeta in H. destruct (x86_core _ _) as [[|]| | |] eqn:Hc; cbn in H; try discriminate. clear H.
  destruct (startswith c (bts [243; 15; 30; 250])) eqn:E1.
  { cbn [orb] in Hc. apply startswith_iff in E1 as [t ->]. change 4 with (len (bts [243; 15; 30; 250])) in Hc at 1.
    rewrite slice_from_app in Hc. rewrite len_app in Hl. change (len (bts [243; 15; 30; 250])) with 4 in Hl.
    apply x86_core_stub in Hc; [|lia]. destruct Hc as (m & l & err & H1 & H2 & H3 & ->).
    exists (bts [243; 15; 30; 250]), m, l, err. repeat split; try assumption. apply eb_64. }
  destruct (startswith c (bts [243; 15; 30; 251])) eqn:E2.
  { cbn [orb] in Hc. apply startswith_iff in E2 as [t ->]. change 4 with (len (bts [243; 15; 30; 251])) in Hc at 1.
    rewrite slice_from_app in Hc. rewrite len_app in Hl. change (len (bts [243; 15; 30; 251])) with 4 in Hl.
    apply x86_core_stub in Hc; [|lia]. destruct Hc as (m & l & err & H1 & H2 & H3 & ->).
    exists (bts [243; 15; 30; 251]), m, l, err. repeat split; try assumption. apply eb_32. }
  cbn [orb] in Hc. apply x86_core_stub in Hc; [|assumption]. destruct Hc as (m & l & err & H1 & H2 & H3 & ->).
  exists [], m, l, err. repeat split; try assumption. apply eb_none.
Qed.

Lemma x86_dummy_exact sym e c : read_symbol e sym = Ok c -> len c = sym_size sym ->
  (x86_stub c -> x86_dummy sym e = Ok (Some c)) /\ (~ x86_stub c -> x86_dummy sym e = Ok None).
Proof.
  intros Hr Hl. split; [now apply x86_stub_dummy|]. intros Hn.
  destruct (x86_dummy_total _ _ _ Hr Hl) as (o & Ho & [->| ->]); [assumption|]. exfalso. apply Hn. eapply x86_dummy_stub; eassumption.
Qed.
