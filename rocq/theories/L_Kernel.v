(** Lemmas about the model of kernel.py: versions and tables. *)
From Coq Require Import List Bool Ascii String ZArith Lia.
From Verif Require Import PyBase PyFacts Regex RegexFacts M_Utils S_Utils M_Elf S_Elf L_Elf M_Syscall M_Arch S_Arch
  M_Emu M_Kconfig M_Kernel S_Kernel.
Import ListNotations.
Open Scope Z_scope.
Open Scope list_scope.

(** * Versions *)

Lemma m_opt {R} a s cs (k : st -> caps -> option R) :
  m (ROpt a) s cs k = match m a s cs k with Some x => Some x | None => k s cs end.
Proof. reflexivity. Qed.

Lemma dot_not_dec : is_dec "." = false. Proof. reflexivity. Qed.

Lemma no_digit_head s : ~ starts_with_digit s -> match s with c :: _ => is_dec c = false | [] => True end.
Proof. destruct s as [|c s]; auto. intros H. destruct (is_dec c) eqn:E; auto. exfalso. apply H. now exists c, s. Qed.

Lemma version_three x y z a b c r :
  is_number x a -> is_number y b -> is_number z c -> ~ starts_with_digit r ->
  version_from_str (x ++ $"." ++ y ++ $"." ++ z ++ r) = Some [a; b; c].
Proof.
  intros (Nx & Dx & Vx) (Ny & Dy & Vy) (Nz & Dz & Vz) Hr. apply no_digit_head in Hr.
  change (list_ascii_of_string ".") with ["."%char]. cbn [app].
  set (s := x ++ "."%char :: y ++ "."%char :: z ++ r).
  assert (exists st cs, re_match version_re s = Some (0, st, cs) /\
            cap 1 cs = Some (0, x) /\ (exists i, cap 2 cs = Some (i, y)) /\ exists i, cap 4 cs = Some (i, z)) as
    (st' & cs & E & E1 & [i2 E2] & [i4 E4]).
  { do 2 eexists. unfold re_match, re_match_at, version_re. cbn [RSeq]. rewrite m_cat. split.
    - eapply m_grp_plus_ok with (a := x); [reflexivity|assumption|exact Dx|reflexivity|].
      rewrite m_cat. erewrite m_chr by (apply adv_rest; reflexivity). rewrite m_cat.
      assert (R1 : rest (adv (adv (start s) x) ["."%char]) = y ++ "."%char :: z ++ r)
        by (apply adv_rest, adv_rest; reflexivity).
      eapply m_grp_plus_ok with (a := y); [exact R1|assumption|exact Dy|reflexivity|].
      rewrite m_cat, m_opt, m_grp_unfold. cbn [RSeq]. rewrite m_cat.
      assert (R2 : rest (adv (adv (adv (start s) x) ["."%char]) y) = "."%char :: z ++ r) by (apply adv_rest, R1).
      erewrite m_chr by exact R2. rewrite m_cat.
      erewrite m_grp_plus_ok with (a := z); [reflexivity|apply (adv_rest _ ["."%char]); exact R2|assumption|exact Dz|exact Hr|].
      reflexivity.
    - cbn. eauto. }
  unfold version_from_str. rewrite E. unfold group_or_nil, group. cbn [snd]. rewrite E1, E2, E4. congruence.
Qed.

Lemma version_two x y a b r :
  is_number x a -> is_number y b -> ~ starts_with_digit r ->
  (forall t, r = $"." ++ t -> ~ starts_with_digit t) ->
  version_from_str (x ++ $"." ++ y ++ r) = Some [a; b].
Proof.
  intros (Nx & Dx & Vx) (Ny & Dy & Vy) Hr Hr2. apply no_digit_head in Hr.
  change (list_ascii_of_string ".") with ["."%char] in *. cbn [app] in *.
  set (s := x ++ "."%char :: y ++ r).
  assert (exists st cs, re_match version_re s = Some (0, st, cs) /\
            cap 1 cs = Some (0, x) /\ (exists i, cap 2 cs = Some (i, y)) /\ cap 4 cs = None) as
    (st' & cs & E & E1 & [i2 E2] & E4).
  { do 2 eexists. unfold re_match, re_match_at, version_re. cbn [RSeq]. rewrite m_cat. split.
    - eapply m_grp_plus_ok with (a := x); [reflexivity|assumption|exact Dx|reflexivity|].
      rewrite m_cat. erewrite m_chr by (apply adv_rest; reflexivity). rewrite m_cat.
      assert (R1 : rest (adv (adv (start s) x) ["."%char]) = y ++ r)
        by (apply adv_rest, adv_rest; reflexivity).
      eapply m_grp_plus_ok with (a := y); [exact R1|assumption|exact Dy|exact Hr|].
      assert (R2 : rest (adv (adv (adv (start s) x) ["."%char]) y) = r) by (apply adv_rest, R1).
      rewrite m_cat, m_opt, m_grp_unfold.
      rewrite m_none; [reflexivity|].
      intros s' Hs. apply rm_cat_inv in Hs as (s1 & H1 & H2). apply rm_chr_inv in H1 as (t & Ht & ->).
      apply rm_cat_inv in H2 as (s2 & H2 & _). apply rm_grp_inv, rm_plus_inv in H2 as (d & dd & Hd & Nd & Dd & _).
      rewrite (adv_rest _ ["."%char] t Ht) in Hd.
      apply (Hr2 t); [congruence|]. destruct d as [|c d]; [congruence|]. exists c, (d ++ dd). split; [exact Hd|].
      cbn in Dd. now apply andb_prop in Dd as [? _].
    - cbn. eauto. }
  unfold version_from_str. rewrite E. unfold group_or_nil, group. cbn [snd]. rewrite E1, E2, E4. congruence.
Qed.

Lemma version_none s : version_from_str s = None <->
  ~ exists x y r, s = x ++ $"." ++ y ++ r /\ some_of is_dec x /\ some_of is_dec y.
Proof.
  assert (version_from_str s = None <-> re_match version_re s = None) as ->.
  { unfold version_from_str. destruct (re_match version_re s); split; congruence. }
  rewrite re_match_None. split.
  - intros H (x & y & r & -> & [Nx Dx] & [Ny Dy]).
    assert (can version_re (start (x ++ $"." ++ y ++ r))) as [s' Hs]; [|now apply H in Hs].
    unfold version_re. cbn [RSeq].
    eapply can_grp_plus with (a := x); [reflexivity|assumption|exact Dx|]. intros R.
    eapply can_cls with (c := "."%char); [exact R|reflexivity|]. intros R2.
    eapply can_grp_plus with (a := y); [exact R2|assumption|exact Dy|]. intros R3.
    eexists. apply rm_cat_inv. eexists. split; [apply rm_opt_inv; left; reflexivity|apply rm_eps_inv; reflexivity].
  - intros H s' Hs. apply H. unfold version_re in Hs. rm_seq Hs.
    apply rm_grp_inv, rm_plus_inv in Hm as (x & r1 & E1 & Nx & Dx & ->).
    apply rm_chr_inv in Hm0 as (r2 & E2 & ->). apply rm_grp_inv, rm_plus_inv in Hm1 as (y & r3 & E3 & Ny & Dy & ->).
    cbn in E1. rewrite (adv_rest (start s) x r1 E1) in E2. subst r1.
    rewrite (adv_rest _ ["."%char] r2 (adv_rest (start s) x _ E1)) in E3. subst r2.
    exists x, y, r3. split; [exact E1|]. split; split; assumption.
Qed.

Lemma banner_ok s : version_from_banner ($"Linux version " ++ s) = version_from_str s.
Proof. unfold version_from_banner. rewrite startswith_app. cbn [negb]. f_equal. Qed.
Lemma banner_bad s : ~ is_prefix $"Linux version " s -> version_from_banner s = None.
Proof.
  intros H. unfold version_from_banner. destruct (startswith s $"Linux version ") eqn:E; [|reflexivity].
  apply startswith_iff in E as [t ->]. exfalso. apply H. now exists t.
Qed.

Lemma is_number_str z : 0 <= z -> is_number (str_of_int z) z.
Proof.
  intros H. unfold str_of_int. destruct (Z.ltb_spec z 0); [lia|].
  split; [apply digits_ne|]. split; [apply digits_dec_b|now apply int_dec_digits].
Qed.

(** The tag without its "v" gives the version back. *)
Lemma tag_round_trip a b c : 0 <= a -> 0 <= b -> 0 <= c ->
  exists t, version_tag [a; b; c] = Ok ("v"%char :: t) /\
    version_from_str t = Some (if c =? 0 then [a; b] else [a; b; c]).
Proof.
  intros Ha Hb Hc. unfold version_tag. eexists. split.
  - instantiate (1 := if c =? 0 then _ else _). destruct (c =? 0); reflexivity.
  - destruct (c =? 0).
    + rewrite <- (app_nil_r (str_of_int b)).
      apply (version_two _ _ a b []); auto using is_number_str.
      * intros (x & t & H & _). discriminate H.
      * intros t H. discriminate H.
    + rewrite <- (app_nil_r (str_of_int c)).
      apply (version_three _ _ _ a b c []); auto using is_number_str.
      intros (x & t & H & _). discriminate H.
Qed.

Lemma tag_inj v w t : version_tag v = Ok t -> version_tag w = Ok t ->
  Forall (fun z => 0 <= z) v -> Forall (fun z => 0 <= z) w -> v = w.
Proof.
  intros Hv Hw Fv Fw.
  destruct v as [|a [|b [|c [|]]]]; try discriminate Hv.
  destruct w as [|a' [|b' [|c' [|]]]]; try discriminate Hw.
  rewrite !Forall_cons_iff in Fv, Fw. destruct Fv as (? & ? & ? & _), Fw as (? & ? & ? & _).
  destruct (tag_round_trip a b c) as (t1 & E1 & V1); auto.
  destruct (tag_round_trip a' b' c') as (t2 & E2 & V2); auto.
  assert (t1 = t2) by congruence. subst t2. rewrite V1 in V2.
  destruct (Z.eqb_spec c 0), (Z.eqb_spec c' 0); congruence.
Qed.
