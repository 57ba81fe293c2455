(** Lemmas: reading the JSON document (C91). *)
From Coq Require Import List Bool Ascii String ZArith Lia Permutation Sorted.
From Verif Require Import PyBase PyFacts M_Utils M_Elf M_Arch M_Syscall M_Kernel M_Config M_Output L_Utils S_Output L_Output M_Json S_Json M_Location M_Annotate L_Print.
Import ListNotations.
Open Scope Z_scope.
Open Scope list_scope.

(** * Strings *)
Definition esc_kind (c : ascii) : bool :=
  match esc c with
  | [x] => Ascii.eqb x c && negb (code c =? 34) && negb (code c =? 92) && negb (code c <? 32)
  | [b; e] => (code b =? 92) && negb (code e =? 117) && match dget Z.eqb (code e) short_escapes with Some z => z =? code c | None => false end
  | [b; u; h1; h2; h3; h4] => (code b =? 92) && (code u =? 117) && forallb is_hex [h1; h2; h3; h4] && (int_hex [h1; h2; h3; h4] =? code c)
  | _ => false
  end.
Lemma esc_kinds c : esc_kind c = true.
Proof. apply (ascii_forall esc_kind). vm_compute. reflexivity. Qed.
Lemma characters_esc c t : characters (esc c ++ t) = match characters t with Some (s, q) => Some (c :: s, q) | None => None end.
Proof.
  pose proof (esc_kinds c) as K. unfold esc_kind in K. destruct (esc c) as [|b [|e [|h1 [|h2 [|h3 [|h4 [|]]]]]]]; try discriminate K.
  - repeat (apply andb_prop in K as (K & ?)). apply ascii_eqb_eq in K as ->. cbn [app characters].
    destruct (code c =? 34); [discriminate|]. destruct (code c =? 92); [discriminate|]. destruct (code c <? 32); [discriminate|]. reflexivity.
  - apply andb_prop in K as (K & D). apply andb_prop in K as (K & U). cbn [app characters]. destruct (code b =? 34) eqn:B; [lia|]. rewrite K.
    destruct (code e =? 117); [discriminate U|]. destruct (dget Z.eqb (code e) short_escapes) as [z|]; [|discriminate D].
    assert (z = code c) as -> by lia. now rewrite chr_code.
  - apply andb_prop in K as (K & D). apply andb_prop in K as (K & F). apply andb_prop in K as (K & U). assert (int_hex [h1; h2; h3; h4] = code c) as E by lia.
    cbn [app characters]. destruct (code b =? 34) eqn:B; [lia|]. rewrite K, U, F, E. pose proof (code_range c). destruct (code c <? 256) eqn:L; [|lia].
    cbn [andb]. now rewrite chr_code.
Qed.
Lemma characters_quote s q : characters (flat_map esc s ++ chr 34 :: q) = Some (s, q).
Proof. induction s as [|c s IH]; [reflexivity|]. cbn [flat_map]. rewrite <- app_assoc, characters_esc, IH. reflexivity. Qed.
Lemma quote_app s q : quote s ++ q = chr 34 :: flat_map esc s ++ chr 34 :: q.
Proof. unfold quote. cbn [bts map app]. now rewrite <- app_assoc. Qed.

(** * Blanks *)
Lemma skip_head c t : is_ws c = false -> skip (c :: t) = c :: t.
Proof. intros H. unfold skip. cbn [dropwhile]. now rewrite H. Qed.
Lemma skip_newline k t : skip (newline k ++ t) = skip t.
Proof.
  unfold skip, newline. change ((NL :: repeat (chr 9) k) ++ t) with ([NL] ++ repeat (chr 9) k ++ t).
  rewrite dropwhile_app_all by reflexivity. apply dropwhile_app_all. apply forallb_repeat. reflexivity.
Qed.

(** * Numbers *)
Lemma digits_fuel_head n z acc : 0 < z < 2 ^ Z.of_nat n -> exists c r, digits_fuel n 10 z acc = c :: r /\ code c <> 48.
Proof.
  revert z acc. induction n as [|n IH]; intros z acc H; [change (2 ^ Z.of_nat 0) with 1 in H; lia|]. cbn [digits_fuel].
  assert (0 <= z mod 10 < 10) by (apply Z.mod_pos_bound; lia). assert (z = 10 * (z / 10) + z mod 10) by (apply Z.div_mod; lia).
  destruct (z / 10 =? 0) eqn:E.
  - eexists _, _. split; [reflexivity|]. unfold digit_chr. destruct (z mod 10 <? 10) eqn:L; [|lia]. rewrite code_chr by lia. lia.
  - apply IH. rewrite Nat2Z.inj_succ, Z.pow_succ_r in H by lia. assert (0 <= z / 10) by (apply Z.div_pos; lia). split; [lia|].
    apply Z.div_lt_upper_bound; lia.
Qed.
Lemma number_digits z q : 0 <= z -> (forall c r, q = c :: r -> is_dec c = false) -> number (digits 10 z ++ q) = Some (z, q).
Proof.
  intros H D. unfold number.
  assert (takewhile is_dec (digits 10 z ++ q) = digits 10 z) as E1.
  { destruct q as [|c r]; [rewrite app_nil_r; apply takewhile_all, digits_dec_b|]. apply takewhile_app_all; [apply digits_dec_b|now apply (D c r)]. }
  assert (dropwhile is_dec (digits 10 z ++ q) = q) as E2.
  { rewrite dropwhile_app_all by apply digits_dec_b. destruct q as [|c r]; [reflexivity|]. apply dropwhile_head. now apply (D c r). }
  rewrite E1, E2, int_dec_digits by exact H. destruct (digits 10 z) as [|c [|c' r]] eqn:E; [now apply digits_ne in E|reflexivity|].
  destruct (Z.eq_dec z 0) as [->|N]; [discriminate E|].
  destruct (digits_fuel_head (S (Z.to_nat (Z.log2 z))) z []) as (c1 & r1 & E3 & N1).
  { split; [lia|now apply digits_fuel_enough]. }
  unfold digits in E. rewrite E3 in E. injection E as -> _. destruct (code c =? 48) eqn:X; [lia|reflexivity].
Qed.
Lemma digits_head z : exists c r, digits 10 z = c :: r /\ is_dec c = true.
Proof. pose proof (digits_dec z) as F. pose proof (digits_ne 10 z) as N. destruct (digits 10 z) as [|c r]; [congruence|]. inversion F; subst. eauto. Qed.

(** * The order of the members *)
Lemma insert_map {A B} (f : A -> B) (x : str * A) l :
  insert_sorted (fun x y => str_leb (fst x) (fst y)) (fst x, f (snd x)) (map (fun x => (fst x, f (snd x))) l) =
  map (fun x => (fst x, f (snd x))) (insert_sorted (fun x y => str_leb (fst x) (fst y)) x l).
Proof.
  induction l as [|y l IH]; [reflexivity|]. cbn [map insert_sorted fst snd]. destruct (str_leb (fst x) (fst y)); [reflexivity|]. cbn [map]. now rewrite IH.
Qed.
Lemma sort_map {A B} (f : A -> B) (l : list (str * A)) :
  sort_by str_leb fst (map (fun x => (fst x, f (snd x))) l) = map (fun x => (fst x, f (snd x))) (sort_by str_leb fst l).
Proof.
  unfold sort_by, sort_stable. induction l as [|x l IH]; [reflexivity|]. cbn [map fold_right]. rewrite IH. apply insert_map.
Qed.

(** * Induction on values *)
Section Ind.
  Variable P : json -> Prop.
  Hypotheses (Hn : P JNull) (Hb : forall b, P (JBool b)) (Hi : forall z, P (JInt z)) (Hs : forall s, P (JStr s))
    (Hl : forall l, Forall P l -> P (JList l)) (Ho : forall d, Forall (fun x => P (snd x)) d -> P (JObj d)).
  Fixpoint json_all (j : json) : P j :=
    match j with
    | JNull => Hn | JBool b => Hb b | JInt z => Hi z | JStr s => Hs s
    | JList l => Hl l ((fix go l : Forall P l := match l with [] => Forall_nil _ | x :: l => Forall_cons x (json_all x) (go l) end) l)
    | JObj d => Ho d ((fix go l : Forall (fun x => P (snd x)) l := match l with [] => Forall_nil _ | x :: l => Forall_cons x (json_all (snd x)) (go l) end) d)
    end.
End Ind.

(** What is read: members sorted *)
Fixpoint canon (j : json) : json :=
  match j with
  | JList l => JList (map canon l)
  | JObj d => JObj (sort_by str_leb fst (map (fun x => (fst x, canon (snd x))) d))
  | _ => j
  end.
Lemma canon_same j : same_json j (canon j).
Proof.
  induction j as [| | | |l IH|d IH] using json_all; cbn [canon]; try constructor.
  - induction IH; constructor; auto.
  - rewrite (sort_map canon). apply sj_obj with (sort_by str_leb fst d); [apply sort_by_perm|].
    assert (Forall (fun x => same_json (snd x) (canon (snd x))) (sort_by str_leb fst d)) as F.
    { rewrite Forall_forall in *. intros x I. apply IH. exact (proj1 (sort_by_in str_leb fst x d) I). }
    induction F; cbn [map]; constructor; auto.
Qed.
Lemma sorted_map {A B} (f : A -> B) R l : StronglySorted (fun x y => R (f x) (f y)) l -> StronglySorted R (map f l).
Proof.
  induction 1 as [|x l S IH F]; cbn [map]; constructor; [exact IH|]. rewrite Forall_forall in *. intros y I. apply in_map_iff in I as (z & <- & I). now apply F.
Qed.
Lemma canon_ordered j : ordered_json (canon j).
Proof.
  induction j as [| | | |l IH|d IH] using json_all; cbn [canon]; try constructor.
  - rewrite Forall_forall in *. intros x I. apply in_map_iff in I as (y & <- & I). now apply IH.
  - apply sorted_map. apply (sort_sorted (fun x y : str * json => str_leb (fst x) (fst y))).
    + intros x y. apply str_leb_total.
    + intros x y z. apply str_leb_trans.
  - rewrite Forall_forall in *. intros x I. apply (proj1 (sort_by_in str_leb fst x _)) in I. apply in_map_iff in I as (y & <- & I). now apply (IH y).
Qed.

(** * Reading *)
Fixpoint cost (j : json) : nat :=
  match j with
  | JList l => S (fold_right (fun x n => S (cost x + n)) 0%nat l)
  | JObj d => S (fold_right (fun x n => S (cost (snd x) + n)) 0%nat d)
  | _ => 1%nat
  end.
Definition block (lvl : nat) (o c : ascii) (l : list str) : str :=
  match l with
  | [] => [o; c]
  | _ => o :: newline (S lvl) ++ join ($"," ++ newline (S lvl)) l ++ newline lvl ++ [c]
  end.
Definition member (lvl : nat) (x : str * json) : str := quote (fst x) ++ $": " ++ dumps lvl (snd x).
Lemma dumps_list lvl l : dumps lvl (JList l) = block lvl "[" "]" (map (dumps (S lvl)) l).
Proof. reflexivity. Qed.
Lemma dumps_obj lvl d : dumps lvl (JObj d) = block lvl "{" "}" (map (member (S lvl)) (sort_by str_leb fst d)).
Proof. cbn [dumps]. rewrite (sort_map (dumps (S lvl))), map_map. reflexivity. Qed.
Lemma block_cons lvl o c x l : block lvl o c (x :: l) = o :: newline (S lvl) ++ join ($"," ++ newline (S lvl)) (x :: l) ++ newline lvl ++ [c].
Proof. reflexivity. Qed.
Lemma dumps_head lvl j : exists c r, dumps lvl j = c :: r /\ is_ws c = false /\ Ascii.eqb c "]" = false /\ Ascii.eqb c "}" = false.
Proof.
  destruct j as [|[]|z|s|l|d].
  1-3: eexists _, _; repeat split; reflexivity.
  - cbn [dumps]. unfold str_of_int. destruct (z <? 0); [eexists _, _; repeat split; reflexivity|].
    destruct (digits_head z) as (c & r & -> & D). exists c, r. split; [reflexivity|].
    revert D. destruct c as [[] [] [] [] [] [] [] []]; vm_compute; intuition congruence.
  - eexists _, _; repeat split; reflexivity.
  - rewrite dumps_list. destruct l; eexists _, _; repeat split; reflexivity.
  - rewrite dumps_obj. destruct (map _ _); eexists _, _; repeat split; reflexivity.
Qed.
Lemma value_skip n t t' : skip t = skip t' -> value n t = value n t'.
Proof. intros E. destruct n; [reflexivity|]. cbn [value]. now rewrite E. Qed.
Lemma skip_skip t : skip (skip t) = skip t.
Proof.
  unfold skip. induction t as [|c t IH]; [reflexivity|]. cbn [dropwhile]. destruct (is_ws c) eqn:E; [exact IH|]. cbn [dropwhile]. now rewrite E.
Qed.
Lemma elements_skip n t t' : skip t = skip t' -> elements n t = elements n t'.
Proof. intros E. destruct n; [reflexivity|]. cbn [elements]. now rewrite (value_skip n t t' E). Qed.
Lemma members_skip n t t' : skip t = skip t' -> members n t = members n t'.
Proof. intros E. destruct n; [reflexivity|]. cbn [members]. now rewrite E. Qed.
Lemma value_list n t c r : skip t = c :: r -> Ascii.eqb c "]" = false ->
  value (S n) ("["%char :: t) = match elements n t with Some (l, q) => Some (JList l, q) | None => None end.
Proof.
  intros E D. cbn [value]. rewrite (skip_head "["%char) by reflexivity. cbn [Ascii.eqb Bool.eqb]. rewrite E, D. rewrite (elements_skip n (c :: r) t); [reflexivity|].
  rewrite <- E. apply skip_skip.
Qed.
Lemma value_obj n t c r : skip t = c :: r -> Ascii.eqb c "}" = false ->
  value (S n) ("{"%char :: t) = match members n t with Some (l, q) => Some (JObj l, q) | None => None end.
Proof.
  intros E D. cbn [value]. rewrite (skip_head "{"%char) by reflexivity. cbn [Ascii.eqb Bool.eqb]. rewrite E, D. rewrite (members_skip n (c :: r) t); [reflexivity|].
  rewrite <- E. apply skip_skip.
Qed.
Definition nodec (q : str) : Prop := forall c r, q = c :: r -> is_dec c = false.
Definition reads (j : json) : Prop := forall lvl n q, (cost j <= n)%nat -> nodec q -> value n (dumps lvl j ++ q) = Some (canon j, q).
Lemma elements_last n t v r k q : value n t = Some (v, r) -> r = newline k ++ "]"%char :: q -> elements (S n) t = Some ([v], q).
Proof. intros V ->. cbn [elements]. rewrite V, skip_newline, (skip_head "]"%char) by reflexivity. reflexivity. Qed.
Lemma elements_more n t v r t' : value n t = Some (v, r) -> r = ","%char :: t' ->
  elements (S n) t = match elements n t' with Some (l, q) => Some (v :: l, q) | None => None end.
Proof. intros V ->. cbn [elements]. rewrite V, (skip_head ","%char) by reflexivity. reflexivity. Qed.
Lemma elements_ok lvl k q l : Forall reads l -> l <> [] -> forall n, (fold_right (fun x n => S (cost x + n)) 0 l <= n)%nat ->
  elements n (join ($"," ++ newline lvl) (map (dumps lvl) l) ++ newline k ++ "]"%char :: q) = Some (map canon l, q).
Proof.
  induction l as [|x l IH]; intros F N n Hn; [congruence|]. inversion F as [|? ? F1 F2]; subst. cbn [fold_right] in Hn.
  destruct n as [|n]; [lia|]. destruct l as [|y l].
  - cbn [map join]. cbn [fold_right] in Hn. apply elements_last with (newline k ++ "]"%char :: q) k; [|reflexivity]. apply F1; [lia|]. intros c r E. injection E as <- _. reflexivity.
  - change (map (dumps lvl) (x :: y :: l)) with (dumps lvl x :: map (dumps lvl) (y :: l)).
    change (join ($"," ++ newline lvl) (dumps lvl x :: map (dumps lvl) (y :: l))) with
      (dumps lvl x ++ ($"," ++ newline lvl) ++ join ($"," ++ newline lvl) (map (dumps lvl) (y :: l))).
    rewrite <- !app_assoc. erewrite elements_more; [|apply F1; [lia|intros c r E; injection E as <- _; reflexivity]|reflexivity].
    rewrite (elements_skip n _ _ (skip_newline lvl _)). rewrite IH; [reflexivity|exact F2|discriminate|lia].
Qed.
Lemma members_step n key t v r : value n t = Some (v, r) ->
  members (S n) (quote key ++ ":"%char :: t) =
    match skip r with
    | [] => None
    | c4 :: r4 => if Ascii.eqb c4 "}" then Some ([(key, v)], r4)
                  else if Ascii.eqb c4 "," then match members n r4 with Some (d, q) => Some ((key, v) :: d, q) | None => None end
                  else None
    end.
Proof.
  intros V. rewrite quote_app. cbn [members]. rewrite (skip_head (chr 34)) by reflexivity. change (code (chr 34) =? 34) with true. cbn iota.
  rewrite characters_quote. rewrite (skip_head ":"%char) by reflexivity. cbn [Ascii.eqb Bool.eqb]. rewrite V. reflexivity.
Qed.
Lemma value_after n lvl j q : reads j -> (cost j <= n)%nat -> nodec q -> value n (" "%char :: dumps lvl j ++ q) = Some (canon j, q).
Proof. intros R C N. rewrite <- (R lvl n q C N). apply value_skip. reflexivity. Qed.
Lemma members_ok lvl k q d : Forall (fun x => reads (snd x)) d -> d <> [] -> forall n, (fold_right (fun x n => S (cost (snd x) + n)) 0 d <= n)%nat ->
  members n (join ($"," ++ newline lvl) (map (member lvl) d) ++ newline k ++ "}"%char :: q) = Some (map (fun x => (fst x, canon (snd x))) d, q).
Proof.
  induction d as [|x l IH]; intros F N n Hn; [congruence|]. inversion F as [|? ? F1 F2]; subst. cbn [fold_right] in Hn.
  destruct n as [|n]; [lia|]. destruct l as [|y l].
  - cbn [map join]. cbn [fold_right] in Hn. unfold member at 1. rewrite <- !app_assoc. change ($": " ++ ?t) with (":"%char :: " "%char :: t).
    erewrite members_step; [|apply value_after; [exact F1|lia|intros c r E; injection E as <- _; reflexivity]].
    rewrite skip_newline, (skip_head "}"%char) by reflexivity. reflexivity.
  - change (map (member lvl) (x :: y :: l)) with (member lvl x :: map (member lvl) (y :: l)).
    change (join ($"," ++ newline lvl) (member lvl x :: map (member lvl) (y :: l))) with
      (member lvl x ++ ($"," ++ newline lvl) ++ join ($"," ++ newline lvl) (map (member lvl) (y :: l))).
    unfold member at 1. rewrite <- !app_assoc. change ($": " ++ ?t) with (":"%char :: " "%char :: t).
    erewrite members_step; [|apply value_after; [exact F1|lia|intros c r E; injection E as <- _; reflexivity]].
    change ($"," ++ ?t) with (","%char :: t). rewrite (skip_head ","%char) by reflexivity. cbn [Ascii.eqb Bool.eqb].
    rewrite (members_skip n _ _ (skip_newline lvl _)). rewrite IH; [reflexivity|exact F2|discriminate|lia].
Qed.
Lemma fold_perm (d d' : list (str * json)) : Permutation d d' ->
  fold_right (fun x n => S (cost (snd x) + n)) 0%nat d = fold_right (fun x n => S (cost (snd x) + n)) 0%nat d'.
Proof. induction 1; cbn [fold_right]; lia. Qed.
Lemma reads_all j : reads j.
Proof.
  induction j as [|b|z|s|l IH|d IH] using json_all; intros lvl n q Hn Hq; cbn [cost] in Hn; (destruct n as [|n]; [lia|]).
  - reflexivity.
  - destruct b; reflexivity.
  - cbn [dumps canon]. unfold str_of_int. destruct (z <? 0) eqn:Z0.
    + cbn [app value]. rewrite (skip_head "-"%char) by reflexivity. cbn [Ascii.eqb Bool.eqb]. change (code "-" =? 34) with false. cbn iota.
      rewrite number_digits; [|lia|exact Hq]. now rewrite Z.opp_involutive.
    + pose proof (number_digits z q ltac:(lia) Hq) as E. destruct (digits_head z) as (c & r & Ed & D). rewrite Ed in E |- *. cbn [app value] in E |- *.
      assert (is_ws c = false /\ Ascii.eqb c "{" = false /\ Ascii.eqb c "[" = false /\ (code c =? 34) = false /\ Ascii.eqb c "-" = false) as (C1 & C2 & C3 & C4 & C5).
      { clear - D. revert D. destruct c as [[] [] [] [] [] [] [] []]; vm_compute; intuition congruence. }
      rewrite (skip_head c) by exact C1. rewrite C2, C3, C4, C5, D, E. reflexivity.
  - cbn [dumps canon]. rewrite quote_app. cbn [value]. rewrite (skip_head (chr 34)) by reflexivity.
    change (Ascii.eqb (chr 34) "{") with false. change (Ascii.eqb (chr 34) "[") with false. change (code (chr 34) =? 34) with true. cbn iota.
    now rewrite characters_quote.
  - rewrite dumps_list. cbn [canon]. destruct l as [|x l]; [reflexivity|]. change (map (dumps (S lvl)) (x :: l)) with (dumps (S lvl) x :: map (dumps (S lvl)) l).
    rewrite block_cons. change ((?o :: ?t) ++ q) with (o :: (t ++ q)). rewrite <- !app_assoc.
    destruct (dumps_head (S lvl) x) as (c & r & Ed & W1 & W2 & W3).
    assert (exists r', skip (newline (S lvl) ++ join ($"," ++ newline (S lvl)) (dumps (S lvl) x :: map (dumps (S lvl)) l) ++ newline lvl ++ [("]")%char] ++ q) = c :: r') as (r' & E).
    { rewrite skip_newline, Ed. destruct l; cbn [map join app]; (rewrite (skip_head c) by exact W1); eauto. }
    rewrite (value_list n _ c r' E W2). rewrite (elements_skip n _ _ (skip_newline (S lvl) _)).
    change (dumps (S lvl) x :: map (dumps (S lvl)) l) with (map (dumps (S lvl)) (x :: l)). change ([("]")%char] ++ q) with ("]"%char :: q).
    rewrite elements_ok; [reflexivity|exact IH|discriminate|lia].
  - rewrite dumps_obj. cbn [canon]. rewrite (sort_map canon). pose proof (sort_by_perm str_leb fst d) as Pm. rewrite (fold_perm _ _ Pm) in Hn.
    assert (Forall (fun x => reads (snd x)) (sort_by str_leb fst d)) as F.
    { rewrite Forall_forall in *. intros x I. apply IH. exact (proj1 (sort_by_in str_leb fst x d) I). }
    destruct (sort_by str_leb fst d) as [|x l]; [reflexivity|]. clear IH Pm. change (map (member (S lvl)) (x :: l)) with (member (S lvl) x :: map (member (S lvl)) l).
    rewrite block_cons. change ((?o :: ?t) ++ q) with (o :: (t ++ q)). rewrite <- !app_assoc.
    assert (exists r', skip (newline (S lvl) ++ join ($"," ++ newline (S lvl)) (member (S lvl) x :: map (member (S lvl)) l) ++ newline lvl ++ [("}")%char] ++ q) = chr 34 :: r') as (r' & E).
    { rewrite skip_newline. unfold member at 1. destruct l; cbn [map join]; rewrite <- !app_assoc, quote_app, (skip_head (chr 34)) by reflexivity; eauto. }
    rewrite (value_obj n _ (chr 34) r' E eq_refl). rewrite (members_skip n _ _ (skip_newline (S lvl) _)).
    change (member (S lvl) x :: map (member (S lvl)) l) with (map (member (S lvl)) (x :: l)). change ([("}")%char] ++ q) with ("}"%char :: q).
    rewrite members_ok; [reflexivity|exact F|discriminate|lia].
Qed.

(** * The whole text *)
Lemma join_length sep l : (1 <= List.length sep)%nat ->
  (fold_right (fun x n => S (List.length x + n)) 0 l <= S (List.length (join sep l)))%nat.
Proof.
  intros H. induction l as [|x l IH]; [cbn; lia|]. destruct l as [|y l]; [cbn [fold_right join]; lia|].
  change (join sep (x :: y :: l)) with (x ++ sep ++ join sep (y :: l)). rewrite !app_length. cbn [fold_right] in *. lia.
Qed.
Lemma block_length lvl o c l : (S (fold_right (fun x n => S (List.length x + n)) 0 l) <= List.length (block lvl o c l))%nat.
Proof.
  destruct l as [|x l]; [cbn; lia|]. rewrite block_cons. cbn [List.length]. rewrite !app_length.
  assert (1 <= List.length ($"," ++ newline (S lvl)))%nat as H by (cbn; lia).
  pose proof (join_length ($"," ++ newline (S lvl)) (x :: l) H) as J. assert (1 <= List.length (newline lvl))%nat as H1 by (cbn; lia).
  eapply Nat.le_trans; [apply le_n_S; exact J|]. cbn [List.length]. unfold str in *. lia.
Qed.
Lemma cost_length j : forall lvl, (cost j <= List.length (dumps lvl j))%nat.
Proof.
  induction j as [|b|z|s|l IH|d IH] using json_all; intros lvl.
  - cbn. lia.
  - destruct b; cbn; lia.
  - destruct (dumps_head lvl (JInt z)) as (c & r & -> & _). cbn. lia.
  - destruct (dumps_head lvl (JStr s)) as (c & r & -> & _). cbn. lia.
  - rewrite dumps_list. pose proof (block_length lvl "[" "]" (map (dumps (S lvl)) l)) as B. cbn [cost].
    assert (fold_right (fun x n => S (cost x + n)) 0 l <= fold_right (fun x n => S (List.length x + n)) 0 (map (dumps (S lvl)) l))%nat; [|lia].
    clear B. induction IH as [|x l P F IH']; [cbn; lia|]. cbn [fold_right map]. specialize (P (S lvl)). lia.
  - rewrite dumps_obj. pose proof (block_length lvl "{" "}" (map (member (S lvl)) (sort_by str_leb fst d))) as B. cbn [cost].
    rewrite (fold_perm _ _ (sort_by_perm str_leb fst d)).
    assert (Forall (fun x : str * json => forall lvl, (cost (snd x) <= List.length (dumps lvl (snd x)))%nat) (sort_by str_leb fst d)) as F.
    { rewrite Forall_forall in *. intros x I. apply IH. exact (proj1 (sort_by_in str_leb fst x d) I). }
    revert F B. generalize (sort_by str_leb fst d). clear d IH. intros d F B.
    assert (fold_right (fun x n => S (cost (snd x) + n)) 0 d <= fold_right (fun x n => S (List.length x + n)) 0 (map (member (S lvl)) d))%nat; [|lia].
    clear B. induction F as [|x l P F IH']; [cbn; lia|]. cbn [fold_right map]. specialize (P (S lvl)). unfold member at 1. rewrite !app_length. lia.
Qed.
Lemma read_dumps j : json_read (dumps 0 j) = Some (canon j).
Proof.
  unfold json_read. rewrite <- (app_nil_r (dumps 0 j)) at 2. rewrite reads_all; [reflexivity|apply cost_length|intros c r E; discriminate E].
Qed.
Lemma readable j : exists j', json_read (dumps 0 j) = Some j' /\ same_json j j' /\ ordered_json j'.
Proof. exists (canon j). split; [apply read_dumps|]. split; [apply canon_same|apply canon_ordered]. Qed.

(** * The document *)
Lemma canon_atom {A} (f : A -> json) x : (forall y, canon (f y) = f y) -> canon (jopt f x) = jopt f x.
Proof. intros H. destruct x; [apply H|reflexivity]. Qed.
Lemma canon_strs l : canon (JList (map JStr l)) = JList (map JStr l).
Proof. cbn [canon]. rewrite map_map. reflexivity. Qed.
Lemma canon_kconfig k : canon (kconfig_value k) = kconfig_value k.
Proof. destruct k as [[|c k]|]; reflexivity. Qed.
Definition sorted_object (i n na o sy f l si e g gr k : json) : list (str * json) :=
  [($"esoteric", e); ($"file", f); ($"good_location", g); ($"grepped_location", gr); ($"index", i); ($"kconfig", k); ($"line", l);
   ($"name", na); ($"number", n); ($"origname", o); ($"signature", si); ($"symbol", sy)].
Lemma canon_object s : canon (encode_syscall s) = JObj (sorted_object (jopt JInt (sc_index s)) (JInt (sc_number s)) (JStr (sc_name s)) (JStr (sc_origname s))
  (JStr (sym_name (sc_symbol s))) (jopt (fun p => JStr (str_of_path p)) (sc_file s)) (jopt JInt (sc_line s)) (jopt (fun l => JList (map JStr l)) (sc_signature s))
  (JBool (sc_esoteric s)) (JBool (sc_good s)) (JBool (sc_grepped s)) (kconfig_value (sc_kconfig s))).
Proof.
  rewrite encoded. cbn [canon map fst snd]. rewrite canon_kconfig.
  rewrite !(canon_atom JInt), (canon_atom (fun p => JStr (str_of_path p))), (canon_atom (fun l => JList (map JStr l))) by (reflexivity || apply canon_strs).
  reflexivity.
Qed.
Lemma canon_syscall s : exists d d', encode_syscall s = JObj d /\ Permutation d d' /\ canon (encode_syscall s) = JObj d'.
Proof.
  rewrite canon_object. eexists _, _. split; [apply encoded|]. split; [|reflexivity].
  match goal with |- Permutation ?d ?d' => change d' with (sort_by str_leb fst d) end. apply sort_by_perm.
Qed.
Lemma canon_inj_syscall s s' : canon (encode_syscall s) = canon (encode_syscall s') -> encode_syscall s = encode_syscall s'.
Proof.
  rewrite !canon_object, !encoded. unfold sorted_object. generalize (jopt JInt (sc_index s)) (jopt JInt (sc_index s')) (jopt (fun p => JStr (str_of_path p)) (sc_file s))
    (jopt (fun p => JStr (str_of_path p)) (sc_file s')) (jopt JInt (sc_line s)) (jopt JInt (sc_line s')) (jopt (fun l => JList (map JStr l)) (sc_signature s))
    (jopt (fun l => JList (map JStr l)) (sc_signature s')) (kconfig_value (sc_kconfig s)) (kconfig_value (sc_kconfig s')).
  intros. injection H as -> -> -> -> -> -> -> -> -> -> -> ->. reflexivity.
Qed.
Lemma object_permuted s : exists d d', object_of s d /\ Permutation d d' /\ canon (encode_syscall s) = JObj d'.
Proof.
  destruct (json_object s) as (d & E & O). destruct (canon_syscall s) as (d1 & d' & E1 & P & C). rewrite E in E1. injection E1 as <-. exists d, d'. auto.
Qed.
Definition sorted_document (sv t source : str) (a : arch) (objects : list json) : json :=
  JObj [($"kernel", JObj
    [($"abi", JObj [($"bits", bits (a_abi_bits32 a));
       ($"calling_convention", JObj [($"parameters", JList (map JStr (a_arg_regs a))); ($"syscall_nr", jopt JStr (a_num_reg a))]);
       ($"compat", JBool (a_compat a)); ($"name", JStr (a_abi a))]);
     ($"architecture", JObj [($"bits", bits (a_bits32 a)); ($"name", JStr (class_name (a_class a)))]);
     ($"syscall_table_symbol", jopt JStr (a_table a)); ($"version", JStr t); ($"version_source", JStr source)]);
    ($"syscalls", JList objects); ($"systrack_version", JStr sv)].
Lemma written sv t source a scs : exists text, output_syscalls_json sv (Ok t) source a scs = Ok text /\
  json_read text = Some (sorted_document sv t source a (map canon (map encode_syscall scs))).
Proof.
  eexists. split; [reflexivity|]. rewrite read_dumps. f_equal.
  cbn [canon map fst snd]. rewrite !(canon_atom JStr) by reflexivity. rewrite map_map with (f := JStr). reflexivity.
Qed.
Lemma written_document sv t source a scs : exists text j objects, output_syscalls_json sv (Ok t) source a scs = Ok text /\ json_read text = Some j /\
  Forall2 (fun s o => exists d d', object_of s d /\ Permutation d d' /\ o = JObj d') scs objects /\
  forall ks x, (at_key ks j x /\ not_object x) <-> documented sv t source a objects ks x.
Proof.
  destruct (written sv t source a scs) as (text & E1 & E2). exists text, (sorted_document sv t source a (map canon (map encode_syscall scs))), (map canon (map encode_syscall scs)).
  split; [exact E1|]. split; [exact E2|]. split.
  { clear. rewrite map_map. induction scs as [|s scs IH]; constructor; [apply object_permuted|exact IH]. }
  set (objects := map canon (map encode_syscall scs)). clearbody objects. unfold sorted_document. rewrite linux_class. intros ks x. split.
  - intros [A N]. open_at A N; try (now destruct (a_num_reg a)); try (now destruct (a_table a));
      try (now destruct (a_bits32 a)); try (now destruct (a_abi_bits32 a)); try constructor; try apply jopt_or_null.
  - intros D.
    assert (not_object x) as N.
    { destruct D as [ | | | | | | | |j H| |j H| ]; try (intros d E; discriminate E); rewrite (or_null_eq _ _ _ H); apply jopt_not_object. }
    split; [|exact N]. destruct D as [ | | | | | | | |j H| |j H| ]; try (apply or_null_eq in H; subst j).
    all: unfold K; cbn [map];
      repeat (eapply ak_in; [ cbn [In]; repeat (first [left; reflexivity | right]) | intros j2 J; cbn [In] in J; repeat (destruct J as [J|J]; [first [discriminate J | injection J as J; symmetry; exact J]|]); destruct J | ]);
      try apply ak_here.
Qed.
Lemma jopt_JStr_inj (x y : option str) : jopt JStr x = jopt JStr y -> x = y.
Proof. destruct x, y; cbn; congruence. Qed.
Lemma map_JStr_inj l : forall l', map JStr l = map JStr l' -> l = l'.
Proof. induction l as [|x l IH]; intros [|y l']; cbn; try congruence. intros E. injection E as -> E. f_equal. now apply IH. Qed.
Lemma bits_inj b b' : bits b = bits b' -> b = b'.
Proof. destruct b, b'; try reflexivity; intros E; discriminate E. Qed.
Lemma class_name_inj k k' : class_name k = class_name k' -> k = k'.
Proof. destruct k, k'; try reflexivity; intros E; discriminate E. Qed.
Lemma same_text sv t source a scs sv' t' source' a' scs' text :
  output_syscalls_json sv (Ok t) source a scs = Ok text -> output_syscalls_json sv' (Ok t') source' a' scs' = Ok text ->
  sv = sv' /\ t = t' /\ source = source' /\ a_class a = a_class a' /\ a_bits32 a = a_bits32 a' /\ a_abi a = a_abi a' /\ a_compat a = a_compat a' /\
  a_abi_bits32 a = a_abi_bits32 a' /\ a_num_reg a = a_num_reg a' /\ a_arg_regs a = a_arg_regs a' /\ a_table a = a_table a' /\
  Forall2 (fun s s' => encode_syscall s = encode_syscall s') scs scs'.
Proof.
  intros H H'. destruct (written sv t source a scs) as (x & E1 & E2). destruct (written sv' t' source' a' scs') as (x' & E1' & E2').
  rewrite H in E1. rewrite H' in E1'. apply (f_equal (fun o => match o with Ok l => l | _ => [] end)) in E1. apply (f_equal (fun o => match o with Ok l => l | _ => [] end)) in E1'. cbn beta iota in E1, E1'. rewrite <- E1 in E2. rewrite <- E1', E2 in E2'. clear - E2'.
  unfold sorted_document in E2'. remember (jopt JStr (a_num_reg a)) as n1. remember (jopt JStr (a_num_reg a')) as n2. remember (jopt JStr (a_table a)) as m1. remember (jopt JStr (a_table a')) as m2.
  injection E2' as B1 B2 B3 B4 B5 B6 B7 B8 B9 B10 B11 B12. subst.
  apply jopt_JStr_inj in B3, B8. apply map_JStr_inj in B2. apply class_name_inj in B7.
  assert (a_abi_bits32 a = a_abi_bits32 a') by (destruct (a_abi_bits32 a), (a_abi_bits32 a'); try reflexivity; discriminate B1).
  assert (a_bits32 a = a_bits32 a') by (destruct (a_bits32 a), (a_bits32 a'); try reflexivity; discriminate B6).
  repeat (split; [assumption || reflexivity|]).
  rewrite !map_map in B11. clear - B11. revert scs' B11. induction scs as [|s scs IH]; intros [|s' scs'] E; try discriminate E; constructor.
  - apply canon_inj_syscall. exact (f_equal (hd JNull) E).
  - apply IH. exact (f_equal (@tl json) E).
Qed.
Lemma Forall2_in {A B} (P Q : A -> B -> Prop) l l' : Forall2 P l l' -> (forall x y, In x l -> In y l' -> P x y -> Q x y) -> Forall2 Q l l'.
Proof.
  induction 1 as [|x y l l' H F IH]; intros G; constructor; [apply G; [now left|now left|exact H]|]. apply IH. intros. apply G; [now right|now right|assumption].
Qed.
Lemma result_texts k ver abi b a t e v kdir w have p rdir kres r k' ver' abi' b' a' t' e' v' kdir' w' have' p' rdir' kres' r' sv tag source sv' tag' source' text :
  arch_new k ver abi b = Ok a -> arch_new k' ver' abi' b' = Ok a' ->
  v_annotate t = annotate w have (adjust_abi a e) e p kdir rdir kres -> v_annotate t' = annotate w' have' (adjust_abi a' e') e' p' kdir' rdir' kres' ->
  (forall d, kdir = Some d -> good_path d) -> (forall d, kdir' = Some d -> good_path d) ->
  extract_syscalls t a e v kdir = Ok r -> extract_syscalls t' a' e' v' kdir' = Ok r' ->
  output_syscalls_json sv (Ok tag) source a r = Ok text -> output_syscalls_json sv' (Ok tag') source' a' r' = Ok text ->
  sv = sv' /\ tag = tag' /\ source = source' /\ a_class a = a_class a' /\ a_bits32 a = a_bits32 a' /\ a_abi a = a_abi a' /\ a_compat a = a_compat a' /\
  a_abi_bits32 a = a_abi_bits32 a' /\ a_num_reg a = a_num_reg a' /\ a_arg_regs a = a_arg_regs a' /\ a_table a = a_table a' /\
  Forall2 (fun s s' => sc_index s = sc_index s' /\ sc_number s = sc_number s' /\ sc_name s = sc_name s' /\ sc_origname s = sc_origname s' /\
    sym_name (sc_symbol s) = sym_name (sc_symbol s') /\ sc_file s = sc_file s' /\ sc_line s = sc_line s' /\
    sc_signature s = sc_signature s' /\ sc_esoteric s = sc_esoteric s' /\ sc_good s = sc_good s' /\
    sc_grepped s = sc_grepped s' /\ sc_kconfig s = sc_kconfig s') r r'.
Proof.
  intros A A' T T' D D' H H' O O'. destruct (same_text _ _ _ _ _ _ _ _ _ _ _ O O') as (E1 & E2 & E3 & E4 & E5 & E6 & E7 & E8 & E9 & E10 & E11 & F).
  repeat (split; [assumption|]). eapply Forall2_in; [exact F|]. intros s s' I I' E.
  exact (result_json k ver abi b a t e v kdir w have p rdir kres r k' ver' abi' b' a' t' e' v' kdir' w' have' p' rdir' kres' r' s s' A A' T T' D D' H H' I I' E).
Qed.
