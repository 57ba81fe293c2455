(** Properties C01-C04, C06, C59, C73, C74 (utils.py). *)
From Coq Require Import List Bool Ascii String ZArith Permutation.
From Verif Require Import PyBase PyFacts M_Utils S_Utils L_Utils.
Import ListNotations.
Open Scope Z_scope.
Open Scope list_scope.

(** ** C01 *)

Theorem C01_version_order :
  (forall a, ver_ltb a a = false) /\
  (forall a b c, ver_ltb a b = true -> ver_ltb b c = true -> ver_ltb a c = true) /\
  (forall a b, ver_ltb a b = true \/ a = b \/ ver_ltb b a = true) /\
  (forall a b, ver_ltb a b = true <-> lexlt a b) /\
  (forall a b, ver_leb a b = true <-> a = b \/ lexlt a b).
Proof. exact version_order. Qed.
Print Assumptions C01_version_order.

Theorem C01_ranges_half_open : forall r v,
  in_vrange r v = true <-> (fst r = v \/ lexlt (fst r) v) /\ lexlt v (snd r).
Proof. exact in_vrange_within. Qed.
Print Assumptions C01_ranges_half_open.

Theorem C01_ranges_partition : forall a b c v,
  ver_leb a b = true -> ver_leb b c = true ->
  in_vrange (a, c) v = in_vrange (a, b) v || in_vrange (b, c) v /\
  in_vrange (a, b) v && in_vrange (b, c) v = false.
Proof. exact ranges_partition. Qed.
Print Assumptions C01_ranges_partition.

Example C01_example :
  ver_ltb [5;4] [5;4;0] = true /\ ver_ltb [5;4;0] [5;4;1] = true /\ ver_ltb [5;4;1] [5;5] = true
  /\ in_vrange ([3;7], [5;4]) [5;3;18] = true /\ in_vrange ([3;7], [5;4]) [5;4] = false.
Proof. repeat split. Qed.

(** ** C02 *)

(** After any history of add() and lookups in which [v] was not looked up, [d[v]] is
    determined by all the additions as documented. *)
Theorem C02_versioned_dict_lookup : forall (K V : Type) (eqb : K -> K -> bool),
  (forall a b, eqb a b = true <-> a = b) ->
  forall (h : list (op K V)) (v : version) (k : K) (x : V),
  ~ looked_up v h ->
  (dget eqb k (fst (vd_getitem eqb (vd_run eqb h) v)) = Some x <->
   applicable_value (flat_map (fun o => match o with OAdd a => [a] | OLook _ => [] end) h) v k x).
Proof. exact (fun K V eqb He h v k x Hn => vd_lookup_not_looked eqb He h v k x Hn). Qed.
Print Assumptions C02_versioned_dict_lookup.

(** In particular a key is present iff some applicable addition mentions it. *)
Theorem C02_versioned_dict_domain : forall (K V : Type) (eqb : K -> K -> bool),
  (forall a b, eqb a b = true <-> a = b) ->
  forall (h : list (addition K V)) (v : version) (k : K),
  (exists x, dget eqb k (vd_getversion eqb (vd_adds eqb h) v) = Some x) <->
  (exists a b x, In ((a, b), k, x) h /\ lexle a v /\ lexlt v b).
Proof. exact (fun K V eqb He => vd_domain eqb He). Qed.
Print Assumptions C02_versioned_dict_domain.

(** The constructor is a sequence of additions. *)
Theorem C02_constructor : forall (K V : Type) (eqb : K -> K -> bool) l,
  vd_new (V := V) eqb l = vd_adds eqb (map (fun '(a, b, k, x) => ((a, b), k, x)) l).
Proof. exact (fun K V eqb => vd_new_adds eqb). Qed.
Print Assumptions C02_constructor.

Example C02_example :
  let d := vd_new str_eqb
    [([2;6;15], [5;10], $"SECCOMP", 1); ([3;9], [7], $"KEXEC", 2); ([2;6;15], [5;10], $"KEXEC", 3)] in
  dget str_eqb $"KEXEC" (fst (vd_getitem str_eqb d [4;0])) = Some 2 /\
  dget str_eqb $"KEXEC" (fst (vd_getitem str_eqb d [3;0])) = Some 3 /\
  dget str_eqb $"SECCOMP" (fst (vd_getitem str_eqb d [5;10])) = None.
Proof. repeat split. Qed.

(** ** C03 *)

Theorem C03_lookup_sees_additions_before_first_lookup : forall (K V : Type) (eqb : K -> K -> bool),
  (forall a b, eqb a b = true <-> a = b) ->
  forall (h : list (op K V)) v k x,
  dget eqb k (fst (vd_getitem eqb (vd_run eqb h) v)) = Some x <->
  applicable_value (adds_before_look ver_eqb v h) v k x.
Proof. exact (fun K V eqb He => vd_lookup_history eqb He). Qed.
Print Assumptions C03_lookup_sees_additions_before_first_lookup.

Theorem C03_lookup_stable : forall (K V : Type) (eqb : K -> K -> bool) (h1 h2 : list (op K V)) v,
  fst (vd_getitem eqb (vd_run eqb (h1 ++ OLook v :: h2)) v) = fst (vd_getitem eqb (vd_run eqb h1) v).
Proof. exact (fun K V eqb => vd_stable eqb). Qed.
Print Assumptions C03_lookup_stable.

(** The docstring of add() does not hold after a lookup. *)
Theorem C03_add_after_lookup_is_invisible_refuted :
  exists (h : list (op str Z)) (r : vrange) (v : version) (k : str) (x : Z),
    within r v /\
    dget str_eqb k (fst (vd_getitem str_eqb (vd_run str_eqb (h ++ [OAdd (r, k, x)])) v)) <> Some x.
Proof. exact vd_add_invisible. Qed.
Print Assumptions C03_add_after_lookup_is_invisible_refuted.

Example C03_example :
  let h := [OAdd (([3], [7]), $"A", 1); OLook [4]; OAdd (([3], [7]), $"A", 2)] in
  dget str_eqb $"A" (fst (vd_getitem str_eqb (vd_run str_eqb h) [4])) = Some 1 /\
  dget str_eqb $"A" (fst (vd_getitem str_eqb (vd_run str_eqb h) [5])) = Some 2.
Proof. repeat split. Qed.

(** ** C04 *)

(** After any history of add() and lookups in which [v] was not looked up. *)
Theorem C04_versioned_list_lookup : forall (V : Type) (h : list (lop (V := V))) v,
  ~ In (LLook v) h ->
  let adds := flat_map (fun o => match o with LAdd a => [a] | LLook _ => [] end) h in
  exists ranges,
    by_first_use adds ranges /\
    gathered adds v ranges (fst (vl_getitem (fold_left vl_step h vl_empty) v)).
Proof. exact (fun V => vl_run_lookup (V := V)). Qed.
Print Assumptions C04_versioned_list_lookup.

Theorem C04_versioned_list_nothing_lost : forall (V : Type) (h : list (laddition V)) v xs,
  applicable v h xs -> Permutation (vl_getversion (vl_adds h) v) xs.
Proof. exact (fun V => vl_nothing_lost (V := V)). Qed.
Print Assumptions C04_versioned_list_nothing_lost.

Theorem C04_versioned_list_stable : forall (V : Type) (d : vlist V) h v,
  fst (vl_getitem (fold_left vl_step h (snd (vl_getitem d v))) v) = fst (vl_getitem d v).
Proof. exact (fun V => vl_stable (V := V)). Qed.
Print Assumptions C04_versioned_list_stable.

Example C04_example :
  let d := vl_new [([3], [7], [1; 2]); ([2], [5], [10]); ([3], [7], [3])] in
  fst (vl_getitem d [4]) = [1; 2; 3; 10] /\ fst (vl_getitem d [6]) = [1; 2; 3].
Proof. repeat split. Qed.

(** ** C06 *)

Theorem C06_noprefix_first_match : forall pre px post t,
  (forall q u, In q pre -> px ++ t <> q ++ u) -> noprefix (px ++ t) (pre ++ px :: post) = t.
Proof. exact noprefix_first. Qed.
Print Assumptions C06_noprefix_first_match.

Theorem C06_noprefix_no_match : forall s pxs,
  (forall px t, In px pxs -> s <> px ++ t) -> noprefix s pxs = s.
Proof. exact noprefix_none. Qed.
Print Assumptions C06_noprefix_no_match.

Theorem C06_nosuffix_first_match : forall pre px post t, px <> [] ->
  (forall q u, In q pre -> t ++ px <> u ++ q) -> nosuffix (t ++ px) (pre ++ px :: post) = t.
Proof. exact nosuffix_first. Qed.
Print Assumptions C06_nosuffix_first_match.

Theorem C06_nosuffix_no_match : forall s sxs,
  (forall sx t, In sx sxs -> s <> t ++ sx) -> nosuffix s sxs = s.
Proof. exact nosuffix_none. Qed.
Print Assumptions C06_nosuffix_no_match.

Theorem C06_anyprefix : forall s pxs,
  anyprefix s pxs = true <-> exists px t, In px pxs /\ s = px ++ t.
Proof. exact anyprefix_iff. Qed.
Print Assumptions C06_anyprefix.

Theorem C06_anysuffix : forall s sxs,
  anysuffix s sxs = true <-> exists sx t, In sx sxs /\ s = t ++ sx.
Proof. exact anysuffix_iff. Qed.
Print Assumptions C06_anysuffix.

(** The excluded case: an empty suffix wipes the string. *)
Theorem C06_nosuffix_empty_suffix : forall s, nosuffix s [[]] = [].
Proof. exact nosuffix_empty_bug. Qed.
Print Assumptions C06_nosuffix_empty_suffix.

Example C06_example :
  noprefix $"sys_oabi_read" [$"compat_"; $"sys_oabi_"; $"sys_"] = $"read" /\
  nosuffix $"sys_sigreturn_wrapper" [$"_time32"; $"_wrapper"] = $"sys_sigreturn".
Proof. repeat split. Qed.

(** ** C59 *)

Theorem C59_maybe_rel_under : forall r t,
  maybe_rel (Some (path_join r (Path [] t))) (Some r) = Ok (Some (Path [] t)).
Proof. exact maybe_rel_under. Qed.
Print Assumptions C59_maybe_rel_under.

Theorem C59_maybe_rel_back : forall p r q,
  maybe_rel (Some p) (Some r) = Ok (Some q) -> is_relative_to p r = true -> path_join r q = p.
Proof. exact maybe_rel_back. Qed.
Print Assumptions C59_maybe_rel_back.

Theorem C59_maybe_rel_outside : forall p r,
  (forall t, p <> path_join r (Path [] t)) -> maybe_rel (Some p) (Some r) = Ok (Some p).
Proof. exact maybe_rel_outside. Qed.
Print Assumptions C59_maybe_rel_outside.

(** The lexical path type agrees with the text: parsing what str() prints gives the
    path back, for every path pathlib can build. *)
Theorem C59_path_text : forall p, good_path p -> path_of_str (str_of_path p) = p.
Proof. exact path_str_roundtrip. Qed.
Print Assumptions C59_path_text.

Example C59_example :
  maybe_rel (Some (path_of_str $"/src/linux/fs/read_write.c")) (Some (path_of_str $"/src//linux/"))
    = Ok (Some (path_of_str $"fs/read_write.c")) /\
  maybe_rel (Some (path_of_str $"/src/linux-6/a.c")) (Some (path_of_str $"/src/linux"))
    = Ok (Some (path_of_str $"/src/linux-6/a.c")) /\
  str_of_path (path_of_str $"/src//linux/./x") = $"/src/linux/x".
Proof. repeat split. Qed.

(** ** C73 *)

Theorem C73_duration_read_back : forall n d, 0 < d -> 0 <= n ->
  exists z, nearest_even n d z /\ read_duration (format_duration n d) = Some z.
Proof. exact duration_read_back. Qed.
Print Assumptions C73_duration_read_back.

Theorem C73_rounding_unique : forall n d a b, 0 < d ->
  nearest_even n d a -> nearest_even n d b -> a = b.
Proof. exact nearest_even_unique. Qed.
Print Assumptions C73_rounding_unique.

Theorem C73_duration_shape : forall n d, 0 < d -> 0 <= n ->
  exists h mi s, 0 <= h /\ 0 <= mi < 60 /\ 0 <= s < 60 /\ nearest_even n d (3600 * h + 60 * mi + s) /\
    format_duration n d =
      (if h =? 0 then (if mi =? 0 then digits 10 s ++ $"s"
                       else digits 10 mi ++ $"m " ++ (if s <? 10 then $"0" else []) ++ digits 10 s ++ $"s")
       else digits 10 h ++ $"h " ++ (if mi <? 10 then $"0" else []) ++ digits 10 mi ++ $"m " ++
            (if s <? 10 then $"0" else []) ++ digits 10 s ++ $"s").
Proof. exact format_shape. Qed.
Print Assumptions C73_duration_shape.

Example C73_example :
  format_duration 7325 2 = $"1h 01m 02s" /\ format_duration 5 2 = $"2s" /\ format_duration 119 2 = $"1m 00s".
Proof. repeat split. Qed.

(** ** C74 *)

Theorem C74_argv_roundtrip : forall l, exists s,
  command_argv_to_string (CArgv l) = Ok s /\ sh_words s = Some (map part_str l).
Proof. exact argv_roundtrip. Qed.
Print Assumptions C74_argv_roundtrip.

Theorem C74_path_roundtrip : forall p, exists s,
  command_argv_to_string (CPath p) = Ok s /\ sh_words s = Some [str_of_path p].
Proof. exact path_roundtrip. Qed.
Print Assumptions C74_path_roundtrip.

(** A command given as one string is taken apart into its characters. *)
Theorem C74_string_command_refuted : exists s out,
  command_argv_to_string (CStr s) = Ok out /\ sh_words out <> sh_words s.
Proof. exact string_command_bug. Qed.
Print Assumptions C74_string_command_refuted.

Example C74_example :
  command_argv_to_string (CArgv [PStr $"make"; PStr $"CC=gcc -O0"; PStr []; PStr $"it's"]) =
    Ok $"make 'CC=gcc -O0' '' 'it'""'""'s'".
Proof. reflexivity. Qed.
