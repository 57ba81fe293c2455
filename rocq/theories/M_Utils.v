(** Model of /repo/src/systrack/utils.py *)
From Coq Require Import List Bool Ascii String ZArith.
From Verif Require Import PyBase.
Import ListNotations.
Open Scope Z_scope.
Open Scope list_scope.

(** A range of versions, [vstart] included, [vend] excluded. *)
Definition vrange := (version * version)%type.
Definition vrange_eqb (a b : vrange) : bool :=
  ver_eqb (fst a) (fst b) && ver_eqb (snd a) (snd b).
(** utils.py 52, 97: [vstart <= version < vend] *)
Definition in_vrange (r : vrange) (v : version) : bool :=
  ver_leb (fst r) v && ver_ltb v (snd r).

(** utils.py 16-60: class VersionedDict.  Keys of type [K] compared by [eqb]. *)
Section VersionedDict.
  Context {K V : Type} (eqb : K -> K -> bool).

  (** utils.py 22, 32-33: the two slots.  [versions] is a defaultdict(dict). *)
  Record vdict := VDict {
    vd_versions : dict vrange (dict K V);
    vd_cache : dict version (dict K V)
  }.

  (** utils.py 32-33 *)
  Definition vd_empty : vdict := VDict [] [].

  (** utils.py 60 (and 37): [self.versions[vstart, vend][key] = value] *)
  Definition vd_add (vstart vend : version) (key : K) (value : V) (d : vdict) : vdict :=
    let r := (vstart, vend) in
    let inner := match dget vrange_eqb r (vd_versions d) with Some i => i | None => [] end in
    VDict (dset vrange_eqb r (dset eqb key value inner) (vd_versions d)) (vd_cache d).

  (** utils.py 24-37: the constructor *)
  Definition vd_new (entries : list (version * version * K * V)) : vdict :=
    fold_left (fun d '(a, b, k, x) => vd_add a b k x d) entries vd_empty.

  (** utils.py 46-54: __getversion *)
  Definition vd_getversion (d : vdict) (v : version) : dict K V :=
    fold_left (fun res '(r, dct) => if in_vrange r v then dupdate eqb res dct else res)
              (vd_versions d) [].

  (** utils.py 39-44: __getitem__, returns the dict and the updated object *)
  Definition vd_getitem (d : vdict) (v : version) : dict K V * vdict :=
    match dget ver_eqb v (vd_cache d) with
    | Some c => (c, d)
    | None =>
        let c := vd_getversion d v in
        (c, VDict (vd_versions d) (dset ver_eqb v c (vd_cache d)))
    end.
End VersionedDict.
Arguments vdict : clear implicits.

(** utils.py 62-105: class VersionedList *)
Section VersionedList.
  Context {V : Type}.

  (** utils.py 67, 77-78.  [versions] is a defaultdict(list). *)
  Record vlist := VList {
    vl_versions : dict vrange (list V);
    vl_cache : dict version (list V)
  }.

  Definition vl_empty : vlist := VList [] [].

  (** utils.py 105 (and 82): [self.versions[vstart, vend].extend(values)] *)
  Definition vl_add (vstart vend : version) (values : list V) (d : vlist) : vlist :=
    let r := (vstart, vend) in
    let inner := match dget vrange_eqb r (vl_versions d) with Some i => i | None => [] end in
    VList (dset vrange_eqb r (inner ++ values) (vl_versions d)) (vl_cache d).

  (** utils.py 69-82: the constructor *)
  Definition vl_new (entries : list (version * version * list V)) : vlist :=
    fold_left (fun d '(a, b, xs) => vl_add a b xs d) entries vl_empty.

  (** utils.py 91-99: __getversion *)
  Definition vl_getversion (d : vlist) (v : version) : list V :=
    fold_left (fun res '(r, l) => if in_vrange r v then res ++ l else res) (vl_versions d) [].

  (** utils.py 84-89: __getitem__ *)
  Definition vl_getitem (d : vlist) (v : version) : list V * vlist :=
    match dget ver_eqb v (vl_cache d) with
    | Some c => (c, d)
    | None =>
        let c := vl_getversion d v in
        (c, VList (vl_versions d) (dset ver_eqb v c (vl_cache d)))
    end.
End VersionedList.
Arguments vlist : clear implicits.

(** utils.py 147-150 *)
Definition anyprefix (s : str) (pxs : list str) : bool := existsb (fun px => startswith s px) pxs.
(** utils.py 152-155 *)
Definition anysuffix (s : str) (sxs : list str) : bool := existsb (fun sx => endswith s sx) sxs.

(** utils.py 157-165 *)
Fixpoint noprefix (s : str) (pxs : list str) : str :=
  match pxs with
  | [] => s
  | px :: pxs' => if startswith s px then slice_from s (len px) else noprefix s pxs'
  end.

(** utils.py 167-175.  Note the slice [s[:-len(sx)]]. *)
Fixpoint nosuffix (s : str) (sxs : list str) : str :=
  match sxs with
  | [] => s
  | sx :: sxs' => if endswith s sx then slice_to s (- len sx) else nosuffix s sxs'
  end.

(** pathlib.PurePosixPath: the root ("", "/" or "//") and the parts after it. *)
Record path := Path { root : str; parts : list str }.

Fixpoint parts_eqb (a b : list str) : bool :=
  match a, b with
  | [], [] => true
  | x :: a', y :: b' => str_eqb x y && parts_eqb a' b'
  | _, _ => false
  end.
Definition path_eqb (a b : path) : bool :=
  str_eqb (root a) (root b) && parts_eqb (parts a) (parts b).

Fixpoint parts_prefix (p l : list str) : bool :=
  match p, l with
  | [], _ => true
  | _ :: _, [] => false
  | x :: p', y :: l' => str_eqb x y && parts_prefix p' l'
  end.

(** Path(s): POSIX flavour.  Exactly two leading slashes are a root of their own. *)
Definition path_root (s : str) : str :=
  if startswith s $"///" then $"/"
  else if startswith s $"//" then $"//"
  else if startswith s $"/" then $"/"
  else [].
Definition path_of_str (s : str) : path :=
  Path (path_root s)
       (filter (fun p => negb (str_eqb p [] || str_eqb p $".")) (split_char "/"%char s)).

(** str(path) *)
Definition str_of_path (p : path) : str :=
  match root p, parts p with
  | [], [] => $"."
  | r, l => r ++ join $"/" l
  end.

(** path / other *)
Definition path_join (a b : path) : path :=
  match root b with
  | [] => Path (root a) (parts a ++ parts b)
  | _ => b
  end.

(** path.is_relative_to(root) *)
Definition is_relative_to (p r : path) : bool :=
  str_eqb (root p) (root r) && parts_prefix (parts r) (parts p).
(** path.relative_to(root) *)
Definition relative_to (p r : path) : outcome path :=
  if is_relative_to p r then Ok (Path [] (skipn (List.length (parts r)) (parts p)))
  else Raise ValueError.

(** utils.py 141-145.  A path of None raises AttributeError when root is not None
    (no attribute is_relative_to) and is returned as is otherwise. *)
Definition maybe_rel (p : option path) (rt : option path) : outcome (option path) :=
  match rt with
  | None => Ok p
  | Some r =>
      match p with
      | None => Raise AttributeError
      | Some q => if is_relative_to q r
                  then (x <- relative_to q r ;; Ok (Some x))
                  else Ok (Some q)
      end
  end.

(** shlex.quote (CPython): characters in [a-zA-Z0-9_@%+=:,./-] are safe. *)
Definition shlex_safe (c : ascii) : bool :=
  is_bword c || existsb (Ascii.eqb c) $"@%+=:,./-".
Definition QUOTE : ascii := "'"%char.
Definition shlex_quote (s : str) : str :=
  match s with
  | [] => [QUOTE; QUOTE]
  | _ => if forallb shlex_safe s then s
         else [QUOTE] ++ replace s [QUOTE] $"'""'""'" ++ [QUOTE]
  end.
Definition shlex_join (l : list str) : str := join $" " (map shlex_quote l).

(** The argument of command_argv_to_string: not iterable (a Path), a string, bytes,
    or an iterable of parts. *)
Inductive cmdpart := PStr (s : str) | PPath (p : path) | PBytes (b : bytes).
Inductive cmd :=
| CPath (p : path)
| CStr (s : str)
| CBytes (b : bytes)
| CArgv (l : list cmdpart).

(** utils.py 206-211.  bytes.decode() is taken on ASCII bytes. *)
Definition part_str (p : cmdpart) : str :=
  match p with
  | PStr s => s
  | PPath p => str_of_path p
  | PBytes b => b
  end.

(** utils.py 197-213.  A str is an Iterable: its characters become the parts.  The
    elements of a bytes object are ints: quoting the int 0 gives [''] and any other
    int raises TypeError. *)
Definition command_argv_to_string (c : cmd) : outcome str :=
  match c with
  | CPath p => Ok (shlex_quote (str_of_path p))
  | CStr s => Ok (shlex_join (map (fun x => [x]) s))
  | CBytes b =>
      if forallb (fun x => code x =? 0) b
      then Ok (shlex_join (map (fun _ => []) b)) else Raise TypeError
  | CArgv l => Ok (shlex_join (map part_str l))
  end.

(** utils.py 215-236: run_command, given what Popen did: None if it could not be
    started, else the return code. *)
Definition run_command (started : option Z) : Z :=
  match started with None => 127 | Some rc => rc end.

(** utils.py 238-277: ensure_command, given what Popen did. *)
Definition ensure_command (started : option (Z * str)) : outcome str :=
  match started with
  | None => Exit 127
  | Some (rc, out) => if rc =? 0 then Ok out else Exit 1
  end.

(** Python's round() to the nearest integer, ties to even, of the rational n/d (d > 0).
    Floats are rationals, and round() of a float is exact. *)
Definition round_half_even (n d : Z) : Z :=
  let q := n / d in
  let r := n mod d in
  if 2 * r <? d then q
  else if d <? 2 * r then q + 1
  else if Z.even q then q else q + 1.

(** f'{z:02d}' for z >= 0 *)
Definition fmt02 (z : Z) : str := rjust_with "0"%char (str_of_nonneg z) 2.

(** utils.py 297-311: the argument is the rational n/d *)
Definition format_duration (n d : Z) : str :=
  let s := round_half_even n d in
  let h := s / 3600 in
  let s := s mod 3600 in
  let mi := s / 60 in
  let s := s mod 60 in
  if 0 <? h then str_of_int h ++ $"h " ++ fmt02 mi ++ $"m " ++ fmt02 s ++ $"s"
  else if 0 <? mi then str_of_int mi ++ $"m " ++ fmt02 s ++ $"s"
  else str_of_int s ++ $"s".
