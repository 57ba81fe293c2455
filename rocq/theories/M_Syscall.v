(** Model of /repo/src/systrack/syscall.py *)
From Coq Require Import List Bool Ascii String ZArith.
From Verif Require Import PyBase M_Utils M_Elf.
Import ListNotations.
Open Scope Z_scope.
Open Scope list_scope.

(** syscall.py 7-32: class Syscall.  [index] is None for esoteric syscalls. *)
Record syscall := Syscall {
  sc_index : option Z;
  sc_number : Z;
  sc_name : str;
  sc_origname : str;
  sc_symbol : symbol;
  sc_kconfig : option str;
  sc_file : option path;
  sc_line : option Z;
  sc_signature : option (list str);
  sc_esoteric : bool;
  sc_good : bool;
  sc_grepped : bool
}.

(** syscall.py 18-32: the constructor; [file] and [line] are never given. *)
Definition syscall_new (index : option Z) (number : Z) (name origname : str) (sym : symbol)
    (kconfig : option str) (signature : option (list str)) (esoteric : bool) : syscall :=
  Syscall index number name origname sym kconfig None None signature esoteric false false.

(** collections.Counter(l): counts by first occurrence. *)
Definition counter_add (d : dict str Z) (x : str) : dict str Z :=
  dset str_eqb x (1 + match dget str_eqb x d with Some n => n | None => 0 end) d.
Definition counter (l : list str) : dict str Z := fold_left counter_add l [].

(** syscall.py 54: [len(n) >= l and n[l - 1] == '_'] *)
Definition prefix_candidate (l : Z) (n : str) : bool :=
  (l <=? len n) && match index_ n (l - 1) with Ok c => Ascii.eqb c "_"%char | _ => false end.

(** syscall.py 54-59: one pass of the loop, for the length [l] *)
Definition prefixes_of_length (names : list str) (threshold l : Z) : list str :=
  let candidates := filter (prefix_candidate l) names in
  if len candidates <? threshold then []
  else
    let counts := counter (map (fun n => slice_to n l) candidates) in
    filter (fun p => threshold <=? match dget str_eqb p counts with Some n => n | None => 0 end)
           (dkeys counts).

(** syscall.py 42-61.  [range(m, 1, -1)] counts down from m to 2. *)
Definition common_syscall_symbol_prefixes (names : list str) (threshold : Z)
    : outcome (list str) :=
  match names with
  | [] => Raise ValueError
  | n :: ns =>
      let m := fold_left Z.max (map len ns) (len n) in
      Ok (flat_map (prefixes_of_length names threshold) (rev (zrange 2 (m + 1))))
  end.
