(** Model of /repo/src/systrack/kernel.py 587-711: patching the Makefile and building. *)
From Coq Require Import List Bool Ascii String ZArith.
From Verif Require Import PyBase Regex M_Utils.
Import ListNotations.
Open Scope Z_scope.
Open Scope list_scope.

(** Reading a file in text mode: universal newlines. *)
Fixpoint universal (s : str) : str :=
  match s with
  | [] => []
  | c :: r =>
      if Ascii.eqb c CR
      then match r with
           | d :: r' => if Ascii.eqb d NL then NL :: universal r' else NL :: universal r
           | [] => [NL]
           end
      else c :: universal r
  end.

(** kernel.py 594 *)
Definition opt_re : re :=
  RSeq [ RMBol; RLit $"KBUILD_CFLAGS"; RStar c_s; RLit $"+="; RStar c_s; RLit $"-O";
         RGrp 1 (RChr "2"%char); RChr NL ].

(** kernel.py 594-599: the new content, if the pattern is found *)
Definition set_level (data : str) (lvl : Z) : option str :=
  match re_search opt_re data with
  | None => None
  | Some x =>
      match span 1 x with
      | Some (i, j) => Some (slice_to data i ++ str_of_int lvl ++ slice_from data j)
      | None => None
      end
  end.

(** ** build() as a sequence of atomic steps

    The state: the Makefile, the attribute __backup_makefile, and whether __restore_makefile is
    registered with atexit.  Writing a file is one step; opening it with 'w' empties it first,
    which is a step of its own. *)
Record bstate := BState { b_file : str; b_backup : option str; b_atexit : bool }.

Inductive prog :=
| PRet (r : outcome unit)
| PRead (k : str -> prog)                       (* read the Makefile *)
| PWrite (s : str) (k : prog)                   (* replace its content *)
| PBackup (s : str) (k : prog)                  (* set the attribute *)
| PAsk (k : option str -> prog)                 (* read the attribute *)
| PRegister (k : prog)
| PUnregister (k : prog)
| PMake (k : option Z -> prog).                 (* run make vmlinux: None if it cannot be started *)

(** kernel.py 587-602 *)
Definition try_set_level (lvl : Z) (k : bool -> prog) : prog :=
  PRead (fun data =>
    PBackup data
      match set_level data lvl with
      | None => k false
      | Some t => PWrite t (k true)
      end).

(** kernel.py 604-611 *)
Definition restore (k : prog) : prog :=
  PAsk (fun b =>
    match b with
    | Some (c :: s) => PWrite [] (PWrite (c :: s) (PUnregister k))
    | _ => PUnregister k
    end).

(** kernel.py 710: make('vmlinux') with ensure *)
Definition normal_build : prog :=
  PMake (fun rc =>
    PRet (_ <- ensure_command (match rc with Some z => Some (z, []) | None => None end) ;; Ok tt)).

(** kernel.py 677-711 *)
Definition build (try_disable_opt : bool) : prog :=
  if try_disable_opt then
    try_set_level 0 (fun ok =>
      if ok : bool then
        PRegister (PMake (fun rc =>
          restore (if run_command rc =? 0 then PRet (Ok tt)
                   else try_set_level 1 (fun _ =>
                          PMake (fun rc =>
                            restore (if run_command rc =? 0 then PRet (Ok tt) else normal_build))))))
      else normal_build)
  else normal_build.

(** ** Execution

    [make i]: what the i-th run of make does (it does not change the Makefile).  The execution
    stops before the [n]-th step if it is interrupted there.  The result: the state, the contents
    of the Makefile at the runs of make so far, and how build() ended, if it did. *)
Record result := Result { r_state : bstate; r_makes : list str; r_end : option (outcome unit) }.

Fixpoint exec (make : nat -> option Z) (p : prog) (s : bstate) (makes : list str) (n : option nat)
    : result :=
  match n with
  | Some O => Result s makes None
  | _ =>
      let n' := match n with Some (S m) => Some m | _ => None end in
      match p with
      | PRet r => Result s makes (Some r)
      | PRead k => exec make (k (universal (b_file s))) s makes n'
      | PWrite t k => exec make k (BState t (b_backup s) (b_atexit s)) makes n'
      | PBackup t k => exec make k (BState (b_file s) (Some t) (b_atexit s)) makes n'
      | PAsk k => exec make (k (b_backup s)) s makes n'
      | PRegister k => exec make k (BState (b_file s) (b_backup s) true) makes n'
      | PUnregister k => exec make k (BState (b_file s) (b_backup s) false) makes n'
      | PMake k => exec make (k (make (List.length makes))) s (makes ++ [b_file s]) n'
      end
  end.

(** The Makefile after the interpreter has exited: a registered __restore_makefile runs. *)
Definition after_exit (s : bstate) : str :=
  if b_atexit s then match b_backup s with Some (c :: t) => c :: t | _ => b_file s end
  else b_file s.

(** build() on a Makefile, in a fresh process *)
Definition run_build (make : nat -> option Z) (try_disable_opt : bool) (makefile : str) (n : option nat)
    : result :=
  exec make (build try_disable_opt) (BState makefile None false) [] n.
