(** Model of /repo/src/systrack/kernel.py 527-585 with what is logged: the second pass over the
    syscalls found.  (M_Kernel.extract_syscalls has the same pass without the messages.) *)
From Coq Require Import List Bool Ascii String ZArith.
From Verif Require Import PyBase M_Utils M_Elf M_Syscall M_Kernel.
Import ListNotations.
Open Scope Z_scope.
Open Scope list_scope.

(** The messages, by their arguments. *)
Inductive message :=
| MDropped (name : str) (file : path) (line : Z)                                  (* 546-548 *)
| MBad (name symbol : str) (file : path) (line : option Z) (hint : str)            (* 577 *)
| MNoLoc (name symbol : str)                                                      (* 580 *)
| MNoSig (name symbol : str).                                                     (* 583 *)

(** kernel.py 152-161 *)
Definition can_extract_location_info (e : elf) : bool := has_debug_info e.
Definition can_extract_signature_info (e : elf) : bool :=
  dmem str_eqb $"__start_syscalls_metadata" (e_symbols e) || has_debug_info e.

(** [path.match('*' + suffix)]: a pattern for the last part *)
Definition name_ends (p : path) (suffix : str) : bool :=
  match rev (parts p) with f :: _ => endswith f suffix | [] => false end.
(** kernel.py 552-558 *)
Definition location_hint (f : path) : str :=
  if name_ends f $".S" then $" (implemented in asm?)"
  else if name_ends f $".c" then $" (normal function w/o asmlinkage?)"
  else [].
(** kernel.py 546-548.  %d with a line that is None: the logging module cannot format the message
    (it prints a traceback to standard error and goes on). *)
Definition log_dropped (s : syscall) (p : path) : list message :=
  match sc_line s with Some n => [MDropped (sc_name s) p n] | None => [] end.

Record state := State {
  st_now : list message; st_implemented : list syscall;
  st_bad : list message; st_noloc : list message; st_nosig : list message
}.
(** kernel.py 568-574 *)
Definition implement (e : elf) (s : syscall) (bad : list message) (t : state) : state :=
  let m f := f (sc_name s) (sym_name (sc_symbol s)) in
  State (st_now t) (st_implemented t ++ [s]) (st_bad t ++ bad)
    (st_noloc t ++ match sc_file s with None => if can_extract_location_info e then [m MNoLoc] else [] | Some _ => [] end)
    (st_nosig t ++ match sc_signature s with None => if can_extract_signature_info e then [m MNoSig] else [] | Some _ => [] end).
(** kernel.py 534-574, one syscall *)
Definition second_step (kdir : option path) (e : elf) (t : state) (s : syscall) : outcome state :=
  match sc_file s with
  | Some f =>
      if negb (sc_esoteric s) && negb (sc_good s) then
        r <- maybe_rel (Some f) kdir ;;
        match r with
        | Some p =>
            if is_sys_ni p
            then Ok (State (st_now t ++ log_dropped s p) (st_implemented t) (st_bad t) (st_noloc t) (st_nosig t))
            else Ok (implement e s (match kdir with
                                    | Some _ => [MBad (sc_name s) (sym_name (sc_symbol s)) p (sc_line s) (location_hint f)]
                                    | None => [] end) t)
        | None => Raise AttributeError
        end
      else Ok (implement e s [] t)
  | None => Ok (implement e s [] t)
  end.
Fixpoint second_loop (kdir : option path) (e : elf) (t : state) (l : list syscall) : outcome state :=
  match l with
  | [] => Ok t
  | s :: l' => t' <- second_step kdir e t s ;; second_loop kdir e t' l'
  end.
(** kernel.py 527-585 *)
Definition second_pass (kdir : option path) (e : elf) (l : list syscall) : outcome (list syscall * list message) :=
  t <- second_loop kdir e (State [] [] [] [] []) l ;;
  Ok (st_implemented t, st_now t ++ st_bad t ++ st_noloc t ++ st_nosig t).
