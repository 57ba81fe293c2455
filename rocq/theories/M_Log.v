(** Formatting of log messages: Python's [%] operator on strings, as far as the messages of
    /repo/src/systrack use it, and what the logging module does with a message and its arguments. *)
From Coq Require Import List Bool Ascii String ZArith.
From Verif Require Import PyBase.
Import ListNotations.
Open Scope Z_scope.
Open Scope list_scope.

(** An argument: an int, None, or any other object, which is given by its [str] and its [repr]
    (strings, paths, symbols, bytes, instructions, lists). *)
Inductive value := VInt (z : Z) | VNone | VObj (shown repr : str).

Definition py_str (v : value) : str :=
  match v with VInt z => str_of_int z | VNone => $"None" | VObj s _ => s end.
Definition py_repr (v : value) : str :=
  match v with VInt z => str_of_int z | VNone => $"None" | VObj _ r => r end.
(** The digits of [format(z, 'x')] *)
Definition hex_digits (z : Z) : str :=
  if z <? 0 then "-"%char :: digits 16 (- z) else digits 16 z.
(** %d, %x and %#x take an int only *)
Definition as_int (f : Z -> str) (v : value) : outcome str :=
  match v with VInt z => Ok (f z) | _ => Raise TypeError end.

(** [fmt % args] with the conversions %s %r %d %x %#x and %%.  Any other conversion is an error here. *)
Fixpoint format (fmt : str) (args : list value) : outcome str :=
  let take (f : value -> outcome str) (rest : list value -> outcome str) : outcome str :=
    match args with
    | [] => Raise TypeError                     (* not enough arguments for format string *)
    | v :: args' => t <- f v ;; r <- rest args' ;; Ok (t ++ r)
    end in
  match fmt with
  | [] => match args with [] => Ok [] | _ => Raise TypeError end   (* not all arguments converted *)
  | "%"%char :: "%"%char :: s => r <- format s args ;; Ok ("%"%char :: r)
  | "%"%char :: "s"%char :: s => take (fun v => Ok (py_str v)) (format s)
  | "%"%char :: "r"%char :: s => take (fun v => Ok (py_repr v)) (format s)
  | "%"%char :: "d"%char :: s => take (as_int str_of_int) (format s)
  | "%"%char :: "x"%char :: s => take (as_int hex_digits) (format s)
  | "%"%char :: "#"%char :: "x"%char :: s => take (as_int hex) (format s)
  | "%"%char :: _ => Raise ValueError           (* unsupported format character, or incomplete format *)
  | c :: s => r <- format s args ;; Ok (c :: r)
  end.

(** logging.LogRecord.getMessage: a message without arguments is not a format *)
Definition message_text (fmt : str) (args : list value) : outcome str :=
  match args with [] => Ok fmt | _ => format fmt args end.

(** ** The calls *)
Inductive level := Debug | Info | Warning | Error | Critical.
(** What is passed for an argument *)
Inductive kind := KInt | KObj | KOptInt.
Record call := Call {
  c_file : str; c_line : Z; c_level : level; c_message : str; c_kinds : list kind
}.
