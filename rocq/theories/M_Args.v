(** Model of /repo/src/systrack/__main__.py 30-86 (parse_args), with the part of the standard
    library it calls: argparse.py of Python 3.11 ("AP" with the name of the function below).
    The texts of help and of error messages are not modelled. *)
From Coq Require Import List Bool Ascii String ZArith.
From Verif Require Import PyBase M_Main.
Import ListNotations.
Open Scope Z_scope.
Open Scope list_scope.

(** __main__.py 40-84: the options, and --help, which argparse adds *)
Inductive opt :=
| OHelp | OKdir | OArch | OBuild | OConfig | OClean | OCross | OOut | OFormat | OAbsolute | ORemap | OCheckout
| ODisableOpt | OQuiet | OVerbose | OVersion.
(** AP ArgumentParser._option_string_actions, in the order of the calls of add_argument *)
Definition option_string_actions : list (str * opt) :=
  [($"-h", OHelp); ($"--help", OHelp);
   ($"-k", OKdir); ($"--kdir", OKdir);
   ($"-a", OArch); ($"--arch", OArch);
   ($"-b", OBuild); ($"--build", OBuild);
   ($"-c", OConfig); ($"--config", OConfig);
   ($"-C", OClean); ($"--clean", OClean);
   ($"-x", OCross); ($"--cross", OCross);
   ($"-o", OOut); ($"--out", OOut);
   ($"-f", OFormat); ($"--format", OFormat);
   ($"--absolute-paths", OAbsolute);
   ($"--remap", ORemap);
   ($"--checkout", OCheckout);
   ($"--disable-opt", ODisableOpt);
   ($"-q", OQuiet); ($"--quiet", OQuiet);
   ($"-v", OVerbose); ($"--verbose", OVerbose);
   ($"-V", OVersion); ($"--version", OVersion)].
(** The action 'store' has nargs=None (one argument), the others have nargs=0. *)
Definition stores (o : opt) : bool :=
  match o with OKdir | OArch | OCross | OOut | OFormat | ORemap | OCheckout => true | _ => false end.

(** How parsing ends early: help or version are printed (status 0), an error (status 2), or the
    positional would be a list of words (which cannot happen, see L_Args7.v). *)
Inductive stop := SHelp | SVersion | SError | SList.
Definition result (A : Type) := (stop + A)%type.
Definition rbind {A B} (x : result A) (f : A -> result B) : result B :=
  match x with inl s => inl s | inr a => f a end.
Notation "x <~ m ;; f" := (rbind m (fun x => f)) (at level 61, m at next level, right associativity).

(** (action, option_string, sep, explicit_arg) *)
Definition option_tuple := (option opt * str * option str * option str)%type.
Definition dash : ascii := "-"%char.
Definition is_dash (c : ascii) : bool := Ascii.eqb c dash.
(** str.partition('='): the text before, and the text after if there is one *)
Fixpoint partition_eq (s : str) : str * option str :=
  match s with
  | [] => ([], None)
  | c :: s' => if Ascii.eqb c "="%char then ([], Some s')
               else let '(a, b) := partition_eq s' in (c :: a, b)
  end.

(** AP _get_option_tuples; the string starts with '-' and has two characters at least *)
Definition get_option_tuples (option_string : str) : list option_tuple :=
  match option_string with
  | _ :: c1 :: rest =>
      if is_dash c1 then
        let '(option_prefix, explicit_arg) := partition_eq option_string in
        let sep := match explicit_arg with Some _ => Some $"=" | None => None end in
        flat_map (fun '(s, o) => if startswith s option_prefix then [(Some o, s, sep, explicit_arg)] else []) option_string_actions
      else
        let short_option_prefix := [dash; c1] in
        flat_map (fun '(s, o) => if str_eqb s short_option_prefix then [(Some o, s, Some [], Some rest)]
                                 else if startswith s option_string then [(Some o, s, None, None)] else []) option_string_actions
  | _ => []
  end.
(** AP _negative_number_matcher: '^-\d+$|^-\d*\.\d+$' ('$' also matches before a newline at the
    end) *)
Fixpoint skip_digits (s : str) : str :=
  match s with c :: s' => if is_dec c then skip_digits s' else s | [] => [] end.
Definition at_end (s : str) : bool := match s with [] => true | [c] => Ascii.eqb c NL | _ => false end.
Definition digits_to_end (s : str) : bool :=
  match s with c :: _ => is_dec c && at_end (skip_digits s) | [] => false end.
Definition negative_number (s : str) : bool :=
  match s with
  | c :: s' => is_dash c && (digits_to_end s' ||
                 match skip_digits s' with d :: s'' => Ascii.eqb d "."%char && digits_to_end s'' | [] => false end)
  | [] => false
  end.
(** AP _parse_optional, when it is not the name of an option: an option, a number or other text *)
Definition odd_word (arg_string : str) : result (option option_tuple) :=
  if negative_number arg_string then inr None
  else if contains arg_string $" " then inr None
  else inr (Some (None, arg_string, None, None)).
Definition other_word (arg_string : str) : result (option option_tuple) :=
  match get_option_tuples arg_string with
  | _ :: _ :: _ => inl SError
  | [t] => inr (Some t)
  | [] => odd_word arg_string
  end.
(** AP _parse_optional; None: a positional *)
Definition parse_optional (arg_string : str) : result (option option_tuple) :=
  match arg_string with
  | [] => inr None
  | c :: r =>
      if negb (is_dash c) then inr None
      else match dget str_eqb arg_string option_string_actions with
      | Some o => inr (Some (Some o, arg_string, None, None))
      | None =>
          match r with
          | [] => inr None
          | _ =>
              let '(option_string, explicit_arg) := partition_eq arg_string in
              match explicit_arg, dget str_eqb option_string option_string_actions with
              | Some e, Some o => inr (Some (Some o, option_string, Some $"=", Some e))
              | _, _ => other_word arg_string
              end
          end
      end
  end.

(** AP _parse_known_args, the pattern: 'O' (with what was found out about the option), 'A', '-' *)
Inductive mark := MOpt (t : option_tuple) | MArg | MDashes.
Definition word := (str * mark)%type.
Fixpoint classify (arg_strings : list str) : result (list word) :=
  match arg_strings with
  | [] => inr []
  | a :: rest =>
      if str_eqb a $"--" then inr ((a, MDashes) :: map (fun x => (x, MArg)) rest)
      else
        t <~ parse_optional a ;;
        l <~ classify rest ;;
        inr ((a, match t with Some t => MOpt t | None => MArg end) :: l)
  end.

(** Namespace with the defaults *)
Definition namespace0 : args := Args None None None false false false None None $"text" false None None false 0 0.
(** AP _get_values, _check_value and the actions _StoreAction, _StoreTrueAction, _CountAction,
    _HelpAction, _VersionAction; [v]: the argument of an option that stores *)
Definition take_action (o : opt) (v : str) (g : args) : result args :=
  let '(Args vmlinux kdir arch build config clean cross out format absolute remap checkout disable quiet verbose) := g in
  match o with
  | OHelp => inl SHelp
  | OVersion => inl SVersion
  | OKdir => inr (Args vmlinux (Some v) arch build config clean cross out format absolute remap checkout disable quiet verbose)
  | OArch => inr (Args vmlinux kdir (Some v) build config clean cross out format absolute remap checkout disable quiet verbose)
  | OBuild => inr (Args vmlinux kdir arch true config clean cross out format absolute remap checkout disable quiet verbose)
  | OConfig => inr (Args vmlinux kdir arch build true clean cross out format absolute remap checkout disable quiet verbose)
  | OClean => inr (Args vmlinux kdir arch build config true cross out format absolute remap checkout disable quiet verbose)
  | OCross => inr (Args vmlinux kdir arch build config clean (Some v) out format absolute remap checkout disable quiet verbose)
  | OOut => inr (Args vmlinux kdir arch build config clean cross (Some v) format absolute remap checkout disable quiet verbose)
  | OFormat =>
      if existsb (str_eqb v) [$"text"; $"json"; $"html"]
      then inr (Args vmlinux kdir arch build config clean cross out v absolute remap checkout disable quiet verbose)
      else inl SError
  | OAbsolute => inr (Args vmlinux kdir arch build config clean cross out format true remap checkout disable quiet verbose)
  | ORemap => inr (Args vmlinux kdir arch build config clean cross out format absolute (Some v) checkout disable quiet verbose)
  | OCheckout => inr (Args vmlinux kdir arch build config clean cross out format absolute remap (Some v) disable quiet verbose)
  | ODisableOpt => inr (Args vmlinux kdir arch build config clean cross out format absolute remap checkout true quiet verbose)
  | OQuiet => inr (Args vmlinux kdir arch build config clean cross out format absolute remap checkout disable (quiet + 1) verbose)
  | OVerbose => inr (Args vmlinux kdir arch build config clean cross out format absolute remap checkout disable quiet (verbose + 1))
  end.
Fixpoint take_actions (l : list (opt * str)) (g : args) : result args :=
  match l with
  | [] => inr g
  | (o, v) :: l' => g' <~ take_action o v g ;; take_actions l' g'
  end.

(** AP consume_optional: the actions to take, what goes to [extras], and the words left.
    Without explicit argument: *)
Definition consume_plain (o : opt) (rest : list word) : result (list (opt * str) * list str * list word) :=
  if stores o then
    match rest with
    | (v, MArg) :: rest' => inr ([(o, v)], [], rest')
    | _ => inl SError
    end
  else inr ([(o, [])], [], rest).
(** With one; [long]: option_string[1] is '-'; [sep]: sep is not empty *)
Fixpoint consume_explicit (o : opt) (long sep : bool) (explicit_arg : str) (rest : list word)
  : result (list (opt * str) * list str * list word) :=
  if stores o then inr ([(o, explicit_arg)], [], rest)
  else
    match explicit_arg with
    | c :: e =>
        if long then inl SError
        else if sep || is_dash c then inl SError
        else
          match dget str_eqb [dash; c] option_string_actions with
          | None => inr ([(o, [])], [dash :: explicit_arg], rest)
          | Some o' =>
              x <~ match e with
                   | [] => consume_plain o' rest
                   | d :: e' => if Ascii.eqb d "="%char then consume_explicit o' (is_dash c) true e' rest
                                else consume_explicit o' (is_dash c) false e rest
                   end ;;
              let '(acts, extras, rest') := x in inr ((o, []) :: acts, extras, rest')
          end
    | [] => inl SError
    end.
Definition consume_optional (w : str) (t : option_tuple) (rest : list word) : result (list (opt * str) * list str * list word) :=
  let '(action, option_string, sep, explicit_arg) := t in
  match action, explicit_arg with
  | None, _ => inr ([], [w], rest)
  | Some o, None => consume_plain o rest
  | Some o, Some e =>
      consume_explicit o (match option_string with _ :: c :: _ => is_dash c | _ => false end)
        (match sep with Some (_ :: _) => true | _ => false end) e rest
  end.

(** AP _match_arguments_partial for the one positional, nargs='?': any number of '-',
    an 'A' if there is one, any number of '-' *)
Fixpoint skip_dashes (l : list word) : nat :=
  match l with (_, MDashes) :: l' => S (skip_dashes l') | _ => O end.
Definition match_positional (l : list word) : nat :=
  let n := skip_dashes l in
  let n := (match skipn n l with (_, MArg) :: _ => S n | _ => n end) in
  (n + skip_dashes (skipn n l))%nat.
(** list.remove('--') if present *)
Fixpoint remove_dashes (l : list str) : list str :=
  match l with
  | [] => []
  | x :: l' => if str_eqb x $"--" then l' else x :: remove_dashes l'
  end.
(** AP consume_positionals; [pending]: the positional was not consumed yet *)
Definition set_vmlinux (v : option str) (g : args) : args :=
  let '(Args _ kdir arch build config clean cross out format absolute remap checkout disable quiet verbose) := g in
  Args v kdir arch build config clean cross out format absolute remap checkout disable quiet verbose.
Definition consume_positionals (pending : bool) (g : args) (l : list word) : result (args * list word) :=
  if pending then
    let n := match_positional l in
    match remove_dashes (map fst (firstn n l)) with
    | [] => inr (set_vmlinux None g, skipn n l)
    | [v] => inr (set_vmlinux (Some v) g, skipn n l)
    | _ => inl SList
    end
  else inr (g, l).

Definition is_option (w : word) : bool := match snd w with MOpt _ => true | _ => false end.
(** The words before the next option *)
Fixpoint to_option (l : list word) : list word * list word :=
  match l with
  | [] => ([], [])
  | w :: l' => if is_option w then ([], l) else let '(a, b) := to_option l' in (w :: a, b)
  end.
(** AP _parse_known_args, the loop; [l]: arg_strings from start_index on.  [start_index <=
    max_option_string_index] holds iff there is an option in [l].  Every turn consumes a word. *)
Fixpoint consume_loop (fuel : nat) (pending : bool) (g : args) (extras : list str) (l : list word)
  : result (bool * args * list str * list word) :=
  match fuel with
  | O => inr (pending, g, extras, l)
  | S fuel' =>
      if negb (existsb is_option l) then inr (pending, g, extras, l)
      else
        let '(before, next) := to_option l in
        p <~ match before with [] => inr (g, l) | _ => consume_positionals pending g l end ;;
        let '(g1, l1) := p in
        if (List.length l1 <? List.length l)%nat then consume_loop fuel' false g1 extras l1
        else
          let extras1 := extras ++ map fst before in
          match next with
          | (w, MOpt t) :: rest =>
              x <~ consume_optional w t rest ;;
              let '(acts, ex, rest') := x in
              g2 <~ take_actions acts g1 ;;
              consume_loop fuel' (match before with [] => pending | _ => false end) g2 (extras1 ++ ex) rest'
          | _ => inl SList
          end
  end.
(** AP parse_known_args and parse_args *)
Definition parse_args (argv : list str) : result args :=
  l <~ classify argv ;;
  x <~ consume_loop (List.length l) true namespace0 [] l ;;
  let '(pending, g, extras, rest) := x in
  p <~ consume_positionals pending g rest ;;
  let '(g', rest') := p in
  match extras ++ map fst rest' with
  | [] => inr g'
  | _ => inl SError
  end.

(** __main__.py 158-321: the program, from the words of the command line on *)
Definition systrack (m : machine) (argv : list str) : mio Z :=
  match parse_args argv with
  | inr g => main m g
  | inl SHelp | inl SVersion => ret (Exit 0)
  | inl SError => ret (Exit 2)
  | inl SList => ret (Raise TypeError)
  end.
