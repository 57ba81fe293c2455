(** Bytes that become text: bytes.decode() and open(file, 'r') of CPython 3.8+ with the UTF-8
    encoding, and the parts of /repo/src/systrack that use them on sources and image: location.py
    49-56 and 166-174, signature.py 41-50, elf.py 156-163.  The other files of the model take text to
    be Latin-1 and decoding to be the identity; this one has bytes on one side and code points on the
    other.  What is done with a decoded text is a parameter: Unicode's tables are not modelled. *)
From Coq Require Import List Bool Ascii String ZArith.
From Verif Require Import PyBase Regex M_Elf M_Utils M_Syscall M_Arch M_Location M_Search M_Build M_Signature.
Import ListNotations.
Open Scope Z_scope.
Open Scope list_scope.

(** A str: its code points *)
Definition text := list Z.

(** ** UTF-8 *)

(** A character of which some bytes were seen: how many are missing, between which bounds the next one
    is, and the bits so far *)
Record partial := Partial { pt_need : nat; pt_low : Z; pt_high : Z; pt_bits : Z }.
(** The first byte of a longer character (Objects/stringlib/codecs.h, utf8_decode) *)
Definition lead (z : Z) : option partial :=
  if in_range 194 223 z then Some (Partial 1 128 191 (z - 192))
  else if z =? 224 then Some (Partial 2 160 191 (z - 224))
  else if z =? 237 then Some (Partial 2 128 159 (z - 224))
  else if in_range 225 239 z then Some (Partial 2 128 191 (z - 224))
  else if z =? 240 then Some (Partial 3 144 191 (z - 240))
  else if in_range 241 243 z then Some (Partial 3 128 191 (z - 240))
  else if z =? 244 then Some (Partial 3 128 143 (z - 240))
  else None.
Definition utf8_byte (st : option partial) (c : ascii) : outcome (option partial * text) :=
  let z := code c in
  match st with
  | None =>
      if z <? 128 then Ok (None, [z])
      else match lead z with Some p => Ok (Some p, []) | None => Raise UnicodeDecodeError end
  | Some p =>
      if in_range (pt_low p) (pt_high p) z then
        let bits := pt_bits p * 64 + (z - 128) in
        match pt_need p with
        | S (S n) => Ok (Some (Partial (S n) 128 191 bits), [])
        | _ => Ok (None, [bits])
        end
      else Raise UnicodeDecodeError
  end.
(** The incremental decoder on some more bytes *)
Fixpoint utf8_feed (st : option partial) (b : bytes) : outcome (option partial * text) :=
  match b with
  | [] => Ok (st, [])
  | c :: b' =>
      ' (st, t) <- utf8_byte st c ;;
      ' (st, t') <- utf8_feed st b' ;;
      Ok (st, t ++ t')
  end.
(** bytes.decode() *)
Definition decode (b : bytes) : outcome text :=
  ' (st, t) <- utf8_feed None b ;;
  match st with None => Ok t | Some _ => Raise UnicodeDecodeError end.

(** ** open(file, 'r'): io.TextIOWrapper over the bytes of the file, which come in chunks *)

(** io.IncrementalNewlineDecoder, translate=True: every line ends in "\n".  A "\r" at the end of a
    chunk is kept for the next. *)
Fixpoint newlines (t : text) : text :=
  match t with
  | [] => []
  | c :: r =>
      if c =? 13
      then match r with
           | d :: r' => if d =? 10 then 10 :: newlines r' else 10 :: newlines r
           | [] => [10]
           end
      else c :: newlines r
  end.
Definition pending (cr : bool) : text := if cr then [13] else [].
Definition newline_feed (cr : bool) (t : text) : bool * text :=
  match t with
  | [] => (cr, [])
  | _ =>
      if last t 0 =? 13 then (true, newlines (pending cr ++ removelast t))
      else (false, newlines (pending cr ++ t))
  end.

(** Text decoded and not yet read, the state of the two decoders, the chunks to come *)
Record reader := Reader { rd_text : text; rd_cr : bool; rd_part : option partial; rd_chunks : list bytes }.
(** The first line, with its "\n" *)
Fixpoint first_line (t : text) : option (text * text) :=
  match t with
  | [] => None
  | c :: t' =>
      if c =? 10 then Some ([c], t')
      else match first_line t' with Some (l, r) => Some (c :: l, r) | None => None end
  end.
(** TextIOWrapper.readline *)
Fixpoint read_line (t : text) (cr : bool) (part : option partial) (chunks : list bytes) : outcome (text * reader) :=
  match first_line t with
  | Some (l, t') => Ok (l, Reader t' cr part chunks)
  | None =>
      match chunks with
      | [] =>
          match part with
          | Some _ => Raise UnicodeDecodeError
          | None => Ok (t ++ newlines (pending cr), Reader [] false None [])
          end
      | c :: chunks' =>
          ' (part', new) <- utf8_feed part c ;;
          let (cr', new') := newline_feed cr new in
          read_line (t ++ new') cr' part' chunks'
      end
  end.
Definition readline (r : reader) : outcome (text * reader) :=
  read_line (rd_text r) (rd_cr r) (rd_part r) (rd_chunks r).
Definition open_text (chunks : list bytes) : reader := Reader [] false None chunks.

(** ** signature.py 41-50 *)

(** str.isspace of one character *)
Definition is_blank (z : Z) : bool :=
  in_range 9 13 z || in_range 28 32 z || (z =? 133) || (z =? 160) || (z =? 5760) || in_range 8192 8202 z
  || (z =? 8232) || (z =? 8233) || (z =? 8239) || (z =? 8287) || (z =? 12288).
Fixpoint drop_blanks (t : text) : text :=
  match t with
  | [] => []
  | c :: t' => if is_blank c then drop_blanks t' else t
  end.
(** str.strip() *)
Definition strip_text (t : text) : text := rev (drop_blanks (rev (drop_blanks t))).
(** sig.endswith(')') *)
Definition ends_paren (t : text) : bool := last t 0 =? 41.
(** signature.py 45, 46 *)
Fixpoint skip_text (n : nat) (r : reader) : outcome reader :=
  match n with
  | O => Ok r
  | S n =>
      ' (l, r) <- readline r ;;
      match l with [] => Raise StopIteration | _ => skip_text n r end
  end.
(** signature.py 48-50: at the end of the file readline() returns '' for ever *)
Fixpoint gather (fuel : nat) (sig : text) (r : reader) : outcome text :=
  match fuel with
  | O => Diverge
  | S fuel =>
      ' (l, r) <- readline r ;;
      match l with
      | [] => Diverge
      | _ => let sig := sig ++ strip_text l in if ends_paren sig then Ok sig else gather fuel sig r
      end
  end.
(** signature.py 41-97 on the chunks in which the file is read; [rest] is signature.py 52-97 *)
Definition signature_from_chunks (rest : text -> bool -> outcome (option (list str))) (chunks : list bytes) (line : Z)
    (big : bool) : outcome (option (list str)) :=
  r <- skip_text (Z.to_nat (line - 1)) (open_text chunks) ;;
  sig <- gather (S (List.length (List.concat chunks))) [] r ;;
  rest sig big.

(** signature.py 41-97; [files]: the chunks of the files that exist *)
Definition signature_from_file (rest : text -> bool -> outcome (option (list str))) (files : path -> option (list bytes))
    (file : path) (line : Z) (big : bool) : outcome (option (list str)) :=
  match files file with
  | None => Raise FileNotFoundError
  | Some chunks => signature_from_chunks rest chunks line big
  end.
(** signature.py 151-173, as in M_Signature *)
Definition sign_bytes (rest : text -> bool -> outcome (option (list str))) (files : path -> option (list bytes)) (big have_source : bool)
    (meta : option (dict str (list str))) (s : syscall) : outcome syscall :=
  if sc_esoteric s then Ok s
  else if sc_good s then
    _ <- assert_ have_source ;;
    match sc_file s, sc_line s with
    | Some f, Some l =>
        sig <- signature_from_file rest files f l big ;;
        Ok (set_signature s sig)
    | None, _ => Raise AttributeError
    | Some _, None => Raise TypeError
    end
  else
    match meta with
    | None => Ok s
    | Some d =>
        match dget str_eqb (sc_origname s) d with
        | Some sig => Ok (set_signature s (Some sig))
        | None =>
            match dget str_eqb (sc_name s) d with
            | Some sig => Ok (set_signature s (Some sig))
            | None => Ok s
            end
        end
    end.
(** signature.py 99-175 *)
Definition extract_signatures_bytes (rest : text -> bool -> outcome (option (list str))) (files : path -> option (list bytes))
    (syscalls : list syscall) (e : elf) (have_source : bool) : outcome (list syscall) :=
  meta <- read_metadata e ;;
  mapM (sign_bytes rest files (e_big e) have_source meta) syscalls.

(** ** location.py 166-174; [good]: good_definition for the architecture on a decoded line *)
Definition good_location_bytes (good : text -> str -> bool) (content : bytes) (line : Z) (s : syscall) : outcome bool :=
  let ls := lines_keep content in
  let n := Z.to_nat (line - 1) in
  if (List.length ls <? n)%nat then Raise StopIteration
  else
    definition <- decode (nth n ls []) ;;
    Ok (good definition (sc_origname s) || good definition (sc_name s)).

(** ** location.py 49-56: number of the line and text *)
Fixpoint grep_lines (exp : re) (n : Z) (lines : list bytes) : outcome (list (Z * text)) :=
  match lines with
  | [] => Ok []
  | l :: lines' =>
      match re_search exp l with
      | Some _ => t <- decode (brstrip l) ;; r <- grep_lines exp (n + 1) lines' ;; Ok ((n, t) :: r)
      | None => grep_lines exp (n + 1) lines'
      end
  end.
Definition grep_bytes (exp : re) (content : bytes) : outcome (list (Z * text)) := grep_lines exp 1 (lines_keep content).

(** ** elf.py 156-163 *)
Definition read_string_bytes (e : elf) (v : Z) : outcome text :=
  off <- vaddr_to_file_offset e v ;;
  b <- read_to_nul (skipn (Z.to_nat off) (M_Elf.e_file e)) [] ;;
  decode b.
