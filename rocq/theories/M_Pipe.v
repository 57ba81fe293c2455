(** Bytes that become text elsewhere: what programs print (/repo/src/systrack/utils.py 238-277, Popen with
    text=True), the banner of the image (kernel.py 94-101), the configuration of the kernel (kconfig.py
    39-50) and its Makefile (kernel.py 587-611, 677-711).  The other files of the model take these for
    Latin-1 texts.  The encoding is UTF-8, as in M_Text.  What is done with a text of other characters
    (regexps, int()) is a parameter. *)
From Coq Require Import List Bool Ascii String ZArith.
From Verif Require Import PyBase M_Utils M_Kernel M_Build M_Text M_Command.
Import ListNotations.
Open Scope Z_scope.
Open Scope list_scope.

(** open(file).read(), and Popen._translate_newlines *)
Definition read_text (b : bytes) : outcome text := t <- decode b ;; Ok (newlines t).

(** str.encode() of one character (Objects/stringlib/codecs.h, utf8_encoder); there are no surrogates in
    a text that was decoded. *)
Definition utf8_char (z : Z) : list Z :=
  if z <? 128 then [z]
  else if z <? 2048 then [192 + z / 64; 128 + z mod 64]
  else if z <? 65536 then [224 + z / 4096; 128 + z / 64 mod 64; 128 + z mod 64]
  else [240 + z / 262144; 128 + z / 4096 mod 64; 128 + z / 64 mod 64; 128 + z mod 64].
(** f.write(t) to an empty file that is then closed *)
Definition save (t : text) : bytes := map chr (flat_map utf8_char t).

(** utils.py 238-277: what [sys_run] prints are bytes.  Pipes are decoded by communicate(), before the
    status is looked at; [console_output] leaves no pipe, and without [capture_stdout] there is one for
    the standard error only.  The messages are those of M_Command. *)
Definition ensure_bytes (w : system) (c : command) (cwd : option path) (capture_stdout console_output : bool)
    : outcome (option text) :=
  if negb (negb console_output || negb capture_stdout) then Raise AssertionError else
  p <- snd (do_popen w c cwd) ;;
  match p with
  | None => Exit 127
  | Some (status, out, err) =>
      out <- (if capture_stdout then t <- read_text out ;; Ok (Some t) else Ok None) ;;
      _ <- (if console_output then Ok [] else read_text err) ;;
      if negb (status =? 0) then Exit 1 else Ok out
  end.

(** kernel.py 94-101; [from_str]: version_from_str *)
Fixpoint text_eqb (a b : text) : bool :=
  match a, b with
  | [], [] => true
  | x :: a, y :: b => (x =? y) && text_eqb a b
  | _, _ => false
  end.
Definition banner_bytes (from_str : text -> option version) (banner : bytes) : outcome (option version) :=
  t <- decode banner ;;
  Ok (if text_eqb (firstn 14 t) (map code $"Linux version ") then from_str (skipn 14 t) else None).

(** kconfig.py 39-50; [parse]: what is done with the text *)
Definition config_bytes (parse : text -> outcome (dict str str)) (file : bytes) : outcome (dict str str) :=
  t <- read_text file ;; parse t.

(** kernel.py 604-611: the Makefile after it *)
Definition restored (file : bytes) (backup : text) : bytes := match backup with [] => file | _ => save backup end.
(** kernel.py 710 *)
Definition last_build (rc : option Z) : outcome unit :=
  _ <- M_Utils.ensure_command (match rc with Some z => Some (z, []) | None => None end) ;; Ok tt.
(** kernel.py 677-711, to its end, with [set t level] for 594-599: the Makefile, what it was at each run of
    make, and the outcome; [make i] is what the i-th run of make does. *)
Record built := Built { bd_file : bytes; bd_makes : list bytes; bd_end : outcome unit }.
Definition build_bytes (set : text -> Z -> option text) (make : nat -> option Z) (try_disable_opt : bool) (file : bytes) : built :=
  if try_disable_opt then
    match read_text file with
    | Ok t =>
        match set t 0 with
        | None => Built file [file] (last_build (make 0%nat))
        | Some t0 =>
            let m0 := save t0 in
            let file1 := restored m0 t in
            if M_Utils.run_command (make 0%nat) =? 0 then Built file1 [m0] (Ok tt)
            else
              match read_text file1 with
              | Ok t' =>
                  let m1 := match set t' 1 with Some t1 => save t1 | None => file1 end in
                  let file2 := restored m1 t' in
                  if M_Utils.run_command (make 1%nat) =? 0 then Built file2 [m0; m1] (Ok tt)
                  else Built file2 [m0; m1; file2] (last_build (make 2%nat))
              | Raise e => Built file1 [m0] (Raise e)
              | Exit z => Built file1 [m0] (Exit z)
              | Diverge => Built file1 [m0] Diverge
              end
        end
    | Raise e => Built file [] (Raise e)
    | Exit z => Built file [] (Exit z)
    | Diverge => Built file [] Diverge
    end
  else Built file [file] (last_build (make 0%nat)).
