# Formal model of systrack in Rocq (Coq 8.16.1)

## Layout

    properties.jsonl          the claims, in terms of what a user observes
    MANIFEST.json             claim -> theorems, with status
    rocq/theories/            all Coq sources (built with -Q theories Verif)
      PyBase.v, Regex.v       Python primitives: strings, dicts, sort, int<->text, struct, re
      PyFacts.v, Regex*.v     lemmas about them; RegexDen.v gives the regular expressions a
                              denotation independent of the matcher
      M_*.v                   the model, one file per Python module or part of one; no proofs
      S_*.v                   specifications: what the claims say, written without the functions
                              of the model (they use its record types and the primitives)
      L_*.v                   lemmas that connect model and specification
      P_*.v                   property theorems only; each ends in `exact lemma.`, followed
                              by `Print Assumptions`, with Examples that show concrete
                              non-trivial cases meeting the hypotheses
    seeded/mutants.py         wrong versions of the model
    seeded/LOG.jsonl          what happened to each of them
    tools/                    generators of properties.jsonl, MANIFEST.json and the tables of
                              kconfig options, and the mutation test driver

Every definition in `M_*.v` carries a comment with the file and the lines of /repo it mirrors.

## Modelling style

The model is a shallow embedding: every Python function becomes a total Gallina function that
follows it branch by branch. Effects are made explicit:

* exceptions, `sys.exit` and non-termination are values of the type
  `outcome A := Ok a | Raise e | Exit code | Diverge`;
* the outside world (files, `readelf`, `addr2line`, `make`, `scripts/config`, `git`) is a
  parameter of the function (an oracle: a function, or the text that the tool printed);
  every theorem quantifies over it;
* mutable objects (Syscall records, VersionedDict, the Makefile on disk) are state passed
  explicitly; histories are lists of operations;
* `while` loops become recursion on a measure or on fuel with a separate out-of-fuel value
  (`Diverge`) so that termination is a theorem, not an assumption;
* sets whose iteration order depends on hashing are lists, and the theorems quantify over all
  permutations;
* logging is left out, except where evaluating the arguments of a logging call can raise.

Strings are lists of `ascii`, i.e. Python `str` restricted to code points below 256 (Latin-1);
`bytes` are the same type. `str.isspace`, `\s`, `\w`, `\d`, `isdigit`, `islower`, `lower` are
defined on that range as Python defines them.

Regular expressions are an AST run by a backtracking matcher with Python's priorities
(leftmost, ordered alternation, greedy repetition of character classes, capture groups, `^`, `$`,
`\b`). In the functions each pattern is transcribed by hand next to a citation; `M_Pattern.v` reads
the texts of the regexps as `sre_parse` does, and C102 proves that they mean the transcriptions.

## Trusted base

* Coq 8.16.1's kernel (including `vm_compute`), and the `coqc` front end.
* Axioms: the development declares none. What `Print Assumptions` prints under every property
  theorem is recorded in the section "Print Assumptions" below.
* The hand translation from Python to Gallina (the cited lines), including the semantics of the
  Python primitives in `Py*.v`/`Regex.v`: ordered dict, stable `sorted`, `max`/`min` returning the
  first extremum, `Counter`, slices, `str.split/strip/find/replace`, `struct.unpack`, `re`,
  `pathlib` lexical operations.
* Restriction to Latin-1 text; `bytes.decode()` is the identity on ASCII and is modelled as such.
  `M_Text.v` has UTF-8 decoding and reading in text mode, and C106_model proves for signatures that
  the rest of the model is right on files that are text with Latin-1 characters only; `M_Pipe.v` and
  C117 do the same for outputs of programs, the banner and the Makefile.

### Modelled

* `utils.py`: VersionedDict/VersionedList, affix functions, maybe_rel, command_argv_to_string,
  format_duration, the command runners (`M_Command.v`).
* `syscall.py`: all.
* `elf.py`: all.
* `signature.py`: all.
* `location.py`: all except the search by ripgrep (`M_Search.v` has the search without it).
* `kconfig.py`, `kconfig_options.py`: all; the tables are data, transcribed by
  `tools/gen_kconfig_tables.py` into `M_KconfigTables.v`.
* `arch/*`: all, including the x86 dispatcher emulation on decoded instructions and the list of
  architectures (`M_HelpText.v`, transcribed by `tools/gen_help.py`).
* `kernel.py`: constructor, version handling, table extraction, `__extract_syscalls`, Makefile
  patching, clean/configure/build.
* `output.py`: the text table, the JSON document (`M_Json.v` has its text), and the HTML page
  (`M_Html.v`, with the template; `M_Templates.v` has style sheet and script, transcribed by
  `tools/gen_templates.py`).
* `templates/syscall_table.js`: all (`M_Sort.v`), on the texts of the cells; the style sheet is only text.
* `__main__.py`: `parse_args`, with the part of Python 3.11's argparse it uses (`M_Args.v`);
  the wrapping of its help texts (`M_Wrap.v`); `setup_logging`, `main` from parsed arguments to exit status, as a function from the behaviour of
  what it calls to the sequence of calls; the messages of failing runs (`M_Explain.v`).
* The critical messages of kernel.py 239-334 (`M_Giveup.v`) and the errors of arch/x86.py 341-599 (`M_Dispatch.v`).
* All of it together on a computer with files and programs (`M_Program.v`).
* Cleaning, configuring and building as part of the whole program, with all that is done in one list (`M_Workshop.v`).
* Which files ripgrep reads with the globs of location.py 105-119 (`M_Ripgrep.v`): another program, modelled after its manual.

### Not modelled, and simplifications

Everywhere
* `textwrap` but for `indent` and what `wrap_help` uses (`M_Wrap.v`), how argparse puts help texts and errors together, signal handlers. Log messages are modelled as a table of calls
  (`M_Log.v`, `M_LogTable.v`, transcribed by `tools/gen_logs.py`), apart from the functions that log (there they
  are left out, except where evaluating an argument can raise: location.py 409, or where a claim
  is about a message: the two of kconfig.py those of kernel.py 239-334 and 527-585, and the errors of arch/x86.py, `M_Giveup.v`, `M_Warn.v`, `M_Dispatch.v`).
* File-system permissions, races with other processes, memory exhaustion. Writes of files are
  atomic; reads in text mode use universal newlines where the code does.
* Paths are lexical (root and parts). Symbolic links are not followed, except in `M_Links.v`; elsewhere
  `resolve()` results are parameters.
* `str.splitlines` is modelled on the line ends that exist in Latin-1.
* The x86 decoder (iced_x86): `decode`, equality and iteration order of its instructions are
  parameters. Instructions that the emulation does not know (`IOther`) are assumed not to change
  the register that holds the number, nor the flags. They are also counted and sorted for a message, which
  raises if instructions cannot be compared; this is left out of `M_Emu.v` and is in `M_Skipped.v` (C119).

Per module
* kernel.py: the annotation with locations and signatures is a parameter of the extraction (the
  real one is `M_Annotate.annotate`, proved to be an instance); the iteration order of the set of
  ni_syscall symbols is a parameter; dead code at 398 is left out.
* signature.py: files are a function from paths to contents.
* location.py: names are put into regular expressions as they are (the code does not escape them): a
  dot stands for any character but a newline; other special characters are taken literally
  (`RName`; that this is right for names without special characters but dots is C102, where the
  regexps are read from their texts, `M_Pattern.v`, with all special characters);
  addr2line and the result of the search (`w_grep`, by ripgrep or without) are functions;
  groups are not captured. The search in `M_Search.v` follows no symbolic links; the one in `M_Links.v`
  does (proved equal without links), but is not part of the whole program.
* kconfig.py: commands and files are functions of the history; `make kernelversion` is not in that
  history.
* build: `make` does not change the Makefile itself.
* output.py: jinja2 is the template's text with its statements executed and values escaped; the
  copyright notice is a parameter. Readers of HTML also turn CR into LF and refuse NUL, which the
  reader of `S_Html.v` does not.
* __main__.py: everything `main` calls is a function of the history of calls. In `M_Program.v` this is
  computed from the files and programs of a computer; clean, configure, build and mkdir stay functions there (`M_Workshop.v` defines the first three, with no program that waits forever and no interruption),
  an ELF's sections and symbols are read when it is opened, and opening a directory is like opening a missing file.

## Specifications per property

C01-C05 (versions, VersionedDict/List, isolation): objects are (ranges, cache); histories are
  operation lists; the specification recurs over the history. C05 is refuted by a witness
  on the x86 and ARM classes; the positive part (fresh process) is proved, and what happens after any
  history exactly (came_before: options that came with an instance before the question).
C06, C08, C09 (affixes, normalisation): specification with `++`.
C07 (common prefixes): iff characterisation with a count over the names; order by length.
C10, C11 (version strings): decimal printing/reading round trip. The two-component case of
  `version_tag` is refuted.
C12 (ELF header): independent encoder for Elf32/Elf64 headers; decode(encode) = fields; e_flags
  refuted for Elf64.
C13, C14, C18 (readelf parsing): independent printers for lines; parse(print) = fields, and
  induction over the list of lines for duplicates.
C15-C17 (address arithmetic): C16 terminates iff a NUL exists; C17 refuted on ARM, proved when raw
  and real addresses agree.
C19-C21 (tables): index arithmetic on the file bytes.
C22-C31 (extraction): filter on the table; permutation theorems for C26/C27; C24, C31 refuted in
  general and proved under the missing hypothesis.
C32-C35 (dummy code): byte patterns as inductive predicates; PowerPC with a small instruction
  semantics.
C36-C39 (esoteric, skipping): arithmetic; a relational specification of the endian-switch stub.
C40-C43 (x86 dispatcher): concrete small-step semantics with flags; fixpoint iteration with a
  decreasing measure for termination; soundness and completeness by induction over executions.
C44-C47 (architectures): header record and symbol predicate; ARM and little-endian PowerPC parts
  refuted.
C48-C52 (signatures): independent printer of definitions; round trip; termination refuted at EOF.
C53-C60, C75 (locations): invariants over the four stages; a grammar of definition lines.
C61-C64, C76-C78 (kconfig): relation between requested options, edits and the file; the tables are
  checked by computation on data, and the theorems quantify over all versions.
C65-C68 (build): protocol with crash points; the version cache as a state machine.
C69, C70, C80, C81 (main): the sequence of calls for all arguments and environments.
C71, C72, C79 (output): grid, JSON value, and tiling of the HTML table.
C73, C74 (durations, quoting): arithmetic; an independent POSIX word splitter.
C82, C83 (registers, make targets): tables taken from the kernel's calling conventions and
  configuration targets.
C84, C85 (constructor): the text at linux_banner; machine and word size of the image.
C86 (names): longest shared prefix over the implemented entries, and the decorations of each
  architecture.
C87 (search): a grammar of candidate lines and a predicate for searched paths; the sources are a
  finite tree of files. Refuted for definitions that are not macros.
C88 (warnings): the messages as sub-sequences of the syscalls, picked by predicates; refuted for
  unknown lines.
C89 (results can be printed): composes extraction and annotation with C71 and C72.
C90 (outside the table): `outside` lists number, name, symbol, option and parameters of each such
  syscall.
C91 (JSON text): a reader of JSON after RFC 8259; read(write(v)) = v up to the order of members.
C92 (word size): a table of the options that choose word size and ABIs, with one version range each.
C93 (HTML page): a tokenizer after the HTML standard, nesting of tags, the texts of elements, and the table that must be found.
C94 (sorting): order of a column as a relation on syscalls, the mark as a state machine over clicks, stability by filters.
C30 (preference): besides the rules, a rank per name (`S_Rank.v`); the symbol reported has the highest rank at its address.
C95 (log messages): a message as characters and places; the text is the filled message; numbers read back.
C96 (commands): a system of directories, programs and behaviours; the reasons as an inductive relation.
C97 (declared): where an address stands (place, adjusted line, definition on that line) and what is declared on a line, as relations on file contents.
C98 (whole): what the table of an image holds (table_of), that the code of its symbols is in the file (sound_input), that answers of addr2line and of the search name existing lines, that definitions there are declared in the usual form, that metadata is readable.
C99 (ends): the reasons for not ending (hang): a string without NUL, a definition without a closing line, commands that do not end, addr2line waiting for addresses.
C100 (args): the options, how they are written (spells), command lines (line), what they mean (means); what comes before --help or --version (loose).
C101 (blind): two machines that differ in what addr2line does without addresses (same_but_idle), symbols of three bytes (no_inner), answers for lists that are not empty (addr2line_answers).
C102 (patterns): the characters that are special in a regexp; names without them (plain) or with dots only (dotted); what a name with dots stands for (stands_for) and which texts are accepted as definitions (accepts); names that cannot be put into a regexp (broken); what is a definition, a candidate line or a hit is that of C58, C87 and C60.
C103 (program): what a program prints and what is in a file of the computer; an image is what elf_open gives on both; entries are read
  with the table specification of C19-C21, places and parameters are those of C97, keys those of C67; excuses are those of C23 and C28-C35.
C104 (ripgrep): files that ripgrep reads, stated by their names (read_by_ripgrep); those of the other search are the ones of C87.
C105 (default case): dispatchers and what their runs reach are those of C40-C43; muddled says what makes the result empty.
C106 (text): UTF-8 by RFC 3629 arithmetic (encode), lines by their ends (splits), the signature by joining trimmed lines; a file is any list of chunks.
C107 (help text): rows of the table read off its lines (table_line, columns, cells by where the characters stand), names, footnotes; versions by since/before.
C108 (preparing sources): prepared, the sequence of all that is done, from cleaned, configured, built and start; makes and make_arg (a command by its arguments in any order); went_well; restored for the Makefile.
C109 (failures): because, one constructor per reason with its condition and its lines; hopeless and unreadable for the table; all_dropped, in terms of chooses, foreign, dropped (C23, C88).
C110 (links): leads, one constructor per step of path resolution, with the number of links; visited, a path all of whose prefixes lead to directories that are not avoided.
C111 (programs needed): enough_alike, two computers that agree on files and on the programs as far as they are used; placeless, a syscall without a place.
C112 (both searches): raw_line and own_line, what either search prints for a line found; row_hit, no end of a row (S_Elf.row) in it.
C113 (wrapping): rows of a text, untabbed, where a word may be broken (may_cut), lines (laid_out: greedy, only blanks left out), the characters that are kept (ink).
C114 (links): how a browser reads a link (cleaned, cut at # and ?, segments, steps of dots, escapes), the place of a line on Elixir (leads_home), files that can be linked as they are (linkable_file).
C115 (options without influence): two runs are compared, by their deeds (what is done but for messages)
  and by the syscalls shown; the specification lists the options in which command lines differ.
C116 (needless symbols): stripped, an image without some symbols; needless, what such a symbol must not be; telling_names, a list of names written down from the sources.
C117 (bytes): written, not_text of S_Text (RFC 3629); translated, line ends made LF; reads_as, both together.
C118 (dispatcher errors): wrong, one constructor per message with its condition on the instruction and those before it; first_wrong; tells, for the targets; announced, from the image. They are about lists of instructions and do not mention the emulation, except that the sets of numbers of announced are its own (C41, C42).
C119 (debug message): occurs, how often an instruction stands in the code; tied, two different ones equally often.
C52 (no sources): two worlds with one addr2line give one annotation; signatures are those of the metadata only.

A claim that is false has the status "partial": a theorem `..._refuted` gives a witness, and the
other theorems prove what holds under the missing hypothesis. A theorem whose name ends in
`_partial` proves less than the claim; the note in MANIFEST.json says what is missing.

## Print Assumptions

Every property theorem in `P_*.v` is followed by `Print Assumptions`, and each of these prints

    Closed under the global context

so no theorem depends on any axiom, neither own ones nor ones of the standard library. `vcheck`
also lists the constants `Coq.ssr.ssrunder.Under_rel.*`: they belong to a module type of a library
that is loaded with `lia`, and no theorem uses them.
