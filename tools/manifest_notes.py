STATUS = {
    # the statement itself says what happens after a lookup / with an empty suffix
    'C03': 'proved',
}
NOTES = {
    'C03': 'The exact behaviour is proved; the _refuted theorem is the failure of the docstring of add() that the property mentions.',
    'C04': 'Order by first use of a range, plus: a permutation of the applicable values.',
    'C06': 'The empty-suffix case, excluded by the property, is characterised too.',
    'C73': 'Durations are exact rationals n/d; negative durations are not covered.',
    'C74': 'Proved for argument lists and single paths. Refuted for a command given as one string, which is split into characters.',
    'C12': 'Proved for Elf32. For Elf64 bitness, byte order and machine are right but e_flags is not: half of e_phoff is reported (characterised exactly, refuted by a witness).',
    'C13': 'For every line of readelf -Ws and every sequence of lines.',
    'C16': 'Proved when the string is terminated; without a NUL the loop does not end (refuted).',
    'C17': 'Proved when raw and real addresses agree; on ARM the only failing situation is characterised and refuted by a witness.',
    'C18': 'Lines that stand for nothing are those in which no [.\\w]+ word is followed by PROGBITS/NOBITS.',
    'C05': 'Proved for instances of other classes and for instances of one class of the same kind (ARM: same ABI; others: same kernel bitness). Refuted otherwise: the options are added to the dictionary of the class. C05_exact_options and C05_exact_dependencies say what an instance asks for after any history.',
    'C38': 'For every table index below 2^30 (the x32 marker bit).',
    'C44': 'Proved except for little-endian PowerPC, where matches() always fails an assertion.',
    'C45': 'Proved except for 32-bit ARM with an EABI version and no OABI table, always detected as OABI.',
    'C31': 'Proved for a reference with a non-empty symbol. Refuted otherwise: a reference of size 0 matches every readable syscall.',
    'C32': 'For code read completely (symbol inside the file).',
    'C33': 'For code read completely (symbol inside the file).',
    'C34': 'For code read completely (symbol inside the file).',
    'C35': 'The accepted code is characterised exactly. It returns -ENOSYS if its branches are calls before the li; refuted otherwise (0x4b also is a plain branch).',
    'C36': 'The target is computed from the unsigned low half of the beq; up to 32 KiB of code this is the target by the instruction set, for forward relative branches.',
    'C40': 'Python also needs memory for the sets it builds from immediates; this is not modelled.',
    'C41': 'On decoded instructions (the decoder is not modelled), for dispatchers whose conditional jumps are reached only by falling through from a comparison; the need for that condition is proved too.',
    'C42': 'As C41.',
    'C43': 'Also end to end: from the image to the mapping.',
    'C10': 'For all strings.',
    'C11': 'Round trip and injectivity are proved for three-component versions. Refuted: a detected version with two components (6.1-rc3) makes version_tag raise ValueError. C11_defined and C11_banner say which versions and banners have a tag (three numbers). A pre-release has the tag of its release (C11_suffix, C11_prerelease_refuted), so that --checkout auto and the links of the page lead to other sources.',
    'C19': 'Also: a size that is not a multiple of the pointer size raises struct.error.',
    'C20': 'Exact (iff); if the file ends before the run does, struct.error is raised.',
    'C21': 'Also the cases without descriptors and without .opd section.',
    'C22': 'The annotation with locations and signatures is an argument that leaves the other fields alone; C54_annotation proves that of the modelled annotation.',
    'C23': 'For table indices below 2^30. is_dummy_syscall is the one of C31-C35.',
    'C24': 'Refuted: the assertion on the number of syscalls fails whenever an entry has no symbol. Proved: without such an entry the list is produced.',
    'C26': 'Proved when no symbol name occurs twice (for the whole result also: ni_syscall aliases have one size). Refuted otherwise: the last symbol of a name is kept.',
    'C27': 'Proved when ni_syscall aliases at one address have one size; refuted otherwise.',
    'C65': 'Restored whenever build() runs to its end: exactly for text without CR, up to line ends otherwise (C65_reads_same; C65_newlines_refuted). The interruption points where the original is lost are characterised exactly; the refuted ones are between the write and atexit.register, and during the whole -O1 attempt. make is assumed not to change the Makefile.',
    'C66': 'Exact (iff), for all texts.',
    'C67': 'For all texts (C67_newlines, with the text as read; C67_order is the case without CR).',
    'C68': 'For all histories of operations; what make answers may change at every step.',
    'C48': 'For lines split after commas (the code joins lines without a blank). Fields are words separated by blanks, double pointers may be written "* *". Text is Latin-1.',
    'C49': 'Refuted: reading goes on for ever when no later line ends with ")". Characterised exactly (iff).',
    'C50': 'For all lists of fields and both byte orders.',
    'C51': 'For both pointer sizes and byte orders; the strings are assumed to have no blanks around and types not to be empty.',
    'C52': 'Exact (iff), with and without metadata and sources.',
    'C53': 'Exact (iff), for all files; a line number below 1 is included.',
    'C54': 'Names are not escaped in the regexps: a dot in a name stands for any character (C54_good, for all names whose only special character is the dot); names made of word characters stand for themselves (C54_words). C54_annotation discharges the assumption of C15-C27 that annotation changes nothing else.',
    'C55': 'If addr2line gives one line per address.',
    'C56': 'Refuted: the last but one address is never tried, and a function of 3 bytes makes addr2line run without addresses. Proved: none of the other addresses is overlooked.',
    'C57': 'For all search results.',
    'C58': 'Exact (iff) for every text and every name made of word characters (C58_all) or with dots (C58_dotted), and for texts of the two usual shapes.',
    'C60': 'Proved for answers of the shapes file:line, file:? and ??:?. Refuted for "file:line (discriminator n)" (the line is dropped) and for paths with a colon (ValueError).',
    'C75': 'Refuted: AttributeError when some inner address has a location in the sources but the last one tried has none. Proved when that does not happen.',
    "C61": "Commands and files are parameters of the model (M_Config.v).",
    "C62": "C62_all_applied: what is applied does not depend on the checks. C62_reports: exactly which dependencies give an error and which a warning. kconfig.py says an option with an unmet dependency 'won't be set', but it is set all the same.",
    "C63": "Full characterisation of the files that are parsed and of both ways to fail.",
    "C64": "Both for a name (C64_kconfig_of_name) and for every extracted syscall of the table (C64_extracted).",
    "C76": "C76_edited and C76_read say exactly when the file edited and the file read are the one make uses. C76_edited_refuted: with a relative source directory and no O= scripts/config, run in that directory, edits KDIR/KDIR/.config. C76_read_refuted: with a relative output directory systrack reads another file than make writes. Paths are compared as text, after resolving them against the directory of the process.",
    "C77": "For every version and every object the constructors can build, as seen by a process that builds only it (C05 covers others).",
    "C78": "C78_steps, C78_target, C78_stops. C78_answers_refuted: the newlines meant for oldconfig are dropped, because Popen is not given stdin=PIPE (utils.py 263).",
  "C71": "The layout, the cells and the widths are all specified in S_Output.v. Hypothesis printable: numbers and lines non-negative, options have the CONFIG_ prefix once, paths have a non-empty string.",
  "C72": "Injectivity needs normalised paths and CONFIG_ prefixed options, which is what extraction produces. The text made from the object is the subject of C91.",
  "C79": "Rectangularity is proved for the spans of the cells; printing fails exactly when no signature is known (max() of nothing) or the version has not three components, so 'every result' is refuted.",
  "C69": "The level and the silence of progress messages; the format of messages is not modelled.",
  "C70": "C70_allowed, C70_misuse, C70_unknown_arch, C70_steps and C70_no_sources cover the first part. The second part is refuted: --clean is not refused without --arch or KDIR and then ends with a ValueError. C70_exceptions lists all exceptions that can escape when the functions main calls raise none.",
  "C80": "The environment (commands, files, the functions main calls) is a parameter, a function of what was done before. The texts of the failure messages are the subject of C109.",
  "C81": "version_tag is covered by C11.",
"C82": "Refuted for the 32-bit ABI of arm64, for which the registers of the 64-bit ABI (w8, x0-x5) are reported (C82_aarch32); proved for all the other ABIs.",
"C83": "",
"C84": "decode() of the banner is the identity on ASCII.",
"C85": "Without a name: proved. With a name: proved but for PowerPC names with little-endian images, which end in an AssertionError (C85_named_powerpc, C85_named_refuted). That the image supports the ABI is not checked for a given name (C85_named_abi_refuted).",
"C86": "Which of several symbols of an address is chosen is left open here (see C26, C28, C30 for the choice).",
"C87": "Proved for [COMPAT_]SYSCALL[32]_DEFINEn definitions that no other syscall searched for shares; refuted for the other kinds of definition (asmlinkage sys_oabi_..., PPC32_SYSCALL_DEFINE), which the search reports but no syscall is ever given (C87_odd_refuted). The search by ripgrep is not modelled.",
"C88": "Refuted for dropped syscalls whose line is unknown (addr2line says FILE:?): the message has %d for the line and cannot be formatted (C88_dropped_refuted); all the rest is proved (C88_messages).",
"C93": "The reader takes a subset of HTML without parse errors; pages are written in it. Links are compared as texts; where they lead is C114.",
"C94": "The order before the first click is proved for tables with indices below 7870, the smallest number of a syscall outside a table (C94_result).",
"C95": "Refuted at kernel.py 206, whose four arguments never fit the three places (C95_messages_refuted), and at kernel.py 547 when the line is unknown (C95_dropped is exact); all 109 other calls are proved. The table of calls is transcribed by tools/gen_logs.py; the kinds of the arguments come from reading the callers.",
"C96": "Refuted for a missing program run without a directory: cwd.exists() raises AttributeError (C96_ensure_refuted, exact in C96_missing). The callers without a directory (readelf, addr2line, gcc) check with shutil.which before. A compiler that prints nothing is an IndexError (C96_gcc).",
"C97": "Whole extraction. Names of syscalls have no special characters but dots (fit_names); the parameters are those of the definitions the macro and asmlinkage printers of S_Signature write.",
"C98": "Whole extraction. The names of the candidates have no special characters but dots, as in C97; steady_symbol excludes the assertion of location.py in the third stage (C56), definitions_fine the endless search for a closing parenthesis (C49). C98_table starts from the contents of the table in the image, C98_succeeds from the addresses found in any way, also through emulation.",
"C99": "That the analysis always ends is refuted by a comment after a definition (C99_always_refuted); C99_ends lists all reasons, addr2line waiting for addresses (C101) among them. Names of candidates have no special characters but dots, as in C97. Regular expressions are matched by the backtracking matcher of Regex.v, which is total; its running time is not a subject.",
"C100": "argparse is that of Python 3.11 (the version in the box), read as text; texts of help and errors are not modelled. Words are lists of Latin-1 characters, as elsewhere; a negative number is recognised by ASCII digits.",
"C101": "Refuted: the range of location.py 382 is empty for a symbol of three bytes (C101_always_refuted), and an empty list of syscalls is passed on (C101_no_syscall). C101_not_run: these are the only two cases. What addr2line does without an address is a parameter of the model (w_addr2line w []), because it depends on standard input.",
"C102": "Proved for names without special characters (C102_plain, C102_definitions); refuted for others: a dot, as in foo.isra, matches any character (C102_dot_refuted), a parenthesis is a re.error (C102_error_refuted), as is every unbalanced one and a repetition of nothing (C102_errors). For names with dots what is accepted and found is told exactly (C102_names, C102_accepts, C102_grep), they always compile (C102_dots), and definitions of the name itself are found (C102_found). The reader of regexps is the part of sre_parse that the texts need; what is beyond it is told apart (Beyond). ripgrep's engine is not modelled.",
"C103": "Joins the parts on a computer (M_Program.v): files, programs on PATH and what they print are functions of what was done so far. Steps that prepare sources (clean, configure, build) are joined in M_Workshop.v (C108). C103_succeeds says that the status is 0, or 1 for one of the reasons in barren; the exception is the ValueError of C79 for html. The architecture is what kernel_init gives (C83-C85), and names found have no special characters but dots, as in C97.",
"C104": "Refuted (C104_same_refuted: lib/kobject.c). C104_reads says exactly what ripgrep reads with the globs it is given; C104_covers that it reads all that the other search reads, C104_besides and C104_left_out what it reads besides. ripgrep is another program: M_Ripgrep.v models what its manual says about --glob and hidden files; ignore files are a parameter.",
"C105": "Refuted (C105_one_default_refuted: the default case is left for by two instructions, and nothing is given). C105_empty says exactly when the result is empty, C105_given that otherwise it is all of the mapping. Equality of instructions is a parameter (in iced_x86 it ignores their address); the decoder is one too.",
"C106": "Refuted for signatures (C106_elsewhere_refuted: a Latin-1 name in a comment above a definition; C106_all_lost: no syscall gets its signature then). C106_signature, C106_broken, C106_first_chunk and C106_later_chunk say what is read from which bytes; C106_search, C106_location, C106_string that the other places keep to the claim. C106_model: on text with Latin-1 characters only, the other files of the model are right. Encoding UTF-8, as Python chooses in all usual locales; what is done with a decoded text beyond Latin-1 is a parameter.",
"C107": "Refuted for ARM v3.7 (C107_build_refuted; C107_build: that is the only case) and for footnote 1 of arm64 (C107_footnote_refuted). Footnotes 4 to 6, which are advice about compilers and running programs, are not claims about the code. The text is transcribed by tools/gen_help.py.",
"C108": "Joins the steps that prepare sources with the rest (M_Workshop.v). C108_finished: a run with status 0 has done everything in order; C108_succeeds: if nothing fails (willing), the status is 0. C108_took: the time told at the end is that of the build; the clock is a function of two moments (ws_elapsed). Files may change in any way; where the claim needs it, that only writing and git change the Makefile is a premise (lasting), and that the version is read from the Makefile (version_there, C108_version only). An interrupted build is the subject of C65. The Makefile may come back with other ends of lines (C65), and it may be emptied and rewritten on the way.",
"C109": "Refuted: with -q a run fails without a word (C109_quiet_refuted), and so does one whose syscalls were all located in kernel/sys_ni.c (C109_empty_refuted). C109_says: in all other cases the reason is said last; C109_distinct: the text identifies it; C109_same_run and C109_same_result: the models with messages do the same as those without (C70, C80, C22-C28). C109_giving_up: critical messages and empty results. The exception text of a failing mkdir and sys.argv[0] are parameters; messages of level ERROR from the x86 dispatcher are the subject of C118.",
"C110": "Refuted (C110_other_refuted, C110_once_refuted, C110_found_refuted). C110_search says exactly what is read, in terms of the paths that lead to a file within the limit of links (leads: path_resolution(7)); C110_ends and C110_fails: it ends, and fails only for those reasons; C110_no_links: without links it is the search of C87. ripgrep follows no links.",
"C111": "Refuted for --format html (C111_html_refuted). C111_programs: an analysis is the same on computers that agree on files, readelf, addr2line and ripgrep; C111_readelf: status 127 without readelf; C111_no_places and C111_null: without addr2line no place is shown; C111_succeeds: readelf suffices. On the computers of M_Program.v (C103); runs with --checkout are left out (they run git).",
"C112": "Refuted: a form feed in a line hides a definition from the search with ripgrep (C112_refuted) or makes it fail (C112_error_refuted). C112_same: without such characters (row_hit) the places are the same. The hits are given: which lines ripgrep and the Python search find is the subject of C87, C104 and C110.",
"C113": "Refuted as to words (C113_words_refuted: out-of-tree is broken after its first hyphen). C113_lines says exactly where lines end (laid_out, may_end); C113_width, C113_kept and C113_framed are what it means for width, characters and blanks; C113_program: no word of the program's own texts is broken. M_Wrap.v models textwrap.TextWrapper of the standard library (3.8 and later) with the options that wrap_help gives; its regular expression for words is modelled as a function on characters.",
"C114": "Refuted for paths with special characters (C114_elsewhere_refuted: a name with # leads to another file). C114_links says exactly when a link leads to its file and line (linkable_file), C114_ordinary that it does for usual names, C114_none that absolute paths have no link. Links are read as the URL standard says for https without a base (trimming, tabs, fragment, query, slashes and backslashes, dots), segments are unescaped by the server. That the version and the file exist there is not claimed.",
"C115": "On the computers of M_Program.v (C103), by comparing two runs. C115_messages needs that files and programs do not depend on messages (unmoved), C115_form and the others need nothing. Log messages and the output of make that -vvv lets through are not part of what is compared.",
"C116": "C116_program compares whole runs of M_Program.v with the image read by readelf and the same image without some symbols (image_without); C116_syscalls and C116_image are the parts. That each condition is needed is shown by examples (a symbol within the table, an alias of a syscall, a symbol that tells an ABI).",
"C117": "M_Pipe.v has the bytes; what is done with characters beyond Latin-1 (version_from_str, parse_config, the search for the level) is a parameter of the theorems. C117_output_model, C117_banner_model and C117_makefile_model prove that the other files of the model, which take texts to be Latin-1, agree with it. The encoding is UTF-8 (the locale's may be another).",
"C118": "M_Dispatch.v has the messages of level ERROR by format and arguments, not their text; the decoder is a parameter, as for C40-C43. C118_code is exact: the message is that of the first instruction with which something is wrong. Among the targets (C118_targets) which of several conflicts is named depends on the order of the set; that it exists is proved, and that silence means none. C118_announced joins both with M_Emu.v. For dispatchers C118_muddled says exactly when an error is logged.",
"C119": "An exact answer for both cases: C119_ordered and C119_unordered. C119_message_refuted shows the failure: a dispatcher after PUSH RBP; MOV RBP, RSP, from which syscalls can be read, is an exception. That iced_x86 has no order of instructions is knowledge about a library that was not at hand, so it is a hypothesis (the parameter lt). The sort is an insertion sort in the model. The other properties of the dispatcher (C40-C43, C118) are about M_Emu.v, which leaves the message out.",
}
