{
 "claims": [
  {
   "property": "C01",
   "status": "proved",
   "theorems": [
    "C01_version_order",
    "C01_ranges_half_open",
    "C01_ranges_partition"
   ],
   "note": ""
  },
  {
   "property": "C02",
   "status": "proved",
   "theorems": [
    "C02_versioned_dict_lookup",
    "C02_versioned_dict_domain",
    "C02_constructor"
   ],
   "note": ""
  },
  {
   "property": "C03",
   "status": "proved",
   "theorems": [
    "C03_lookup_sees_additions_before_first_lookup",
    "C03_lookup_stable",
    "C03_add_after_lookup_is_invisible_refuted"
   ],
   "note": "The exact behaviour is proved; the _refuted theorem is the failure of the docstring of add() that the property mentions."
  },
  {
   "property": "C04",
   "status": "proved",
   "theorems": [
    "C04_versioned_list_lookup",
    "C04_versioned_list_nothing_lost",
    "C04_versioned_list_stable"
   ],
   "note": "Order by first use of a range, plus: a permutation of the applicable values."
  },
  {
   "property": "C05",
   "status": "partial",
   "theorems": [
    "C05_isolation_partial",
    "C05_other_classes",
    "C05_isolation_refuted",
    "C05_exact_options",
    "C05_exact_dependencies"
   ],
   "note": "Proved for instances of other classes and for instances of one class of the same kind (ARM: same ABI; others: same kernel bitness). Refuted otherwise: the options are added to the dictionary of the class. C05_exact_options and C05_exact_dependencies say what an instance asks for after any history."
  },
  {
   "property": "C06",
   "status": "proved",
   "theorems": [
    "C06_noprefix_first_match",
    "C06_noprefix_no_match",
    "C06_nosuffix_first_match",
    "C06_nosuffix_no_match",
    "C06_anyprefix",
    "C06_anysuffix",
    "C06_nosuffix_empty_suffix"
   ],
   "note": "The empty-suffix case, excluded by the property, is characterised too."
  },
  {
   "property": "C07",
   "status": "proved",
   "theorems": [
    "C07_common_prefixes_exact",
    "C07_no_names"
   ],
   "note": ""
  },
  {
   "property": "C08",
   "status": "proved",
   "theorems": [
    "C08_longest_prefix_stripped"
   ],
   "note": ""
  },
  {
   "property": "C09",
   "status": "proved",
   "theorems": [
    "C09_normalisation_exact",
    "C09_contiguous_part",
    "C09_untouched"
   ],
   "note": ""
  },
  {
   "property": "C10",
   "status": "proved",
   "theorems": [
    "C10_three_components",
    "C10_two_components",
    "C10_none_iff",
    "C10_banner",
    "C10_no_banner"
   ],
   "note": "For all strings."
  },
  {
   "property": "C11",
   "status": "partial",
   "theorems": [
    "C11_round_trip",
    "C11_injective",
    "C11_defined_refuted",
    "C11_defined",
    "C11_banner",
    "C11_suffix",
    "C11_prerelease_refuted"
   ],
   "note": "Round trip and injectivity are proved for three-component versions. Refuted: a detected version with two components (6.1-rc3) makes version_tag raise ValueError. C11_defined and C11_banner say which versions and banners have a tag (three numbers). A pre-release has the tag of its release (C11_suffix, C11_prerelease_refuted), so that --checkout auto and the links of the page lead to other sources."
  },
  {
   "property": "C12",
   "status": "partial",
   "theorems": [
    "C12_elf32_identification",
    "C12_elf64_identification_partial",
    "C12_elf64_flags_refuted",
    "C12_bad_class_or_data_exits",
    "C12_short_file"
   ],
   "note": "Proved for Elf32. For Elf64 bitness, byte order and machine are right but e_flags is not: half of e_phoff is reported (characterised exactly, refuted by a witness)."
  },
  {
   "property": "C13",
   "status": "proved",
   "theorems": [
    "C13_symbol_line",
    "C13_other_lines",
    "C13_symbol_table"
   ],
   "note": "For every line of readelf -Ws and every sequence of lines."
  },
  {
   "property": "C14",
   "status": "proved",
   "theorems": [
    "C14_thumb",
    "C14_others_unchanged"
   ],
   "note": ""
  },
  {
   "property": "C15",
   "status": "proved",
   "theorems": [
    "C15_defined_iff_in_some_section",
    "C15_outside_raises",
    "C15_offset_of_some_section",
    "C15_offset_disjoint",
    "C15_order_independent",
    "C15_read",
    "C15_read_at_end_of_file"
   ],
   "note": ""
  },
  {
   "property": "C16",
   "status": "partial",
   "theorems": [
    "C16_string_up_to_nul",
    "C16_only_terminated_strings",
    "C16_no_terminator_diverges",
    "C16_always_returns_refuted"
   ],
   "note": "Proved when the string is terminated; without a NUL the loop does not end (refuted)."
  },
  {
   "property": "C17",
   "status": "partial",
   "theorems": [
    "C17_none_iff",
    "C17_nearest",
    "C17_at_most_one_byte_off_partial",
    "C17_only_miss",
    "C17_nearest_refuted",
    "C17_extracted_symbols_are_sane"
   ],
   "note": "Proved when raw and real addresses agree; on ARM the only failing situation is characterised and refuted by a witness."
  },
  {
   "property": "C18",
   "status": "proved",
   "theorems": [
    "C18_section_table"
   ],
   "note": "Lines that stand for nothing are those in which no [.\\w]+ word is followed by PROGBITS/NOBITS."
  },
  {
   "property": "C19",
   "status": "proved",
   "theorems": [
    "C19_sized_table",
    "C19_entry",
    "C19_odd_size",
    "C19_truncated",
    "C19_in_file"
   ],
   "note": "Also: a size that is not a multiple of the pointer size raises struct.error."
  },
  {
   "property": "C20",
   "status": "proved",
   "theorems": [
    "C20_unsized_table",
    "C20_end_of_file"
   ],
   "note": "Exact (iff); if the file ends before the run does, struct.error is raised."
  },
  {
   "property": "C21",
   "status": "proved",
   "theorems": [
    "C21_without_descriptors",
    "C21_direct",
    "C21_descriptors",
    "C21_no_opd"
   ],
   "note": "Also the cases without descriptors and without .opd section."
  },
  {
   "property": "C22",
   "status": "proved",
   "theorems": [
    "C22_provenance"
   ],
   "note": "The annotation with locations and signatures is an argument that leaves the other fields alone; C54_annotation proves that of the modelled annotation."
  },
  {
   "property": "C23",
   "status": "proved",
   "theorems": [
    "C23_no_entry_lost",
    "C23_indices",
    "C23_final_list",
    "C23_no_ni",
    "C23_gives_up",
    "C23_all_ni"
   ],
   "note": "For table indices below 2^30. is_dummy_syscall is the one of C31-C35."
  },
  {
   "property": "C24",
   "status": "partial",
   "theorems": [
    "C24_missing_symbol_stops",
    "C24_missing_symbol_asserts",
    "C24_missing_symbol_refuted",
    "C24_all_symbols_partial"
   ],
   "note": "Refuted: the assertion on the number of syscalls fails whenever an entry has no symbol. Proved: without such an entry the list is produced."
  },
  {
   "property": "C25",
   "status": "proved",
   "theorems": [
    "C25_numbers_unique"
   ],
   "note": ""
  },
  {
   "property": "C26",
   "status": "partial",
   "theorems": [
    "C26_choice_partial",
    "C26_result_partial",
    "C26_duplicate_names_refuted"
   ],
   "note": "Proved when no symbol name occurs twice (for the whole result also: ni_syscall aliases have one size). Refuted otherwise: the last symbol of a name is kept."
  },
  {
   "property": "C27",
   "status": "partial",
   "theorems": [
    "C27_order_partial",
    "C27_alias_sizes_refuted"
   ],
   "note": "Proved when ni_syscall aliases at one address have one size; refuted otherwise."
  },
  {
   "property": "C28",
   "status": "proved",
   "theorems": [
    "C28_ni_never_reported"
   ],
   "note": ""
  },
  {
   "property": "C29",
   "status": "proved",
   "theorems": [
    "C29_ni_symbols_exact"
   ],
   "note": ""
  },
  {
   "property": "C30",
   "status": "proved",
   "theorems": [
    "C30_one_of_both",
    "C30_compat",
    "C30_marker",
    "C30_rank",
    "C30_best"
   ],
   "note": ""
  },
  {
   "property": "C31",
   "status": "partial",
   "theorems": [
    "C31_reference_partial",
    "C31_no_reference",
    "C31_code_alone",
    "C31_empty_reference",
    "C31_only_non_implemented_refuted"
   ],
   "note": "Proved for a reference with a non-empty symbol. Refuted otherwise: a reference of size 0 matches every readable syscall."
  },
  {
   "property": "C32",
   "status": "proved",
   "theorems": [
    "C32_x86_exact"
   ],
   "note": "For code read completely (symbol inside the file)."
  },
  {
   "property": "C33",
   "status": "proved",
   "theorems": [
    "C33_mips_exact"
   ],
   "note": "For code read completely (symbol inside the file)."
  },
  {
   "property": "C34",
   "status": "proved",
   "theorems": [
    "C34_arm_exact"
   ],
   "note": "For code read completely (symbol inside the file)."
  },
  {
   "property": "C35",
   "status": "partial",
   "theorems": [
    "C35_ppc_exact",
    "C35_odd_size",
    "C35_sound_partial",
    "C35_sound_refuted"
   ],
   "note": "The accepted code is characterised exactly. It returns -ENOSYS if its branches are calls before the li; refuted otherwise (0x4b also is a plain branch)."
  },
  {
   "property": "C36",
   "status": "proved",
   "theorems": [
    "C36_endian_switch_exact",
    "C36_not_reported",
    "C36_target_is_the_real_one"
   ],
   "note": "The target is computed from the unsigned low half of the beq; up to 32 KiB of code this is the target by the instruction set, for forward relative branches."
  },
  {
   "property": "C37",
   "status": "proved",
   "theorems": [
    "C37_arm_private_syscalls"
   ],
   "note": ""
  },
  {
   "property": "C38",
   "status": "proved",
   "theorems": [
    "C38_x86_filter_exact",
    "C38_others_drop_nothing"
   ],
   "note": "For every table index below 2^30 (the x32 marker bit)."
  },
  {
   "property": "C39",
   "status": "proved",
   "theorems": [
    "C39_interleaved_tables",
    "C39_others_keep_numbers"
   ],
   "note": ""
  },
  {
   "property": "C40",
   "status": "proved",
   "theorems": [
    "C40_terminates",
    "C40_dispatchers_accepted"
   ],
   "note": "Python also needs memory for the sets it builds from immediates; this is not modelled."
  },
  {
   "property": "C41",
   "status": "proved",
   "theorems": [
    "C41_every_run_is_covered",
    "C41_fresh_flags_needed"
   ],
   "note": "On decoded instructions (the decoder is not modelled), for dispatchers whose conditional jumps are reached only by falling through from a comparison; the need for that condition is proved too."
  },
  {
   "property": "C42",
   "status": "proved",
   "theorems": [
    "C42_no_impossible_number"
   ],
   "note": "As C41."
  },
  {
   "property": "C43",
   "status": "proved",
   "theorems": [
    "C43_conflicts_and_mapping",
    "C43_order_independent",
    "C43_no_clash",
    "C43_extraction_exact"
   ],
   "note": "Also end to end: from the image to the mapping."
  },
  {
   "property": "C44",
   "status": "partial",
   "theorems": [
    "C44_at_most_one_class",
    "C44_class_by_machine",
    "C44_inconsistent_image",
    "C44_unknown_machine",
    "C44_self_consistent_partial",
    "C44_little_endian_ppc",
    "C44_self_consistent_refuted"
   ],
   "note": "Proved except for little-endian PowerPC, where matches() always fails an assertion."
  },
  {
   "property": "C45",
   "status": "partial",
   "theorems": [
    "C45_abis_exact",
    "C45_arm_partial",
    "C45_arm_refuted",
    "C45_arm_without_oabi_table"
   ],
   "note": "Proved except for 32-bit ARM with an EABI version and no OABI table, always detected as OABI."
  },
  {
   "property": "C46",
   "status": "proved",
   "theorems": [
    "C46_documented_names_build",
    "C46_too_old",
    "C46_no_other_name",
    "C46_aliases",
    "C46_case_insensitive"
   ],
   "note": ""
  },
  {
   "property": "C47",
   "status": "proved",
   "theorems": [
    "C47_table_exact",
    "C47_number_base",
    "C47_compat_flag"
   ],
   "note": ""
  },
  {
   "property": "C48",
   "status": "proved",
   "theorems": [
    "C48_define",
    "C48_asmlinkage",
    "C48_arity"
   ],
   "note": "For lines split after commas (the code joins lines without a blank). Fields are words separated by blanks, double pointers may be written \"* *\". Text is Latin-1."
  },
  {
   "property": "C49",
   "status": "partial",
   "theorems": [
    "C49_returns_partial",
    "C49_always_returns_refuted"
   ],
   "note": "Refuted: reading goes on for ever when no later line ends with \")\". Characterised exactly (iff)."
  },
  {
   "property": "C50",
   "status": "proved",
   "theorems": [
    "C50_expansion"
   ],
   "note": "For all lists of fields and both byte orders."
  },
  {
   "property": "C51",
   "status": "proved",
   "theorems": [
    "C51_metadata"
   ],
   "note": "For both pointer sizes and byte orders; the strings are assumed to have no blanks around and types not to be empty."
  },
  {
   "property": "C52",
   "status": "proved",
   "theorems": [
    "C52_choice",
    "C52_choice_no_metadata",
    "C52_no_source",
    "C52_unique",
    "C52_sourceless",
    "C52_sourceless_chosen"
   ],
   "note": "Exact (iff), with and without metadata and sources."
  },
  {
   "property": "C53",
   "status": "proved",
   "theorems": [
    "C53_adjust",
    "C53_exit",
    "C53_backwards",
    "C53_no_exception"
   ],
   "note": "Exact (iff), for all files; a line number below 1 is included."
  },
  {
   "property": "C54",
   "status": "proved",
   "theorems": [
    "C54_good",
    "C54_words",
    "C54_no_sources",
    "C54_annotation"
   ],
   "note": "Names are not escaped in the regexps: a dot in a name stands for any character (C54_good, for all names whose only special character is the dot); names made of word characters stand for themselves (C54_words). C54_annotation discharges the assumption of C15-C27 that annotation changes nothing else."
  },
  {
   "property": "C55",
   "status": "proved",
   "theorems": [
    "C55_handed_over",
    "C55_skipped"
   ],
   "note": "If addr2line gives one line per address."
  },
  {
   "property": "C56",
   "status": "partial",
   "theorems": [
    "C56_tried_partial",
    "C56_last_but_one_refuted",
    "C56_nothing_asked_refuted"
   ],
   "note": "Refuted: the last but one address is never tried, and a function of 3 bytes makes addr2line run without addresses. Proved: none of the other addresses is overlooked."
  },
  {
   "property": "C57",
   "status": "proved",
   "theorems": [
    "C57_once"
   ],
   "note": "For all search results."
  },
  {
   "property": "C58",
   "status": "proved",
   "theorems": [
    "C58_define",
    "C58_asmlinkage",
    "C58_all",
    "C58_dotted",
    "C58_words"
   ],
   "note": "Exact (iff) for every text and every name made of word characters (C58_all) or with dots (C58_dotted), and for texts of the two usual shapes."
  },
  {
   "property": "C59",
   "status": "proved",
   "theorems": [
    "C59_remap",
    "C59_remap_total",
    "C59_maybe_rel_under",
    "C59_maybe_rel_back",
    "C59_maybe_rel_outside",
    "C59_path_text"
   ],
   "note": ""
  },
  {
   "property": "C60",
   "status": "partial",
   "theorems": [
    "C60_parse",
    "C60_paired",
    "C60_provenance",
    "C60_discriminator_refuted",
    "C60_colon_refuted"
   ],
   "note": "Proved for answers of the shapes file:line, file:? and ??:?. Refuted for \"file:line (discriminator n)\" (the line is dropped) and for paths with a colon (ValueError)."
  },
  {
   "property": "C61",
   "status": "proved",
   "theorems": [
    "C61_nothing",
    "C61_one_command",
    "C61_malformed"
   ],
   "note": "Commands and files are parameters of the model (M_Config.v)."
  },
  {
   "property": "C62",
   "status": "proved",
   "theorems": [
    "C62_all_applied",
    "C62_reports"
   ],
   "note": "C62_all_applied: what is applied does not depend on the checks. C62_reports: exactly which dependencies give an error and which a warning. kconfig.py says an option with an unmet dependency 'won't be set', but it is set all the same."
  },
  {
   "property": "C63",
   "status": "proved",
   "theorems": [
    "C63_has_lines",
    "C63_parsed",
    "C63_only",
    "C63_without_equals",
    "C63_not_an_option",
    "C63_every_line"
   ],
   "note": "Full characterisation of the files that are parsed and of both ways to fail."
  },
  {
   "property": "C64",
   "status": "proved",
   "theorems": [
    "C64_kconfig_of_name",
    "C64_extracted",
    "C64_one_option",
    "C64_tables"
   ],
   "note": "Both for a name (C64_kconfig_of_name) and for every extracted syscall of the table (C64_extracted)."
  },
  {
   "property": "C65",
   "status": "partial",
   "theorems": [
    "C65_restored_at_end_partial",
    "C65_interrupted_partial",
    "C65_interrupted_plain",
    "C65_during_second_make_refuted",
    "C65_newlines",
    "C65_newlines_refuted",
    "C65_reads_same",
    "C65_reads_lost",
    "C65_reads"
   ],
   "note": "Restored whenever build() runs to its end: exactly for text without CR, up to line ends otherwise (C65_reads_same; C65_newlines_refuted). The interruption points where the original is lost are characterised exactly; the refuted ones are between the write and atexit.register, and during the whole -O1 attempt. make is assumed not to change the Makefile."
  },
  {
   "property": "C66",
   "status": "proved",
   "theorems": [
    "C66_patch",
    "C66_unique",
    "C66_no_flag",
    "C66_no_flag_build"
   ],
   "note": "Exact (iff), for all texts."
  },
  {
   "property": "C67",
   "status": "proved",
   "theorems": [
    "C67_order",
    "C67_levels",
    "C67_plain",
    "C67_newlines"
   ],
   "note": "For all texts (C67_newlines, with the text as read; C67_order is the case without CR)."
  },
  {
   "property": "C68",
   "status": "proved",
   "theorems": [
    "C68_version",
    "C68_recomputed",
    "C68_configure",
    "C68_vmlinux"
   ],
   "note": "For all histories of operations; what make answers may change at every step."
  },
  {
   "property": "C69",
   "status": "proved",
   "theorems": [
    "C69_levels",
    "C69_nothing_logged",
    "C69_silent",
    "C69_nothing_said",
    "C69_commands_logged"
   ],
   "note": "The level and the silence of progress messages; the format of messages is not modelled."
  },
  {
   "property": "C70",
   "status": "partial",
   "theorems": [
    "C70_allowed",
    "C70_misuse",
    "C70_unknown_arch",
    "C70_steps",
    "C70_no_sources",
    "C70_exceptions",
    "C70_clean_refuted"
   ],
   "note": "C70_allowed, C70_misuse, C70_unknown_arch, C70_steps and C70_no_sources cover the first part. The second part is refuted: --clean is not refused without --arch or KDIR and then ends with a ValueError. C70_exceptions lists all exceptions that can escape when the functions main calls raise none."
  },
  {
   "property": "C71",
   "status": "proved",
   "theorems": [
    "C71_table",
    "C71_aligned"
   ],
   "note": "The layout, the cells and the widths are all specified in S_Output.v. Hypothesis printable: numbers and lines non-negative, options have the CONFIG_ prefix once, paths have a non-empty string."
  },
  {
   "property": "C72",
   "status": "proved",
   "theorems": [
    "C72_object",
    "C72_injective",
    "C72_document",
    "C72_formats"
   ],
   "note": "Injectivity needs normalised paths and CONFIG_ prefixed options, which is what extraction produces. The text made from the object is the subject of C91."
  },
  {
   "property": "C73",
   "status": "proved",
   "theorems": [
    "C73_duration_read_back",
    "C73_rounding_unique",
    "C73_duration_shape"
   ],
   "note": "Durations are exact rationals n/d; negative durations are not covered."
  },
  {
   "property": "C74",
   "status": "partial",
   "theorems": [
    "C74_argv_roundtrip",
    "C74_path_roundtrip",
    "C74_string_command_refuted"
   ],
   "note": "Proved for argument lists and single paths. Refuted for a command given as one string, which is split into characters."
  },
  {
   "property": "C75",
   "status": "partial",
   "theorems": [
    "C75_no_exception_partial",
    "C75_exception_refuted"
   ],
   "note": "Refuted: AttributeError when some inner address has a location in the sources but the last one tried has none. Proved when that does not happen."
  },
  {
   "property": "C76",
   "status": "partial",
   "theorems": [
    "C76_commands",
    "C76_only_file",
    "C76_edited",
    "C76_read",
    "C76_edited_refuted",
    "C76_read_refuted"
   ],
   "note": "C76_edited and C76_read say exactly when the file edited and the file read are the one make uses. C76_edited_refuted: with a relative source directory and no O= scripts/config, run in that directory, edits KDIR/KDIR/.config. C76_read_refuted: with a relative output directory systrack reads another file than make writes. Paths are compared as text, after resolving them against the directory of the process."
  },
  {
   "property": "C77",
   "status": "proved",
   "theorems": [
    "C77_consistent"
   ],
   "note": "For every version and every object the constructors can build, as seen by a process that builds only it (C05 covers others)."
  },
  {
   "property": "C78",
   "status": "partial",
   "theorems": [
    "C78_steps",
    "C78_target",
    "C78_stops",
    "C78_answers_refuted"
   ],
   "note": "C78_steps, C78_target, C78_stops. C78_answers_refuted: the newlines meant for oldconfig are dropped, because Popen is not given stdin=PIPE (utils.py 263)."
  },
  {
   "property": "C79",
   "status": "partial",
   "theorems": [
    "C79_rectangle",
    "C79_printed",
    "C79_any_refuted"
   ],
   "note": "Rectangularity is proved for the spans of the cells; printing fails exactly when no signature is known (max() of nothing) or the version has not three components, so 'every result' is refuted."
  },
  {
   "property": "C80",
   "status": "proved",
   "theorems": [
    "C80_result",
    "C80_printed",
    "C80_no_syscalls"
   ],
   "note": "The environment (commands, files, the functions main calls) is a parameter, a function of what was done before. The texts of the failure messages are the subject of C109."
  },
  {
   "property": "C81",
   "status": "proved",
   "theorems": [
    "C81_once",
    "C81_reference"
   ],
   "note": "version_tag is covered by C11."
  },
  {
   "property": "C82",
   "status": "partial",
   "theorems": [
    "C82_registers_partial",
    "C82_aarch32",
    "C82_registers_refuted"
   ],
   "note": "Refuted for the 32-bit ABI of arm64, for which the registers of the 64-bit ABI (w8, x0-x5) are reported (C82_aarch32); proved for all the other ABIs."
  },
  {
   "property": "C83",
   "status": "proved",
   "theorems": [
    "C83_base_targets"
   ],
   "note": ""
  },
  {
   "property": "C84",
   "status": "proved",
   "theorems": [
    "C84_banner",
    "C84_version",
    "C84_without"
   ],
   "note": "decode() of the banner is the identity on ASCII."
  },
  {
   "property": "C85",
   "status": "partial",
   "theorems": [
    "C85_detected",
    "C85_several_abis",
    "C85_unknown_machine",
    "C85_no_symbols",
    "C85_named_partial",
    "C85_named_powerpc",
    "C85_named_refuted",
    "C85_named_abi_refuted"
   ],
   "note": "Without a name: proved. With a name: proved but for PowerPC names with little-endian images, which end in an AssertionError (C85_named_powerpc, C85_named_refuted). That the image supports the ABI is not checked for a given name (C85_named_abi_refuted)."
  },
  {
   "property": "C86",
   "status": "proved",
   "theorems": [
    "C86_symbol",
    "C86_names",
    "C86_determined"
   ],
   "note": "Which of several symbols of an address is chosen is left open here (see C26, C28, C30 for the choice)."
  },
  {
   "property": "C87",
   "status": "partial",
   "theorems": [
    "C87_search",
    "C87_once",
    "C87_error",
    "C87_place",
    "C87_missed",
    "C87_found",
    "C87_odd_refuted"
   ],
   "note": "Proved for [COMPAT_]SYSCALL[32]_DEFINEn definitions that no other syscall searched for shares; refuted for the other kinds of definition (asmlinkage sys_oabi_..., PPC32_SYSCALL_DEFINE), which the search reports but no syscall is ever given (C87_odd_refuted). The search by ripgrep is not modelled."
  },
  {
   "property": "C88",
   "status": "partial",
   "theorems": [
    "C88_messages",
    "C88_same_pass",
    "C88_dropped_refuted"
   ],
   "note": "Refuted for dropped syscalls whose line is unknown (addr2line says FILE:?): the message has %d for the line and cannot be formatted (C88_dropped_refuted); all the rest is proved (C88_messages)."
  },
  {
   "property": "C89",
   "status": "proved",
   "theorems": [
    "C89_printable",
    "C89_text",
    "C89_json"
   ],
   "note": ""
  },
  {
   "property": "C90",
   "status": "proved",
   "theorems": [
    "C90_outside",
    "C90_complete"
   ],
   "note": ""
  },
  {
   "property": "C91",
   "status": "proved",
   "theorems": [
    "C91_readable",
    "C91_document",
    "C91_same_text",
    "C91_ascii"
   ],
   "note": ""
  },
  {
   "property": "C92",
   "status": "proved",
   "theorems": [
    "C92_word_size"
   ],
   "note": ""
  },
  {
   "property": "C93",
   "status": "proved",
   "theorems": [
    "C93_page",
    "C93_spans",
    "C93_same_page"
   ],
   "note": "The reader takes a subset of HTML without parse errors; pages are written in it. Links are compared as texts; where they lead is C114."
  },
  {
   "property": "C94",
   "status": "proved",
   "theorems": [
    "C94_click",
    "C94_clicks",
    "C94_result"
   ],
   "note": "The order before the first click is proved for tables with indices below 7870, the smallest number of a syscall outside a table (C94_result)."
  },
  {
   "property": "C95",
   "status": "partial",
   "theorems": [
    "C95_messages",
    "C95_messages_refuted",
    "C95_dropped"
   ],
   "note": "Refuted at kernel.py 206, whose four arguments never fit the three places (C95_messages_refuted), and at kernel.py 547 when the line is unknown (C95_dropped is exact); all 109 other calls are proved. The table of calls is transcribed by tools/gen_logs.py; the kinds of the arguments come from reading the callers."
  },
  {
   "property": "C96",
   "status": "partial",
   "theorems": [
    "C96_ensure",
    "C96_ensure_refuted",
    "C96_missing",
    "C96_run",
    "C96_gcc",
    "C96_git"
   ],
   "note": "Refuted for a missing program run without a directory: cwd.exists() raises AttributeError (C96_ensure_refuted, exact in C96_missing). The callers without a directory (readelf, addr2line, gcc) check with shutil.which before. A compiler that prints nothing is an IndexError (C96_gcc)."
  },
  {
   "property": "C97",
   "status": "proved",
   "theorems": [
    "C97_placed",
    "C97_kept",
    "C97_located",
    "C97_words",
    "C97_declared"
   ],
   "note": "Whole extraction. Names of syscalls have no special characters but dots (fit_names); the parameters are those of the definitions the macro and asmlinkage printers of S_Signature write."
  },
  {
   "property": "C98",
   "status": "proved",
   "theorems": [
    "C98_succeeds",
    "C98_table",
    "C98_without_sources"
   ],
   "note": "Whole extraction. The names of the candidates have no special characters but dots, as in C97; steady_symbol excludes the assertion of location.py in the third stage (C56), definitions_fine the endless search for a closing parenthesis (C49). C98_table starts from the contents of the table in the image, C98_succeeds from the addresses found in any way, also through emulation."
  },
  {
   "property": "C99",
   "status": "partial",
   "theorems": [
    "C99_ends",
    "C99_bare_image",
    "C99_always_refuted"
   ],
   "note": "That the analysis always ends is refuted by a comment after a definition (C99_always_refuted); C99_ends lists all reasons, addr2line waiting for addresses (C101) among them. Names of candidates have no special characters but dots, as in C97. Regular expressions are matched by the backtracking matcher of Regex.v, which is total; its running time is not a subject."
  },
  {
   "property": "C100",
   "status": "proved",
   "theorems": [
    "C100_accepts",
    "C100_help",
    "C100_version",
    "C100_program",
    "C100_one_meaning",
    "C100_expressible"
   ],
   "note": "argparse is that of Python 3.11 (the version in the box), read as text; texts of help and errors are not modelled. Words are lists of Latin-1 characters, as elsewhere; a negative number is recognised by ASCII digits."
  },
  {
   "property": "C101",
   "status": "partial",
   "theorems": [
    "C101_not_run",
    "C101_no_syscall",
    "C101_always_refuted",
    "C101_succeeds"
   ],
   "note": "Refuted: the range of location.py 382 is empty for a symbol of three bytes (C101_always_refuted), and an empty list of syscalls is passed on (C101_no_syscall). C101_not_run: these are the only two cases. What addr2line does without an address is a parameter of the model (w_addr2line w []), because it depends on standard input."
  },
  {
   "property": "C102",
   "status": "partial",
   "theorems": [
    "C102_sections",
    "C102_symbols",
    "C102_version",
    "C102_makefile",
    "C102_search",
    "C102_names",
    "C102_grep",
    "C102_accepts",
    "C102_plain",
    "C102_found",
    "C102_definitions",
    "C102_dots",
    "C102_dot_refuted",
    "C102_error_refuted",
    "C102_errors",
    "C102_ranges"
   ],
   "note": "Proved for names without special characters (C102_plain, C102_definitions); refuted for others: a dot, as in foo.isra, matches any character (C102_dot_refuted), a parenthesis is a re.error (C102_error_refuted), as is every unbalanced one and a repetition of nothing (C102_errors). For names with dots what is accepted and found is told exactly (C102_names, C102_accepts, C102_grep), they always compile (C102_dots), and definitions of the name itself are found (C102_found). The reader of regexps is the part of sre_parse that the texts need; what is beyond it is told apart (Beyond). ripgrep's engine is not modelled."
  },
  {
   "property": "C103",
   "status": "proved",
   "theorems": [
    "C103_captured",
    "C103_image",
    "C103_files",
    "C103_result",
    "C103_succeeds"
   ],
   "note": "Joins the parts on a computer (M_Program.v): files, programs on PATH and what they print are functions of what was done so far. Steps that prepare sources (clean, configure, build) are joined in M_Workshop.v (C108). C103_succeeds says that the status is 0, or 1 for one of the reasons in barren; the exception is the ValueError of C79 for html. The architecture is what kernel_init gives (C83-C85), and names found have no special characters but dots, as in C97."
  },
  {
   "property": "C104",
   "status": "partial",
   "theorems": [
    "C104_reads",
    "C104_covers",
    "C104_besides",
    "C104_left_out",
    "C104_same_refuted"
   ],
   "note": "Refuted (C104_same_refuted: lib/kobject.c). C104_reads says exactly what ripgrep reads with the globs it is given; C104_covers that it reads all that the other search reads, C104_besides and C104_left_out what it reads besides. ripgrep is another program: M_Ripgrep.v models what its manual says about --glob and hidden files; ignore files are a parameter."
  },
  {
   "property": "C105",
   "status": "partial",
   "theorems": [
    "C105_empty",
    "C105_given",
    "C105_one_default_refuted"
   ],
   "note": "Refuted (C105_one_default_refuted: the default case is left for by two instructions, and nothing is given). C105_empty says exactly when the result is empty, C105_given that otherwise it is all of the mapping. Equality of instructions is a parameter (in iced_x86 it ignores their address); the decoder is one too."
  },
  {
   "property": "C106",
   "status": "partial",
   "theorems": [
    "C106_utf8",
    "C106_search",
    "C106_location",
    "C106_string",
    "C106_signature",
    "C106_lines",
    "C106_broken",
    "C106_later_chunk",
    "C106_first_chunk",
    "C106_either",
    "C106_model",
    "C106_all_lost",
    "C106_elsewhere_refuted"
   ],
   "note": "Refuted for signatures (C106_elsewhere_refuted: a Latin-1 name in a comment above a definition; C106_all_lost: no syscall gets its signature then). C106_signature, C106_broken, C106_first_chunk and C106_later_chunk say what is read from which bytes; C106_search, C106_location, C106_string that the other places keep to the claim. C106_model: on text with Latin-1 characters only, the other files of the model are right. Encoding UTF-8, as Python chooses in all usual locales; what is done with a decoded text beyond Latin-1 is a parameter."
  },
  {
   "property": "C107",
   "status": "partial",
   "theorems": [
    "C107_names",
    "C107_accepted",
    "C107_asked",
    "C107_refused",
    "C107_main",
    "C107_row",
    "C107_aliases",
    "C107_build",
    "C107_build_refuted",
    "C107_all_abis",
    "C107_footnote_refuted",
    "C107_arm"
   ],
   "note": "Refuted for ARM v3.7 (C107_build_refuted; C107_build: that is the only case) and for footnote 1 of arm64 (C107_footnote_refuted). Footnotes 4 to 6, which are advice about compilers and running programs, are not claims about the code. The text is transcribed by tools/gen_help.py."
  },
  {
   "property": "C108",
   "status": "proved",
   "theorems": [
    "C108_finished",
    "C108_version",
    "C108_stops",
    "C108_only",
    "C108_only_without",
    "C108_makefile",
    "C108_succeeds",
    "C108_ensure",
    "C108_ensure_shown",
    "C108_run",
    "C108_took"
   ],
   "note": "Joins the steps that prepare sources with the rest (M_Workshop.v). C108_finished: a run with status 0 has done everything in order; C108_succeeds: if nothing fails (willing), the status is 0. C108_took: the time told at the end is that of the build; the clock is a function of two moments (ws_elapsed). Files may change in any way; where the claim needs it, that only writing and git change the Makefile is a premise (lasting), and that the version is read from the Makefile (version_there, C108_version only). An interrupted build is the subject of C65. The Makefile may come back with other ends of lines (C65), and it may be emptied and rewritten on the way."
  },
  {
   "property": "C109",
   "status": "partial",
   "theorems": [
    "C109_same_run",
    "C109_says",
    "C109_distinct",
    "C109_frank",
    "C109_same_result",
    "C109_giving_up",
    "C109_quiet_refuted",
    "C109_empty_refuted"
   ],
   "note": "Refuted: with -q a run fails without a word (C109_quiet_refuted), and so does one whose syscalls were all located in kernel/sys_ni.c (C109_empty_refuted). C109_says: in all other cases the reason is said last; C109_distinct: the text identifies it; C109_same_run and C109_same_result: the models with messages do the same as those without (C70, C80, C22-C28). C109_giving_up: critical messages and empty results. The exception text of a failing mkdir and sys.argv[0] are parameters; messages of level ERROR from the x86 dispatcher are the subject of C118."
  },
  {
   "property": "C110",
   "status": "partial",
   "theorems": [
    "C110_search",
    "C110_ends",
    "C110_fails",
    "C110_no_links",
    "C110_other_refuted",
    "C110_once_refuted",
    "C110_found_refuted"
   ],
   "note": "Refuted (C110_other_refuted, C110_once_refuted, C110_found_refuted). C110_search says exactly what is read, in terms of the paths that lead to a file within the limit of links (leads: path_resolution(7)); C110_ends and C110_fails: it ends, and fails only for those reasons; C110_no_links: without links it is the search of C87. ripgrep follows no links."
  },
  {
   "property": "C111",
   "status": "partial",
   "theorems": [
    "C111_programs",
    "C111_readelf",
    "C111_no_places",
    "C111_null",
    "C111_succeeds",
    "C111_html_refuted"
   ],
   "note": "Refuted for --format html (C111_html_refuted). C111_programs: an analysis is the same on computers that agree on files, readelf, addr2line and ripgrep; C111_readelf: status 127 without readelf; C111_no_places and C111_null: without addr2line no place is shown; C111_succeeds: readelf suffices. On the computers of M_Program.v (C103); runs with --checkout are left out (they run git)."
  },
  {
   "property": "C112",
   "status": "partial",
   "theorems": [
    "C112_same",
    "C112_refuted",
    "C112_error_refuted"
   ],
   "note": "Refuted: a form feed in a line hides a definition from the search with ripgrep (C112_refuted) or makes it fail (C112_error_refuted). C112_same: without such characters (row_hit) the places are the same. The hits are given: which lines ripgrep and the Python search find is the subject of C87, C104 and C110."
  },
  {
   "property": "C113",
   "status": "partial",
   "theorems": [
    "C113_lines",
    "C113_width",
    "C113_kept",
    "C113_framed",
    "C113_words_refuted",
    "C113_program"
   ],
   "note": "Refuted as to words (C113_words_refuted: out-of-tree is broken after its first hyphen). C113_lines says exactly where lines end (laid_out, may_end); C113_width, C113_kept and C113_framed are what it means for width, characters and blanks; C113_program: no word of the program's own texts is broken. M_Wrap.v models textwrap.TextWrapper of the standard library (3.8 and later) with the options that wrap_help gives; its regular expression for words is modelled as a function on characters."
  },
  {
   "property": "C114",
   "status": "partial",
   "theorems": [
    "C114_links",
    "C114_none",
    "C114_one_place",
    "C114_ordinary",
    "C114_elsewhere_refuted"
   ],
   "note": "Refuted for paths with special characters (C114_elsewhere_refuted: a name with # leads to another file). C114_links says exactly when a link leads to its file and line (linkable_file), C114_ordinary that it does for usual names, C114_none that absolute paths have no link. Links are read as the URL standard says for https without a base (trimming, tabs, fragment, query, slashes and backslashes, dots), segments are unescaped by the server. That the version and the file exist there is not claimed."
  },
  {
   "property": "C115",
   "status": "proved",
   "theorems": [
    "C115_messages",
    "C115_loud",
    "C115_form",
    "C115_text",
    "C115_unused",
    "C115_remap"
   ],
   "note": "On the computers of M_Program.v (C103), by comparing two runs. C115_messages needs that files and programs do not depend on messages (unmoved), C115_form and the others need nothing. Log messages and the output of make that -vvv lets through are not part of what is compared."
  },
  {
   "property": "C116",
   "status": "proved",
   "theorems": [
    "C116_image",
    "C116_syscalls",
    "C116_program"
   ],
   "note": "C116_program compares whole runs of M_Program.v with the image read by readelf and the same image without some symbols (image_without); C116_syscalls and C116_image are the parts. That each condition is needed is shown by examples (a symbol within the table, an alias of a syscall, a symbol that tells an ABI)."
  },
  {
   "property": "C117",
   "status": "proved",
   "theorems": [
    "C117_output_bad",
    "C117_output",
    "C117_output_model",
    "C117_banner",
    "C117_banner_model",
    "C117_config",
    "C117_makefile_bad",
    "C117_makefile",
    "C117_makefile_ends",
    "C117_makefile_model"
   ],
   "note": "M_Pipe.v has the bytes; what is done with characters beyond Latin-1 (version_from_str, parse_config, the search for the level) is a parameter of the theorems. C117_output_model, C117_banner_model and C117_makefile_model prove that the other files of the model, which take texts to be Latin-1, agree with it. The encoding is UTF-8 (the locale's may be another)."
  },
  {
   "property": "C118",
   "status": "proved",
   "theorems": [
    "C118_code",
    "C118_gives_up",
    "C118_one_reason",
    "C118_targets",
    "C118_announced",
    "C118_silent",
    "C118_dispatchers",
    "C118_muddled"
   ],
   "note": "M_Dispatch.v has the messages of level ERROR by format and arguments, not their text; the decoder is a parameter, as for C40-C43. C118_code is exact: the message is that of the first instruction with which something is wrong. Among the targets (C118_targets) which of several conflicts is named depends on the order of the set; that it exists is proved, and that silence means none. C118_announced joins both with M_Emu.v. For dispatchers C118_muddled says exactly when an error is logged."
  },
  {
   "property": "C119",
   "status": "partial",
   "theorems": [
    "C119_ordered",
    "C119_unordered",
    "C119_message_refuted"
   ],
   "note": "An exact answer for both cases: C119_ordered and C119_unordered. C119_message_refuted shows the failure: a dispatcher after PUSH RBP; MOV RBP, RSP, from which syscalls can be read, is an exception. That iced_x86 has no order of instructions is knowledge about a library that was not at hand, so it is a hypothesis (the parameter lt). The sort is an insertion sort in the model. The other properties of the dispatcher (C40-C43, C118) are about M_Emu.v, which leaves the message out."
  }
 ]
}
