{
 "claims": [
  {
   "property": "C01",
   "status": "proved",
   "theorems": [
    "C01_unique",
    "C01_positive",
    "C01_add",
    "C01_id_stable"
   ],
   "note": ""
  },
  {
   "property": "C02",
   "status": "proved",
   "theorems": [
    "C02_remove_by_id"
   ],
   "note": ""
  },
  {
   "property": "C03",
   "status": "proved",
   "theorems": [
    "C03_remove_hook",
    "C03_vp_kept"
   ],
   "note": "Finding: with a null object RemoveHook does remove vtable-wide hooks (C03_vp_never_removed_refuted)."
  },
  {
   "property": "C04",
   "status": "proved",
   "theorems": [
    "C04_order",
    "C04_handlers"
   ],
   "note": "For disciplined histories (the rules stated in C21). A recall continues in a second call, described by C13; therefore the last part of C04_order is about calls that were not recalled."
  },
  {
   "property": "C05",
   "status": "proved",
   "theorems": [
    "C05_count",
    "C05_call"
   ],
   "note": "For disciplined histories (C21)."
  },
  {
   "property": "C06",
   "status": "proved",
   "theorems": [
    "C06_value"
   ],
   "note": "For disciplined histories (C21)."
  },
  {
   "property": "C07",
   "status": "proved",
   "theorems": [
    "C07_queries",
    "C07_previous"
   ],
   "note": "For disciplined histories (C21). Across a recall see C14."
  },
  {
   "property": "C08",
   "status": "proved",
   "theorems": [
    "C08_slot",
    "C08_written"
   ],
   "note": "Page protection changes succeed and modules stay mapped (modelled as always successful)."
  },
  {
   "property": "C09",
   "status": "proved",
   "theorems": [
    "C09_destroyed_once",
    "C09_destroyed_when_removed",
    "C09_never_called_destroyed"
   ],
   "note": "Each handler object passed to AddHook is a fresh object in the model. When AddHook refuses (returns 0) the handler object is not destroyed (leak)."
  },
  {
   "property": "C10",
   "status": "proved",
   "theorems": [
    "C10_live_run",
    "C10_order"
   ],
   "note": "For disciplined histories (C21)."
  },
  {
   "property": "C11",
   "status": "proved",
   "theorems": [
    "C11_last_hook"
   ],
   "note": "For disciplined histories (C21)."
  },
  {
   "property": "C12",
   "status": "proved",
   "theorems": [
    "C12_added"
   ],
   "note": "For disciplined histories (C21)."
  },
  {
   "property": "C13",
   "status": "proved",
   "theorems": [
    "C13_continues",
    "C13_not_again",
    "C13_outer_stops",
    "C13_outer_value",
    "C10_live_run",
    "C05_count",
    "C06_value"
   ],
   "note": "For disciplined histories (C21)."
  },
  {
   "property": "C14",
   "status": "partial",
   "theorems": [
    "C14_kept_partial",
    "C14_refuted"
   ],
   "note": "Status and override value are kept, the previous result is not: C14_refuted is a counterexample to the full statement (finding)."
  },
  {
   "property": "C15",
   "status": "proved",
   "theorems": [
    "C15_no_handlers",
    "C15_direct",
    "C15_dispatched",
    "C15_inside",
    "C15_restored",
    "C15_depth_refuted"
   ],
   "note": "For disciplined histories (C21). That the context depth is restored holds if no SH_CALL of an unhooked function is running; otherwise it does not (C15_depth_refuted, finding)."
  },
  {
   "property": "C16",
   "status": "partial",
   "theorems": [
    "C16_refuted",
    "C15_direct",
    "C15_inside",
    "C15_dispatched"
   ],
   "note": "Wrong as stated: an SH_CALL on an unhooked function makes the next hooked call of any function ignore its hooks (C16_refuted, finding). For SH_CALL on a hooked function the claim holds (C15_*)."
  },
  {
   "property": "C17",
   "status": "proved",
   "theorems": [
    "C17_pause_by_id",
    "C17_pause_plugin",
    "C17_only_unpaused_run"
   ],
   "note": ""
  },
  {
   "property": "C18",
   "status": "partial",
   "theorems": [
    "C18_unload",
    "C18_no_orphans",
    "C18_other_hooks_refuted"
   ],
   "note": "Everything of the unloaded plugin goes in every reachable state; that hooks of other plugins stay is proved for states without orphaned hooks (every history in which RemoveHookManager is used only by plugins without hooks on the manager's slots, C18_no_orphans) and refuted otherwise."
  },
  {
   "property": "C19",
   "status": "proved",
   "theorems": [
    "C19_at_most_once",
    "C19_immediate",
    "C19_deferred"
   ],
   "note": "C19_at_most_once for every reachable state, the others for disciplined histories (C21)."
  },
  {
   "property": "C20",
   "status": "proved",
   "theorems": [
    "C20_active_manager",
    "C20_registered",
    "C20_order_exists",
    "C20_register_unregister"
   ],
   "note": ""
  },
  {
   "property": "C21",
   "status": "proved",
   "theorems": [
    "C21_defined",
    "C21_balanced",
    "C21_empty"
   ],
   "note": "The discipline is the predicate allowed (ShRefine.v), explained above C21_defined; the C21_rule_* examples show undefined behaviour when a rule is broken."
  },
  {
   "property": "C22",
   "status": "partial",
   "theorems": [
    "C22_live_partial",
    "C22_refuted"
   ],
   "note": "Wrong as stated: after a removal inside a running loop the next loop that reuses the stack slot runs the deleted clean-up task again (C22_refuted, finding)."
  },
  {
   "property": "C23",
   "status": "proved",
   "theorems": [
    "C23_shutdown"
   ],
   "note": ""
  },
  {
   "property": "C24",
   "status": "partial",
   "theorems": [
    "C24_remove_manager_partial",
    "C24_removes_hooks_refuted",
    "C24_only_own_hooks_refuted"
   ],
   "note": "The documented behaviour is refuted; what RemoveHookManager really does is proved exactly."
  },
  {
   "property": "C25",
   "status": "proved",
   "theorems": [
    "C25_compat_decides",
    "C25_compat_symmetric",
    "C25_compat_reflexive",
    "C25_compat_layout",
    "C25_exact_equivalence",
    "C25_exact_implies_compat",
    "C25_fill_keeps"
   ],
   "note": "Findings: compatibility is not transitive (C25_compat_transitive_refuted); Fill(NULL) dereferences NULL (C25_fill_null_refuted)."
  },
  {
   "property": "C26",
   "status": "proved",
   "theorems": [
    "C26_sequence",
    "C26_iterators",
    "C26_push_sorted",
    "C26_no_leak",
    "C26_self_assign_refuted"
   ],
   "note": "All operations of sh_list.h on any number of lists, including copying, walking with iterators in both directions and absence of leaks. Assignment of a list to itself empties it (C26_self_assign_refuted, finding; not among the operations of the property)."
  },
  {
   "property": "C27",
   "status": "proved",
   "theorems": [
    "C27_sequence",
    "C27_no_leak",
    "C27_self_assign_refuted",
    "C27_pop_empty_refuted",
    "C27_push_own_element_refuted",
    "C27_insert_own_element_refuted",
    "C27_at_size_refuted"
   ],
   "note": "For every allocator. Not allowed in C27_sequence, with the refuted theorems showing what goes wrong (findings): self assignment, pop_back when empty, references into the vector itself as argument, at(size())."
  },
  {
   "property": "C28",
   "status": "proved",
   "theorems": [
    "C28_stack",
    "C28_references",
    "C28_no_leak",
    "C28_self_assign_refuted",
    "C28_pop_empty_refuted",
    "C28_make_next_stale"
   ],
   "note": "For every allocator. Excluded with witnesses (findings): self assignment, pop when empty. make_next leaves the content of the new top open: it is the old content of the slot (C28_make_next_stale)."
  },
  {
   "property": "C29",
   "status": "proved",
   "theorems": [
    "C29_map",
    "C29_references",
    "C29_no_leak",
    "C29_self_assign_refuted"
   ],
   "note": "For every hash function, growth rule and allocator; Compare, == and HashAlt of the client must agree with equality of keys (key_ok). Also: references to values survive rehashing, nothing is leaked, erasing while iterating visits every key once. Self assignment empties the table (finding; excluded)."
  },
  {
   "property": "C30",
   "status": "partial",
   "theorems": [
    "C30_sequences",
    "C30_text",
    "C30_erase_to_end",
    "C30_erase_refuted",
    "C30_erase_beyond_refuted",
    "C30_find_last_default_refuted",
    "C30_lower_refuted",
    "C30_self_append_refuted"
   ],
   "note": "All operations of sh_string.h in arbitrary programs. The claim about erase is false when start + num > len - start (C30_erase_to_end, C30_erase_refuted, finding); C30_sequences has the exact condition under which it holds. Further findings: erase behind the end, find_last_of default, toLower, self append."
  },
  {
   "property": "C31",
   "status": "proved",
   "theorems": [
    "C31_blocks",
    "C31_alloc",
    "C31_free",
    "C31_free_unknown",
    "C31_set",
    "C31_destroy",
    "C31_map_failed_refuted",
    "C31_huge_refuted",
    "C31_big_alignment_refuted"
   ],
   "note": "For every sequence of Alloc, AllocIsolated, Free, SetRE, SetRW and arbitrary writes by others, every behaviour of the system which reports failure by NULL. Sizes 1 to 2^62; the alignment divides the page size. Findings: MAP_FAILED of mmap is taken for a region (C31_map_failed_refuted), wrap-around for absurd sizes (C31_huge_refuted), alignment above the page size (C31_big_alignment_refuted)."
  },
  {
   "property": "C32",
   "status": "proved",
   "theorems": [
    "C32_trampolines",
    "C32_init",
    "C32_out_of_memory_refuted"
   ],
   "note": "For every run of Init, clean-up tasks and writes by others, on the machine of C31 with an x86-64 semantics of the instructions used. GCC on x86-64. Init without memory writes to address 0 (C32_out_of_memory_refuted, finding)."
  },
  {
   "property": "C33",
   "status": "proved",
   "theorems": [
    "C33_pathcmp_collapse",
    "C33_pathcmp_equivalence",
    "C33_mm_pathcmp"
   ],
   "note": "POSIX build; realpath is an arbitrary function."
  },
  {
   "property": "C34",
   "status": "proved",
   "theorems": [
    "C34_format",
    "C34_format_error",
    "C34_pathformat"
   ],
   "note": "vsnprintf is an oracle (complete text or encoding error)."
  },
  {
   "property": "C35",
   "status": "proved",
   "theorems": [
    "C35_trim_left",
    "C35_trim_right",
    "C35_trim_comments",
    "C35_idempotent",
    "C35_spec_functional"
   ],
   "note": "isspace of the C locale."
  },
  {
   "property": "C36",
   "status": "proved",
   "theorems": [
    "C36_keysplit",
    "C36_key_value_unique"
   ],
   "note": ""
  },
  {
   "property": "C37",
   "status": "proved",
   "theorems": [
    "C37_relatize",
    "C37_any_buffer",
    "C37_relative",
    "C37_no_common",
    "C37_truncated_refuted",
    "C37_same_directory_refuted",
    "C37_double_slash_refuted"
   ],
   "note": "POSIX build; the first path normalized (a slash at the end is allowed), the second any absolute path; every answer of PathExists. Findings: a text which does not fit is reported as success (C37_truncated_refuted); the directory itself with a slash at the end gives '/' (C37_same_directory_refuted); repeated slashes in the first path (C37_double_slash_refuted, outside of the property)."
  },
  {
   "property": "C38",
   "status": "partial",
   "theorems": [
    "C38_findpattern_partial",
    "C38_verify_signature",
    "C38_findpattern_refuted"
   ],
   "note": "mm_FindPattern never finds a match that ends at the last byte of a region (off by one in the loop bound); everything else of the statement is proved."
  },
  {
   "property": "C39",
   "status": "partial",
   "theorems": [
    "C39_increment",
    "C39_same_width",
    "C39_width_refuted",
    "C39_overflow_refuted",
    "C39_no_number_refuted",
    "C39_overrun_refuted",
    "C39_empty_refuted"
   ],
   "note": "Proved in full for suffixes of exactly three digits (C39_same_width). With more than three digits everything but the width holds (C39_increment; the width shrinks to three: C39_width_refuted). Findings outside the statement: 999 is followed by 100; a name without a number loses its last character; one or two digits in an array of strlen+1 bytes overrun it; the empty name writes at index -1."
  },
  {
   "property": "C40",
   "status": "partial",
   "theorems": [
    "C40_search",
    "C40_exhaustive",
    "C40_once",
    "C40_complete",
    "C40_terminates",
    "C40_match",
    "C40_match_unchanged",
    "C40_nontermination_refuted",
    "C40_match_nontermination_refuted",
    "C40_past_maximum_refuted",
    "C40_wraps_refuted",
    "C40_underflow_refuted"
   ],
   "note": "For every factory (which may depend on everything asked before). Names with a version of at least three digits: terminates, asks the given version and then each next one in order, returns the first answer. The rest of the statement is false: it does not terminate for a name without a version that the factory does not know, asks one version past the maximum, and with the maximum 999 asks version 100 after 999 (findings)."
  },
  {
   "property": "C41",
   "status": "proved",
   "theorems": [
    "C41_ids_distinct",
    "C41_gone_for_good",
    "C41_new_id",
    "C41_id_means_one_file",
    "C41_told_id_refuted"
   ],
   "note": "Every history that does not reach undefined behaviour, with arbitrary plugin behaviour. Callbacks that call the plugin manager again are not modelled. Finding outside the ids of the list: the id told to a plugin during Retry goes to another plugin (C41_told_id_refuted)."
  },
  {
   "property": "C42",
   "status": "partial",
   "theorems": [
    "C42_callbacks",
    "C42_once",
    "C42_libraries",
    "C42_pause",
    "C42_unpause",
    "C42_unload",
    "C42_refusal",
    "C42_plain",
    "C42_unreg_in_load_refuted",
    "C42_refused_unload_refuted",
    "C42_retry_refuted"
   ],
   "note": "Pause, Unpause and Unload: every reachable state. That callbacks are only made in the allowed state, and memory safety: every history without the three recorded defects (guarded; C42_plain gives a condition on the program text). The defects themselves refute the unrestricted statement."
  },
  {
   "property": "C43",
   "status": "proved",
   "theorems": [
    "C43_one_entry_per_file",
    "C43_already",
    "C43_already_means_entry"
   ],
   "note": "Stronger: the entries of the list, loaded or not, have pairwise different files up to repeated slashes. 'already' is also reported when a failed entry is replaced (C43_already_means_entry)."
  },
  {
   "property": "C44",
   "status": "proved",
   "theorems": [
    "C44_alias_map",
    "C44_no_empty_value"
   ],
   "note": "Keys are exact (case-sensitive)."
  },
  {
   "property": "C45",
   "status": "partial",
   "theorems": [
    "C45_load",
    "C45_unload",
    "C45_pause",
    "C45_unpause",
    "C45_nothing_else",
    "C45_retry_refuted",
    "C45_failed_load_announced_refuted"
   ],
   "note": "Load, Unload, Pause, Unpause: proved. Refuted for Retry and UnloadAll, which announce nothing, and failed loads are announced as loads (findings)."
  },
  {
   "property": "C46",
   "status": "partial",
   "theorems": [
    "C46_owned",
    "C46_unloaded",
    "C46_paused",
    "C46_retry_refuted",
    "C46_retry_shared_refuted",
    "C46_paused_adds_refuted"
   ],
   "note": "Holds for all guarded histories without a successful Retry, the pause part if paused plugins add no hooks; refuted with Retry and with hooks added while paused."
  },
  {
   "property": "C47",
   "status": "proved",
   "theorems": [
    "C47_unload_all"
   ],
   "note": "For runs that do not reach undefined behaviour."
  },
  {
   "property": "C48",
   "status": "proved",
   "theorems": [
    "C48_builtin",
    "C48_first_answer",
    "C48_factories"
   ],
   "note": "iface not NULL."
  },
  {
   "property": "C49",
   "status": "partial",
   "theorems": [
    "C49_meaning",
    "C49_line",
    "C49_file",
    "C49_pieces",
    "C49_entry",
    "C49_long_line_refuted",
    "C49_quoted_white_refuted",
    "C49_alias_refuted"
   ],
   "note": "Every file whose lines have at most 254 bytes (C49_file); for longer lines what happens is C49_pieces. Refuted: long lines are split into several plugins, white space inside quotes is kept, an alias before a path that does not begin with a letter (findings)."
  },
  {
   "property": "C50",
   "status": "partial",
   "theorems": [
    "C50_detect",
    "C50_paths",
    "C50_lines",
    "C50_candidates_unique",
    "C50_again",
    "C50_section_refuted",
    "C50_second_call_refuted",
    "C50_quotes_refuted",
    "C50_long_refuted"
   ],
   "note": "Everything but the extent of the section: entries of later sections are used too (C50_section_refuted, finding). Linux x86-64. Lines of at most 254 bytes: C50_lines; longer ones are split. Further findings: the second call, quotes, long values."
  },
  {
   "property": "C51",
   "status": "partial",
   "theorems": [
    "C51_init",
    "C51_history",
    "C51_safe",
    "C51_failed_init_refuted",
    "C51_second_request_refuted",
    "C51_stale_library_refuted",
    "C51_hook_lost"
   ],
   "note": "Proved except if the game's init fails while the core is not loaded, which dereferences NULL (C51_failed_init_refuted, finding). For whole histories: an engine that stops asking once it has the interface; asking again is refuted (findings). Source 1."
  },
  {
   "property": "C52",
   "status": "proved",
   "theorems": [
    "C52_table",
    "C52_names",
    "C52_unknown",
    "C52_game_name",
    "C52_library"
   ],
   "note": "The decision table is the inductive relation engine_is (EngSpec.v). Linux. The table is for Source 1 (mm_DetermineBackendS1); for Source 2 only that the backend is one of three with a library name is proved, not which name gives which."
  },
  {
   "property": "C53",
   "status": "proved",
   "theorems": [
    "C53_command_argument",
    "C53_presence_only",
    "C53_arg_value_functional"
   ],
   "note": "Linux version (/proc/self/cmdline)."
  },
  {
   "property": "C54",
   "status": "proved",
   "theorems": [
    "C54_counts",
    "C54_destroyed",
    "C54_same_manager",
    "C54_only_same",
    "C54_unknown_release",
    "C54_refused",
    "C54_defined",
    "C54_linux64",
    "C54_copy_ctor_refuted",
    "C54_missing_copy_ctor",
    "C54_stale_release"
   ],
   "note": "The same prototype means: up to the copy constructors (finding C54_copy_ctor_refuted). The address of generated code is an oracle, fresh among the living managers (C31). All builds; on 64-bit Linux there are no managers."
  },
  {
   "property": "C55",
   "status": "proved",
   "theorems": [
    "C55_buffers",
    "C55_set_re",
    "C55_shared_region_refuted",
    "C55_no_memory_refuted"
   ],
   "note": "Several buffers sharing one allocator, of which the last written one is open. Total size below 2^31 and the system has memory. Findings: SetRE of one buffer makes others fault (C55_shared_region_refuted); after a failed allocation push writes over the end of the block (C55_no_memory_refuted)."
  },
  {
   "property": "C56",
   "status": "proved",
   "theorems": [
    "C56_extension",
    "C56_extension_unique"
   ],
   "note": ""
  },
  {
   "property": "C57",
   "status": "partial",
   "theorems": [
    "C57_relative",
    "C57_absolute",
    "C57_format_refuted"
   ],
   "note": "Linux x86-64. Relative names: proved. Absolute paths: proved unless they contain a percent sign, which is interpreted (C57_format_refuted); the empty name reads past its end (findings)."
  },
  {
   "property": "C58",
   "status": "partial",
   "theorems": [
    "C58_scalar",
    "C58_reference",
    "C58_object_said",
    "C58_object",
    "C58_object_apple",
    "C58_object_msvc64",
    "C58_small_object_refuted"
   ],
   "note": "Proved for all builds except objects by value on 64-bit MSVC, where the rule is refuted: always memory (finding)."
  },
  {
   "property": "C59",
   "status": "partial",
   "theorems": [
    "C59_roundtrip",
    "C59_compatible",
    "C59_forced_refuted"
   ],
   "note": "Read back exactly: proved. Compatible with the request if and only if no parameter is a by-value object with destructor on 32-bit gcc (C59_forced_refuted, finding)."
  },
  {
   "property": "C60",
   "status": "proved",
   "theorems": [
    "C60_decoded",
    "C60_positions",
    "C60_bytes",
    "C60_unambiguous",
    "C60_mov_negative_refuted"
   ],
   "note": "Every method of the writer, against a decoder written from the instruction set reference. Outside the statement: mov(reg, int) clears the upper half, so that negative values do not arrive as 64-bit values (C60_mov_negative_refuted, finding)."
  },
  {
   "property": "C61",
   "status": "proved",
   "theorems": [
    "C61_pubfunc",
    "C61_deterministic",
    "C60_decoded"
   ],
   "note": "Execution of the generated bytes on a model of the processor (Mach64.v); SetInfo is arbitrary but keeps the nonvolatile registers; stack pointer not within 4 KiB of the ends of the address space."
  },
  {
   "property": "C62",
   "status": "proved",
   "theorems": [
    "C62_registered",
    "C62_unload"
   ],
   "note": "For plugins whose interface pointer no other plugin in the list has (otherwise the registration goes to the first of them, see DESIGN.md section 5, C42)."
  },
  {
   "property": "C63",
   "status": "partial",
   "theorems": [
    "C63_hookfunc_partial",
    "C63_prev_refuted",
    "C63_object_result_refuted",
    "C63_register_object_refuted",
    "C61_deterministic",
    "C60_decoded"
   ],
   "note": "Proved for results that are void, references, integers, floating point numbers or objects returned in memory without special member functions, any parameters, except that a handler is told MRES_IGNORED instead of the previous handler's result: that part is false of the code (C63_prev_refuted, finding). Result objects with constructors, copy constructors or assignment operators are not covered; with a destructor the result is wrong (C63_object_result_refuted, finding), in a register it is lost (C63_register_object_refuted, finding)."
  },
  {
   "property": "C64",
   "status": "partial",
   "theorems": [
    "C64_number",
    "C64_pause",
    "C64_unpause",
    "C64_unload",
    "C64_force_unload",
    "C64_retry",
    "C64_clear",
    "C64_named",
    "C64_path",
    "C64_load",
    "C64_unload_name",
    "C64_load_unload",
    "C64_reading",
    "C64_alias",
    "C64_alias_read",
    "C64_too_early",
    "C64_history",
    "C64_list",
    "C64_client_list",
    "C64_client",
    "C64_info",
    "C64_cons",
    "C64_number_refuted",
    "C64_digit_name_refuted",
    "C64_other_name_refuted",
    "C64_already_refuted",
    "C64_client_number_refuted",
    "C64_info_refuted"
   ],
   "note": "Numbers in decimal up to 2^31 and names that start with a letter. For names that start otherwise unloading by name is wrong (C64_digit_name_refuted, C64_other_name_refuted); the replies 'already loaded' and the numbers shown to clients are not what they seem (C64_already_refuted, C64_client_number_refuted). The lists are for guarded histories (C42)."
  },
  {
   "property": "C65",
   "status": "proved",
   "theorems": [
    "C65_access",
    "C65_writable",
    "C65_module",
    "C65_revert",
    "C65_straddle_refuted",
    "C65_module_refuted",
    "C65_fallback_refuted",
    "C65_bsd_refuted"
   ],
   "note": "Linux with /proc. Outside the statement: unaligned pointers (C65_straddle_refuted), ModuleInMemory as a test for readable memory (C65_module_refuted), systems without /proc, where its answer is inverted (C65_fallback_refuted), and the FreeBSD branch (C65_bsd_refuted)."
  },
  {
   "property": "C66",
   "status": "partial",
   "theorems": [
    "C66_gcc",
    "C66_gcc_function",
    "C66_gcc_refused",
    "C66_gcc_original",
    "C66_gcc_odd_refuted",
    "C66_msvc32",
    "C66_msvc64",
    "C66_msvc32_sound",
    "C66_msvc32_refused",
    "C66_call_nonvirtual_refuted",
    "C66_gcc_truncation_refuted",
    "C66_msvc64_backward_refuted",
    "C66_msvc64_virtual_refuted",
    "C66_msvc32_unknown_refuted",
    "C66_manual",
    "C66_manual_this_refuted",
    "C66_manual_reconfigure_refuted"
   ],
   "note": "Proved for GCC (all pointers whose adjustment and index are ints) and for MSVC with single and multiple inheritance. The statement is false for: MSVC x64 jumps backward and virtual bases, MSVC 32-bit unknown inheritance, SH_CALL of non-virtual functions, manual hooks with thisptroffs (refuted theorems, findings)."
  },
  {
   "property": "C67",
   "status": "partial",
   "theorems": [
    "C67_decoded",
    "C67_positions",
    "C67_bytes",
    "C67_unambiguous",
    "C67_mov_disp_refuted",
    "C67_mov_ebp_refuted",
    "C67_fld_disp_refuted",
    "C67_fstp_disp_refuted",
    "C67_call_rm_refuted",
    "C67_imul_refuted"
   ],
   "note": "Proved for 172 of the 180 functions with all arguments, and for the other eight with the arguments for which they work. The statement is false for Mov_Reg_Rm_DispAuto, Fld_Mem32/64_DispAuto, Fstp_Mem32/64_DispAuto with large displacements (or displacement 0 from EBP), Call_Rm and IMul_Reg_Imm8/32 (refuted theorems, findings)."
  },
  {
   "property": "C68",
   "status": "proved",
   "theorems": [
    "C68_pubfunc",
    "C68_deterministic",
    "C67_decoded"
   ],
   "note": "For all memories in which the variable m_pHI, the object and its vtable are not in the 32 bytes below the stack pointer that the function uses itself."
  },
  {
   "property": "C69",
   "status": "partial",
   "theorems": [
    "C69_hookfunc_partial",
    "C69_returns",
    "C68_deterministic",
    "C69_object_refuted",
    "C69_alignment_refuted",
    "C69_float_refuted",
    "C69_offset_refuted"
   ],
   "note": "Proved for parameters that are numbers, references or objects on the stack copied bytewise (up to 2^15 bytes), with or without variable arguments, results void, reference, integer, floating point, objects of 1, 2, 4 or 8 bytes in registers or plain objects returned in memory (up to 4096 bytes), vtable offsets from -128 on. Missing: result objects with constructors, destructors or assignment operators, and parameters with copy constructors. The full statement is false for hidden references (GCC), the alignment of calls to SourceHook (GCC), signalling NaNs and vtable offsets below -128 (refuted theorems, findings)."
  },
  {
   "property": "C70",
   "status": "partial",
   "theorems": [
    "C70_slots_partial",
    "C70_slots_refuted",
    "C70_once",
    "C70_permission",
    "C70_library",
    "C70_listener",
    "C70_defined",
    "C70_dangling_refuted",
    "C70_query_refuted",
    "C70_server",
    "C70_clients",
    "C70_clients_loop_refuted"
   ],
   "note": "Proved: at most one success, permission and version, library open exactly from Load to Unload, nothing undefined before Unload. The slots are right if at most one Load of the process edited the table; after a failed Load and a second try they are not (refuted). After Unload, or DLLShutdown, vsp_bridge dangles (refuted)."
  },
  {
   "property": "C71",
   "status": "proved",
   "theorems": [
    "C71_gamedll",
    "C71_gamedll_all",
    "C71_command",
    "C71_command_late_refuted",
    "C71_vsp",
    "C71_info"
   ],
   "note": "C71_command_late_refuted is beside the statement: the command may be sent although the listener is there, if a plugin asks for it while it is told of it."
  },
  {
   "property": "C72",
   "status": "partial",
   "theorems": [
    "C72_lines_partial",
    "C72_exact",
    "C72_bounds",
    "C72_newline_refuted",
    "C72_guard_refuted",
    "C72_lost_refuted",
    "C72_error_refuted"
   ],
   "note": "Proved: no access outside the buffer for any messages, what exactly is written for all texts and nestings, and the statement itself for messages of at most 2045 characters without nesting. The full statement is false for nested messages, longer texts and failed formatting (refuted theorems)."
  },
  {
   "property": "C73",
   "status": "proved",
   "theorems": [
    "C73_announcements",
    "C73_balance",
    "C73_source1",
    "C73_unregister_refuted",
    "C73_override_refuted",
    "C73_null_refuted"
   ],
   "note": "The refuted theorems are outside the statement: engines that unregister a factory before destroying its modes, plugins that override CreateLoopMode, and a null loop mode."
  },
  {
   "property": "C74",
   "status": "partial",
   "theorems": [
    "C74_defined_source2",
    "C74_defined_source1",
    "C74_complete",
    "C74_missing_refuted",
    "C74_client_hook_refuted"
   ],
   "note": "Proved: exactly which combinations are defined, for both providers. The statement is false for a missing engine, a missing file system or service manager on Source 2, and for the ClientCommand hook of Source 1 (refuted theorems)."
  },
  {
   "property": "C75",
   "status": "partial",
   "theorems": [
    "C75_cache",
    "C75_cache_error_32",
    "C75_cache_error_64",
    "C75_far_refuted",
    "C75_find",
    "C75_get",
    "C75_roundtrip",
    "C75_roundtrip_unique",
    "C75_unsupported"
   ],
   "note": "Proved in full for x86 and for games that say no; on x86-64, for games that call Error, exactly when the two functions are within 2^31 of each other, and refuted otherwise (C75_far_refuted)."
  },
  {
   "property": "C76",
   "status": "partial",
   "theorems": [
    "C76_places_partial",
    "C76_same_place",
    "C76_empty_refuted",
    "C76_later_refuted",
    "C76_default_refuted",
    "C76_default"
   ],
   "note": "Proved for all sessions on Source 1 and, on Source 2, for all sessions in which no variable is set to the empty text; there the statement is false (C76_empty_refuted)."
  },
  {
   "property": "C77",
   "status": "proved",
   "theorems": [
    "C77_paths",
    "C77_write",
    "C77_twice",
    "C77_parent_refuted"
   ],
   "note": "The statement is proved as the code means it; C77_parent_refuted records that directories which merely lie below one named like metamod are taken out as well."
  },
  {
   "property": "C78",
   "status": "partial",
   "theorems": [
    "C78_which",
    "C78_history",
    "C78_safe",
    "C78_index",
    "C78_failed_init_refuted",
    "C78_null_interface_refuted",
    "C78_order_refuted",
    "C78_protected_refuted",
    "C78_second_request_refuted"
   ],
   "note": "What is seen and that nothing is undefined is proved for all such engines if the first two entries of the table share a page, the game knows the second interface, and Init succeeds or the core is there; the rest of 'no step is undefined' is false (refuted theorems)."
  },
  {
   "property": "C79",
   "status": "partial",
   "theorems": [
    "C79_directory",
    "C79_all",
    "C79_report",
    "C79_defined",
    "C79_report_refuted",
    "C79_empty_refuted",
    "C79_long_refuted"
   ],
   "note": "Proved for all lists, directories and states; the numbers are proved if no request names a plugin whose earlier attempt failed and refuted otherwise; definedness for names that are not empty and have no percent sign in an absolute path, paths fitting the arrays."
  },
  {
   "property": "C80",
   "status": "partial",
   "theorems": [
    "C80_defined",
    "C80_invoke",
    "C80_equal_sound",
    "C80_equal_value",
    "C80_equal_msvc",
    "C80_equal_gcc",
    "C80_order",
    "C80_order_transitive",
    "C80_empty",
    "C80_equal_refuted",
    "C80_function_compare_refuted",
    "C80_safe_equal",
    "C80_safe_equal_refuted",
    "C80_safe_empty_refuted",
    "C80_safe_function_compare"
   ],
   "note": "The call, the order and emptiness: proved. Equality: proved for MSVC; with GCC equal delegates make the same call and those bound to the same function, or pointer and object, are equal, but the converse is refuted for pointers of base and derived class. Comparing with a function is refuted. Pointers of unknown inheritance (MSVC) do not compile."
  },
  {
   "property": "C81",
   "status": "proved",
   "theorems": [
    "C81_console",
    "C81_unload"
   ],
   "note": "Engines before Orange Box (list unlinked by Metamod); the engine's registration is assumed to put the object in front."
  },
  {
   "property": "C82",
   "status": "partial",
   "theorems": [
    "C82_registered_twice_refuted",
    "C82_head_unknown",
    "C82_head_unknown_refuted",
    "C82_init",
    "C82_init_refuted",
    "C82_foreign_refuted",
    "C82_untracked_refuted"
   ],
   "note": "Refuted: a second registration loops or cuts the list (for every list and position); the search for the list reports success without it exactly when the library opens and the symbol is missing; another plugin's things can be lost; what is registered with an API not in the list stays."
  },
  {
   "property": "C83",
   "status": "partial",
   "theorems": [
    "C83_directory",
    "C83_loads_itself",
    "C83_bridged",
    "C83_no_directory_refuted",
    "C83_quote_refuted",
    "C83_cut_refuted"
   ],
   "note": "Proved for paths without quote or line end that fit. Refuted: the case that the directory cannot be made absolute is undefined behaviour for all inputs; quotes; very deep directories. Not proved: that the absolute path is used when the two paths have no common root."
  },
  {
   "property": "C84",
   "status": "partial",
   "theorems": [
    "C84_built",
    "C84_stale_refuted"
   ],
   "note": "The pointer obtained last: proved. A pointer obtained earlier is refuted for every call that makes the vector grow."
  },
  {
   "property": "C85",
   "status": "partial",
   "theorems": [
    "C85_elf_ranges",
    "C85_elf_other",
    "C85_elf_find",
    "C85_elf_found",
    "C85_pe_find",
    "C85_macho_find",
    "C85_last_byte_refuted",
    "C85_split_refuted",
    "C85_macho_gap_refuted"
   ],
   "note": "Ranges, safety and first match proved for all loaded libraries of the three formats. Refuted: a match at the last byte of a range, or across two ranges, is missed; on macOS a gap between segments is read."
  },
  {
   "property": "C86",
   "status": "partial",
   "theorems": [
    "C86_gives_back",
    "C86_reads_file",
    "C86_no_file",
    "C86_engine_loads",
    "C86_short_read_refuted",
    "C86_size_refuted"
   ],
   "note": "Proved for sizes from 0 to INT_MAX-1 and reads that give the whole file. Refuted: a short read has old memory parsed; size -1 writes before the memory."
  },
  {
   "property": "C87",
   "status": "partial",
   "theorems": [
    "C87_as_told",
    "C87_safe",
    "C87_unload",
    "C87_reload",
    "C87_own",
    "C87_developer_refuted",
    "C87_shared_refuted",
    "C87_old_function_refuted",
    "C87_twice_refuted"
   ],
   "note": "Proved for all call sequences. Refuted: developer-only commands are shown once registered; plugins sharing a command name; commands handed to the old registration function; a second shutdown."
  },
  {
   "property": "C88",
   "status": "partial",
   "theorems": [
    "C88_told",
    "C88_unload",
    "C88_plugin",
    "C88_loading_refuted"
   ],
   "note": "Proved when every plugin in the list has a status and each loaded one an API. Refuted while a plugin is being loaded: its status is read unset."
  },
  {
   "property": "C89",
   "status": "partial",
   "theorems": [
    "C89_folder",
    "C89_in_array",
    "C89_told",
    "C89_long_folder_refuted",
    "C89_no_separator_refuted"
   ],
   "note": "Proved for game paths with the system's separator and plugin folders of up to 254 characters. Refuted: longer folders are told wrongly; without a separator in the game's path the name is an invalid address."
  }
 ]
}