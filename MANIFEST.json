{
 "claims": [
  {
   "property": "C01",
   "status": "proved",
   "theorems": [
    "C01_usage_exact",
    "C01_no_undefined_behaviour",
    "C01_peak"
   ],
   "note": "Pointer-level allocator; any history of malloc/realloc/free with an adversarial host malloc."
  },
  {
   "property": "C02",
   "status": "proved",
   "theorems": [
    "C02_limit_respected",
    "C02_refusal_harmless",
    "C02_refused_iff"
   ],
   "note": ""
  },
  {
   "property": "C03",
   "status": "proved",
   "theorems": [
    "C03_realloc_contents",
    "C03_realloc_failure",
    "C03_realloc_null",
    "C03_strdup_contents"
   ],
   "note": ""
  },
  {
   "property": "C04",
   "status": "proved",
   "theorems": [
    "C04_array_exact"
   ],
   "note": ""
  },
  {
   "property": "C05",
   "status": "proved",
   "theorems": [
    "C05_teardown"
   ],
   "note": "Emergency teardown loop."
  },
  {
   "property": "C06",
   "status": "proved",
   "theorems": [
    "C06_fresh",
    "C06_stable",
    "C06_erase_defined",
    "C06_exhaustion"
   ],
   "note": "Identifier table shared by strings and objects; any history of add/erase/shrink."
  },
  {
   "property": "C07",
   "status": "proved",
   "theorems": [
    "C07_shrink",
    "C07_usable_after"
   ],
   "note": ""
  },
  {
   "property": "C08",
   "status": "proved",
   "theorems": [
    "C08_canonical",
    "C08_same_text_same_id",
    "C08_new_text",
    "C08_collect"
   ],
   "note": "Any history of creations, flag changes and collections."
  },
  {
   "property": "C09",
   "status": "proved",
   "theorems": [
    "C09_total_order"
   ],
   "note": "NaN excluded, as the property says."
  },
  {
   "property": "C10",
   "status": "partial",
   "theorems": [
    "C10_loose_symmetry_partial",
    "C10_loose_symmetry_refuted"
   ],
   "note": "False as stated: loose comparison converts only the second operand. Proved for operands of equal type and for nil; refuted for integer/object, integer/float and integer/string."
  },
  {
   "property": "C11",
   "status": "proved",
   "theorems": [
    "C11_roundtrip"
   ],
   "note": ""
  },
  {
   "property": "C12",
   "status": "proved",
   "theorems": [
    "C12_equal_keys_same_bucket"
   ],
   "note": ""
  },
  {
   "property": "C13",
   "status": "proved",
   "theorems": [
    "C13_read",
    "C13_delete",
    "C13_write",
    "C13_instruction_get",
    "C13_instruction_set"
   ],
   "note": "Collections are treated separately (C28)."
  },
  {
   "property": "C14",
   "status": "proved",
   "theorems": [
    "C14_size",
    "C14_len"
   ],
   "note": ""
  },
  {
   "property": "C15",
   "status": "partial",
   "theorems": [
    "C15_limit_partial",
    "C15_limit_refuted"
   ],
   "note": "False as stated: the refused element stays linked in the object with the value integer 0. Proved: an error is reported, the size is unchanged and every other key reads as before."
  },
  {
   "property": "C16",
   "status": "proved",
   "theorems": [
    "C16_C30_runs_are_histories",
    "C16_C30_host_calls_are_histories",
    "C16_count_balance",
    "C16_reported_count",
    "C16_held_never_freed",
    "C16_held_kept",
    "C16_unheld_freed",
    "C16_extra_release_refuted"
   ],
   "note": "Counting and survival over every history of API calls and bytecode. The clause that an extra release is merely reported is refuted: the count also wraps to 2^32-1."
  },
  {
   "property": "C17",
   "status": "proved",
   "theorems": [
    "C17_push",
    "C17_pop",
    "C17_pop_empty",
    "C17_popn",
    "C17_peek_poke_safe",
    "C17_bounded"
   ],
   "note": "A push refused by the limit still overwrites slot 0 (finding 25): the theorem for pushes is stated for pushes that report no error."
  },
  {
   "property": "C18",
   "status": "proved",
   "theorems": [
    "C18_step_safe",
    "C18_run_safe",
    "C18_any_program"
   ],
   "note": "Every instruction sequence, whatever the code words, keeps the VM well-formed and reaches no out-of-bounds, null, stale-pointer, assertion, uninitialised-read or divide trap. Signed overflow and out-of-range float conversion remain reachable (C18_overflow_reachable), a defect of the code. Host callbacks are arbitrary programs over the modelled API."
  },
  {
   "property": "C19",
   "status": "proved",
   "theorems": [
    "C19_divide",
    "C19_modulo",
    "C19_never_traps"
   ],
   "note": "Integer operands; float division is total in the model (IEEE)."
  },
  {
   "property": "C20",
   "status": "partial",
   "theorems": [
    "C20_not",
    "C20_if",
    "C20_and_or_exact",
    "C20_and_or_partial",
    "C20_and_or_refuted"
   ],
   "note": "! and if() proved; && and || as stated are refuted (256 && 1 is 0); exact behaviour and the part that holds are proved."
  },
  {
   "property": "C21",
   "status": "proved",
   "theorems": [
    "C21_call",
    "C21_return",
    "C21_call_return",
    "C21_native"
   ],
   "note": "The call and return instructions, for all stacks, functions and arguments; between them the callee may do anything that leaves its frame on the stack (operand discipline of compiled code is C37)."
  },
  {
   "property": "C22",
   "status": "proved",
   "theorems": [
    "C22_bad_call",
    "C22_complete",
    "C23_bad_call"
   ],
   "note": "Every way a call can be rejected; the result does not depend on the host functions, so none is run."
  },
  {
   "property": "C23",
   "status": "proved",
   "theorems": [
    "C23_script",
    "C23_native",
    "C23_bad_call",
    "C23_too_deep",
    "C23_self_call"
   ],
   "note": "For every chain of callable objects, over every history of field writes; C23_self_call is what preparing a method call does to the frame."
  },
  {
   "property": "C24",
   "status": "proved",
   "theorems": [
    "C24_exact",
    "C24_bound",
    "C24_terminates",
    "C24_zero_interval_refuted"
   ],
   "note": "For intervals of at least 1; with interval 0 the limit is never checked (refuted)."
  },
  {
   "property": "C25",
   "status": "partial",
   "theorems": [
    "C25_iterate",
    "C25_iterate_pending",
    "C25_execute_partial",
    "C25_execute_pending_refuted"
   ],
   "note": "nkxVmIterate in full; nkxVmExecuteProgram from an error-free start; with an error already pending nkxVmExecuteProgram still runs one instruction (refuted)."
  },
  {
   "property": "C26",
   "status": "proved",
   "theorems": [
    "C26_create",
    "C26_first_resume",
    "C26_resume",
    "C26_yield",
    "C26_finish",
    "C26_sleeping",
    "C26_coroutine_side",
    "C26_resumer_side"
   ],
   "note": "Every switch, and what each side finds after any execution of the others, including garbage collections."
  },
  {
   "property": "C27",
   "status": "proved",
   "theorems": [
    "C27_active",
    "C27_finished",
    "C27_is_finished",
    "C27_never_again"
   ],
   "note": "For all executions from a state with no coroutines."
  },
  {
   "property": "C28",
   "status": "proved",
   "theorems": [
    "C28_reachable_survives",
    "C28_active_stacks",
    "C28_active_contexts_kept",
    "C28_globals",
    "C28_pass_wrap_refuted"
   ],
   "note": "Proved while the 32-bit pass counter has not wrapped; the wrap case is refuted by witness."
  },
  {
   "property": "C29",
   "status": "proved",
   "theorems": [
    "C29_unreachable_freed",
    "C29_nothing_else",
    "C29_identifier_reusable"
   ],
   "note": ""
  },
  {
   "property": "C30",
   "status": "proved",
   "theorems": [
    "C16_C30_runs_are_histories",
    "C30_calls_are_owed",
    "C30_freed_once",
    "C30_destroy",
    "C30_whole_life",
    "C30_destroy_total"
   ],
   "note": "Includes type and data passed to the callback. Deletion after a memory failure (catastrophic mode) is outside this theorem: there the code skips the callbacks."
  },
  {
   "property": "C31",
   "status": "partial",
   "theorems": [
    "C31_shrink_partial",
    "C31_object_key_refuted",
    "C31_coroutine_stack_refuted"
   ],
   "note": "Proved: shrinking never goes wrong, gives a well-formed machine that is the old one renumbered (objects, strings, globals, running stack, handles), fields read the same for every key that stays in its bucket. Refuted: object keys that change bucket are lost; stacks of suspended contexts keep old identifiers."
  },
  {
   "property": "C32",
   "status": "partial",
   "theorems": [
    "C32_plain_partial",
    "C32_directives_partial",
    "C32_open_quote_refuted",
    "C32_escaped_quote_refuted",
    "C32_line_number_refuted"
   ],
   "note": "The full statement is false of the code: a quoted word in a preprocessor directive is read past the end of the script when its closing quote is missing or follows an escaped quote, and the line number set by #line can overflow (three refutations with witnesses). Proved: no undefined step for any script without directives shorter than 2^31-1 bytes, and no out-of-bounds access for any script whose directive lines have closed quotes and no backslash."
  },
  {
   "property": "C33",
   "status": "proved",
   "theorems": [
    "C33_partition",
    "C33_lex",
    "C33_unambiguous",
    "C33_terminates",
    "C33_errors"
   ],
   "note": "Soundness (every accepted script is a sequence of complete pieces whose tokens are returned), completeness (every sequence of complete pieces without directives is accepted with exactly its tokens and line numbers), termination, and errors exactly on rejection. Maximality of identifiers, numbers (up to 255 characters) and operators is part of the definition of a complete piece in TokenSpec.v."
  },
  {
   "property": "C34",
   "status": "proved",
   "theorems": [
    "C34_literal",
    "C34_decodes_function",
    "C34_decodes_plain",
    "C34_buffer",
    "C34_adjacent"
   ],
   "note": "Literal decoding as an inductive relation; the token text is the denoted text for every body; decoding never leaves its buffer for any bytes; adjacent literals join."
  },
  {
   "property": "C35",
   "status": "proved",
   "theorems": [
    "C35_grouping",
    "C35_accepts",
    "C35_unambiguous",
    "C35_two_operators",
    "C35_closers_refuted",
    "C35_operand_refuted",
    "C35_second_call_refuted",
    "C35_assertion_refuted"
   ],
   "note": "Every accepted text has a correct grouping and gives its tree (function literals included); every correct grouping within the nesting limit is accepted with its own tree, unless it has function literals or calls a parenthesized built-in operator directly; hence groupings are unique. The refuted theorems record where the parser is laxer than the grammar: closers, bare operators as values, a dropped second call, a failed assertion."
  },
  {
   "property": "C36",
   "status": "partial",
   "theorems": [
    "C36_integers_partial",
    "C36_compiled_partial",
    "C36_value",
    "C36_undefined",
    "C36_float_refuted",
    "C36_unreached_refuted"
   ],
   "note": "Proved for every tree without float literals: under every compositional meaning in which integers behave as at run time, the folded tree means the same; integer constants become their value; undefined only where the operator itself overflows. False for floats (rounded to six decimals) and folding can be undefined in code that is never executed: both refuted by witness."
  },
  {
   "property": "C37",
   "status": "partial",
   "theorems": [
    "C37_expressions_partial"
   ],
   "note": "Integers, floats, strings, nil, script functions (also those written in expressions), objects, fields, len() and method calls, given the memory they need; host functions are taken to do what the meaning says they do; coroutines are missing"
  },
  {
   "property": "C38",
   "status": "partial",
   "theorems": [
    "C38_statements_partial",
    "C38_is_finished_refuted",
    "C38_operator_refuted",
    "C38_bare_body_refuted"
   ],
   "note": "True of statements whose execution is defined in RunSpec.v (integers, floats, strings, nil, script functions, objects, methods); false in general: is_finished, operators without operands, and functions whose body is a bare declaration"
  },
  {
   "property": "C39",
   "status": "partial",
   "theorems": [
    "C39_statement_partial",
    "C39_script_partial",
    "C39_series_partial",
    "C39_declarations_refuted",
    "C39_sum_refuted",
    "C39_brackets_refuted"
   ],
   "note": "As stated the property is false of the code and refuted by witnesses: every declaration and return statement leaves the recursion count one too high, long sums count as nesting, and a bracket without operands leaks. Proved: apart from those, each statement that compiles, each script and each series of scripts leave the count as it was (at most one per var/return token). Missing: anonymous functions, brackets after something else than a name, a string or a bracket, and that what is rejected for the limit is nested deeply."
  },
  {
   "property": "C40",
   "status": "partial",
   "theorems": [
    "C40_scripts_partial"
   ],
   "note": "Whole scripts: if/else, while, do, for, break, return, functions, function expressions and recursion; values are integers, floats, strings, nil, functions and objects, with garbage collection running in between; host functions are taken to do what the meaning says they do; no coroutines"
  },
  {
   "property": "C41",
   "status": "proved",
   "theorems": [
    "C41_innermost",
    "C41_closed",
    "C41_declared"
   ],
   "note": "Innermost declaration and closed scopes: every state of the compiler; that everything mentioned is declared: every script that compiles"
  },
  {
   "property": "C42",
   "status": "partial",
   "theorems": [
    "C42_variables",
    "C42_fields_partial",
    "C42_index_refuted",
    "C42_floats_refuted"
   ],
   "note": "Proved for variables holding integers. For fields holding integers, the object and the key are evaluated twice, and the field written is the one the second evaluation gives; with side effects that is another one (refuted). For floats the value of x++ is (x+1)-1, not always x (refuted)."
  },
  {
   "property": "C43",
   "status": "partial",
   "theorems": [
    "C43_round_trip_partial",
    "C43_fields",
    "C43_next_object_refuted",
    "C43_no_functions_refuted"
   ],
   "note": "For every machine worth saving (well formed, 32-bit contents, at least one script function), every machine prepared with the same registrations, and faithful host writers/readers, all of the file is read back whatever follows it and gives the same code, static space, stacks, contexts, strings, objects, fields, handles, functions, globals, files and positions, in a well-formed machine; every field of every object reads the same. That it goes on exactly as the original is refuted (next object identifier differs), and so is the round trip of a machine without script functions."
  },
  {
   "property": "C44",
   "status": "partial",
   "theorems": [
    "C44_load_safe",
    "C44_loaded_wf_partial",
    "C44_stacks_fit",
    "C44_destroy_refuted",
    "C44_collect_refuted"
   ],
   "note": "Proved for all bytes and all host readers: loading into a machine the host has just made never reads or writes outside its tables (C44_load_safe), and a true result gives a well-formed machine except for six things the loader does not check, listed in SaveSpec.sane (C44_loaded_wf_partial). Refuted by concrete files: a true result followed by destroying the machine reads past a stack (C44_destroy_refuted); a true result without errors followed by two collections uses a freed context (C44_collect_refuted). Not covered: loading into a machine that already ran something."
  },
  {
   "property": "C45",
   "status": "partial",
   "theorems": [
    "C45_last_partial",
    "C45_others_refuted"
   ],
   "note": "Refuted for every machine with two or more host functions: all but the last registered get a new identifier after loading. The last one keeps it."
  },
  {
   "property": "C46",
   "status": "proved",
   "theorems": [
    "C46_text_fits",
    "C46_failure_fits",
    "C46_count",
    "C46_wrap_refuted"
   ],
   "note": "Report = all messages in order with newlines, exactly the advertised length, nothing beyond touched, for any buffer contents; total length below 2^32 - 1. C46_wrap_refuted: beyond that the 32-bit length wraps and the buffer is overrun."
  },
  {
   "property": "C47",
   "status": "proved",
   "theorems": [
    "C47_position",
    "C47_message"
   ],
   "note": "For any table of positions in code order; if no position was recorded at or before the instruction the first one is reported."
  },
  {
   "property": "C48",
   "status": "proved",
   "theorems": [
    "C48_function_again",
    "C48_function_distinct",
    "C48_internal_again",
    "C48_internal_distinct",
    "C48_type_found",
    "C48_type_twice",
    "C48_file_again",
    "C48_subsystem_data",
    "C48_subsystem_missing",
    "C48_subsystem_once"
   ],
   "note": "Over all interleavings of registrations from a fresh machine."
  },
  {
   "property": "C49",
   "status": "proved",
   "theorems": [
    "C49_enumerates"
   ],
   "note": "Any object table below 2^32 - 1 slots."
  },
  {
   "property": "C50",
   "status": "partial",
   "theorems": [
    "C50_inert",
    "C50_reports_partial",
    "C50_stops_partial",
    "C50_cleanup_refuted"
   ],
   "note": "Inertness after a failure is proved for every body of a guarded call. Unwinding to the outermost call is proved for every host program and nesting, provided each call back into the host is followed by the check that nkopcode.c:755 makes; cleanup and serialization callbacks and the machine's own calls to API functions are not followed by it, and then the claim is false (C50_cleanup_refuted). API bodies are abstract."
  },
  {
   "property": "C51",
   "status": "proved",
   "theorems": [
    "C51_find"
   ],
   "note": "Every script that compiles without errors"
  },
  {
   "property": "C52",
   "status": "proved",
   "theorems": [
    "C52_number_text_fits"
   ],
   "note": "sprintf is modelled by its digit expansion."
  },
  {
   "property": "C53",
   "status": "proved",
   "theorems": [
    "C53_exact",
    "C53_negate"
   ],
   "note": "Out-of-range results are signed overflow (undefined behaviour)."
  },
  {
   "property": "C54",
   "status": "proved",
   "theorems": [
    "C54_program_fixed"
   ],
   "note": ""
  },
  {
   "property": "C55",
   "status": "proved",
   "theorems": [
    "C55_errors_stay"
   ],
   "note": ""
  },
  {
   "property": "C56",
   "status": "proved",
   "theorems": [
    "C56_compare",
    "C56_same_type"
   ],
   "note": "String compared with a non-string is outside the statement."
  },
  {
   "property": "C57",
   "status": "proved",
   "theorems": [
    "C57_global",
    "C57_local_read",
    "C57_local_write",
    "C57_bad_index"
   ],
   "note": ""
  },
  {
   "property": "C58",
   "status": "proved",
   "theorems": [
    "C58_literal",
    "C58_nil",
    "C58_pop",
    "C58_popn",
    "C58_jump",
    "C58_jump_if_zero",
    "C58_end"
   ],
   "note": ""
  },
  {
   "property": "C59",
   "status": "proved",
   "theorems": [
    "C59_concatenate"
   ],
   "note": ""
  },
  {
   "property": "C60",
   "status": "proved",
   "theorems": [
    "C60_terminates",
    "C60_same"
   ],
   "note": "The recursion counter of the model never runs out above 8*length+7 and its value makes no difference then; the C code has no counter. Loops inside the VM operations it calls are covered as well."
  },
  {
   "property": "C61",
   "status": "proved",
   "theorems": [
    "C61_no_beginning",
    "C61_cut_short",
    "C61_header",
    "C61_written"
   ],
   "note": "Returning false and giving up for want of memory are not told apart in C61_cut_short; the host's own readers are assumed to use up the stream when it is too short for them"
  },
  {
   "property": "C62",
   "status": "partial",
   "theorems": [
    "C62_call_partial",
    "C62_after_script_partial",
    "C62_host_function",
    "C62_rejected"
   ],
   "note": "Proved for every compiled script, as C40; missing as there: coroutines. If a call is rejected the arguments stay on the operand stack and the position in the program is lost, but the error ends everything anyway."
  },
  {
   "property": "C63",
   "status": "partial",
   "theorems": [
    "C63_one_reading",
    "C63_one_function",
    "C63_one_expression",
    "C63_one_outcome",
    "C63_scripts_partial"
   ],
   "note": "One reading and one outcome are proved for every script. The last step, that the machine does what any reading says, is proved for scripts without functions; with functions two readings differ in the numbers of the functions, and those can be observed by comparing functions."
  },
  {
   "property": "C64",
   "status": "proved",
   "theorems": [
    "C64_ended",
    "C64_same_run",
    "C64_same_slices",
    "C64_scripts_partial"
   ],
   "note": "The first three hold for every program and API host (given fewer than 2^32 - 1 collections). One difference remains and is part of the statement: slices may execute the end marker once, which leaves stack and position alone but may collect garbage, report remaining stack data, or hit the instruction limit; for compiled scripts (C64_scripts_partial, which inherits from C40 that coroutines are missing) it changes nothing."
  },
  {
   "property": "C65",
   "status": "partial",
   "theorems": [
    "C65_scripts_partial",
    "C65_not_both"
   ],
   "note": "Proved for every compiled script and every derivation in FaultSpec: failing operators (division by zero, operands that do not convert), functions used as conditions, counting non-numbers (variables and fields), fields and len of non-objects, calls of non-functions, calls with a wrong number of arguments and host functions that report an error, at any depth of expressions, conditions, loops, blocks, functions and methods. Missing: failures inside the object or key of a[b]++, the value of x++ on strings, wrong arguments to host functions, stack overflow, the limits on fields and instructions."
  },
  {
   "property": "C66",
   "status": "partial",
   "theorems": [
    "C66_session_partial"
   ],
   "note": "Proved for every sequence of scripts, host calls (with objects found in globals as arguments), garbage collections, assignments to globals, and declarations of further variables and host functions ([goes] in SessionSpec says what must be found after each of them), with the memory of the semantics carried from one to the next; scripts that fail are covered as in C65, and the session goes on after them once the host has cleared the errors (C72), with the functions known before the failing script. Missing: coroutines, and objects that the host holds only by a handle."
  },
  {
   "property": "C67",
   "status": "proved",
   "theorems": [
    "C67_arithmetic",
    "C67_negate",
    "C67_compare",
    "C67_unique"
   ],
   "note": "The model computes with SpecFloat; the theorems compare it with a specification in integers (units of 2^-149). The proofs use Flocq and with it the standard library's axioms of the reals. Which not-a-number pattern results is left open."
  },
  {
   "property": "C68",
   "status": "proved",
   "theorems": [
    "C68_int_to_float",
    "C68_exact_int",
    "C68_float_to_int",
    "C68_text",
    "C68_read",
    "C68_write_read"
   ],
   "note": "sprintf and atof are modelled by exact decimal arithmetic. A float whose integer part is not a 32-bit integer converts with undefined behaviour. C68_read and C68_write_read use Flocq and the axioms of the reals."
  },
  {
   "property": "C69",
   "status": "proved",
   "theorems": [
    "C69_count",
    "C69_types",
    "C69_external",
    "C69_subsystem",
    "C69_setup",
    "C69_undeclared"
   ],
   "note": "nkxVmSetupExternalFunction is modelled without a compiler; declaring the global for the function is C66 and C48. Rejection of the other calls is C22_bad_call, with C69_setup giving its hypotheses. Memory failures are not modelled here."
  },
  {
   "property": "C70",
   "status": "partial",
   "theorems": [
    "C70_memory_partial",
    "C70_again_refuted"
   ],
   "note": "Proved when allocations fail at most in the first set-up of the function. False otherwise: nkiSetupExternalFunction_addArgs frees argTypes before it allocates, and its caller writes to whatever pointers are left when it was left by longjmp (freed memory, or an external type array of the earlier, smaller size). Two arrays of one function are modelled, not the whole heap."
  },
  {
   "property": "C71",
   "status": "proved",
   "theorems": [
    "C71_length",
    "C71_copy",
    "C71_concatenate",
    "C71_compare",
    "C71_blocks",
    "C71_duplicate",
    "C71_append",
    "C71_sum",
    "C71_null",
    "C71_literals",
    "C71_literals_beyond",
    "C71_escaped",
    "C71_line",
    "C71_padding",
    "C71_lines"
   ],
   "note": "Strings of less than 2^32-1 bytes where a theorem says so. Arrays do not overlap. A bounded copy needs one byte more than its bound (C71_copy); joining literals needs both to have less than 2^32-1 bytes together, which the accounting of memory gives (C01, C02), and would write to a null pointer otherwise (C71_literals_beyond). The book-keeping of the allocator is in C01-C04."
  },
  {
   "property": "C72",
   "status": "partial",
   "theorems": [
    "C72_clear",
    "C72_dead",
    "C66_session_partial",
    "C72_functions_refuted",
    "C72_wears_out_refuted",
    "C72_loads_refuted"
   ],
   "note": "Clearing is proved for every well-formed machine, coroutines included; that the session goes on after a run-time error, with any steps before and after, is part of [goes] in C66_session_partial (without coroutines, and if the compiler's count of values on the stack is zero). Three parts of the property are false of the code and refuted by witnesses: functions of the failing script keep their names but not their code; the compiler's nesting count is not reset, so that after enough failing scripts every script is rejected; the main program is left in the invalid state, so that loading a saved program then fails. Not proved: that the session goes on after a failed compilation (C72_after_rejection is an example only)."
  },
  {
   "property": "C73",
   "status": "proved",
   "theorems": [
    "C73_undisturbed",
    "C73_script",
    "C73_rejected",
    "C73_idle",
    "C73_runnable",
    "C73_finalize",
    "C73_turns",
    "C73_end_refuted"
   ],
   "note": "For compilations that end without undefined behaviour and without running out of memory; that it ends at all is C60, and which texts make the tokenizer read outside them is C32. The end of the program, which is the word after the last script, is not kept: what was written of a rejected script stays there (C73_end_refuted), until the error state is cleared. C73_runnable is for code of at most 2^30 words, C73_finalize for at most 2^26."
  }
 ]
}