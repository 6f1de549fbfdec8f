# Formal model of Ninkasi: design

Ninkasi is a small embeddable scripting language: a C89 library (`/repo/src`)
with a tokenizer, an expression parser, a one-pass compiler to bytecode, a
stack VM with coroutines, a mark-and-sweep garbage collector, and a
serializer.  This directory holds a Rocq (Coq 8.16.1) model of that code and
machine-checked proofs of the properties in `properties.jsonl`.

## Trusted base

* Coq's kernel (and `vm_compute`, which is part of it).
* Coq's standard library, and Flocq for the proofs about single precision
  numbers (C67, C68; its statements are not used in ours).  Every property
  theorem is followed by `Print Assumptions`; for each of them the answer is
  "Closed under the global context", except for C67_arithmetic, C67_compare,
  C68_int_to_float, C68_exact_int, C68_read and C68_write_read.  Those go
  through Flocq's theorems about real numbers and list the standard library's
  axioms of the reals and nothing else:
  `ClassicalDedekindReals.sig_not_dec`, `ClassicalDedekindReals.sig_forall_dec`,
  `FunctionalExtensionality.functional_extensionality_dep` and
  `Classical_Prop.classic`.
* No axiom, parameter, admitted lemma or open obligation of our own, no kernel
  check switched off, no functor, no module type, no plugin.  `Variable` and
  `Hypothesis` occur inside sections only and are discharged.
* The faithfulness of the hand-written model: every definition cites the file
  and lines it models and says where it simplifies.  Nothing connects the model
  to the C text mechanically.
* A conforming C implementation with 32-bit `int`, 8-bit bytes, IEEE single
  precision `float`, signed `char`, little-endian byte order.
* A conforming host: `mallocReplacement` returns NULL or a block disjoint from
  every live block; host callbacks use the API as documented.  What that means
  for callbacks is written down in `HostModel.v` (`hostprog`, `run_host`): a
  callback is any finite interaction with the machine through the API calls
  listed there, each depending on all answers so far.

## Modelling decisions

* **Numbers.** All integers are `Z`.  Every wrap is written `u32` / `s32`.
  Signed overflow, out-of-range float-to-int conversion, out-of-bounds access,
  NULL dereference and failing `assert` are explicit outcomes (`Ub kind`), so
  "no undefined behaviour" is a provable statement instead of a convention.
* **Loops.** Structural recursion or explicit fuel.  Running out of fuel is a
  distinct outcome (`UbFuel`), never silently a result; theorems about fuelled
  functions say which fuel suffices (C60 for the compiler) or are about runs
  that end.
* **Floats.** A float value is its 32-bit pattern.  Arithmetic is the standard
  library's `SpecFloat` at precision 24, emax 128, round to nearest even
  (axiom free); C67 shows that this is correct rounding.  NaN results are canonicalised (simplification).  `%f`, `%g`
  and `atof` are modelled on the exact rational value of the pattern.
* **Allocation.** The allocator is modelled at pointer level in its own files
  (C01-C05).  The VM, compiler and serializer models assume that allocation
  succeeds; what a failing allocation does is modelled in `FailModel.v` (C50),
  where API bodies are abstract programs.
* **Host callbacks.** External C functions, GC mark callbacks and serialization
  callbacks are parameters of the model; theorems quantify over them.  Cleanup
  callbacks touch host data only; their invocations are recorded in a trace.
* **Pointers and intrusive lists.** Except for the allocator, linked lists are
  modelled by Coq lists in link order, tables of pointers by `list (option _)`.
  Execution contexts live in a list and are named by position; freeing one
  leaves `None`, so use after free is an outcome (`UbNull`).
* **The compiler's stack of C frames** is the Coq evaluation; nothing is said
  about exhausting it, except through the recursion counts the code keeps.

## File layers

Each topic has `XModel.v` (definitions only, with citations), optionally
`XSpec.v` (small independent specification), `XProofs.v` (lemmas) and
`XProperties.v` (the theorems claimed in MANIFEST.json, each followed by
`Print Assumptions` and a non-vacuity `Example`).

| Topic | Source | Properties | Files |
|---|---|---|---|
| Vocabulary | nkconfig.h, nktypes.h | | Base, BaseFacts, State, MonadFacts |
| Allocator | nkmem.c, nkvm.c (destroy) | C01-C05 | Mem* |
| Failure | nkfail.h, nkx.c wrappers | C50 | Fail* |
| Tables | nktable.c | C06, C07 | Table* |
| Values | nkvalue.c | C09-C12, C52, C67, C68 | Float*, Value*, TextProofs |
| Callback checks | nkx.c | C69, C70 | Callback* |
| Strings | nkstring.c | C06, C08 | Str* |
| C strings | nkstring.c, nkdynstr.c, nkdbg.c | C71 | Buf* |
| Clearing errors | nkcompil.c | C72, C66 | Repl*, Session* |
| Effects of compiling on the machine | nkcompil.c, nktoken.c | C73 | Leave* |
| Objects | nkobjs.c | C13-C15, C49 | Objs*, Hist* (C16, C30) |
| Stack | nkstack.c | C17 | Stack* |
| Machine | nkvm.c, nkopcode.c, nkcorout.c, nkfunc.c | C18-C27, C53-C59, C64 | VmModel, HostModel, ApiModel, VmSpec, VmInv, VmCall, VmSafety, VmStep, VmProperties, Op*, Insn*, Call*, Coro*, CtxProofs, FrameProofs, Slice* |
| Collector | nkgc.c | C28-C30 | Gc*, Hist*, TeardownModel |
| Shrinking | nkshrink.c | C31 | Shrink* |
| Tokens | nktoken.c | C32-C34 | Token* |
| Expressions | nkexpr.c, nkopt.c | C35, C36 | ExprModel, Parse*, Fold* |
| Compiler | nkcompil.c, nkfse.c, nkexpr.c | C37-C42, C51, C60, C62, C63, C65, C66 | CsModel, CompModel, ExprModel, KFacts, TermProofs, CodeRel, EmitProofs, DidProofs, StmtProofs, MachProofs, UseProofs, RepSpec, HeapProofs, ObjInsn, SimProofs, ExecProofs, Run*, Fault*, HostCall*, Session*, DeclareProofs, LawProofs, Uniq*, DetProofs, Name*, Nest* |
| Saving | nksave.c | C43-C45, C61 | Save*, RoundProperties, Cut* |
| Registries | nkerror.c, nkvm.c, nkx.c | C46-C49 | Reg* |

How the compiler proof is put together: `CodeRel.v` says which instruction
words stand for which piece of syntax; `EmitProofs`/`DidProofs`/`StmtProofs`
show that what the modelled compiler writes is in that relation; `RunSpec.v`
gives an independent big-step meaning to syntax (expressions, statements,
functions, objects and methods); `RepSpec.v` says when a value of the machine
stands for one of that meaning, strings and objects included, whatever the
collector has done to their places (`HeapProofs`, `ObjInsn`); `SimProofs`/`ExecProofs` show that the modelled machine, on words
in the relation, computes that meaning; `HostCallProofs` starts that at a function the host calls; `RunProperties` joins the two for the
text of whole scripts, through the tokenizer.

## What is modelled and what is not

Every function of the files below is modelled, except those named, which have no
definition of their own: they free C memory (the model has no such memory
outside the allocator), set up empty tables (part of `vm_init`), set a single
field, or forward to a function that is modelled.  Line numbers are in the
comments of the model.

| File | Functions without a definition |
|---|---|
| nkcompil.c | `nkiCompilerPeekToken`, `nkiCompilerIsAtRootContext` |
| nkcorout.c | `nkxCoroutineLibrary_librarySerialize` |
| nkdynstr.c | `nkiDynStrDelete` |
| nkerror.c | `nkiErrorStateSetAllocationFailFlag`, `nkiErrorStateInit`, `nkiErrorStateDestroy` |
| nkexpr.c | `nkiCompilerDeleteExpressionNode` |
| nkfse.c | (all modelled) |
| nkfunc.c | (all modelled) |
| nkgc.c | `nkiVmGcStateMakeEntry`, `nkiVmGarbageCollect_markStack` |
| nkmem.c | `nkiMemAppendHeapString`, `nkiMemGetAllocCount`, `nkiDumpLeakData` |
| nkobjs.c | `nkiVmObjectTableInit`, `nkiVmObjectDelete`, `nkiVmObjectTableDestroy` |
| nkopcode.c | `nkiOpcode_nop`, `nkiOpcode_objectFieldGet`, `nkiOpcode_objectFieldGet_noPop` |
| nkopt.c | `nkiCompilerMakeImmediateExpressionNode` |
| nksave.c | (all modelled) |
| nkshrink.c | (all modelled) |
| nkstack.c | `nkiVmStackDestroy` |
| nkstring.c | `nkiVmStringTableInit`, `nkiVmStringTableDestroy`, `nkiVmStringTableCleanAllStrings` |
| nktable.c | `nkiTableDestroy` |
| nktoken.c | `nkiCompilerDeleteToken`, `nkiCompilerDestroyTokenList`, `nkiCompilerAddToken`, `nkiCompilerFreeStringList` |
| nkvalue.c | `nkiValueSetInt`, `nkiValueSetFloat`, `nkiValueSetString`, `nkiValueSetFunction` |
| nkvm.c | `nkiVmGetOpcodeName`, `nkiVmClearSourceFileList` |

Not modelled at all: `nkdbg.c` (debug dumps; only its four text helpers are, in C71), `/repo/src/test`, `/repo/src/interp` and other
host programs and libraries outside `src`, and the debug-only code under
`NK_VM_DEBUG`, `NK_EXTRA_FANCY_LEAK_TRACKING_LINUX` and similar switches.  The
remaining functions of `nkx.c` are wrappers of one shape (install a handler,
call the internal function, remove it); that shape is modelled once, in
`FailModel.v`.

Simplifications that matter to more than one theorem:

* The loader (`SaveModel.v`) stops at a failed read with the state so far; the
  partially read buffers of the field that failed are not kept apart.
* The position of the failing allocation is not part of the VM model.
* The error state inside the compiler and the machine is one list of messages;
  file and line of each message are part of the text.

## Properties

For each property: its status in MANIFEST.json, the theorems, how it is modelled
and proved, and what is missing.

* **C01 Memory usage accounting is exact.** Proved. Pointer-level allocator
  state (headers with `next` and pointer-to-`next` fields, usage counter
  modulo 2^32); invariant by induction over every history of
  malloc/free/realloc with an adversarial host `malloc`; usage is the sum over
  the live blocks, read off the heap. Theorems: `C01_usage_exact`,
  `C01_no_undefined_behaviour`, `C01_peak`.
* **C02 The memory limit is never exceeded and refusal is harmless.** Proved.
  Same histories; a refused request changes nothing and reports failure.
  Theorems: `C02_limit_respected`, `C02_refusal_harmless`, `C02_refused_iff`.
* **C03 Reallocation preserves contents and is safe on failure.** Proved.
  Direct specification of realloc over the same state, contents as byte lists.
  Theorems: `C03_realloc_contents`, `C03_realloc_failure`, `C03_realloc_null`,
  `C03_strdup_contents`.
* **C04 Array allocation never under-allocates.** Proved. Array variants:
  multiplication with overflow check against the exact product. Theorems:
  `C04_array_exact`.
* **C05 Deleting a VM returns every block exactly once.** Proved. The teardown
  loop walks the pointer list; it frees each live block exactly once
  (permutation of the live addresses, no duplicates). Theorems:
  `C05_teardown`.
* **C06 Object and string identifiers are fresh and stable.** Proved. Table as
  slot list plus hole list; holes are exactly the empty slots without
  repetition; induction over add/erase/shrink histories. Theorems:
  `C06_fresh`, `C06_stable`, `C06_erase_defined`, `C06_exhaustion`.
* **C07 Table shrinking loses nothing.** Proved. Shrinking keeps every entry
  at its identifier and never grows; same histories. Theorems: `C07_shrink`,
  `C07_usable_after`.
* **C08 String interning is canonical.** Proved. Intern table with hash
  buckets; invariant: buckets are exactly the live strings by hash, no two
  live strings equal; over histories of creations and collections. Theorems:
  `C08_canonical`, `C08_same_text_same_id`, `C08_new_text`, `C08_collect`.
* **C09 Value ordering is a consistent total order.** Proved. Strict
  comparison on ordinary values: total preorder with equality = same contents.
  Theorems: `C09_total_order`.
* **C10 Loose comparison is symmetric.** Partial. Loose comparison converts
  only the second operand. Theorems: `C10_loose_symmetry_partial`,
  `C10_loose_symmetry_refuted`. False as stated: loose comparison converts
  only the second operand. Proved for operands of equal type and for nil;
  refuted for integer/object, integer/float and integer/string.
* **C11 Integer text conversion round-trips.** Proved. Decimal text of every
  32-bit integer read back. Theorems: `C11_roundtrip`.
* **C12 Equal keys hash equally.** Proved. Hash respects key equality.
  Theorems: `C12_equal_keys_same_bucket`.
* **C13 Objects behave as finite maps.** Proved. Objects as 16 bucket lists;
  refinement to a function from keys to values under any operation history,
  for the API and for the instructions. Theorems: `C13_read`, `C13_delete`,
  `C13_write`, `C13_instruction_get`, `C13_instruction_set`.
* **C14 Object size equals the number of keys.** Proved. Size = number of
  distinct non-nil keys over the same histories. Theorems: `C14_size`,
  `C14_len`.
* **C15 The field limit is enforced without corrupting the object.** Partial.
  Field limit. Theorems: `C15_limit_partial`, `C15_limit_refuted`. False as
  stated: the refused element stays linked in the object with the value
  integer 0. Proved: an error is reported, the size is unchanged and every
  other key reads as before.
* **C16 External handles keep objects alive and are counted exactly.** Proved.
  Handle counter and root set over whole histories (HistSpec). Theorems:
  `C16_C30_runs_are_histories`, `C16_C30_host_calls_are_histories`,
  `C16_count_balance`, `C16_reported_count`, `C16_held_never_freed`,
  `C16_held_kept`, `C16_unheld_freed`, `C16_extra_release_refuted`.
* **C17 The value stack is a bounded LIFO that never leaves its buffer.**
  Proved. Stack record with buffer; refinement to `list value`. Theorems:
  `C17_push`, `C17_pop`, `C17_pop_empty`, `C17_popn`, `C17_peek_poke_safe`,
  `C17_bounded`.
* **C18 Executing arbitrary bytecode is memory safe.** Proved. Step function
  over arbitrary instruction words; invariant `wf` (VmSpec) preserved; only
  the arithmetic undefined behaviours remain. Theorems: `C18_step_safe`,
  `C18_run_safe`, `C18_any_program`.
* **C19 Division and modulo never trap.** Proved. Opcode-level, all operands.
  Theorems: `C19_divide`, `C19_modulo`, `C19_never_traps`.
* **C20 Logical operators follow truthiness.** Partial. Opcode-level, all
  operands. Theorems: `C20_not`, `C20_if`, `C20_and_or_exact`,
  `C20_and_or_partial`, `C20_and_or_refuted`. ! and if() proved; && and || as
  stated are refuted (256 && 1 is 0); exact behaviour and the part that holds
  are proved.
* **C21 Calls and returns balance the stack.** Proved. Call and return from
  arbitrary stacks, and whole calls over all runs between them. Theorems:
  `C21_call`, `C21_return`, `C21_call_return`, `C21_native`.
* **C22 Bad calls are rejected before anything runs.** Proved. All bad calls
  are rejected with the stack as documented; completeness of the rejection.
  Theorems: `C22_bad_call`, `C22_complete`, `C23_bad_call`.
* **C23 Callable objects insert their data as first argument.** Proved.
  Callable objects. Theorems: `C23_script`, `C23_native`, `C23_bad_call`,
  `C23_too_deep`, `C23_self_call`.
* **C24 The instruction limit bounds execution.** Proved. Run loop; counting
  argument over all programs. Theorems: `C24_exact`, `C24_bound`,
  `C24_terminates`, `C24_zero_interval_refuted`.
* **C25 No instruction runs after an error.** Partial. Run loop. Theorems:
  `C25_iterate`, `C25_iterate_pending`, `C25_execute_partial`,
  `C25_execute_pending_refuted`. nkxVmIterate in full; nkxVmExecuteProgram
  from an error-free start; with an error already pending nkxVmExecuteProgram
  still runs one instruction (refuted).
* **C26 Coroutine resume and yield exchange values faithfully.** Proved.
  Context switch opcodes from arbitrary machines, both sides followed across
  arbitrary runs in between. Theorems: `C26_create`, `C26_first_resume`,
  `C26_resume`, `C26_yield`, `C26_finish`, `C26_sleeping`,
  `C26_coroutine_side`, `C26_resumer_side`.
* **C27 A finished or active coroutine cannot be re-entered.** Proved.
  Invariant on parents of contexts. Theorems: `C27_active`, `C27_finished`,
  `C27_is_finished`, `C27_never_again`.
* **C28 Garbage collection never frees what is reachable.** Proved. Mark phase
  as worklist; soundness against inductive reachability (GcSpec). Theorems:
  `C28_reachable_survives`, `C28_active_stacks`, `C28_active_contexts_kept`,
  `C28_globals`, `C28_pass_wrap_refuted`.
* **C29 Garbage collection frees everything unreachable.** Proved.
  Completeness of the sweep against the same relation. Theorems:
  `C29_unreachable_freed`, `C29_nothing_else`, `C29_identifier_reusable`.
* **C30 Cleanup callbacks run exactly once.** Proved. Trace of cleanup calls
  over histories. Theorems: `C16_C30_runs_are_histories`,
  `C30_calls_are_owed`, `C30_freed_once`, `C30_destroy`, `C30_whole_life`,
  `C30_destroy_total`.
* **C31 Shrinking a VM preserves program-visible state.** Partial. Moves as
  composition of renumberings; invariant `mid` from the start of the call to
  its end (ShrinkProofs). Theorems: `C31_shrink_partial`,
  `C31_object_key_refuted`, `C31_coroutine_stack_refuted`. Proved: shrinking
  never goes wrong, gives a well-formed machine that is the old one renumbered
  (objects, strings, globals, running stack, handles), fields read the same
  for every key that stays in its bucket. Refuted: object keys that change
  bucket are lost; stacks of suspended contexts keep old identifiers.
* **C32 Tokenizing any script stays inside the text.** Partial. Tokenizer over
  a byte list with bounds-checked access. Theorems: `C32_plain_partial`,
  `C32_directives_partial`, `C32_open_quote_refuted`,
  `C32_escaped_quote_refuted`, `C32_line_number_refuted`. The full statement
  is false of the code: a quoted word in a preprocessor directive is read past
  the end of the script when its closing quote is missing or follows an
  escaped quote, and the line number set by #line can overflow (three
  refutations with witnesses). Proved: no undefined step for any script
  without directives shorter than 2^31-1 bytes, and no out-of-bounds access
  for any script whose directive lines have closed quotes and no backslash.
* **C33 Tokens partition the script text.** Proved. Inductive relation for
  complete pieces of text (TokenSpec); soundness and completeness. Theorems:
  `C33_partition`, `C33_lex`, `C33_unambiguous`, `C33_terminates`,
  `C33_errors`.
* **C34 String literal escapes decode correctly.** Proved. Escapes: decoding
  relation. Theorems: `C34_literal`, `C34_decodes_function`,
  `C34_decodes_plain`, `C34_buffer`, `C34_adjacent`.
* **C35 Operator precedence and associativity.** Proved. Parser against an
  independently given grouping relation (ParseSpec), soundness and
  completeness. Theorems: `C35_grouping`, `C35_accepts`, `C35_unambiguous`,
  `C35_two_operators`, `C35_closers_refuted`, `C35_operand_refuted`,
  `C35_second_call_refuted`, `C35_assertion_refuted`.
* **C36 Constant folding preserves meaning.** Partial. Folding against every
  compositional meaning whose integers behave as at run time. Theorems:
  `C36_integers_partial`, `C36_compiled_partial`, `C36_value`,
  `C36_undefined`, `C36_float_refuted`, `C36_unreached_refuted`. Proved for
  every tree without float literals: under every compositional meaning in
  which integers behave as at run time, the folded tree means the same;
  integer constants become their value; undefined only where the operator
  itself overflows. False for floats (rounded to six decimals) and folding can
  be undefined in code that is never executed: both refuted by witness.
* **C37 Expression code computes the expression.** Partial. Simulation, see
  above. Theorems: `C37_expressions_partial`. Integers, floats, strings, nil,
  script functions (also those written in expressions), objects, fields, len()
  and method calls, given the memory they need; host functions are taken to do
  what the meaning says they do; coroutines are missing
* **C38 Local variables always address their own slot.** Partial. Simulation:
  the slot of each local in the relation. Theorems: `C38_statements_partial`,
  `C38_is_finished_refuted`, `C38_operator_refuted`, `C38_bare_body_refuted`.
  True of statements whose execution is defined in RunSpec.v (integers,
  floats, strings, nil, script functions, objects, methods); false in general:
  is_finished, operators without operands, and functions whose body is a bare
  declaration
* **C39 The nesting limit restricts only nesting.** Partial. Bookkeeping of
  the recursion count through every compiler function. Theorems:
  `C39_statement_partial`, `C39_script_partial`, `C39_series_partial`,
  `C39_declarations_refuted`, `C39_sum_refuted`, `C39_brackets_refuted`. As
  stated the property is false of the code and refuted by witnesses: every
  declaration and return statement leaves the recursion count one too high,
  long sums count as nesting, and a bracket without operands leaks. Proved:
  apart from those, each statement that compiles, each script and each series
  of scripts leave the count as it was (at most one per var/return token).
  Missing: anonymous functions, brackets after something else than a name, a
  string or a bracket, and that what is rejected for the limit is nested
  deeply.
* **C40 Control flow statements branch correctly.** Partial. Simulation for
  statements and whole scripts. Theorems: `C40_scripts_partial`. Whole
  scripts: if/else, while, do, for, break, return, functions, function
  expressions and recursion; values are integers, floats, strings, nil,
  functions and objects, with garbage collection running in between; host
  functions are taken to do what the meaning says they do; no coroutines
* **C41 Name lookup finds the innermost declaration.** Proved. Scope chains of
  the compiler; names of every compiled script. Theorems: `C41_innermost`,
  `C41_closed`, `C41_declared`.
* **C42 Increment and decrement operators.** Partial. Simulation. Theorems:
  `C42_variables`, `C42_fields_partial`, `C42_index_refuted`,
  `C42_floats_refuted`. Proved for variables holding integers. For fields
  holding integers, the object and the key are evaluated twice, and the field
  written is the one the second evaluation gives; with side effects that is
  another one (refuted). For floats the value of x++ is (x+1)-1, not always x
  (refuted).
* **C43 Save and load round-trips the VM.** Partial. Writer and reader over
  byte lists; reader inverts writer field by field, then the whole machine
  (SaveRound). Theorems: `C43_round_trip_partial`, `C43_fields`,
  `C43_next_object_refuted`, `C43_no_functions_refuted`. For every machine
  worth saving (well formed, 32-bit contents, at least one script function),
  every machine prepared with the same registrations, and faithful host
  writers/readers, all of the file is read back whatever follows it and gives
  the same code, static space, stacks, contexts, strings, objects, fields,
  handles, functions, globals, files and positions, in a well-formed machine;
  every field of every object reads the same. That it goes on exactly as the
  original is refuted (next object identifier differs), and so is the round
  trip of a machine without script functions.
* **C44 Loading arbitrary bytes is safe.** Partial. The reader on arbitrary
  bytes; partial well-formedness maintained through every loop. Theorems:
  `C44_load_safe`, `C44_loaded_wf_partial`, `C44_stacks_fit`,
  `C44_destroy_refuted`, `C44_collect_refuted`. Proved for all bytes and all
  host readers: loading into a machine the host has just made never reads or
  writes outside its tables (C44_load_safe), and a true result gives a
  well-formed machine except for six things the loader does not check, listed
  in SaveSpec.sane (C44_loaded_wf_partial). Refuted by concrete files: a true
  result followed by destroying the machine reads past a stack
  (C44_destroy_refuted); a true result without errors followed by two
  collections uses a freed context (C44_collect_refuted). Not covered: loading
  into a machine that already ran something.
* **C45 Host functions keep their identity across save and load.** Partial.
  Function table reading. Theorems: `C45_last_partial`, `C45_others_refuted`.
  Refuted for every machine with two or more host functions: all but the last
  registered get a new identifier after loading. The last one keeps it.
* **C46 Error text fits the advertised buffer.** Proved. Exact length of the
  report, buffer at least that. Theorems: `C46_text_fits`, `C46_failure_fits`,
  `C46_count`, `C46_wrap_refuted`.
* **C47 Run-time positions map to the right source line.** Proved. Position
  markers. Theorems: `C47_position`, `C47_message`.
* **C48 Registering by name is idempotent.** Proved. Registries: name to
  identifier, no renumbering. Theorems: `C48_function_again`,
  `C48_function_distinct`, `C48_internal_again`, `C48_internal_distinct`,
  `C48_type_found`, `C48_type_twice`, `C48_file_again`, `C48_subsystem_data`,
  `C48_subsystem_missing`, `C48_subsystem_once`.
* **C49 Enumerating objects by external type is exact.** Proved. Enumeration.
  Theorems: `C49_enumerates`.
* **C50 After an allocation failure the API is inert.** Partial. API wrapper
  with an explicit handler stack. Theorems: `C50_inert`,
  `C50_reports_partial`, `C50_stops_partial`, `C50_cleanup_refuted`. Inertness
  after a failure is proved for every body of a guarded call. Unwinding to the
  outermost call is proved for every host program and nesting, provided each
  call back into the host is followed by the check that nkopcode.c:755 makes;
  cleanup and serialization callbacks and the machine's own calls to API
  functions are not followed by it, and then the claim is false
  (C50_cleanup_refuted). API bodies are abstract.
* **C51 Global variables are found by name.** Proved. From the text of a
  script to nkxVmFindGlobalVariable. Theorems: `C51_find`.
* **C52 Number formatting fits its buffers.** Proved. Length bounds on number
  formatting. Theorems: `C52_number_text_fits`.
* **C53 Integer arithmetic is exact.** Proved. Opcode-level, all operands.
  Theorems: `C53_exact`, `C53_negate`.
* **C54 A running program cannot change itself or its limits.** Proved. Frame
  property of every instruction and callback. Theorems: `C54_program_fixed`.
* **C55 Reported errors stay reported.** Proved. Same. Theorems:
  `C55_errors_stay`.
* **C56 Comparison operators agree on one order.** Proved. All six comparison
  opcodes against one order. Theorems: `C56_compare`, `C56_same_type`.
* **C57 Variable access reads and writes exactly one slot.** Proved.
  Opcode-level. Theorems: `C57_global`, `C57_local_read`, `C57_local_write`,
  `C57_bad_index`.
* **C58 Literals, pops and jumps have their exact effect.** Proved.
  Opcode-level. Theorems: `C58_literal`, `C58_nil`, `C58_pop`, `C58_popn`,
  `C58_jump`, `C58_jump_if_zero`, `C58_end`.
* **C59 String concatenation.** Proved. Opcode-level. Theorems:
  `C59_concatenate`.
* **C60 Compilation terminates.** Proved. Measure on remaining tokens through
  every compiler function; explicit fuel bound. Theorems: `C60_terminates`,
  `C60_same`.
* **C61 A file that is not whole is refused.** Proved. Every step of the
  loader either reads a piece that determines its outcome or reads everything
  (`cut`); the last section fails on nothing. Theorems: `C61_no_beginning`,
  `C61_cut_short`, `C61_header`, `C61_written`.
* **C62 Functions of a script called by the host.** Partial. The simulation of
  C38-C40 is started at the first instruction of the function with a return
  address of NK_UINT_MAX - 1; its `return` case holds for every such address;
  `resting` says what is kept from one call to the next (`HostCallProofs`).
  Theorems: `C62_call_partial`, `C62_after_script_partial`,
  `C62_host_function`, `C62_rejected`. Proved for every compiled script, as
  C40; missing as there: coroutines. If a call is rejected the arguments stay
  on the operand stack and the position in the program is lost, but the error
  ends everything anyway.
* **C63 A script has one meaning.** Partial. Reading: infix chains are
  flattened and regrouped by rank, postfix operators peeled from the right,
  statements by strong induction on the length of the text (`UniqProofs`).
  Doing: inversion of the rules (`DetProofs`). Readings are compared but for
  the numbers given to functions, since the comparison operators show those
  numbers. Theorems: `C63_one_reading`, `C63_one_function`,
  `C63_one_expression`, `C63_one_outcome`, `C63_scripts_partial`. One reading
  and one outcome are proved for every script. The last step, that the machine
  does what any reading says, is proved for scripts without functions; with
  functions two readings differ in the numbers of the functions, and those can
  be observed by comparing functions.
* **C64 Running a program in slices.** Proved. `did n s t` (n instructions,
  none started with an error or at the end) relates both loops; the end marker
  is the only instruction the slices may execute and the single run does not,
  and its effect is computed (`SliceProofs`). Theorems: `C64_ended`,
  `C64_same_run`, `C64_same_slices`, `C64_scripts_partial`.
* **C65 A script that fails leaves what it did before.** Partial. `FaultSpec`
  extends the meaning of RunSpec with derivations that end at an error; by
  induction on them, the words of the syntax lead the machine to an
  instruction that adds an error and changes neither objects nor globals
  (`FaultProofs`, on top of `SimProofs` for the parts that succeed). Theorems:
  `C65_scripts_partial`, `C65_not_both`. Proved for every compiled script and
  every derivation in FaultSpec: failing operators (division by zero, operands
  that do not convert), functions used as conditions, counting non-numbers
  (variables and fields), fields and len of non-objects, calls of
  non-functions, calls with a wrong number of arguments and host functions
  that report an error, at any depth of expressions, conditions, loops,
  blocks, functions and methods. Missing: failures inside the object or key of
  a[b]++, the value of x++ on strings, wrong arguments to host functions,
  stack overflow, the limits on fields and instructions.
* **C66 A program can be compiled and run piece by piece.** Partial.
  `SessionSpec.goes` describes, by recursion over the list of the host's
  steps, what each step must do in terms of the API (compile_script,
  partially_finalize, execute, call_function) and of the meaning of scripts in
  RunSpec and FaultSpec.  The proof (`SessionProofs`) keeps an invariant
  between steps: the compiler has only the global scope open, the machine is
  at the place where the next script's code will go, the functions so far have
  the code they should have whatever is written after it, and the globals and
  objects are those of the semantics.  Compiling is shown to change nothing of
  this but add words, strings and zeroed globals (a relation on the compiler's
  primitives, as for C40); running is C40's simulation started in the middle
  of the code, a call is C62's. Theorems: `C66_session_partial`. Proved for
  every sequence of scripts, host calls (with objects found in globals as
  arguments), garbage collections, assignments to globals, and declarations of
  further variables and host functions ([goes] in SessionSpec says what must
  be found after each of them), with the memory of the semantics carried from
  one to the next; scripts that fail are covered as in C65, and the session
  goes on after them once the host has cleared the errors (C72), with the
  functions known before the failing script. Missing: coroutines, and objects
  that the host holds only by a handle.
* **C67 Float arithmetic is correctly rounded.** Proved. `FloatSpec` says in
  integers what the number of a pattern is (a multiple of 2^-149), what it
  means that a pattern is a fraction correctly rounded (`rounded`: no finite
  pattern is nearer, ties go to the even pattern, the overflow threshold) and
  lists the cases of IEEE 754 (`ieee`).  The model's operations are shown to
  be Flocq's, and Flocq's correctness theorems are brought into that form.
  `C67_unique`: the specification leaves no choice. Theorems:
  `C67_arithmetic`, `C67_negate`, `C67_compare`, `C67_unique`.
* **C68 Floats, integers and texts convert into each other faithfully.**
  Proved. Same specification.  Integer to float is `rounded`; float to integer
  is truncating division; the text of a float is compared with its exact
  rational value; reading a decimal text is exact whenever the number is a
  single precision number. Theorems: `C68_int_to_float`, `C68_exact_int`,
  `C68_float_to_int`, `C68_text`, `C68_read`, `C68_write_read`.
* **C69 Host functions get the arguments they ask for.** Proved. CallbackModel
  models the checks of nkx.c with the variadic arguments as lists (reading
  more than were passed is undefined behaviour).  CallbackSpec says what an
  argument list that fits a declaration is; the calls themselves are the ones
  of C22. Theorems: `C69_count`, `C69_types`, `C69_external`, `C69_subsystem`,
  `C69_setup`, `C69_undeclared`.
* **C70 Setting up a host function writes only to its own memory.** Partial.
  The two arrays of a function as pointers that are NULL, freed or of some
  size; a failing allocation leaves the helper at that line.  Induction over
  the set-ups; counterexamples for failures in later ones. Theorems:
  `C70_memory_partial`, `C70_again_refuted`. Proved when allocations fail at
  most in the first set-up of the function. False otherwise:
  nkiSetupExternalFunction_addArgs frees argTypes before it allocates, and its
  caller writes to whatever pointers are left when it was left by longjmp
  (freed memory, or an external type array of the earlier, smaller size). Two
  arrays of one function are modelled, not the whole heap.
* **C71 C string helpers and growing strings respect their buffers.** Proved.
  C strings as arrays of bytes with a terminator, each access checked; the
  loops with their 32-bit limits; blocks of the host with arbitrary contents.
  Induction over the rest of the string in each loop. Theorems: `C71_length`,
  `C71_copy`, `C71_concatenate`, `C71_compare`, `C71_blocks`, `C71_duplicate`,
  `C71_append`, `C71_sum`, `C71_null`, `C71_literals`, `C71_literals_beyond`,
  `C71_escaped`, `C71_line`, `C71_padding`, `C71_lines`.
* **C72 An interactive session survives errors.** Partial.
  `ReplModel.clear_repl` is the whole of nkiCompilerClearReplErrorState, with
  its loop over the chain of contexts.  Induction along the chain gives
  `starts_over` (ReplSpec), which says field by field what changes and that
  nothing else does.  The continuation of a session is in `SessionSpec.goes`:
  after a failing script the machine at the failing instruction is well-formed
  and holds the memory of the semantics (FaultProofs.crash), and clearing
  makes it a machine between scripts again (SessionProofs.live_step).
  Theorems: `C72_clear`, `C72_dead`, `C66_session_partial`,
  `C72_functions_refuted`, `C72_wears_out_refuted`, `C72_loads_refuted`.
  Clearing is proved for every well-formed machine, coroutines included; that
  the session goes on after a run-time error, with any steps before and after,
  is part of [goes] in C66_session_partial (without coroutines, and if the
  compiler's count of values on the stack is zero). Three parts of the
  property are false of the code and refuted by witnesses: functions of the
  failing script keep their names but not their code; the compiler's nesting
  count is not reset, so that after enough failing scripts every script is
  rejected; the main program is left in the invalid state, so that loading a
  saved program then fails. Not proved: that the session goes on after a
  failed compilation (C72_after_rejection is an example only).
* **C73 Compiling disturbs nothing that is there already.** Proved. No new
  model: the statement is about `CompModel.compile_script`, accepted or
  rejected.  `LeaveSpec` lists field by field what must be found afterwards
  (`kept`, `undisturbed`) and what a compiler between two scripts is (`idle`).
  Two walks through the whole compiler (LeaveProofs): one, over the relation
  interface of KFacts, for the data; one for code and functions, where each
  step is shown to preserve that all positions remembered for later patching
  (jumps, breaks, skipped function bodies) lie at or after the old end and
  before the current one.  Induction over the list of scripts.  A third walk
  (LeaveScope) shows that every scope a script opens is closed again on every
  way out, so the compiler is `idle` again and the next script or the next
  turn of an interactive host (`turns`: scripts compiled or dropped) starts
  under the same hypotheses, and what was compiled can always be made runnable
  (`made_runnable`) and finished (`finished`). Theorems: `C73_undisturbed`,
  `C73_script`, `C73_rejected`, `C73_idle`, `C73_runnable`, `C73_finalize`,
  `C73_turns`, `C73_end_refuted`.

## Findings

Where the code does something a user would not expect.  Those with a theorem
name are proved of the model by a concrete witness; the others were found while
modelling and are recorded here only.

Proved:

* `C10_loose_symmetry_refuted`: `a == b` and `b == a` can differ between types.
* `C15_limit_refuted`: a field refused for the limit stays linked in the object.
* `C16_extra_release_refuted`: an extra release wraps the handle count.
* `C20_and_or_refuted`: `256 && 1` is 0 (truncation to one byte); both operands
  are always evaluated.
* `C24_zero_interval_refuted`: with a collection interval of 0 the instruction
  limit is not enforced.
* `C25_execute_pending_refuted`: nkxVmExecuteProgram runs one instruction with
  an error pending.
* `C28_pass_wrap_refuted`: after 2^32-1 collections a reachable object is freed.
* `C31_object_key_refuted`, `C31_coroutine_stack_refuted`: shrinking loses
  fields whose key is an object that moves, and leaves stale identifiers on the
  stacks of contexts that are not running.
* `C32_*_refuted`: a preprocessor directive with an open or escaped quote is
  read past the end of the text; `#line 2147483647` overflows.
* `C35_closers_refuted`: `(1]` and `(1,` are accepted as brackets.
* `C35_operand_refuted`: operators without operands are accepted.
* `C35_second_call_refuted`, `C35_assertion_refuted`: `(len(a))(b)` fires an
  assert.
* `C36_float_refuted`: folding rounds floats to six decimals.
* `C36_unreached_refuted`: folding overflows (undefined) in code never run.
* `C38_is_finished_refuted`, `C38_operator_refuted`, `C38_bare_body_refuted`:
  after these constructs the compiler's idea of the stack is wrong by one.
* `C39_*_refuted`: declarations, returns and long sums use up the nesting limit.
* `C42_index_refuted`: `o[f()]++` evaluates `f()` twice, and can read one field and
  write another.  `C42_floats_refuted`: `x++` is compiled as `(x = x + 1) - 1`.
* `C43_next_object_refuted`: a loaded machine gives other identifiers to new
  objects than the original would.
* `C43_no_functions_refuted`: a machine without script functions cannot be
  loaded back.
* `C44_destroy_refuted`, `C44_collect_refuted`: files that load successfully and
  then make destroying or collecting read freed or foreign memory.
* `C45_others_refuted`: with two or more host functions, all but the last
  registered lose their function identifier on load.
* `C46_wrap_refuted`: the length of the error report wraps at 2^32.
* `C50_cleanup_refuted`: a failure inside a callback that is not followed by the
  check is swallowed.

Not proved, noted in passing:

* Destroying a machine in the catastrophic state uses `free`, not the host's
  replacement; nkxVmCreateEx does not copy the user data; object cleanup
  callbacks do not run then.
* A coroutine whose function is a host function runs it at once; resuming it
  starts at instruction 0.
* Resume and is-finished dereference the context before checking it for NULL.
* NaN keys are never found again; 0.0 and -0.0 are one key.
* A loaded collection countdown is not sanitised; after the limit was hit the
  countdown is 0 and then wraps.
* `#file` and `#line` swallow the newline; directive words are read up to LF
  although the main loop skips only to CR.
* `a = b = c` groups to the left and is then rejected.
* Saving and loading reverses the order of each hash chain; loading overwrites
  the error state.
* nkiVmCallFunction does not restore the instruction pointer after an error;
  yielding across a host function misbehaves.
* A push onto a full stack overwrites slot 0 (after the error was recorded).
* nkiVmClearSourceFileList does not reset the count.
* The message of a failed conversion to float says "to an integer".
* An unterminated string literal is accepted; `\\` stays two backslashes;
  numbers of more than 255 characters are split.
* `coroutine()` without arguments pushes -1 as the argument count.
* nkxVmSetupExternalFunction, called again for a function when memory runs
  out, writes declarations to freed memory or past the end of the old array
  (C70_again_refuted); without a failure it loses the old argExternalTypes.
* nkxCompilerCreateGlobalVariable takes two slots; pointers to globals dangle
  when the space grows.
* Scripts can read and assign `_functionId` and the other hidden locals.
* The loader accepts two equal strings in different slots, a table of capacity
  0, a mask written before it is checked; a field-limit error while loading
  misaligns the rest of the file; loading into a machine in use leaks its
  objects.
* After nkxCompilerClearReplErrorState (a) functions defined by the failing
  script keep their names but their code is overwritten by the next script, and
  calling them runs whatever is there (`C72_functions_refuted`); (b) the
  recursion count of the compiler is not reset, so that some 130 failing scripts
  like `{ var a = ; }` make it reject every script
  (`C72_wears_out_refuted`); (c) the root context is left in state
  NK_COROUTINE_INVALID instead of RUNNING, so that loading a saved program into
  the machine fails with "Dormant coroutine recorded in active coroutine chain."
  (`C72_loads_refuted`).
* A rejected script leaves the code written for it in place of the END that
  closed the program; only clearing the error state puts an END there again
  (`C73_end_refuted`).

## Testing the theorems

`seeded/LOG.jsonl` has one line for each wrong program tried: the definition
edited, the edit, the claim it breaks, the theorems that failed, and the
theorems that were tightened because of it.
