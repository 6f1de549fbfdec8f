{"id": "C01", "title": "Memory usage accounting is exact", "statement": "After any history of successful and failed nkxMalloc/nkxRealloc/nkxFree calls, nkxVmGetCurrentMemoryUsage equals the sum, over exactly the blocks handed out and not yet freed, of the requested size plus one fixed bookkeeping header per block; the peak figure is never below any earlier current figure.", "quantifier": "every finite sequence of allocate, reallocate and free requests of any 32-bit sizes, with the underlying malloc failing at arbitrary points, starting from a fresh VM", "why_tests_cant": "the sequence and the failure points are unbounded; drift appears only after particular histories", "anchors": ["src/nkmem.c: nkiMalloc_real, nkiFree, nkiRealloc", "src/nkx.c: nkxVmGetCurrentMemoryUsage, nkxVmGetPeakMemoryUsage"]}
{"id": "C02", "title": "The memory limit is never exceeded and refusal is harmless", "statement": "While the limit set with nkxSetMaxAllocatedMemory stays fixed, current usage never exceeds it, no 32-bit wrap-around can be used to slip past it, and a refused allocation changes nothing except raising the allocation-failure flag: all outstanding blocks stay valid and the usage figure is unchanged.", "quantifier": "every limit, every 32-bit request size and every allocation history", "why_tests_cant": "wrap-around and boundary sizes cannot be enumerated; a test samples a few sizes", "anchors": ["src/nkmem.c: nkiMalloc_real", "src/nkx.c: nkxSetMaxAllocatedMemory, nkxVmHasAllocationFailure"]}
{"id": "C03", "title": "Reallocation preserves contents and is safe on failure", "statement": "nkxRealloc returns a block whose first min(old,new) bytes equal the old block's bytes and retires the old block; if the new block cannot be obtained the old block is still live with unchanged contents; reallocating NULL behaves as allocation.", "quantifier": "every live block, every new size, every allocator state", "why_tests_cant": "needs all contents, sizes and failure points", "anchors": ["src/nkmem.c: nkiRealloc"]}
{"id": "C04", "title": "Array allocation never under-allocates", "statement": "nkxMallocArray and nkxReallocArray either fail or return a block of exactly size*count bytes computed without 32-bit overflow.", "quantifier": "all pairs of 32-bit element sizes (non-zero) and counts", "why_tests_cant": "2^64 pairs; overflow boundaries are sparse", "anchors": ["src/nkmem.c: nkiMallocArray, nkiReallocArray"]}
{"id": "C05", "title": "Deleting a VM returns every block exactly once", "statement": "Whatever a VM's allocation history, the emergency teardown used after an allocation failure hands every outstanding block back to the host exactly once and leaves none.", "quantifier": "every reachable allocation list", "why_tests_cant": "needs all histories; leaks and double frees depend on order", "anchors": ["src/nkvm.c: nkiVmDestroy", "src/nkx.c: nkxVmDelete"]}
{"id": "C06", "title": "Object and string identifiers are fresh and stable", "statement": "An identifier returned when an object or string is created is different from every identifier currently in use, and every identifier in use keeps denoting the same entity until that entity itself is destroyed, through any amount of table growth and identifier reuse.", "quantifier": "every interleaving of creations and destructions of any length", "why_tests_cant": "identifier reuse bugs need specific free-list histories", "anchors": ["src/nktable.c: nkiTableAddEntry, nkiTableEraseEntry, nkiTableResetHoles"]}
{"id": "C07", "title": "Table shrinking loses nothing", "statement": "Shrinking an identifier table keeps every entry in use under its identifier, never drops capacity below the highest identifier in use, and leaves the table able to hand out fresh identifiers.", "quantifier": "every table state reachable by creations, destructions and shrinks", "why_tests_cant": "depends on the pattern of holes at shrink time", "anchors": ["src/nktable.c: nkiTableShrink"]}
{"id": "C08", "title": "String interning is canonical", "statement": "Two string values created by the host or by scripts have the same identifier if and only if they hold the same bytes; asking again for the same text returns the same identifier while it is alive; the text behind an identifier never changes.", "quantifier": "every history of string creations and collections over arbitrary byte strings, including strings with colliding hashes", "why_tests_cant": "requires all histories and all collisions", "anchors": ["src/nkstring.c: nkiVmStringTableFindOrAddString, nkiVmStringTableCleanOldStrings, nkiStringHash"]}
{"id": "C09", "title": "Value ordering is a consistent total order", "statement": "Strict comparison of values (used for === and for object keys) is reflexive, antisymmetric and transitive and equates two values exactly when they have the same type and the same contents, for all values other than floating-point NaN.", "quantifier": "all triples of values of all six types, all 32-bit payloads and all strings", "why_tests_cant": "three unbounded arguments", "anchors": ["src/nkvalue.c: nkiValueCompare"]}
{"id": "C10", "title": "Loose comparison is symmetric", "statement": "a == b gives the same answer as b == a, and a < b the same as b > a, for all values.", "quantifier": "all pairs of values", "why_tests_cant": "pairs of types with conversions in one direction only are easily missed", "anchors": ["src/nkvalue.c: nkiValueCompare", "src/nkopcode.c: nkiOpcode_equal, nkiOpcode_lessThan, nkiOpcode_greaterThan"]}
{"id": "C11", "title": "Integer text conversion round-trips", "statement": "Converting any integer value to a string and that string back to an integer yields the same integer.", "quantifier": "all 2^32 integers", "why_tests_cant": "range too large to test exhaustively and boundary digits matter", "anchors": ["src/nkvalue.c: nkiValueToString, nkiValueToInt"]}
{"id": "C12", "title": "Equal keys hash equally", "statement": "Any two values that strict comparison considers equal are placed in the same bucket of an object's hash table, so a lookup can never miss an entry stored under an equal key.", "quantifier": "all pairs of values, any string table contents", "why_tests_cant": "requires all payloads including both float zeros and colliding strings", "anchors": ["src/nkvalue.c: nkiValueHash, nkiValueCompare"]}
{"id": "C13", "title": "Objects behave as finite maps", "statement": "After any history of field writes, field deletions and reads on an object, reading a key gives the value most recently written under a strictly-equal key, or nil if none or if it was deleted since; operations on one key or on one object never disturb another.", "quantifier": "every history of operations over any number of objects and keys (NaN keys excluded)", "why_tests_cant": "hash collisions, chain order and deletion patterns are unbounded", "anchors": ["src/nkobjs.c: nkiVmObjectFindOrAddEntry, nkiVmObjectClearEntry", "src/nkopcode.c: nkiOpcode_objectFieldGet, nkiOpcode_objectFieldSet"]}
{"id": "C14", "title": "Object size equals the number of keys", "statement": "nkxVmObjectGetSize and len() equal the number of distinct keys currently stored.", "quantifier": "every operation history on the object within the field limit", "why_tests_cant": "a counter can drift only over particular histories", "anchors": ["src/nkobjs.c: nkiVmObjectGetSize, nkiVmObjectFindOrAddEntry, nkiVmObjectClearEntry"]}
{"id": "C15", "title": "The field limit is enforced without corrupting the object", "statement": "Adding a field beyond nkxSetMaxFieldsPerObject reports an error and leaves the object's fields and size as they were.", "quantifier": "every object and every limit", "why_tests_cant": "the failing path runs after the mutation; only full-state comparison shows the damage", "anchors": ["src/nkobjs.c: nkiVmObjectFindOrAddEntry"]}
{"id": "C16", "title": "External handles keep objects alive and are counted exactly", "statement": "An object with more acquires than releases survives every garbage collection together with everything reachable from it; when the count returns to zero it no longer has that protection; an extra release is reported as an error and has no other effect.", "quantifier": "every history of acquire, release and collection on any objects", "why_tests_cant": "list manipulation at head, middle and tail in any order", "anchors": ["src/nkobjs.c: nkiVmObjectAcquireHandle, nkiVmObjectReleaseHandle", "src/nkgc.c: nkiVmGarbageCollect"]}
{"id": "C17", "title": "The value stack is a bounded LIFO that never leaves its buffer", "statement": "Pushes and pops on a VM stack behave as a mathematical stack while within limits; exceeding the maximum size or popping from empty reports an error; every read and write touches only allocated slots whatever index is used.", "quantifier": "every operation sequence, every configured maximum and every 32-bit peek index", "why_tests_cant": "all growth boundaries and all indices", "anchors": ["src/nkstack.c"]}
{"id": "C18", "title": "Executing arbitrary bytecode is memory safe", "statement": "From any well-formed VM state, executing one instruction of arbitrary (even hostile) bytecode never reads or writes outside the VM's own tables and leaves the VM well-formed; the only undefined arithmetic it can meet is signed 32-bit overflow and out-of-range float-to-int conversion.", "quantifier": "every well-formed VM state, every instruction word, hence every program and every number of steps", "why_tests_cant": "fuzzing samples programs; safety must hold for all of them", "anchors": ["src/nkvm.c: nkiVmIterate", "src/nkopcode.c"]}
{"id": "C19", "title": "Division and modulo never trap", "statement": "Integer / and % by zero, and the most negative integer divided by -1, never execute a trapping machine division: zero divisors report an error, and otherwise the result is the truncating quotient or remainder.", "quantifier": "all pairs of integer operands (and operands converted to integers)", "why_tests_cant": "2^64 operand pairs", "anchors": ["src/nkopcode.c: nkiOpcode_divide, nkiOpcode_modulo"]}
{"id": "C20", "title": "Logical operators follow truthiness", "statement": "a && b is 1 exactly when both operands convert to non-zero integers, a || b is 1 exactly when at least one does, and !a is 1 exactly when a converts to zero, agreeing with what if() tests.", "quantifier": "all pairs of values", "why_tests_cant": "the failing operands (multiples of 256) are sparse", "anchors": ["src/nkopcode.c: nkiOpcode_and, nkiOpcode_or, nkiOpcode_not, nkiOpcode_jz"]}
{"id": "C21", "title": "Calls and returns balance the stack", "statement": "Calling a script function with the right number of arguments and returning replaces exactly the callee and its arguments by the single return value, resumes after the call, and leaves everything beneath untouched.", "quantifier": "every stack content, argument count and local-variable count", "why_tests_cant": "unbounded depth and frame sizes", "anchors": ["src/nkopcode.c: nkiOpcode_call, nkiOpcode_return", "src/nkcompil.c: nkiCompilerEmitReturn"]}
{"id": "C22", "title": "Bad calls are rejected before anything runs", "statement": "Calling a non-callable value, an unknown function, or a function with the wrong number or types of arguments reports an error; no host callback is invoked and no script instruction of the callee is executed.", "quantifier": "all callee values, argument lists and declared signatures", "why_tests_cant": "combinations of types and counts are unbounded", "anchors": ["src/nkopcode.c: nkiOpcode_call"]}
{"id": "C23", "title": "Callable objects insert their data as first argument", "statement": "Calling an object whose _exec field is a function behaves as calling that function with the object's _data (if present and non-nil) inserted before the given arguments, through at most ten levels; longer chains are reported as an error instead of looping.", "quantifier": "all argument lists and chains of callable objects", "why_tests_cant": "stack shifting must be right for every argument count", "anchors": ["src/nkopcode.c: nkiOpcode_call"]}
{"id": "C24", "title": "The instruction limit bounds execution", "statement": "With a remaining-instruction limit L and a collection interval G of at least one, a program executes at most L + G further instructions before it stops with an error, whatever the program does.", "quantifier": "every program, limit and interval setting", "why_tests_cant": "non-terminating programs cannot be run to completion", "anchors": ["src/nkvm.c: nkiVmIterate", "src/nkx.c: nkxSetRemainingInstructionLimit, nkxSetGarbageCollectionInterval"]}
{"id": "C25", "title": "No instruction runs after an error", "statement": "Once an error is recorded, nkxVmExecuteProgram and nkxVmIterate execute no further instruction except possibly the end marker.", "quantifier": "every program and every point at which an error occurs", "why_tests_cant": "the error can occur at any instruction", "anchors": ["src/nkvm.c: nkiVmExecuteProgram", "src/nkx.c: nkxVmIterate"]}
{"id": "C26", "title": "Coroutine resume and yield exchange values faithfully", "statement": "resume(c,v) transfers control into c and v becomes the result of the yield c is waiting in (or is discarded on first entry); the value given to yield (or returned) becomes the result of the resume; each side finds its own stack otherwise exactly as it left it.", "quantifier": "every pair of stacks, every nesting depth, every interleaving of resumes and yields", "why_tests_cant": "interleavings are unbounded", "anchors": ["src/nkopcode.c: nkiOpcode_coroutineResume, nkiOpcode_coroutineYield, nkiOpcode_return", "src/nkcorout.c"]}
{"id": "C27", "title": "A finished or active coroutine cannot be re-entered", "statement": "Resuming a coroutine that is already active (itself or an ancestor) reports an error and enters nothing; resuming one that has finished never re-enters it: the resume just evaluates to nil; is_finished is true exactly for finished coroutines.", "quantifier": "every coroutine graph reachable by any program", "why_tests_cant": "re-entrancy cycles of any length", "anchors": ["src/nkopcode.c: nkiOpcode_coroutineResume, nkiOpcode_coroutineIsFinished", "src/nkcorout.c: nkiVmPushExecutionContext"]}
{"id": "C28", "title": "Garbage collection never frees what is reachable", "statement": "Every object and string reachable from global variables, any active coroutine's stack, the root stack, or an externally held handle survives a collection with the same identifier and identical contents.", "quantifier": "every heap graph (cycles included), every root set, any earlier collection history", "why_tests_cant": "all graphs", "anchors": ["src/nkgc.c", "src/nkcorout.c: nkiCoroutineLibrary_coroutineGCMark"]}
{"id": "C29", "title": "Garbage collection frees everything unreachable", "statement": "Every object and (non-literal) string not reachable from the roots is gone after a collection, its identifier becomes reusable, and nothing else changes.", "quantifier": "every heap graph and root set", "why_tests_cant": "all graphs including cycles", "anchors": ["src/nkgc.c", "src/nkobjs.c: nkiVmObjectTableCleanOldObjects", "src/nkstring.c: nkiVmStringTableCleanOldStrings"]}
{"id": "C30", "title": "Cleanup callbacks run exactly once", "statement": "The host's cleanup callback for an external-data object runs exactly once in the object's life: at the collection that frees it or at VM deletion.", "quantifier": "every history of creations, collections and final deletion", "why_tests_cant": "histories", "anchors": ["src/nkobjs.c: nkiVmObjectTableCleanupObject, nkiVmObjectTableCleanAllObjects"]}
{"id": "C31", "title": "Shrinking a VM preserves program-visible state", "statement": "nkxVmShrink renumbers objects and strings but every global variable, stack slot, object field and handle denotes the same entity as before, and every field can still be looked up.", "quantifier": "every VM state", "why_tests_cant": "renumbering must be applied at every kind of reference; some kinds are rare", "anchors": ["src/nkshrink.c"]}
{"id": "C32", "title": "Tokenizing any script stays inside the text", "statement": "nkxCompilerCompileScript never reads beyond the terminating zero of the script text or writes outside its temporary buffers, for any script.", "quantifier": "all byte strings", "why_tests_cant": "memory errors need specific malformed endings", "anchors": ["src/nktoken.c: nkiCompilerTokenize, nkiCompilerGetPreprocessorTokens, nkiCompilerTokenizerUnescapeString"]}
{"id": "C33", "title": "Tokens partition the script text", "statement": "Tokenization terminates on every script; apart from whitespace, comments, directives and string quoting, the token texts in order are exactly the script's characters, and each identifier, number and operator token is maximal.", "quantifier": "all byte strings", "why_tests_cant": "all inputs", "anchors": ["src/nktoken.c: nkiCompilerTokenize"]}
{"id": "C34", "title": "String literal escapes decode correctly", "statement": "A string literal denotes its characters with \\n, \\r, \\t and \\\" replaced by the control character or quote and any other backslash kept; the decoded text never exceeds the buffer allocated for it; adjacent literals concatenate.", "quantifier": "all literal contents", "why_tests_cant": "all inputs and buffer boundaries", "anchors": ["src/nktoken.c: nkiCompilerTokenizerUnescapeString, nkiCompilerConsolidateStringLiterals"]}
{"id": "C35", "title": "Operator precedence and associativity", "statement": "An infix expression is grouped by the documented precedence levels with equal levels grouping to the left, no operand or operator is dropped, duplicated or reordered, and parenthesized groups stay together.", "quantifier": "all operator/operand sequences and nestings", "why_tests_cant": "unbounded expression shapes", "anchors": ["src/nkexpr.c: nkiCompilerParseExpression, nkiCompilerExpressionReduce, nkiCompilerGetPrecedence"]}
{"id": "C36", "title": "Constant folding preserves meaning", "statement": "Replacing constant arithmetic at compile time never changes the value or the errors a program produces compared with executing the operators at run time.", "quantifier": "all expression trees over integer and float literals", "why_tests_cant": "all trees and literal values; float formatting loses digits only for some values", "anchors": ["src/nkopt.c: nkiCompilerOptimizeConstants"]}
{"id": "C37", "title": "Expression code computes the expression", "statement": "Executing the code emitted for an expression leaves the stack exactly as before plus one value, the value the expression denotes, with operands evaluated left to right and each exactly once.", "quantifier": "all expression trees and VM states", "why_tests_cant": "compiler correctness ranges over all programs", "anchors": ["src/nkexpr.c: nkiCompilerEmitExpression", "src/nkopcode.c", "src/nkvm.c: nkiCompilerStackOffsetTable"]}
{"id": "C38", "title": "Local variables always address their own slot", "statement": "The compiler's running idea of the stack depth equals the real stack depth at every instruction, so each local variable reference reads and writes the slot of that variable.", "quantifier": "all programs and all execution paths", "why_tests_cant": "an off-by-one for one construct corrupts only later references", "anchors": ["src/nkvm.c: nkiCompilerStackOffsetTable", "src/nkexpr.c: nkiCompilerEmitFetchVariable, nkiCompilerExpressionEmitSetVariable", "src/nkfse.c"]}
{"id": "C39", "title": "The nesting limit restricts only nesting", "statement": "A script is rejected for exceeding the compiler's recursion limit only if its constructs are nested that deeply; the number of statements in a script is not limited by it.", "quantifier": "all scripts", "why_tests_cant": "needs unboundedly long scripts", "anchors": ["src/nkcompil.c: nkiCompilerPushRecursion, nkiCompilerPopRecursion, nkiCompilerCompileStatement"]}
{"id": "C40", "title": "Control flow statements branch correctly", "statement": "Code emitted for if/else, while, do-while and for executes the branches and iterations the statement denotes and afterwards continues directly after the statement with the stack depth it had before; break leaves the innermost loop.", "quantifier": "all nestings, all condition values and all iteration counts", "why_tests_cant": "unbounded iteration and nesting", "anchors": ["src/nkcompil.c: nkiCompilerCompileIfStatement, nkiCompilerCompileWhileStatement, nkiCompilerCompileForStatement, nkiCompilerCompileBreakStatement, nkiCompilerModifyJump"]}
{"id": "C41", "title": "Name lookup finds the innermost declaration", "statement": "A name refers to the declaration in the innermost enclosing scope that has one; declarations in closed scopes and in enclosing functions' locals are never found; an undeclared name is an error.", "quantifier": "all nestings of scopes and declarations", "why_tests_cant": "unbounded nestings", "anchors": ["src/nkcompil.c: nkiCompilerLookupVariable, nkiCompilerAddVariable, nkiCompilerPushContext, nkiCompilerPopContext"]}
{"id": "C42", "title": "Increment and decrement operators", "statement": "++x and --x store and yield the changed value; x++ and x-- store the changed value and yield the old one.", "quantifier": "all lvalues and integer contents within range", "why_tests_cant": "all values", "anchors": ["src/nkexpr.c: nkiCompilerExpressionExpandIncrementsAndDecrements"]}
{"id": "C43", "title": "Save and load round-trips the VM", "statement": "Loading what nkxVmSerialize wrote into a fresh VM with the same host registrations yields a VM with the same instructions, globals, stack, objects, strings and functions, so that it continues exactly as the original would.", "quantifier": "all VM states", "why_tests_cant": "all heap graphs and program states", "anchors": ["src/nksave.c: nkiVmSerialize"]}
{"id": "C44", "title": "Loading arbitrary bytes is safe", "statement": "Loading any byte sequence either fails with an error or produces a well-formed VM; it never touches memory outside its tables.", "quantifier": "all byte sequences", "why_tests_cant": "fuzzing samples inputs", "anchors": ["src/nksave.c"]}
{"id": "C45", "title": "Host functions keep their identity across save and load", "statement": "After loading, a host function variable obtained again from the host interface is equal to the one stored in the loaded program state.", "quantifier": "all sets of registered host functions", "why_tests_cant": "the mapping is lost only with two or more host functions", "anchors": ["src/nksave.c: nkiSerializeFunctionTable_inner", "src/nkfunc.c: nkiVmGetOrCreateInternalFunctionForExternalFunction"]}
{"id": "C46", "title": "Error text fits the advertised buffer", "statement": "nkxGetErrorText writes at most nkxGetErrorLength bytes, including the terminator, and contains every recorded message in order, each followed by a newline.", "quantifier": "all error lists and message texts", "why_tests_cant": "all lengths", "anchors": ["src/nkerror.c: nkiGetErrorLength, nkiGetErrorText, nkiAddErrorEx"]}
{"id": "C47", "title": "Run-time positions map to the right source line", "statement": "The file and line reported for an instruction are those of the last source position recorded at or before that instruction.", "quantifier": "all marker tables in compilation order and all instruction addresses", "why_tests_cant": "binary-search style lookups fail only at boundaries", "anchors": ["src/nkvm.c: nkiVmFindSourceMarker", "src/nkcompil.c: nkiCompilerNextToken"]}
{"id": "C48", "title": "Registering by name is idempotent", "statement": "Registering an external function (same name and callback), subsystem or source file again returns the same identifier or entry; registering an external type twice is an error and changes nothing; different names get different identifiers, and identifiers remain valid through later registrations.", "quantifier": "all registration sequences", "why_tests_cant": "sequences are unbounded", "anchors": ["src/nkvm.c: nkiVmRegisterExternalType, nkiVmFindExternalType, nkiFindExternalSubsystemData, nkiVmAddSourceFile", "src/nkfunc.c: nkiVmRegisterExternalFunction, nkiVmGetOrCreateInternalFunctionForExternalFunction"]}
{"id": "C49", "title": "Enumerating objects by external type is exact", "statement": "Repeatedly calling nkxGetNextObjectOfExternalType from index 0 visits every live object of that type exactly once, in increasing identifier order, then returns false.", "quantifier": "all object tables", "why_tests_cant": "all hole patterns", "anchors": ["src/nkx.c: nkxGetNextObjectOfExternalType"]}
{"id": "C50", "title": "After an allocation failure the API is inert", "statement": "Once an allocation failure has occurred, every API call guarded by the failure wrapper returns its failure value without performing its operation, and nested host callbacks unwind to the outermost call.", "quantifier": "all API call sequences after the failure", "why_tests_cant": "all sequences and nesting depths", "anchors": ["src/nkfail.h: NK_SET_FAILURE_RECOVERY", "src/nkx.c"]}
{"id": "C51", "title": "Global variables are found by name", "statement": "After finalizing compilation, nkxVmFindGlobalVariable returns the slot of the global declared with that name and nothing for other names, and distinct globals have distinct slots.", "quantifier": "all sets of global declarations", "why_tests_cant": "all name sets", "anchors": ["src/nkvm.c: nkiVmFindGlobalVariable", "src/nkcompil.c: nkiCompilerGenerateGlobalVariables, nkiCompilerAllocateStaticSpace"]}
{"id": "C52", "title": "Number formatting fits its buffers", "statement": "The decimal text of every integer, unsigned integer and float that the library formats, with its terminator, fits in the fixed-size local array it is printed into.", "quantifier": "all 2^32 integers, unsigned integers and float patterns, including infinities and NaN", "why_tests_cant": "the longest texts are produced by a handful of the 2^32 values", "anchors": ["src/nkdynstr.c: nkiDynStrAppendInt32, nkiDynStrAppendUint32, nkiDynStrAppendFloat", "src/nkopt.c: nkiCompilerOptimizeConstants", "src/nktypes.h: NK_PRINTF_INTCHARSNEED, NK_PRINTF_FLOATCHARSNEEDED"]}
{"id": "C53", "title": "Integer arithmetic is exact", "statement": "+, - and * on an integer and a value convertible to an integer give the exact mathematical result when it fits in 32 bits, and unary minus the exact negation.", "quantifier": "all pairs of operands whose result fits; the others are identified as the only undefined cases", "why_tests_cant": "2^64 operand pairs, all conversions", "anchors": ["src/nkopcode.c: nkiOpcode_add, nkiOpcode_subtract, nkiOpcode_multiply, nkiOpcode_negate"]}
{"id": "C54", "title": "A running program cannot change itself or its limits", "statement": "No instruction and no host function that uses only the object, string, handle and collection API changes the program's instructions, function tables, registrations, table of globals, size of the static area, limits or source positions.", "quantifier": "every program, every such host function, every number of steps", "why_tests_cant": "all programs", "anchors": ["src/nkvm.c: nkiVmIterate", "src/nkopcode.c"]}
{"id": "C55", "title": "Reported errors stay reported", "statement": "Running never removes, changes or reorders an error that was reported; the error count never decreases.", "quantifier": "every program, every such host function, every number of steps", "why_tests_cant": "all programs", "anchors": ["src/nkerror.c: nkiAddErrorEx", "src/nkvm.c: nkiVmIterate"]}
{"id": "C56", "title": "Comparison operators agree on one order", "statement": "<, >, ==, <=, >= and != answer 1 or 0 according to one three-way order of their operands, so exactly one of <, == and > holds and the other three are the matching combinations; the order is numeric for numbers and lexicographic for strings; === also requires equal types.", "quantifier": "all stacks, all operand pairs except a string compared with a non-string", "why_tests_cant": "all operand pairs", "anchors": ["src/nkopcode.c: nkiOpcode_gt, nkiOpcode_lt, nkiOpcode_ge, nkiOpcode_le, nkiOpcode_eq, nkiOpcode_ne, nkiOpcode_eqsametype", "src/nkvalue.c: nkiValueCompare"]}
{"id": "C57", "title": "Variable access reads and writes exactly one slot", "statement": "Reading a global or local pushes the value of that slot and changes nothing else; assigning changes that slot only and leaves the assigned value on the stack; an index that is not an integer is an error.", "quantifier": "all stacks, all indices in range, all values", "why_tests_cant": "all stack depths and slots", "anchors": ["src/nkopcode.c: nkiOpcode_stackPeek, nkiOpcode_stackPoke, nkiOpcode_staticPeek, nkiOpcode_staticPoke"]}
{"id": "C58", "title": "Literals, pops and jumps have their exact effect", "statement": "A literal instruction pushes the following code word with its type and skips it; pop and popn remove exactly that many values; jumps move the instruction pointer by the offset, conditional ones only when the test converts to zero; the end instruction stays in place and reports leftover values.", "quantifier": "all stacks with room, all code words, all offsets", "why_tests_cant": "all states", "anchors": ["src/nkopcode.c: nkiOpcode_pushLiteral_int, nkiOpcode_pop, nkiOpcode_popN, nkiOpcode_jumpRelative, nkiOpcode_jz, nkiOpcode_end, nkiOpcode_pushNil"]}
{"id": "C59", "title": "String concatenation", "statement": "Adding a string, integer or float to a string pushes the string whose text is the left text followed by the right operand's text; all existing strings keep their identifiers and texts.", "quantifier": "all VM histories with room for two more strings, all texts and numbers", "why_tests_cant": "all texts", "anchors": ["src/nkopcode.c: nkiOpcode_add", "src/nkstack.c: nkiVmStackPushString", "src/nkvalue.c: nkiValueToString"]}
{"id": "C60", "title": "Compilation terminates", "statement": "Compiling any script returns: the recursive-descent parser and code generator stop after a number of nested calls at most linear in the length of the script, whatever its bytes, whether it is well formed or not.", "quantifier": "all scripts (zero-free byte strings), all compiler states with a live execution context", "why_tests_cant": "all inputs, including malformed ones", "anchors": ["src/nkcompil.c: nkiCompilerCompileScript, nkiCompilerCompileBlock, nkiCompilerCompileStatement", "src/nkexpr.c: nkiCompilerParseExpression"]}
{"id": "C61", "title": "A file that is not whole is refused", "statement": "A file written by nkxVmSerialize and cut off anywhere cannot be loaded: nkxVmSerialize for reading does not return true for any proper beginning of it. A file that does not start with the format marker and the version number is refused too, and then nothing in the VM changes but the list of errors.", "quantifier": "all saved machines, all points at which the file may be cut off (a crash while writing), all byte sequences with another start", "why_tests_cant": "all crash points of all files", "anchors": ["src/nksave.c: nkiVmSerialize and every nkiSerialize* function"]}
{"id": "C62", "title": "Functions of a script called by the host", "statement": "nkxVmCallFunction with a function of a script that was compiled without errors and any arguments: if the function's body, run by the rules of the language, returns a value, then the call returns that value without an error, variables and objects are changed as the body says, and the operand stack and the position in the program are what they were, so the host can go on calling. A host function called this way gets the arguments and its result is returned. A call of something that is not a function, or with wrong arguments, reports an error and executes nothing.", "quantifier": "all scripts, all their functions, all arguments, all memories, anything on the operand stack, any number of calls one after the other", "why_tests_cant": "all programs and all histories of calls", "anchors": ["src/nkx.c: nkxVmCallFunction", "src/nkfunc.c: nkiVmCallFunction", "src/nkopcode.c: nkiOpcode_call, nkiOpcode_return"]}
{"id": "C63", "title": "A script has one meaning", "statement": "The rules of the language give a text that they accept one reading: operators are grouped by precedence and from the left, an else belongs to the nearest if, a word that begins a statement does not begin an expression. Executed from the same memory, that reading ends in one way with one memory. So what the documentation of the language says about a script is what the machine does with it, whichever way the reader arrived at the reading.", "quantifier": "all texts, all readings of them, all memories, all executions", "why_tests_cant": "a statement about all pairs of readings of all texts and all pairs of executions", "anchors": ["src/nkexpr.c: nkiCompilerParseExpression", "src/nkcompil.c: nkiCompilerCompileStatement, nkiCompilerCompileIfStatement"]}
{"id": "C64", "title": "Running a program in slices", "statement": "A host that runs a program with nkxVmIterate, any number of instructions at a time, until nkxVmProgramHasEnded or nkxVmHasErrors says to stop, gets what nkxVmExecuteProgram gives it: the same end with the same variables and objects, or the same error. Slices that leave the program running have executed exactly the instructions they were given. Asking whether the program has ended changes nothing.", "quantifier": "all programs, all divisions into slices, all host functions written against the API", "why_tests_cant": "all programs and all ways to divide an execution of any length", "anchors": ["src/nkx.c: nkxVmIterate, nkxVmProgramHasEnded", "src/nkvm.c: nkiVmExecuteProgram, nkiVmIterate", "src/nkopcode.c: nkiOpcode_end"]}
{"id": "C65", "title": "A script that fails leaves what it did before", "statement": "When a script does something that is an error (divides by zero, adds to something that is no number, takes a field of something that is no object, calls something that is no function or with the wrong number of arguments), wherever that happens, execution stops there with an error: it never ends normally. Everything the script did before that point has happened and nothing after it: the host finds in the globals, and in the objects it can reach from them, exactly the values of the moment of the error, and the program and its names are intact.", "quantifier": "all scripts, all points of failure at any depth of calls, loops and blocks, all contents of the globals", "why_tests_cant": "all scripts and all executions that lead to an error, of any length", "anchors": ["src/nkvm.c: nkiVmExecuteProgram", "src/nkopcode.c: nkiOpcode_divide, nkiOpcode_modulo, nkiOpcode_add, nkiOpcode_objectFieldGet, nkiOpcode_call, nkiOpcode_len", "src/nkerror.c: nkiAddError"]}
{"id": "C66", "title": "A program can be compiled and run piece by piece", "statement": "A host that compiles a script, makes it runnable with nkxCompilerPartiallyFinalize, runs it and then compiles the next script with the same compiler gets, for every sequence of scripts, what the language rules say: each script can use the variables, functions and objects of the ones before, it starts from the values they left, it runs only its own statements, and after it every global of every script so far is found under its name with its value. The host may call functions of earlier scripts in between, with the same effect as if a script had called them.", "quantifier": "all sequences of scripts and host calls, of any length; all contents of the globals", "why_tests_cant": "all sequences of scripts of any length, each with any number of statements, and all states the earlier ones can leave", "anchors": ["src/nkx.c: nkxCompilerCompileScript, nkxCompilerPartiallyFinalize, nkxVmExecuteProgram, nkxVmCallFunction", "src/nkcompil.c: nkiCompilerCompileScript, nkiCompilerPartiallyFinalize, nkiCompilerGenerateGlobalVariables, nkiCompilerAddInstruction", "src/nkvm.c: nkiVmExecuteProgram"]}
{"id": "C67", "title": "Float arithmetic is correctly rounded", "statement": "For every two floats, +, -, * and / in a script give the single precision number nearest to the exact mathematical result, the even one when two are equally near, with the right sign; results too large become infinite, and infinities, zeros and not-a-number behave as IEEE 754 says. Negation changes the sign and nothing else, and comparisons of finite floats are the comparisons of the numbers.", "quantifier": "all pairs of 32-bit patterns, all contents of the stack below them", "why_tests_cant": "2^64 pairs of operands for each operator", "anchors": ["src/nkopcode.c: nkiOpcode_add, nkiOpcode_subtract, nkiOpcode_multiply, nkiOpcode_divide, nkiOpcode_negate", "src/nkvalue.c: nkiValueCompare"]}
{"id": "C68", "title": "Floats, integers and texts convert into each other faithfully", "statement": "An integer converts to the nearest float, and exactly if it has at most 24 significant bits, in which case it converts back to itself. A float converts to its integer part. The text of a float is its sign, its whole part without leading zeros, a point and six digits that are within half a millionth of it. A text that denotes a single precision number reads as that number, so every float that six decimals suffice for survives being written as text and read again.", "quantifier": "all integers, all finite floats, all decimal texts of any length", "why_tests_cant": "2^32 integers, 2^32 floats and unboundedly long texts", "anchors": ["src/nkvalue.c: nkiValueToInt, nkiValueToFloat, nkiValueToString", "src/nkx.c: nkxValueToInt, nkxValueToFloat, nkxValueToString"]}
{"id": "C69", "title": "Host functions get the arguments they ask for", "statement": "A host function set up with nkxVmSetupExternalFunction is called with exactly the argument lists its declaration describes: the declared number of arguments, each of the declared type (nil: anything), and an object only if it exists and has the declared external type; other calls are rejected with an error without running the callback, and setting up one function changes nothing about the others. Inside a callback, nkxFunctionCallbackCheckArgCount and nkxFunctionCallbackCheckArguments are true exactly when number and types are as asked for, and otherwise report one error, about the first argument that is wrong; nkxFunctionCallbackGetExternalDataArgument gives data only for an existing object of the given external type, and an error and NULL for everything else; nkxGetExternalSubsystemDataOrError gives NULL only with an error. None of them changes anything but the list of errors.", "quantifier": "all machines, all declarations and argument lists of any length, all objects and external types", "why_tests_cant": "all combinations of argument lists and declarations of any length, and all states of the object table", "anchors": ["src/nkx.c: nkxVmSetupExternalFunction, nkxFunctionCallbackCheckArgCount, nkxFunctionCallbackCheckArguments, nkxFunctionCallbackGetExternalDataArgument, nkxGetExternalSubsystemDataOrError", "src/nkopcode.c: nkiOpcode_call", "src/nkvalue.c: nkiValueGetTypeNameOfValue"]}
{"id": "C70", "title": "Setting up a host function writes only to its own memory", "statement": "nkxVmSetupExternalFunction, called any number of times for the same function with any declarations, writes the declarations only into memory allocated for them, whichever of its allocations fail.", "quantifier": "all sequences of set-ups of one function, all declarations of any length, all choices of failing allocations", "why_tests_cant": "all sequences of set-ups and all points at which memory can run out", "anchors": ["src/nkx.c: nkxVmSetupExternalFunction, nkiSetupExternalFunction_addArgs", "src/nkfunc.h: struct NKVMExternalFunction"]}
{"id": "C71", "title": "C string helpers and growing strings respect their buffers", "statement": "The string functions the interpreter uses in place of the C library's (length, copy, bounded copy, concatenation, comparison, filling and copying of bytes), the growing strings behind string sums and error messages, the joining of adjacent string literals and the helpers that lay out listings give the texts they promise for all strings, and read and write only inside the buffers they are given. A growing string is the exact concatenation of its parts or is refused for want of memory; it is never cut silently.", "quantifier": "all strings and buffers of any length and content, all sizes, all behaviours of the host's allocator", "why_tests_cant": "unboundedly many lengths, including those at the 32-bit limit, and all contents of fresh memory", "anchors": ["src/nkstring.c: nkiStrlen, nkiStrcmp, nkiStrcat, nkiStrcpy, nkiStrcpy_s, nkiMemset, nkiMemcpy, nkiMemcmp", "src/nkdynstr.c: nkiDynStrCreate, nkiDynStrAppend", "src/nkmem.c: nkiStrdup", "src/nktoken.c: nkiCompilerConsolidateStringLiterals", "src/nkdbg.c: nkiDbgAppendEscaped, nkiDbgAppendLine, nkiDbgPadLine, nkiDbgCountLines"]}
{"id": "C72", "title": "An interactive session survives errors", "statement": "After a script failed to compile or to run - in the main program, in a function or inside coroutines resumed by others - nkxCompilerClearReplErrorState with the write index from before the script leaves a session that goes on as if the script had stopped at the failing statement: no errors, the main program current with an empty stack and at the place where the next script goes, globals, objects and earlier functions unchanged, coroutines that were active no longer resumable; the scripts that follow do what they should, however many errors there have been.", "quantifier": "all machines and places an error can occur, all sequences of scripts before and after, any number of errors", "why_tests_cant": "unboundedly many histories of scripts and errors, and errors at every depth of calls and coroutines", "anchors": ["src/nkcompil.c: nkiCompilerClearReplErrorState", "src/nkx.c: nkxCompilerClearReplErrorState", "src/nkvm.c: nkiVmInitExecutionContext, nkiVmDeinitExecutionContext", "src/interp/main.c: main"]}
{"id": "C73", "title": "Compiling disturbs nothing that is there already", "statement": "nkxCompilerCompileScript works inside the machine the program lives in. Whatever scripts are compiled, one after the other and each accepted or rejected at any point, everything that was there before is still there afterwards: global variables with their values, strings, functions, the code of earlier scripts as the machine reads it, source positions, objects with their handles and host data, host functions and types, limits and collector settings, and every execution context with its stack and position; errors are only added. If the host then clears the error state, the main program starts over where the rejected script began and finds all of this. The compiler itself is ready for the next script either way, with only the global scope open, so this goes on through any number of turns of an interactive session.", "quantifier": "all machines between two scripts (running coroutines included), all sequences of scripts, all texts and all points at which one is rejected", "why_tests_cant": "unboundedly many texts, rejection at any depth of nesting, and growth of the code and variable storage at any point", "anchors": ["src/nkcompil.c: nkiCompilerCompileScript, nkiCompilerAddInstruction, nkiCompilerModifyJump, nkiCompilerAllocateStaticSpace, nkiCompilerCompileFunctionDefinition, nkiCompilerCompileBreakStatement, nkiCompilerFixupBreakJumpForContext", "src/nktoken.c: nkiCompilerTokenize", "src/nkx.c: nkxCompilerCompileScript"]}
