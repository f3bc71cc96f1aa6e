{"id": "C01", "title": "Dynamic array behaves as a list", "statement": "Starting from buzzdarray_new(cap>0) and applying any sequence of push, pop, insert, set, remove, clear and clone with positions inside the documented range, the observable contents (size, every get, foreach order) are exactly those of a plain list on which the same operations were performed; the array never reads or writes outside its allocated storage and size never exceeds capacity, as long as the storage stays below 4 GiB.", "quantifier": "all initial capacities, all element values, all finite operation histories", "why_tests_cant": "growth, shrink and shift boundaries depend on the whole history of sizes and capacities; tests sample a few", "anchors": ["src/buzz/buzzdarray.c: buzzdarray_new, makeslot, insert, remove, clear, set, clone", "src/buzz/buzzdarray.h: get, push, pop"]}
{"id": "C02", "title": "Out-of-range set leaves the array unchanged", "statement": "As documented in buzzdarray.h, buzzdarray_set() at a position that is not inside the array does not set the value: the array keeps its size and contents.", "quantifier": "all arrays and all positions >= size", "why_tests_cant": "needs all positions; the interesting ones are past the end", "anchors": ["src/buzz/buzzdarray.h: buzzdarray_set doc", "src/buzz/buzzdarray.c: buzzdarray_set, buzzdarray_insert"]}
{"id": "C03", "title": "Sorting is correct for every comparator that is a total preorder", "statement": "buzzdarray_sort() terminates, returns a permutation of the original elements, ordered according to the comparator, touching only valid positions.", "quantifier": "all arrays and all comparators that are total preorders", "why_tests_cant": "adversarial inputs for quicksort partitions cannot be enumerated", "anchors": ["src/buzz/buzzdarray.c: buzzdarray_part, buzzdarray_qsort, buzzdarray_sort"]}
{"id": "C04", "title": "Find returns the first match", "statement": "buzzdarray_find() returns the smallest position whose element compares equal to the given data, and the array size exactly when there is none.", "quantifier": "all arrays, elements and comparators", "why_tests_cant": "universally quantified over comparators and arrays", "anchors": ["src/buzz/buzzdarray.c: buzzdarray_find"]}
{"id": "C05", "title": "Dictionary behaves as a finite map", "statement": "For any comparator whose zero set is an equivalence and any hash that respects it, after any history of set/remove/get/size/foreach the dictionary answers as a finite map would: get returns the last value set for the key and not removed since, remove reports whether the key was present, size is the number of distinct keys, foreach visits every live entry exactly once.", "quantifier": "all hash functions, comparators, bucket counts > 0 and all finite histories", "why_tests_cant": "collisions and histories are unbounded", "anchors": ["src/buzz/buzzdict.c: buzzdict_set, buzzdict_rawget, buzzdict_remove, buzzdict_foreach"]}
{"id": "C06", "title": "Dictionary entries are released exactly once", "statement": "Every (key,data) entry handed to a dictionary is passed to the destructor exactly once over the lifetime of the dictionary (on replacement, removal or destruction) and never while it is still reachable through get or foreach.", "quantifier": "all histories ending in destroy", "why_tests_cant": "ownership is a property of whole histories", "anchors": ["src/buzz/buzzdict.c: buzzdict_set, buzzdict_remove, buzzdict_destroy"]}
{"id": "C07", "title": "Ordered set behaves as a mathematical set", "statement": "After any history of insert and remove, buzzset membership, size and foreach agree with the mathematical set of elements (foreach visits each element exactly once).", "quantifier": "all comparators that are total orders, all histories", "why_tests_cant": "tree shapes depend on the history", "anchors": ["src/buzz/buzzset.c: buzzset_insert, buzzset_remove, buzzset_find, buzzset_foreach"]}
{"id": "C08", "title": "String ids are unique and stable", "statement": "Registering a string and then asking for its id returns that string; two live strings never share an id; registering a live string again returns the same id; nothing short of garbage collection changes the id of a string.", "quantifier": "all histories of register/get/gc in which fewer than 65534 strings are live before each registration (the proof found that with 65534 live strings ids can collide)", "why_tests_cant": "id reuse after wrap-around requires tens of thousands of registrations interleaved with collections", "anchors": ["src/buzz/buzzstrman.c: buzzstrman_register, buzzstrman_get"]}
{"id": "C09", "title": "String garbage collection is exact", "statement": "After gc_clear, any sequence of gc_mark calls and gc_prune, the surviving strings are exactly the protected ones and the marked ones; their ids are unchanged.", "quantifier": "all string managers and all sequences of marks", "why_tests_cant": "the set of marks and the tree of candidates are unbounded", "anchors": ["src/buzz/buzzstrman.c: buzzidtree_insert, buzzidtree_remove, buzzstrman_gc_clear, gc_mark, gc_prune"]}
{"id": "C10", "title": "Registering a string always terminates", "statement": "buzzstrman_register() returns for every string and every string manager state.", "quantifier": "all reachable string-manager states", "why_tests_cant": "needs states with 65536 live strings", "anchors": ["src/buzz/buzzstrman.c: buzzstrman_register 207-223"]}
{"id": "C11", "title": "Integer wire encoding round-trips and is self-delimiting", "statement": "For u8, u16 and u32 and for every payload and position, decoding what was encoded returns the value and the position just after it, independent of the bytes before and after.", "quantifier": "all values, all prefixes and suffixes, little-endian hosts", "why_tests_cant": "2^32 values times arbitrary context", "anchors": ["src/buzz/buzzmsg.c: buzzmsg_serialize_u8/u16/u32, buzzmsg_deserialize_u8/u16/u32"]}
{"id": "C12", "title": "Float wire encoding preserves every finite float", "statement": "Serializing and deserializing any finite 32-bit float returns the numerically same float (zero, normal and subnormal).", "quantifier": "all finite floats", "why_tests_cant": "2^32 bit patterns; depends on rounding of intermediate float operations", "anchors": ["src/buzz/buzzmsg.c: buzzmsg_serialize_float, buzzmsg_deserialize_float"]}
{"id": "C13", "title": "String wire encoding round-trips", "statement": "Serializing a string and deserializing the result returns the same string and the position just after it.", "quantifier": "all strings", "why_tests_cant": "length field is 16 bits wide; needs all lengths", "anchors": ["src/buzz/buzzmsg.c: buzzmsg_serialize_string, buzzmsg_deserialize_string"]}
{"id": "C14", "title": "Decoders never read outside the message", "statement": "Whatever bytes a message contains and whatever start position, the primitive decoders either report -1 or return a position that lies after the start and not past the end, having read only bytes inside the message.", "quantifier": "all byte strings and positions", "why_tests_cant": "attacker-controlled input space", "anchors": ["src/buzz/buzzmsg.c: buzzmsg_deserialize_*"]}
{"id": "C15", "title": "Object wire encoding round-trips", "statement": "Serializing a nil, int, float, string, or (nested) table object and deserializing it at another robot yields an equal object and consumes exactly the bytes produced.", "quantifier": "all serialisable objects of any nesting depth", "why_tests_cant": "objects are recursive and unbounded", "anchors": ["src/buzz/buzztype.c: buzzobj_serialize, buzzobj_deserialize"]}
{"id": "C16", "title": "Object decoding is total on arbitrary bytes", "statement": "buzzobj_deserialize() applied to arbitrary bytes terminates and either fails with -1 or returns an object and an in-range position; it never aborts the process or reads outside the message.", "quantifier": "all byte strings", "why_tests_cant": "attacker-controlled input space", "anchors": ["src/buzz/buzztype.c: buzzobj_deserialize, buzzobj_deserialize_table"]}
{"id": "C17", "title": "Object comparison is a total order inside each comparable class", "statement": "buzzobj_cmp() is reflexive, antisymmetric and transitive on ints, on non-NaN floats and on strings, and agrees with numeric / lexicographic order; nil equals only nil.", "quantifier": "all objects", "why_tests_cant": "triples of values", "anchors": ["src/buzz/buzztype.c: buzzobj_cmp"]}
{"id": "C18", "title": "Equal table keys address the same slot", "statement": "If two objects compare equal with buzzobj_cmp() they address the same table slot (hash consistently), so table reads see table writes through any equal key.", "quantifier": "all pairs of key objects", "why_tests_cant": "pairs of values of different types", "anchors": ["src/buzz/buzztype.c: buzzobj_table_hash, buzzobj_cmp", "src/buzz/buzzvm.c: buzzvm_tput, buzzvm_tget"]}
{"id": "C19", "title": "Garbage collection keeps exactly the reachable objects", "statement": "After a collection the heap contains exactly the objects reachable from the roots (globals, stacks, locals, stigmergies, listeners, out-queue): nothing reachable is freed, nothing unreachable is kept, cycles included, no matter how many collections ran before.", "quantifier": "all object graphs, all roots, any number of previous collections (16-bit marker wrap-around included)", "why_tests_cant": "graph shapes and marker wrap need unbounded histories", "anchors": ["src/buzz/buzzheap.c: buzzheap_gc, buzzheap_obj_mark, buzzheap_newobj"]}
{"id": "C20", "title": "Cloning an object yields an equal, independent copy", "statement": "clone() of any acyclic object graph is structurally equal to the original and shares no table with it, so later writes to one are not visible in the other.", "quantifier": "all acyclic heaps", "why_tests_cant": "nesting depth and sharing unbounded", "anchors": ["src/buzz/buzzheap.c: buzzheap_clone"]}
{"id": "C21", "title": "Incoming messages are processed exactly once", "statement": "Every payload appended to the in-queue is extracted exactly once, attributed to the robot that sent it, and nothing else is extracted.", "quantifier": "all interleavings of append and extract", "why_tests_cant": "interleavings", "anchors": ["src/buzz/buzzinmsg.c: buzzinmsg_queue_append, buzzinmsg_queue_extract"]}
{"id": "C22", "title": "Messages of one robot are processed in arrival order", "statement": "As documented (FIFO), payloads received from one robot are extracted in the order in which they were appended.", "quantifier": "all sequences of appends from one robot", "why_tests_cant": "order property over histories", "anchors": ["src/buzz/buzzinmsg.c: buzzinmsg_queue_extract", "src/buzz/buzzinmsg.h"]}
{"id": "C23", "title": "Outgoing messages leave by priority, FIFO inside a type", "statement": "Draining the out-queue with first/next yields every queued message exactly once, all broadcasts before swarm lists before stigmergy puts before queries before joins before leaves, and within one type in the order of append.", "quantifier": "all append histories", "why_tests_cant": "histories", "anchors": ["src/buzz/buzzoutmsg.c: buzzoutmsg_queue_first, buzzoutmsg_queue_next, buzzoutmsg_queue_size"]}
{"id": "C24", "title": "Queued swarm announcements are never redundant or contradictory", "statement": "At any time the out-queue holds at most one swarm list, holds no join/leave next to a list, no swarm id is queued twice for join or for leave, and no id is queued both for join and leave.", "quantifier": "all histories of join/leave/list announcements and sends", "why_tests_cant": "histories", "anchors": ["src/buzz/buzzoutmsg.c: append_swarm_list, append_swarm_joinleave, append_to_swarm_queue, remove_from_swarm_queue"]}
{"id": "C25", "title": "Delivered swarm announcements reconstruct the sender's last announced membership", "statement": "A receiver that applies the queued swarm messages of a sender, in the order they are sent, ends up with the membership that results from the announcements made by the sender in order.", "quantifier": "all announcement histories", "why_tests_cant": "histories", "anchors": ["src/buzz/buzzoutmsg.c", "src/buzz/buzzvm.c: buzzvm_process_inmsgs SWARM cases"]}
{"id": "C26", "title": "At most one pending stigmergy message per key, and it is the newest", "statement": "For each (stigmergy, key) the out-queue contains at most one put/query message, and it carries the largest timestamp among the ones appended since the last one was sent (the first appended wins among equals).", "quantifier": "all append/send histories", "why_tests_cant": "histories", "anchors": ["src/buzz/buzzoutmsg.c: buzzoutmsg_queue_append_vstig, buzzoutmsg_queue_next"]}
{"id": "C27", "title": "Virtual stigmergy: a local put is visible to the next local get", "statement": "After put(k,v) with v non-nil the next local get(k) returns v, other keys are unaffected, and the entry's timestamp strictly increases (below the 16-bit limit); put(k,nil) deletes k.", "quantifier": "all stores and keys", "why_tests_cant": "histories", "anchors": ["src/buzz/buzzvstig.c: buzzvstig_put, buzzvstig_get"]}
{"id": "C28", "title": "Virtual stigmergy: received updates never replace newer data by older data", "statement": "Processing any sequence of received PUT/QUERY messages never lowers the timestamp stored for any key, and an entry changes only to one carried by a message with a larger timestamp or by a conflict resolution at the same timestamp.", "quantifier": "all stores, all message sequences", "why_tests_cant": "message orders", "anchors": ["src/buzz/buzzvm.c: buzzvm_process_inmsgs VSTIG_PUT, VSTIG_QUERY"]}
{"id": "C29", "title": "Virtual stigmergy: replicas converge", "statement": "Robots that start from the same store and receive the same set of PUT messages, in any order and with any duplication, store the same value for every key (default conflict resolution).", "quantifier": "all message multisets, all permutations and duplications, any number of robots", "why_tests_cant": "schedules are factorial in number", "anchors": ["src/buzz/buzzvm.c: buzzvm_process_inmsgs", "src/buzz/buzzvstig.c: buzzvstig_onconflict_call"]}
{"id": "C30", "title": "Virtual stigmergy: default conflict resolution is symmetric", "statement": "Two robots that detect the same write conflict from opposite sides pick the same winner.", "quantifier": "all pairs of conflicting entries", "why_tests_cant": "pairs of entries", "anchors": ["src/buzz/buzzvstig.c: buzzvstig_onconflict_call"]}
{"id": "C31", "title": "Virtual stigmergy: deletion propagates and sticks", "statement": "A key deleted with put(k,nil) does not reappear because of messages that were sent before the deletion.", "quantifier": "all message delays", "why_tests_cant": "delayed messages", "anchors": ["src/buzz/buzzvstig.c: buzzvstig_put", "src/buzz/buzzvm.c: VSTIG_PUT"]}
{"id": "C32", "title": "Swarm membership of the robot itself", "statement": "s.join(), s.leave(), s.select(c) and s.in() behave as a set of swarm ids: in() is true iff the last of join/leave/select(true/false) for this swarm made the robot a member.", "quantifier": "all histories", "why_tests_cant": "histories", "anchors": ["src/buzz/buzzswarm.c: buzzswarm_join, leave, in, select"]}
{"id": "C33", "title": "Swarm algebra computes set operations on membership", "statement": "swarm.union / intersection / difference / others create a swarm whose membership on this robot is the boolean combination of the memberships in the operands.", "quantifier": "all memberships", "why_tests_cant": "all combinations and histories", "anchors": ["src/buzz/buzzswarm.c: buzzswarm_union, intersection, difference, others"]}
{"id": "C34", "title": "Knowledge about other robots' swarms follows their messages and expires", "statement": "isrobotin(r,s) is true iff, according to the list/join/leave messages received from r, r is in s, and r has been heard from within the last 50 updates; a robot silent for longer is forgotten.", "quantifier": "all message and update sequences", "why_tests_cant": "histories", "anchors": ["src/buzz/buzzswarm.c: buzzswarm_members_join, leave, refresh, isrobotin, update"]}
{"id": "C35", "title": "kin and nonkin partition the neighbors", "statement": "neighbors.kin() and neighbors.nonkin() return disjoint subsets of the neighbors whose union is all neighbors, kin containing exactly those known to be in the current swarm.", "quantifier": "all neighbor tables and membership tables", "why_tests_cant": "all tables", "anchors": ["src/buzz/buzzneighbors.c: buzzneighbors_kin, buzzneighbors_nonkin"]}
{"id": "C36", "title": "Bytecode execution never fetches outside the bytecode", "statement": "buzzvm_step() either executes an instruction that lies entirely inside the bytecode or reports a PC/instruction error; opcode and argument bytes are always read within bounds.", "quantifier": "all bytecodes, all VM states", "why_tests_cant": "all byte strings", "anchors": ["src/buzz/buzzvm.c: buzzvm_step, inc_pc/get_arg/assert_pc"]}
{"id": "C37", "title": "A stopped VM stays stopped", "statement": "Once the VM state is DONE, ERROR or STOPPED, stepping it changes nothing until the state is reset from outside.", "quantifier": "all VM states", "why_tests_cant": "all states", "anchors": ["src/buzz/buzzvm.c: buzzvm_step"]}
{"id": "C38", "title": "Integer arithmetic and comparison are 32-bit machine arithmetic", "statement": "add/sub/mul/div/mod/unm/band/bor/bnot on ints compute the mathematical result when it fits in 32 bits; mod yields a result with the sign of the divisor; comparisons return 1/0 according to the mathematical order; every operand pair either gives a value, a type error, or is one of the listed undefined cases (overflow, division by zero).", "quantifier": "all pairs of 32-bit ints", "why_tests_cant": "2^64 pairs", "anchors": ["src/buzz/buzzvm.c: buzzvm_binary_op_arith, buzzvm_mod, buzzvm_unm, buzzvm_binary_op_cmp"]}
{"id": "C39", "title": "Failed checks leave an error, never a wrong value", "statement": "An instruction whose operands are missing or of the wrong type puts the VM in the ERROR state with the documented error code (STACK, TYPE, LNUM, FLIST, PC, INSTR) and pushes no result.", "quantifier": "all instructions, all stacks", "why_tests_cant": "all stack contents", "anchors": ["src/buzz/buzzvm.c", "src/buzz/buzzvm.h: buzzvm_stack_assert, buzzvm_type_assert"]}
{"id": "C40", "title": "Calls and returns are balanced", "statement": "Calling a native closure and returning from it with ret0/ret1 restores the caller's operand stack (minus closure, self and arguments, plus one return value), its local variables and its program counter, whatever the callee did in its own frame.", "quantifier": "all callee programs (any number of steps, any nesting of calls)", "why_tests_cant": "unbounded executions", "anchors": ["src/buzz/buzzvm.c: buzzvm_call, buzzvm_ret0, buzzvm_ret1"]}
{"id": "C41", "title": "Table writes are visible to reads through aliases and nowhere else", "statement": "After tput(t,k,v) reading t[k] through any alias of t gives v (nil erases), and no other key and no other table changes.", "quantifier": "all heaps, keys and values", "why_tests_cant": "aliasing patterns", "anchors": ["src/buzz/buzzvm.c: buzzvm_tput, buzzvm_tget"]}
{"id": "C42", "title": "Variables hold the last value stored", "statement": "lload(i) gives the last value stored by lstore(i) in the same frame and gload(s) the last gstore(s), nil if never stored; stores to different names do not interfere.", "quantifier": "all programs", "why_tests_cant": "histories", "anchors": ["src/buzz/buzzvm.c: buzzvm_lload, lstore, gload, gstore"]}
{"id": "C43", "title": "Conditional jumps follow Buzz truthiness", "statement": "jumpz jumps exactly when the popped value is nil or integer 0; jumpnz exactly when it is neither; land/lor/lnot use the same notion of truth.", "quantifier": "all values", "why_tests_cant": "all values", "anchors": ["src/buzz/buzzvm.c: buzzvm_step JUMPZ/JUMPNZ, buzzvm_binary_op_logic, buzzvm_lnot"]}
{"id": "C44", "title": "Assembling then disassembling gives back the instructions", "statement": "For every sequence of instructions, the bytecode emitted by the assembler is decoded by the VM fetch and by the disassembler as that same sequence with the same operands.", "quantifier": "all instruction sequences", "why_tests_cant": "unbounded programs", "anchors": ["src/buzz/buzzasm.c: buzz_asm, buzz_instruction_deasm", "src/buzz/buzzvm.c: buzzvm_step"]}
{"id": "C45", "title": "Labels resolve to the instruction that follows them", "statement": "In the assembler output every label operand is replaced by the byte offset of the instruction following the label's definition, for forward and backward references alike; undefined and duplicate labels are reported.", "quantifier": "all programs with labels", "why_tests_cant": "unbounded programs", "anchors": ["src/buzz/buzzasm.c: label handling"]}
{"id": "C46", "title": "Loading bytecode gives the i-th string id i", "statement": "After buzzvm_set_bcode() on a fresh VM the strings stored in the bytecode are registered in order, so pushs i pushes the i-th string of the table.", "quantifier": "all string tables", "why_tests_cant": "unbounded tables", "anchors": ["src/buzz/buzzvm.c: buzzvm_set_bcode"]}
{"id": "C47", "title": "Substring extraction is safe and correct", "statement": "string.sub(s,n,m) returns the characters n..m-1 of s (m clipped to the length), nil when the range is invalid, without reading outside s.", "quantifier": "all strings and all integer bounds", "why_tests_cant": "all bounds including negative ones", "anchors": ["src/buzz/buzzstring.c: buzzstring_sub"]}
{"id": "C48", "title": "Debug map returns what was recorded, smallest offset per line", "statement": "After recording debug entries, looking up an offset returns the last entry recorded for it, and looking up a script position returns the smallest bytecode offset recorded for that position.", "quantifier": "all sequences of records", "why_tests_cant": "histories", "anchors": ["src/buzz/buzzdebug.c: buzzdebug_info_set"]}
{"id": "C49", "title": "Breakpoints behave as a set and continue makes progress", "statement": "Setting/removing breakpoints behaves as a set of offsets; continue executes until the next breakpoint and makes progress when the VM is already on a breakpoint.", "quantifier": "all breakpoint sets and VM positions", "why_tests_cant": "histories", "anchors": ["src/buzz/buzzdebug.c: buzzdebug_breakpoint_*, buzzdebug_continue"]}
{"id": "C50", "title": "Table iteration functions see every entry exactly once", "statement": "foreach, map, filter and reduce on a table call the function once per entry; map returns the table of non-nil results under the same keys, filter the entries whose result is true, reduce the left fold of the function.", "quantifier": "all tables and all functions", "why_tests_cant": "all functions", "anchors": ["src/buzz/buzztype.c: buzzobj_foreach, buzzobj_map, buzzobj_reduce, buzzobj_filter"]}
{"id": "C51", "title": "Integer random numbers stay in the requested range", "statement": "math.rng.uniform(a) and uniform(a,b) on ints return an int in [0,a] resp. [a,b], and setting the same seed reproduces the same sequence.", "quantifier": "all generator states and all bounds", "why_tests_cant": "2^32 outputs times all bounds", "anchors": ["src/buzz/buzzmath.c: mt_setseed, mt_uniform32, buzzmath_rng_uniform"]}
{"id": "C52", "title": "Compiled expressions compute the value of the source expression", "statement": "For every arithmetic/logic expression over constants and variables accepted by the compiler, running the emitted code pushes exactly the value given by the language's precedence and associativity rules and leaves the rest of the stack unchanged.", "quantifier": "all expressions, all variable environments", "why_tests_cant": "expressions are recursive and unbounded", "anchors": ["src/buzz/buzzparser.c: parse_condition .. parse_operand"]}
{"id": "C53", "title": "Control flow is compiled faithfully", "statement": "The code emitted for if/else, while and for executes the branches/iterations that the source semantics prescribes and leaves the operand stack as it found it.", "quantifier": "all programs, all iteration counts", "why_tests_cant": "unbounded loops", "anchors": ["src/buzz/buzzparser.c: parse_if, parse_while, parse_for"]}
{"id": "C54", "title": "Lexing always makes progress and loses no text", "statement": "Tokenizing any source text terminates, every token starts where the previous one ended up to whitespace and comments, and line numbers count the newlines before the token.", "quantifier": "all source texts", "why_tests_cant": "unbounded inputs", "anchors": ["src/buzz/buzzlex.c: buzzlex_nexttok"]}
{"id": "C55", "title": "A listener is called once per matching broadcast with the sender's data", "statement": "Processing a broadcast with topic t and value v from robot r calls the listener registered last for t (and not ignored since) exactly once with (t, v, r), and does nothing when there is none.", "quantifier": "all message sequences and listener histories", "why_tests_cant": "histories", "anchors": ["src/buzz/buzzvm.c: process_inmsgs BROADCAST", "src/buzz/buzzneighbors.c: listen, ignore, broadcast"]}
{"id": "C56", "title": "Swarm membership is rebroadcast every ten steps", "statement": "process_outmsgs queues a full swarm list exactly once every BUZZ_SWARM_BROADCAST_PERIOD calls whenever the robot belongs to or knows a swarm.", "quantifier": "all call counts", "why_tests_cant": "unbounded histories", "anchors": ["src/buzz/buzzvm.c: buzzvm_process_outmsgs"]}
{"id": "C57", "title": "What a robot announces is what it is a member of", "statement": "A robot that receives every swarm message of another one believes it to be in a swarm exactly when the other robot's own membership (as told by in()) says so, once all queued messages were sent.", "quantifier": "all histories of swarm operations (create, join, leave, select, others, union, intersection, difference), periodic announcements and sends", "why_tests_cant": "depends on the interleaving of operations that announce, operations that do not, and sends", "anchors": ["src/buzz/buzzswarm.c: buzzswarm_others, buzzswarm_set_operation_boilerplate, buzzswarm_join, buzzswarm_leave", "src/buzz/buzzoutmsg.c: buzzoutmsg_queue_append_swarm_joinleave"]}
{"id": "C58", "title": "swarm.id() tells the swarm being executed", "statement": "swarm.id() returns the id of the innermost swarm whose exec() is running and nil outside any; swarm.id(n) returns the id of the n-th enclosing one; no call reads outside the stack of swarms.", "quantifier": "all swarm stacks and arguments", "why_tests_cant": "depends on nesting depth and argument values", "anchors": ["src/buzz/buzzswarm.c: buzzswarm_id"]}
{"id": "C59", "title": "Virtual stigmergy: the loser of a conflict is told", "statement": "The onconflictlost function of a stigmergy is called exactly when a received entry conflicts with (same age, other author) an entry written by this robot and the resolution keeps an entry of another robot; it is called once, with the lost entry.", "quantifier": "all reachable states, messages, keys and conflict resolution functions", "why_tests_cant": "depends on who wrote which entry and on the outcome of user-supplied functions", "anchors": ["src/buzz/buzzvm.c: buzzvm_process_inmsgs", "src/buzz/buzzvstig.c: buzzvstig_onconflict_call, buzzvstig_onconflictlost_call"]}
{"id": "C60", "title": "Virtual stigmergy: written values reach everybody", "statement": "Once no message is queued or underway, all robots that hear each other directly or through others read the same value for a key, the last one written.", "quantifier": "all numbers of robots, topologies with reliable links, interleavings of calls, sends and receptions, and reorderings of messages", "why_tests_cant": "schedules and topologies are unbounded", "anchors": ["src/buzz/buzzvm.c: buzzvm_process_inmsgs", "src/buzz/buzzvstig.c: buzzvstig_put, buzzvstig_get", "src/buzz/buzzoutmsg.c: buzzoutmsg_queue_append_vstig"]}
{"id": "C61", "title": "VM: the reported location of an error is the failing instruction", "statement": "When an instruction fails, the location the VM keeps for error reports (old program counter) is the offset of the failing instruction, so that the debug information gives the script line at fault.", "quantifier": "all states, all instructions, all bytecode", "why_tests_cant": "every instruction has its own error path; ranges over all states", "anchors": ["src/buzz/buzzvm.c: buzzvm_step, inc_pc", "src/buzz/buzzrun.c: main (error report)", "src/buzz/argos/buzz_controller.cpp: ErrorInfo"]}
{"id": "C62", "title": "VM: comparison with nil", "statement": "x == nil is 1 exactly when x is nil, and x != nil is its negation, for every value x.", "quantifier": "all values", "why_tests_cant": "all types and values", "anchors": ["src/buzz/buzzvm.c: buzzvm_binary_op_cmp", "src/buzz/buzztype.c: buzzobj_cmp"]}
{"id": "C63", "title": "Calling a Buzz function from C with arguments", "statement": "buzzvm_function_call(vm, name, n) calls the global function with the n arguments pushed on the stack.", "quantifier": "all functions, all argument lists, all VM states", "why_tests_cant": "ranges over functions and argument counts", "anchors": ["src/buzz/buzzvm.c: buzzvm_function_call", "src/buzz/buzzvm.h: buzzvm_function_call"]}
{"id": "C64", "title": "Calling a closure from C leaves its result and nothing else", "statement": "buzzvm_closure_call(vm, n) with closure and n arguments on the stack runs the closure to its return, replaces closure and arguments by the result, and leaves the calling code's program counter, call frames and the rest of the stack as they were.", "quantifier": "all closures (Buzz and C), argument lists, bytecode and states", "why_tests_cant": "the run of the closure is unbounded", "anchors": ["src/buzz/buzzvm.c: buzzvm_closure_call"]}
{"id": "C65", "title": "VM: remainder of mixed integer and float operands", "statement": "a % b for an integer and a float gives the same result as converting the integer to a float first.", "quantifier": "all integers and floats", "why_tests_cant": "2^64 operand pairs", "anchors": ["src/buzz/buzzvm.c: buzzvm_mod"]}
{"id": "C66", "title": "Disassembled code can be assembled again", "statement": "The text buzz_deasm writes for assembled code is accepted by buzz_asm and gives the same bytecode.", "quantifier": "all programs", "why_tests_cant": "unbounded programs", "anchors": ["src/buzz/buzzasm.c: buzz_deasm, buzz_asm"]}
{"id": "C67", "title": "Disassembling any bytes is safe", "statement": "buzz_deasm on an arbitrary buffer terminates without reading outside the buffer.", "quantifier": "all byte buffers", "why_tests_cant": "adversarial files of any length", "anchors": ["src/buzz/buzzasm.c: buzz_deasm"]}
{"id": "C68", "title": "Assembling any text is safe", "statement": "buzz_asm on an arbitrary text file either produces bytecode or reports an error; it never writes outside its buffers.", "quantifier": "all texts", "why_tests_cant": "arbitrary files of any length", "anchors": ["src/buzz/buzzasm.c: buzz_asm, buzz_asm_labsub"]}
{"id": "C69", "title": "Concatenation and length of strings", "statement": "string.concat(s1,...,sn) returns the string made of the characters of s1, ..., sn in order; string.length(s) returns the number of characters of s. The caller continues with that value on its stack and nothing else changed.", "quantifier": "all strings, any number of arguments from two", "why_tests_cant": "any number of arguments, any lengths; the arguments go through the operand stack in reverse", "anchors": ["src/buzz/buzzstring.c: buzzstring_concat, buzzstring_length"]}
{"id": "C70", "title": "Integers survive conversion to text and back", "statement": "string.tostring(i) is the decimal text of i; string.toint of the decimal text of i is i; hence string.toint(string.tostring(i)) is i. A text that does not start with a number gives nil.", "quantifier": "all 32-bit integers", "why_tests_cant": "four billion integers, including the most negative one", "anchors": ["src/buzz/buzzstring.c: buzzstring_tostring, buzzstring_toint"]}
{"id": "C71", "title": "tostring of other objects is nil", "statement": "string.tostring returns nil for anything that is not a number (buzzstring.h), and the text of the number otherwise.", "quantifier": "all objects", "why_tests_cant": "for all objects and whatever their storage contains", "anchors": ["src/buzz/buzzstring.h: buzzstring_tostring", "src/buzz/buzzstring.c: buzzstring_tostring"]}
{"id": "C72", "title": "toint reports numbers that do not fit", "statement": "string.toint returns nil when the conversion fails (buzzstring.h), in particular when the number is not a 32-bit integer.", "quantifier": "all decimal texts", "why_tests_cant": "numbers of any length", "anchors": ["src/buzz/buzzstring.h: buzzstring_toint", "src/buzz/buzzstring.c: buzzstring_toint"]}
{"id": "C73", "title": "String functions check their arguments", "statement": "A string function called with a wrong number of arguments stops with a parameter-count error; with a first argument that is no string (tostring excepted) with a type error; otherwise it returns to its caller with one value.", "quantifier": "all functions of the library, all argument lists", "why_tests_cant": "all argument lists", "anchors": ["src/buzz/buzzstring.c"]}
{"id": "C74", "title": "Debug information survives saving and loading", "statement": "Loading into a new structure a file written from any debug information gives the same position for every bytecode offset, and for every position the smallest offset that has that position; loading replaces the previous content.", "quantifier": "every sequence of recorded (offset, line, column, file name)", "why_tests_cant": "Names, offsets and the order of entries in the file are unbounded; one name length writes outside the buffer.", "anchors": ["src/buzz/buzzdebug.c: buzzdebug_tofile, buzzdebug_fromfile, buzzdebug_entry_dump", "src/buzz/buzzdebug.h"]}
{"id": "C75", "title": "Continue reports script errors", "statement": "When an instruction executed by continue fails, the VM is left in the error state with that error.", "quantifier": "every script, VM state and set of breakpoints", "why_tests_cant": "Depends on where breakpoints are relative to the failing instruction.", "anchors": ["src/buzz/buzzdebug.c: buzzdebug_continue"]}
{"id": "C76", "title": "The debugger without breakpoints is the VM", "statement": "With no breakpoints set, running a script or calling a closure through the debugger gives exactly the result of running it directly.", "quantifier": "every script, ready VM state, number of arguments and number of steps", "why_tests_cant": "Needs every execution of every script.", "anchors": ["src/buzz/buzzdebug.c: buzzdebug_continue, buzzdebug_closure_call", "src/buzz/buzzvm.c: buzzvm_closure_call, buzzvm_execute_script"]}
{"id": "C77", "title": "Messages arrive as they were sent", "statement": "Every message a robot can queue (broadcast, list of swarms, put, query, join, leave), written by the sender and read by a receiver with any string history, is the same message at the receiver: ids, time stamps, robots equal, objects equal up to string ids, and no string of the receiver changes its id.", "quantifier": "all messages with serialisable objects, all receiver string histories", "why_tests_cant": "infinitely many messages and histories", "anchors": ["src/buzz/buzzoutmsg.c: buzzoutmsg_queue_first", "src/buzz/buzzvm.c: buzzvm_process_inmsgs", "src/buzz/buzzvstig.c: buzzvstig_elem_serialize, buzzvstig_elem_deserialize"]}
{"id": "C78", "title": "Malformed and uninteresting messages are ignored", "statement": "A received message that is cut off, has an unknown type or concerns a topic or stigmergy the robot does not know has no effect.", "quantifier": "all byte strings", "why_tests_cant": "all byte strings", "anchors": ["src/buzz/buzzvm.c: buzzvm_process_inmsgs"]}
{"id": "C79", "title": "An error in the function given to foreach, map, reduce or filter stops the script with that error", "statement": "If the function passed to foreach(), map(), reduce() or filter() fails on some entry, no further entries are visited, the VM is in the error state when the library function ends, and the error reported is the one that occurred.", "quantifier": "all tables, all Buzz functions, all entries on which the function may fail", "why_tests_cant": "Which entry fails, with which error and with what on the stack depends on the script; tests look at one failure.", "anchors": ["src/buzz/buzztype.c: buzzobj_foreach, buzzobj_map, buzzobj_reduce, buzzobj_filter, buzzobj_map_entry", "src/buzz/buzzvm.c: buzzvm_ret1"]}
{"id": "C80", "title": "type(), the is... predicates, size(), int() and float()", "statement": "type(x) returns the name of the type of x; isnil(x), isint(x), isfloat(x), isstring(x), istable(x), isclosure(x), isuserdata(x) return 1 exactly for values of that type and 0 otherwise; size(t) returns the number of entries of t; int(f) returns f truncated towards zero; float(i) returns i. They leave the caller's stack, tables, globals and strings unchanged; wrong number or type of arguments is an error and never a crash.", "quantifier": "all argument values, all VM states in which the function is called", "why_tests_cant": "Values are unbounded in number (floats, tables of any size) and the effect on the rest of the VM is not visible in a result.", "anchors": ["src/buzz/buzztype.c: buzzobj_type, buzzobj_int, buzzobj_float, buzzobj_size, make_buzzobj_closure_is"]}
{"id": "C81", "title": "Random distributions as documented", "statement": "gaussian(), gaussian(stddev), gaussian(stddev, mean) and exponential(mean) return floats of these distributions; the generator is the published Mersenne Twister, so a seed gives its sequence.", "quantifier": "all arguments, generator states and seeds", "why_tests_cant": "The functions return different numbers at each call; that an argument has no effect or that a stack access is out of bounds does not show in single results.", "anchors": ["src/buzz/buzzmath.c: buzzmath_rng_gaussian, buzzmath_rng_exponential, mt_setseed", "doc/api.org: Gaussian Distribution, Exponential Distribution"]}
{"id": "C82", "title": "Mathematical functions", "statement": "abs gives the absolute value with the type of its argument; floor, ceil and round the integer next to it; min and max the smaller and larger of two numbers; the real functions the value of the C function; a wrong number of arguments or an argument that is not a number is an error; the caller's stack, locals, tables and strings are unchanged.", "quantifier": "all numbers, all VM states in which the function is called", "why_tests_cant": "All 2^32 floats and ints, pairs of them, and the effect on the rest of the VM.", "anchors": ["src/buzz/buzzmath.c: buzzmath_abs, buzzmath_floor, buzzmath_ceil, buzzmath_round, buzzmath_log, buzzmath_atan, buzzmath_min, buzzmath_max, buzzmath_register"]}
{"id": "C83", "title": "swarm.exec runs the function for members only and restores the current swarm", "statement": "s.exec(f) executes f exactly once, without arguments, if the robot is a member of s, and does nothing otherwise. While f runs, s is the innermost swarm (the one swarm.id() reports); when f has returned, the swarms being executed are the same as before the call, whatever functions f called, and the call gives one value. A swarm the robot does not know or an argument that is not a function is an error.", "quantifier": "all swarms, all nesting depths, all Buzz functions f, all VM states", "why_tests_cant": "The stack of swarms must be balanced for every function body and every nesting of calls.", "anchors": ["src/buzz/buzzswarm.c: buzzswarm_exec, id_get", "src/buzz/buzzvm.c: buzzvm_call, buzzvm_ret0, buzzvm_ret1"]}
{"id": "C84", "title": "A string literal denotes the characters between its quotes", "statement": "The value of a string literal is the sequence of characters between the quotes, with \\n, \\t, \\\\ and an escaped quote replaced by newline, tab, backslash and quote; the characters after the closing quote are not part of it.", "quantifier": "all string literals", "why_tests_cant": "Literals are unbounded; the loop reads a number of characters that depends on the escape sequences.", "anchors": ["src/buzz/buzzlex.c: buzzlex_newstring, buzzlex_nexttok"]}
{"id": "C85", "title": "A file is included once", "statement": "include reads the named file in place; a file that was already included is not read again, so files may include each other.", "quantifier": "all sets of files and inclusion graphs", "why_tests_cant": "Inclusion graphs are unbounded and may be cyclic.", "anchors": ["src/buzz/buzzlex.c: buzzlex_nexttok (file inclusion)"]}
{"id": "C86", "title": "The compiler ends on every script, with defined behaviour", "statement": "Given any script, whatever files it includes, the compiler ends, either with assembly code or with an error message; it never loops and never reads or writes memory it does not own.", "quantifier": "all scripts, all finite sets of files they may include, all symbol files", "why_tests_cant": "Scripts are unbounded, and malformed ones are as many as well-formed ones; the parser is a set of mutually recursive functions whose termination depends on tokens being consumed.", "anchors": ["src/buzz/buzzparser.c: parse_*, buzzparser_parse", "src/buzz/buzzlex.c: buzzlex_nexttok"]}
{"id": "C87", "title": "Success of the compiler means that the whole script was compiled", "statement": "If the compiler reports success, every statement of the script is part of the program.", "quantifier": "all scripts", "why_tests_cant": "It is a claim on all scripts, the malformed ones included.", "anchors": ["src/buzz/buzzparser.c: parse_statlist, parse_script"]}
{"id": "C88", "title": "A return followed by the end of the line returns nothing", "statement": "Statements end at the end of the line, so a return at the end of a line leaves the function without a value and does not execute the next line.", "quantifier": "all functions with a return at the end of a line", "why_tests_cant": "It concerns every layout of a script.", "anchors": ["src/buzz/buzzparser.c: fetchtok, parse_command"]}
{"id": "C89", "title": "A block outside functions behaves as one inside a function", "statement": "Variables and closures in a block (of an if, a for, a while) outside functions behave as they do inside functions.", "quantifier": "all blocks outside functions", "why_tests_cant": "It concerns every nesting of blocks and closures.", "anchors": ["src/buzz/buzzparser.c: parse_block, parse_lambda, parse_var"]}
{"id": "C90", "title": "A script without statements runs and does nothing", "statement": "A script with no statements (empty, or comments only) compiles to a program that ends normally.", "quantifier": "all scripts made of blanks and comments", "why_tests_cant": "There are infinitely many.", "anchors": ["src/buzz/buzzparser.c: parse_script"]}
{"id": "C91", "title": "A parameter hides outer variables of that name", "statement": "Inside a function, the name of a parameter denotes the argument, whatever variables of that name exist around it.", "quantifier": "all functions and enclosing scopes", "why_tests_cant": "It concerns every nesting of scopes.", "anchors": ["src/buzz/buzzparser.c: parse_idlist, parse_lambda"]}
{"id": "C92", "title": "A constant and a variable with its value are interchangeable in expressions", "statement": "Replacing, in an expression, a variable by a constant with the variable's value does not change the value of the expression.", "quantifier": "all expressions", "why_tests_cant": "Expressions are unbounded.", "anchors": ["src/buzz/buzzparser.c: parse_operand"]}
{"id": "C93", "title": "A closure made inside a function keeps the values its local variables had", "statement": "When a function creates a closure, the closure stores the values the function's local variables have at that moment; whenever it is called later, from anywhere, its body starts with these values as its first local variables, followed by the arguments.", "quantifier": "all functions, local variables, arguments and later states", "why_tests_cant": "The closure can be called at any later moment of any execution.", "anchors": ["src/buzz/buzzvm.c: buzzvm_pushl, buzzvm_call"]}
{"id": "C94", "title": "From the script file to the result", "statement": "For every script file (with its includes, blanks, comments) that spells a program following the rules of the language, compiling, assembling, loading and executing it returns with the globals and tables that the language prescribes, stops with the error the language prescribes, or never returns when the program runs forever.", "quantifier": "all files and layouts, all programs that follow the rules, all float libraries, all registered C functions", "why_tests_cant": "scripts, include trees and loops are unbounded", "anchors": ["src/buzz/buzzlex.c: buzzlex_nexttok", "src/buzz/buzzparser.c: buzzparser_parse", "src/buzz/buzzasm.c: buzz_asm", "src/buzz/buzzvm.c: buzzvm_set_bcode, buzzvm_execute_script"]}
{"id": "C95", "title": "A script has one meaning", "statement": "The meaning given to a script does not depend on how many calls and iterations one allows for when computing it: any two amounts that are enough give the same result, and larger amounts never lose it.", "quantifier": "all programs, all bounds", "why_tests_cant": "unbounded programs and bounds", "anchors": ["src/buzz/buzzvm.c: buzzvm_step"]}
{"id": "C96", "title": "Garbage collections do not change what a script does", "statement": "Running a script with the garbage collector invoked before any of its steps gives, step by step, the same outcome as running it without collections: same state, errors, program counter, stacks, local and global variables; the tables and strings that the script can reach are unchanged, and nothing it does depends on what became of the memory that was freed. A collection keeps everything that can be reached from the stacks, the variables, captured variables and the contents of tables, and deletes every other table and every other string except those of the bytecode.", "quantifier": "every bytecode, state, set of C functions that only look at reachable objects, number of steps, choice of the moments of collection and content of freed memory, for executions in which local variables have values when a collection may happen and pushed strings are protected", "why_tests_cant": "collections happen at moments that depend on the number of objects; tests see a few schedules and small heaps, and freed memory often still holds the old content", "anchors": ["src/buzz/buzzheap.c buzzheap_gc", "src/buzz/buzzheap.c buzzheap_obj_mark", "src/buzz/buzzvm.c buzzvm_step (721)", "src/buzz/buzzstrman.c buzzstrman_gc_prune"]}
{"id": "C97", "title": "Compiled scripts behave as the language says while the garbage collector runs", "statement": "Whatever moments the garbage collector chooses to run at while a compiled script executes, and whatever becomes of the memory it frees: the script ends with the global variables, and the tables reachable from them, that the language gives it, fails with the error the language gives it, or runs forever when the language says so. The C functions that are registered but not called make no difference.", "quantifier": "every script (in files, in any layout) whose meaning is specified, every set of moments at which collections happen, every content of freed memory, every list of registered C functions", "why_tests_cant": "A script of a few lines makes hundreds of objects and a collection may come before any instruction; only bugs at one particular moment (a value not yet rooted) show, and only sometimes.", "anchors": ["src/buzz/buzzheap.c:buzzheap_gc", "src/buzz/buzzvm.c:buzzvm_step", "src/buzz/buzzvm.c:buzzvm_execute_script", "src/buzz/buzzparser.c", "src/buzz/buzzasm.c:buzz_asm"]}
{"id": "C98", "title": "The methods of neighbors see exactly the neighbors", "statement": "neighbors.get(k) gives the entry of robot k, or nil; neighbors.count() gives the number of entries; neighbors.foreach(f) and neighbors.reduce(f, x) call f exactly once for each entry, in one order, reduce passing each result to the next call and giving the last one; neighbors.map(f) gives a new structure of neighbors, with all the methods, whose entry for each robot is the result of f for that robot; neighbors.filter(f) gives a new structure with the entries for which f gave a true value. Without neighbors they give nil, 0, nothing, the initial value and a structure without entries. A wrong number of arguments or an argument that is not a function is an error.", "quantifier": "every table of entries, function, closure and initial value, every state of the VM; functions that do not change the entries during the call", "why_tests_cant": "entries sit in a hash table with chained buckets whose order depends on the keys; the functions are arbitrary bytecode run while the loop is in progress", "anchors": ["src/buzz/buzzneighbors.c buzzneighbors_get", "src/buzz/buzzneighbors.c buzzneighbors_foreach", "src/buzz/buzzneighbors.c buzzneighbors_map", "src/buzz/buzzneighbors.c buzzneighbors_reduce", "src/buzz/buzzneighbors.c buzzneighbors_filter", "src/buzz/buzzneighbors.c buzzneighbors_count"]}
{"id": "C99", "title": "The script finds in neighbors exactly what the controller reported", "statement": "After buzzneighbors_new the global variable neighbors is a table with the methods and no neighbors. After buzzneighbors_reset followed by any number of calls of buzzneighbors_add, its entries are exactly the robots that were reported, each with the distance, azimuth and elevation that was reported last for it; their number is the number of distinct robots. Nothing else changes: not the operand stack, the variables, the program counter or any other table.", "quantifier": "every VM in the ready state, every list of reports, with robots repeated in any order, every content of the table neighbors that was made by storing entries under strings and integers", "why_tests_cant": "the functions go through the operand stack of the script and register up to 16 strings each time; a missing pop or a name collision shows only after some sequence of calls", "anchors": ["src/buzz/buzzneighbors.c buzzneighbors_new", "src/buzz/buzzneighbors.c buzzneighbors_reset", "src/buzz/buzzneighbors.c buzzneighbors_add", "src/buzz/buzzneighbors.c make_table"]}
{"id": "C100", "title": "Ids of registered C functions", "statement": "buzzvm_function_register returns an id with which closures call the function; ids already returned keep calling the same functions; registering a function that is registered already returns its id and does not make the list longer.", "quantifier": "every list of registered functions and every sequence of registrations", "why_tests_cant": "the list grows slowly; a test that registers a function and calls it sees nothing wrong", "anchors": ["src/buzz/buzzvm.c buzzvm_function_register", "src/buzz/buzzvm.c buzzvm_function_cmp", "src/buzz/buzzdarray.c buzzdarray_find", "src/buzz/buzzneighbors.c function_register"]}
{"id": "C101", "title": "A script that calls functions of the host", "statement": "A script is compiled, assembled and loaded from its files; the host then gives values, C functions among them, to global variables, as many as it wants. Executing the script gives the global variables, tables and strings that the language says, a call of a C function doing what that function does; or stops with the error the language says; or never returns when the script never ends. The functions string.length, string.sub and string.concat are C functions with the meaning their documentation gives.", "quantifier": "every set of files, every layout of a script over them within the static rules, every program that runs it, every list of C functions with a meaning, every sequence of values given to global variables before it runs", "why_tests_cant": "The values depend on every instruction between a call in the script and the return of a C function, for every script; a test runs one script with one function.", "anchors": ["src/buzz/buzzvm.c: buzzvm_execute_script, buzzvm_callc, buzzvm_ret1, buzzvm_gstore", "src/buzz/buzzstring.c: buzzstring_length, buzzstring_sub, buzzstring_concat", "src/buzz/buzzparser.c", "src/buzz/buzzasm.c", "src/buzz/buzzrun.c"]}
{"id": "C102", "title": "The host calls functions of a script", "statement": "After the script has ended, the host calls functions that it defines, by their names and without arguments (init, step, destroy), in any order and number. Each call leaves on the stack the value the language says, and the global variables, tables and strings the language says, starting from what the script and the calls before it left; the first error stops everything with that error; a call that the language never ends never returns.", "quantifier": "every set of files and script within the static rules, every list of C functions with a meaning, every sequence of calls", "why_tests_cant": "A robot executes step once per control cycle, forever; what the n-th call does depends on everything before it.", "anchors": ["src/buzz/buzzvm.c: buzzvm_function_call, buzzvm_closure_call, buzzvm_execute_script", "src/buzz/buzzrun.c", "src/buzz/argos/buzz_controller.cpp: buzzvm_function_call"]}
{"id": "C103", "title": "The standard library is there when a script starts", "statement": "After a script is loaded, the global variables neighbors, stigmergy, swarm, math, io, string, id, type, int, float, clone, size, foreach, map, reduce, filter, isnil, isint, isfloat, isstring, istable, isclosure and isuserdata have the documented values: id the number of the robot, the first six tables with exactly the documented members (math.pi the float nearest to pi, math.rng a table of its own), the other ones C functions. All other global variables are what the script's function definitions make them. The script then executes as the language says.", "quantifier": "every script within the static rules, every robot number, every numbering of the C functions, every state of the host", "why_tests_cant": "The library is stored with the same string and table operations as user data, after the code of the script has already run up to the function definitions: whether an entry survives depends on all the strings and hash collisions of the script.", "anchors": ["src/buzz/buzzvm.c: buzzvm_set_bcode", "src/buzz/buzzobj.c: buzzobj_register", "src/buzz/buzzmath.c: buzzmath_register", "src/buzz/buzzio.c: buzzio_register", "src/buzz/buzzstring.c: buzzstring_register", "src/buzz/buzzswarm.c: buzzswarm_register", "src/buzz/buzzvstig.c: buzzvstig_register"]}
{"id": "C104", "title": "A function the script defines is what its name denotes", "statement": "After a script is loaded, the name of a function it defines at the top level denotes that function.", "quantifier": "every script, every function it defines", "why_tests_cant": "It fails only for functions whose names the library also uses; a script that tests its own function under another name does not see it.", "anchors": ["src/buzz/buzzvm.c: buzzvm_set_bcode", "src/buzz/buzzobj.c: buzzobj_register"]}
{"id": "C105", "title": "Scripts that use the standard library", "statement": "A script that calls string.length, sub, concat, tostring, toint, tofloat, math.abs, floor, ceil, round, log, log2, log10, exp, sqrt, sin, cos, tan, asin, acos, atan, min, max, size, type, int, float and the is... functions, directly or in the functions it defines, executes as the language says with each call giving the documented value; a wrong number of arguments or an argument of a wrong type stops the script with the corresponding error.", "quantifier": "every script within the static rules, every sequence of calls in it, every value of their arguments, every behaviour of the C library's functions on floats", "why_tests_cant": "Values of all kinds reach these functions, from any point of any script, with any state of the stack and of the strings.", "anchors": ["src/buzz/buzzstring.c", "src/buzz/buzzmath.c", "src/buzz/buzzobj.c", "src/buzz/buzzvm.c: buzzvm_callc"]}
{"id": "C106", "title": "Scripts that include string.bzz: charat and indexoffirst", "statement": "A script that includes string.bzz finds charat, indexoffirst, indexoflast and split in the table string besides the functions in C, and the rest of it executes as the language says. string.charat(s, n) gives the string with the n-th character of s. string.indexoffirst(s, m) gives the first position at which m occurs in s, and nil when there is none. Nothing changes but new strings.", "quantifier": "every script starting with string.bzz, every string s and m (any bytes, m empty or longer than s too), every state with room for the strings", "why_tests_cant": "The position depends on all the characters of both strings; the library creates strings while it searches.", "anchors": ["src/include/string.bzz: string.charat, string.indexoffirst", "src/buzz/buzzstring.c: buzzstring_sub"]}
{"id": "C107", "title": "string.indexoflast gives the last occurrence", "statement": "string.indexoflast(s, m) gives the last position at which m occurs in s, and nil when there is none.", "quantifier": "every string s and m", "why_tests_cant": "It is right for all m of two characters or more, and wrong for all others.", "anchors": ["src/include/string.bzz: string.indexoflast", "src/buzz/buzzstring.c: buzzstring_sub", "src/buzz/buzzobj.c: buzzobj_cmp"]}
{"id": "C108", "title": "string.split gives the pieces between the delimiters", "statement": "string.split(s, d) gives a new table that has, under 0, 1, ..., the non-empty pieces of s between characters of d, in order, and no other entry; global variables and other tables do not change.", "quantifier": "every string s and d, every state with room for the strings", "why_tests_cant": "The number of pieces, their lengths and the runs of delimiters are arbitrary; the result is built in a hash table by a script with two nested loops.", "anchors": ["src/include/string.bzz: string.split", "src/buzz/buzzstring.c: buzzstring_sub"]}
{"id": "C109", "title": "table.bzz: scripts that include it; swap", "statement": "A script that includes table.bzz is compiled, loaded and started so that, after the statements of the file, the global table holds its functions and the rest of the library is as before; the rest of the script executes as the language says from there. table.swap(t,i,j) exchanges the elements of a list under i and j, and changes nothing else.", "quantifier": "all scripts that start with the statements of table.bzz, hosts, C libraries; all lists shorter than 2^31 of values other than nil and functions, all pairs of positions", "why_tests_cant": "all scripts and lists", "anchors": ["src/include/table.bzz: table.swap", "src/buzz/buzzparser.c: buzzparser_parse", "src/buzz/buzzvm.c: buzzvm_execute_script"]}
{"id": "C110", "title": "table.sort sorts", "statement": "table.sort(t, cmp) ends, and leaves in t a permutation of its elements in the order of cmp: every element is before or equal to those after it. Nothing else changes but the global variables partition, qsort and pivot. With table.cmp_number on integers: increasing order.", "quantifier": "all lists shorter than 2^31 of values other than nil and functions; all functions cmp that, during the sort, decide a total and transitive relation on the elements without changing the state", "why_tests_cant": "all lists, all orders; termination of the recursion", "anchors": ["src/include/table.bzz: table.sort, table.cmp_number", "src/buzz/buzztype.c: buzzobj_size"]}
{"id": "C111", "title": "Comparison of strings with every strcmp C allows", "statement": "The comparisons ==, !=, <, <=, >, >= of two strings are the lexicographic ones, math.min and math.max give the smaller and the larger string, and tables find their string keys, whatever result strcmp gives, as long as it has the sign the C standard asks for.", "quantifier": "all strcmp functions with the right sign, all strings, all states of the VM about to execute a comparison; all dictionaries", "why_tests_cant": "the result of strcmp differs between C libraries and between strings", "anchors": ["src/buzz/buzztype.c: buzzobj_cmp", "src/buzz/buzzvm.c: buzzvm_binary_op_cmp", "src/buzz/buzzmath.c: buzzmath_min, buzzmath_max", "src/buzz/buzzdict.c: buzzdict_rawget"]}
{"id": "C112", "title": "Sequences of arrows.bzz", "statement": "After including arrows.bzz, seq = arrows.begin(f).next(g).next(h) followed by arrows.run(seq) calls f, g and h in this order, as the file documents, for all functions f, g and h.", "quantifier": "all functions f, g, h a script defines", "why_tests_cant": "the library is written in Buzz: what it does depends on the compiler, the bytecode and the VM together", "anchors": ["src/include/arrows.bzz: arrows.wrap, arrows.begin, arrows.run", "src/buzz/buzzparser.c: parse_lambda, sym_lookup"]}
{"id": "C113", "title": "Scripts that include vec2.bzz", "statement": "A script that includes vec2.bzz compiles, assembles and loads; when it runs, the table math.vec2 first gets the functions new, newp, length, angle, norm, add, sub, scale, dot and rotate of the file, nothing else changes, and the rest of the script then does what the language says.", "quantifier": "all scripts that start with the statements of vec2.bzz and follow the rules of the language; all hosts that register the standard library", "why_tests_cant": "it concerns all scripts that use the library, and the compiler, assembler, loader and VM together", "anchors": ["src/include/vec2.bzz", "src/buzz/buzzparser.c: bzzparse", "src/buzz/buzzmath.c: buzzmath_register"]}
{"id": "C114", "title": "The vectors of vec2.bzz", "statement": "math.vec2.new(x,y) gives a new table with exactly the entries x and y; add, sub, scale, newp, norm and rotate give a new vector whose coordinates are computed with the operators of the language and the C functions sqrt, sin and cos by the usual formulas; dot, length and angle give the usual values; the arguments are not changed. With integer coordinates add, sub and dot are exact.", "quantifier": "all vectors, numbers and states in which the operators are defined on the coordinates", "why_tests_cant": "all numbers, vectors and states", "anchors": ["src/include/vec2.bzz: math.vec2.new, newp, length, angle, norm, add, sub, scale, dot, rotate"]}
{"id": "C115", "title": "Scripts that use swarms do what the language says", "statement": "Every script that is compiled, assembled and loaded with the standard library behaves, when it calls functions of the library and functions on swarms (create, join, leave, in, select, others, union, intersection, difference), as the language says with the documented meaning of those functions; if the meaning is undefined nothing is claimed.", "quantifier": "every script text and included files, every state of the robot's swarms, every registration of the C functions, every number of steps", "why_tests_cant": "a test runs a few scripts; the statement is about every script and every interleaving of library and swarm calls", "anchors": ["src/buzz/buzzswarm.c (buzzswarm_create, _others, _join, _leave, _in, _select, _union, _intersection, _difference)", "src/buzz/buzzvm.c (buzzvm_callc, buzzvm_execute_script)"]}
{"id": "C116", "title": "Each call on swarms is the operation it is documented to be", "statement": "After any history of operations on swarms, a call from a script of create, join, leave, in, select, others, union, intersection or difference fails exactly when the specification of memberships says the swarm is unknown; otherwise it returns what the specification says (nothing, 0 or 1, or a new table with the swarm's id and its six methods bound to it), changes no variable and no existing table, and leaves the robot's swarms and outgoing messages as that one operation does.", "quantifier": "every history of operations, every state of the script, every argument (an integer; a table whose member id is an integer)", "why_tests_cant": "the membership depends on the whole history, ids are converted from int to 16 bits in each call, and the table returned must work in every later call", "anchors": ["src/buzz/buzzswarm.c (make_table, id_get, buzzswarm_create, _others, _join, _leave, _in, _select, set_operation_boilerplate)"]}
{"id": "C117", "title": "What a whole script does to the swarms is a sequence of swarm operations", "statement": "When a script that uses the library and the functions on swarms ends, the robot's swarms and outgoing messages are those after some sequence of the operations create, join, leave, in, select, others, union, intersection and difference from the state before: nothing else in a script changes them.", "quantifier": "every script, every state, every number of steps", "why_tests_cant": "ranges over all scripts; it is what lets the properties of histories (C32, C33, C57) speak about scripts", "anchors": ["src/buzz/buzzswarm.c", "src/buzz/buzzvm.c"]}
{"id": "C118", "title": "A set operation on swarms that fails changes nothing", "statement": "If union, intersection or difference ends the script with an error, the robot's memberships are unchanged and nothing is announced.", "quantifier": "every argument", "why_tests_cant": "error paths with wrong types are rarely tested, and the effect is seen on other robots", "anchors": ["src/buzz/buzzswarm.c (buzzswarm_check 523-549, buzzswarm_set_operation_boilerplate 554-581)"]}
{"id": "C119", "title": "Scripts that use virtual stigmergies do what the language says", "statement": "Every script that is compiled, assembled and loaded with the standard library behaves, when it calls functions of the library, functions on swarms and functions on virtual stigmergies (create, put, get, size), as the language says with the documented meaning of those functions; if the meaning is undefined nothing is claimed.", "quantifier": "every script text and included files, every state of the robot's stigmergies and swarms, every registration of the C functions, every number of steps", "why_tests_cant": "a test runs a few scripts; the statement is about every script and every interleaving of library, swarm and stigmergy calls", "anchors": ["src/buzz/buzzvstig.c: buzzvstig_create, buzzvstig_put, buzzvstig_get, buzzvstig_size, id_get, function_register", "src/buzz/buzzvm.c: buzzvm_callc, buzzvm_execute_script"]}
{"id": "C120", "title": "Each call on a virtual stigmergy is the operation it is documented to be", "statement": "After any history of operations, received and sent messages, a call from a script of create, put, get or size succeeds; create returns a new table with the stigmergy's id and its six methods bound to it, put nothing, get the value held under the key or nil, size the number of entries; no variable and no existing table changes, and the robot's stigmergies and outgoing messages are those after that one operation.", "quantifier": "every history of operations, every state of the script, every argument (an integer id for create; a table whose member id is an integer and keys on which comparison is meaningful for the others)", "why_tests_cant": "the result depends on the whole history, ids are converted from int to 16 bits in each call, and the table returned must work in every later call", "anchors": ["src/buzz/buzzvstig.c: buzzvstig_create, buzzvstig_put, buzzvstig_get, buzzvstig_size, id_get, function_register"]}
{"id": "C121", "title": "What a whole script does to stigmergies and swarms is a sequence of their operations", "statement": "When a script that uses the library, the functions on swarms and the functions on stigmergies ends, everything the robot holds beside the script's own data (stigmergies, swarms, outgoing messages) is what it is after some sequence of stigmergy operations (create, put, get) and swarm operations applied one after the other to the state before: nothing else in a script changes them.", "quantifier": "every script, every state, every number of steps", "why_tests_cant": "ranges over all scripts; it is what lets the properties of histories (C27 to C33, C57) speak about scripts", "anchors": ["src/buzz/buzzvstig.c", "src/buzz/buzzswarm.c", "src/buzz/buzzvm.c"]}
{"id": "C122", "title": "Swarms, stigmergies and broadcasts of one robot do not disturb each other", "statement": "Whatever a robot does with virtual stigmergies (create, put, get, size, conflict managers, received messages), with swarms (create, join, leave, select, others, union, intersection, difference, periodic announcement) and with broadcasts, in any order and with messages sent at any point, no operation goes wrong; the stigmergies and what the calls on them return are as if only the stigmergy operations had been done, the memberships and what the calls on them return as if only the swarm operations had been done, and the messages sent are those of one history of the shared outgoing queue.", "quantifier": "every history that interleaves stigmergy operations, swarm operations, broadcasts and sends, of any length", "why_tests_cant": "the three facilities share one queue of outgoing messages, and each property of histories (C27 to C33, C57) is stated for one facility alone; interleavings cannot be enumerated", "anchors": ["src/buzz/buzzvm.h: struct buzzvm_s", "src/buzz/buzzoutmsg.c: buzzoutmsg_queue_append_broadcast, buzzoutmsg_queue_append_swarm_joinleave, buzzoutmsg_queue_append_vstig, buzzoutmsg_queue_next", "src/buzz/buzzvstig.c", "src/buzz/buzzswarm.c"]}
{"id": "C123", "title": "Calls of scripts in the course of mixed histories", "statement": "After any history that mixes stigmergy operations, swarm operations, broadcasts and sends, a call from a script of a function on stigmergies or on swarms does what C120 and C116 say: it fails exactly when the operation does, returns what the operation returns, and leaves the robot as after the history followed by that one operation, everything else unchanged; and a whole script that ends leaves the robot as after the history followed by some sequence of such operations.", "quantifier": "every mixed history, every state of the script, every argument, every script", "why_tests_cant": "C116 and C120 assume that the history has operations of one kind only; every interleaving has to work", "anchors": ["src/buzz/buzzvstig.c: buzzvstig_create, buzzvstig_put, buzzvstig_get, buzzvstig_size", "src/buzz/buzzswarm.c: buzzswarm_create, buzzswarm_join, buzzswarm_leave, buzzswarm_in, buzzswarm_select, buzzswarm_others, buzzswarm_union, buzzswarm_intersection, buzzswarm_difference", "src/buzz/buzzvm.h: struct buzzvm_s"]}
{"id": "C124", "title": "Scripts that broadcast, use stigmergies and swarms do what the language says", "statement": "Every script that is compiled, assembled and loaded with the standard library behaves, when it calls functions of the library, on swarms, on virtual stigmergies and neighbors.broadcast, as the language says with the documented meaning of those functions, all on the one queue of outgoing messages of the robot; where the meaning is undefined nothing is claimed.", "quantifier": "every script text and included files, every state of the robot, every registration of the C functions, every number of steps", "why_tests_cant": "a test runs a few scripts; the statement is about every script and every interleaving of calls", "anchors": ["src/buzz/buzzneighbors.c: buzzneighbors_broadcast", "src/buzz/buzzoutmsg.c: buzzoutmsg_queue_append_broadcast", "src/buzz/buzzvm.c: buzzvm_callc, buzzvm_execute_script"]}
{"id": "C125", "title": "Broadcasts and whole scripts in the course of any history", "statement": "After any history of stigmergy operations, swarm operations, broadcasts and sends, a script's broadcast of a value that is not a table, a closure or user data returns nothing, changes no variable, table or string of the script, and leaves the robot as after the history followed by that one broadcast; the functions on stigmergies and swarms keep the meaning of C119 to C123; and a whole script that ends leaves the robot as after the history followed by some sequence of such operations and broadcasts: nothing else in a script changes what is sent.", "quantifier": "every mixed history, every state of the script, every topic and value, every script", "why_tests_cant": "the queue is shared and a script can interleave the calls in any way", "anchors": ["src/buzz/buzzneighbors.c: buzzneighbors_broadcast", "src/buzz/buzzoutmsg.c: buzzoutmsg_queue_append_broadcast", "src/buzz/buzzvstig.c", "src/buzz/buzzswarm.c"]}
{"id": "C126", "title": "Scripts that register and remove listeners and broadcast any value do what the language says", "statement": "Every script that is compiled, assembled and loaded with the standard library behaves, when it calls functions of the library, neighbors.listen, neighbors.ignore and neighbors.broadcast, as the language says with the documented meaning of those functions: listen wants a string and a closure and makes the closure the listener of that topic, ignore wants a string and removes the listener, broadcast wants a string and any value and queues the contents of the value, tables included; anything else is a type error or a wrong number of arguments; where the meaning is undefined nothing is claimed.", "quantifier": "every script text and included files, every state of listeners and waiting messages, every registration of the C functions, every number of steps", "why_tests_cant": "a test runs a few scripts; the statement is about every script and every order of registrations", "anchors": ["src/buzz/buzzneighbors.c: buzzneighbors_listen, buzzneighbors_ignore, buzzneighbors_broadcast", "src/buzz/buzzvm.c: buzzvm_callc, buzzvm_execute_script"]}
{"id": "C127", "title": "Listeners after each call and after whole scripts", "statement": "After any history of registrations, a script's neighbors.listen(topic, f) returns nil, changes no variable, table, string or waiting message, and makes f the listener of the topic and leaves those of the other topics; neighbors.ignore(topic) does the same and leaves the topic without listener; neighbors.broadcast(topic, value) returns nil, changes nothing else and queues the contents of the value at that moment after those that wait already; and a whole script that ends leaves as listeners those of the history followed by some registrations of closures and removals (for each topic the one registered last and not removed since), the received messages as they were, and in the queue what was there followed by some messages under string topics.", "quantifier": "every history of registrations, every state of the script, every topic and closure, every script", "why_tests_cant": "scripts can register and remove listeners in any order, and the topics share the buckets of a hash table", "anchors": ["src/buzz/buzzneighbors.c: buzzneighbors_listen, buzzneighbors_ignore, buzzneighbors_broadcast", "src/buzz/buzzdict.c: buzzdict_set, buzzdict_remove"]}
{"id": "C128", "title": "A received broadcast runs its listener as the language says", "statement": "When a compiled and loaded script has ended (or a function the host called has returned) and a received message is a broadcast whose topic has a function of the script as listener, handling the message leaves the robot exactly as the language says of that function applied to the topic, the received value and the id of the sender: the same variables, tables, strings and other state, the stack as before (the value of the listener is dropped); it stops with an error when the language says so, and does not return when the function does not. More generally so does every call of a function of the script with three arguments from C.", "quantifier": "every script text and included files, every state after any run of the script and any earlier calls, every listener, message, value and sender", "why_tests_cant": "a listener can run any code, with any value received in any state", "anchors": ["src/buzz/buzzvm.c: buzzvm_process_inmsgs, buzzvm_closure_call, buzzvm_call", "src/buzz/buzzneighbors.c: buzzneighbors_listen"]}
