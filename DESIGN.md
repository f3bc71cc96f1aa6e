# Formal model of MISTLab/Buzz in Rocq (Coq 8.16.1)

## How the development is organised

`/verif/rocq/theories` (logical name `Verif`), one group of files per part of the code:

* `X.v` – the model of the C code: total computable Gallina functions, each with a comment
  citing file and lines in `/repo`. No proofs of properties here.
* `XSpec.v` (or a `Spec` section at the top of the proof file) – the small independent
  specification (lists, finite maps, sets, mathematical integers).
* `XProofs.v` – lemmas.
* `PropsX.v` – only the property theorems (`exact lemma`), a non-vacuity `Example` beside each
  one and `Print Assumptions`.

Outcomes of modelled C functions are values of `res A := Ok a | Abort | UB | Hang` (`Base.v`):
`Abort` = the code calls `abort()`, `UB` = the C code would have undefined behaviour
(out-of-bounds access, signed overflow, division by zero, NULL dereference, use of an
uninitialised slot), `Hang` = the C code provably loops forever or fuel ran out. Theorems state
`= Ok ...` and therefore exclude all of these.

Layering: `buzzdarray` is modelled with explicit memory (capacity, allocated slots,
uninitialised slots, 32-bit size arithmetic) and proved to refine lists (C01). All layers above
use lists where the code uses a `buzzdarray`; likewise the tables above use association
structures justified by the dictionary refinement (C05) where stated.

## Plan per property

| id | what is modelled | how it is proved |
|----|------------------|------------------|
| C01 | buzzdarray with memory of slots | refinement to `list` by induction over operation histories; invariant size<=cap<=allocated |
| C02 | same | refuted: witness array grows; plus characterisation theorem of what really happens |
| C03 | part/qsort on slots | permutation + sortedness by strong induction on range length |
| C04 | find loop | induction |
| C05 | buckets as list of optional entry lists, uint32 size | refinement to association-list spec, induction over histories; instances for int and string keys |
| C06 | same, with log of destructor calls | multiset conservation invariant |
| C07 | BST with insert/remove/find/foreach | refinement to sorted list/set |
| C08,C09,C10 | str2id/id2str dictionaries, maxsid mod 2^16, id tree | invariants over histories; C10 refuted by invariant of the full manager (loop never ends) |
| C11,C13,C14 | byte lists | round trip with arbitrary prefix/suffix; bounds |
| C12 | stdlib SpecFloat (IEEE single) and integer arithmetic | round trip for all finite floats |
| C15,C16 | object serialisation on structural values | induction on objects; refutations for >=256-entry tables, closures, malformed bytes |
| C17,C18 | buzzobj_cmp/hash | order laws; refutation for mixed keys |
| C19 | object graph, marker, mark with cycle check, sweep | marked set = reachability closure; marker invariant over unboundedly many GCs |
| C20 | clone on heap | structural equality + freshness; cyclic heaps refuted (diverges) |
| C21,C22 | dictionary of payload lists | multiset invariant; LIFO witness refutes FIFO |
| C23-C26 | six queues + duplicate index | invariants and drain theorem by induction over histories |
| C27-C31 | vstig store, PUT/QUERY handlers, default conflict manager | join-semilattice argument; arbitrary message schedules; refutations for deletion |
| C32-C35 | swarm ids dictionary, members table with age | refinement to sets/maps over histories |
| C36-C43 | the whole VM step function over bytecode, stacks, frames, heap of tables | invariants on step; frame discipline by induction over executions |
| C44,C45 | instruction encoder/decoder, label substitution | round trip over instruction lists |
| C46 | string table scan | induction |
| C47 | Strlib.v: buzzstring_sub as a C function on the VM state | case analysis; substring described character by character |
| C48,C49 | debug maps, breakpoints, continue | refinement; witness for no progress |
| C50 | TableLib.v: the walk over the buckets with the table looked at again in every round, the four entry functions, the functions registered as foreach/map/reduce/filter; callbacks run through the VM model (closure_call). | Induction over the rounds of the walk with the invariant that the table under iteration and the frame are unchanged; C64 gives one execution of the callback per entry; the table built by map/filter by induction over the entries (pairwise different keys). |
| C51 | Mathlib.v: mt_setseed, mt_uniform32, the integer arithmetic of uniform() (unsigned 64-bit products and quotients, conversion to int32_t), the functions as called from a script. | Invariant of the generator (624 words of 32 bits, index at most 624) over all histories of seeding and drawing; integer arithmetic of the scaling; the seeding loop overwrites every word. |
| C52 | Source.v (grammar, rules, meaning), Parser.v, Asm.v, Load.v, Vm.v | Pg*.v: the parser emits the code of the reference generator (Gen.v); GenSim.v: that code, run by the VM, follows the meaning (simulation by induction on the syntax) |
| C53 | as C52 | as C52; unbounded loops by induction on the number of iterations allowed |
| C54 | Lex.v (buzzlex_nexttok with the stack of included files) | Relation between layouts of a script (blanks, comments, spelled tokens, inclusions) and tokens with positions; induction over layouts.  Termination by a measure on the stack of files. |
| C55,C56 | broadcast handling, period counter | case analysis/induction |
| C57,C58 | swarm operations against outgoing messages; swarm stack | invariant over histories; refutations by runs |
| C59 | conflict handling of received stigmergy entries | case analysis over every message and reachable state |
| C60 | a network of robots running the stigmergy model, inboxes, links | invariant over all schedules; refutations by runs |
| C61-C65 | VM step, closure and function calls from C | case analysis over instructions and operands; frame invariant; refutations by runs |
| C66-C68 | the assembler and disassembler of C44 on arbitrary text and bytes | invariant over lines; refutations by runs |
| C69 | Strlib.v: the two loops over parameters and stack | induction on the arguments |
| C70 | Strlib.v; printf/strtol of Text.v | induction on numerals |
| C71 | Strlib.v; the storage of an object read as a float is an arbitrary function | direct |
| C72 | Strlib.v; strtol saturates | arithmetic |
| C73 | Strlib.v | case analysis; frames as in C40 |
| C48 | Debug.v: info_set/from_script/from_offset with the two dictionaries | invariant over the list of records (last record per offset, smallest offset per position) |
| C49 | Debug.v: breakpoint list, continue over the VM model | set behaviour by induction over histories; continue characterised by the first breakpoint reached; progress refuted |
| C74 | Debug.v: tofile/fromfile as byte lists | round trip by induction over the entries, using C48; refutations for 512-character names, erasing, and the returned value |
| C75 | Debug.v: continue_ | counterexample; positive theorem when no breakpoint is at the pc after the failure |
| C76 | Debug.v: continue_, debug_closure_call | induction on the number of steps: equality of the two executions |
| C55 | Listen.v (neighbors.listen/ignore/broadcast, process_inmsgs), Messages.v, Vm.v | ListenSpec.v: contents of objects (repr), listener of a history, handled sequences. Induction over trees, histories and queue; C64 for the call |
| C56 | OutStep.v (process_outmsgs), OutMsg.v | Invariant relating the counter to the steps since the last announcement, induction over step lists |
| C77 | Messages.v (queue_first, reading part of process_inmsgs, elem_(de)serialize) | Round trip by composition of the object codec with positions; strings by the string manager invariant |
| C78 | Messages.v (recv) | Case analysis on the bytes, refutation by computation and induction |
| C79 | TableLib.v, Vm.v (buzzvm_ret1) | Contraposition of C50 (the library function ends READY only if the callback returned for every entry); computation of a counterexample for the error code. |
| C80 | TableLib.v: obj_type, obj_int, obj_float, obj_size, closure_is, type_predicates | Symbolic execution of the C function model from an arbitrary calling state; integer reasoning on the value of a float (fval). |
| C81 | Mathlib.v: rng_gaussian, rng_exponential with the float formulas as parameters; MathSpec.v: initialisation as published | Symbolic execution of the calls; computation for the reference seed 5489. |
| C82 | Mathlib.v: math_abs ... math_max on the float model of Coq.Floats.SpecFloat; the functions of the C library are parameters | Symbolic execution; exact integer values of floats (value times 2^149) for the rounding functions and comparisons. |
| C83 | SwarmExec.v (buzzswarm_exec on the VM model), Vm.v (swarm flag of the frames, swarm stack) | Effect of every instruction on frame flags and swarm stack (exec_sw); invariant: one id on the swarm stack for each frame of a swarm; induction over the executed instructions together with the frame invariant of C40. |
| C84 | Lex.v (newstring, find_quote) | Induction over the characters; counterexamples computed on the model. |
| C85 | Lex.v (nexttok with the stack of files) | Case analysis of one inclusion; termination measure; counterexample computed on the model. |
| C86 | Parser.v (every parse_* function, symbol tables, chunks, output), Lex.v | Measure: 40 times the tokens left plus the rank of the function; invariant on the symbol tables; induction on fuel; counterexamples computed on the model. |
| C87 | Parser.v | Counterexamples computed on the model, from the text to the final state of the virtual machine. |
| C88 | Parser.v | Counterexample computed on the model, from the text to the final state of the virtual machine. |
| C89 | Parser.v, Asm.v, Load.v, Vm.v | Counterexamples computed on the model, from the text to the final state of the virtual machine. |
| C90 | Parser.v, Asm.v, Load.v, Vm.v | Counterexample computed on the model. |
| C91 | Parser.v, Asm.v, Load.v, Vm.v | Counterexample computed on the model. |
| C92 | Parser.v, Asm.v, Load.v, Vm.v | Counterexample computed on the model. |
| C93 | Vm.v (pushl, call) | Symbolic execution of the two steps. |
| C94 | Lex.v, Parser.v, Asm.v, Load.v, Vm.v against Source.v | composition of C54, C86-C93, C53; execute_script from steps |
| C95 | Source.v | monotonicity by mutual induction on the syntax and induction on the bound |
| C96 | Gc.v (vm_gc: marks, sweep, strings on the state of Vm.v), Vm.v, GcSpec.v (reach, keeps, agree, gc_steps) | simulation: every instruction keeps the relation 'equal up to what cannot be reached' (GcProofs.v); fixed point of the marking rounds (GcMark.v) |
| C97 | Gc.v gc_execute (buzzvm_execute_script with the collection of each step) on the bytes of the compiler and the assembler | C96 applied along the simulation of C53, which shows that at every step the local variables have values and the strings pushed are protected |
| C98 | NeighborsVm.v: the methods on the virtual machine of Vm.v, with the traversal of TableLib.v | the traversal visits the buckets in order; each call is an execution of the closure; the new structure is the replay of the results |
| C99 | NeighborsVm.v neighbors_new, neighbors_reset, neighbors_add on the virtual machine of Vm.v | induction on the reports; registered strings keep their ids; tables with given fields and no others |
| C100 | FunReg.v: the list of functions as addresses; the first word of the code of a function is a parameter | induction on the list and on the registrations |
| C101 | Lex, Parser, Asm, Load, Vm, Strlib; the meaning of scripts of Source.v with C functions as an argument; HostSpec.define is what a host does to set a global variable; Front.v, a reader of script files proved sound for the specifications, gives the concrete case | the simulation of C94, where C functions are any functions that refine a meaning; the string functions are proved to refine theirs |
| C102 | as C101; Vm.function_call; HostSpec.function_calls and HostSpec.calls, the meaning of a sequence of calls | simulation of a call up to its return, with the VM stopping at the first return to the instruction it was called from; induction on the sequence of calls |
| C103 | Register.v: the registration functions, instruction by instruction on the virtual machine, and the whole of buzzvm_set_bcode with them | an invariant over the sequence of registrations: the globals written so far, the tables with exactly the members written so far, the strings of the script kept; then C101 for the execution |
| C104 | Register.v, Load.v: the library is registered after the instructions that store the functions of the script were executed | refuted: from the description of the state after loading (C103), and by computing a script from its text to the end of its execution |
| C105 | StdSpec.v gives each function its meaning on the state of the language; Strlib.v, Mathlib.v, TableLib.v model the C code | each C function against its meaning, on any machine about to call it; then C103 |
| C106 | StringBzz.v: the text of string.bzz, read by the model of the lexer and the parser; its functions run in the meaning of scripts (Source.v) with the meanings of the C functions (StdSpec.v) | the statements of the file are executed symbolically from the state with the library; the loop by induction on the positions left, with the invariant that m occurs at no position before i |
| C107 | StringBzz.v, Source.v, StdSpec.v | the loop by induction downwards; refuted for short m: the first position tried is one too far, string.sub gives nil there, and every comparison with nil is true (C62) |
| C108 | StringBzz.v, Source.v, StdSpec.v; pieces_between is the specification | two loops, two inductions: on the delimiters left, with the table and the indices unchanged while none matches; on the characters left, with the pieces written so far and the beginning of the current one |
| C109 | TableBzz.v (exact text of the file, read and parsed by the model of the lexer and the grammar; its functions), StdSpec.v | execution of the statements in the meaning of Source.v, with C103 for what the machine does |
| C110 | TableBzz.v (the functions as parsed from the file), Source.v | invariant of the partition loop on the list as segments, induction on the length of the segment for qsort |
| C111 | Obj.v (libm: the C library as a record with any strcmp of the right sign; obj_cmp_by), Vm.v, Mathlib.v | case analysis; a strcmp that gives the difference of the bytes for the counterexamples |
| C112 | ArrowsBzz.v (the whole text of the file); Lex.v, Parser.v, Asm.v, Load.v, Register.v, Vm.v run on it | counterexample: three functions that record their call, compiled, assembled, loaded and run in the model |
| C113 | Vec2Bzz.v (the whole text of the file, and its statements as the reader of Front.v finds them); the compiler, assembler, library registration and VM of C103 | C103 and symbolic execution of the statements of the file |
| C114 | Vec2Bzz.v over Source.v (meaning of the language) and StdSpec.v (the functions of math) | symbolic execution with expressions that do not change the state |
| C115 | the closures of buzzswarm.c as C functions of the virtual machine (SwarmVm.v), on top of the model of compiler, assembler, loader and VM | each closure refines its meaning (SwarmVmProofs.v); composed with C103 |
| C116 | the same meanings, with the model of memberships and messages of C32, C33 and C57 | symbolic execution of the meanings; fields of the new table by the theory of dictionaries |
| C117 | meaning of scripts (Source.v) with the meanings of library and swarm functions | invariant of the meaning of scripts (Meaning.v, kp_run) |
| C118 | SwarmVm.v (swarm_arg) | counterexample, from the text of a script to the state of the machine |
| C119 | the closures of buzzvstig.c as C functions of the virtual machine (VstigVm.v), on top of the model of compiler, assembler, loader and VM | each closure refines its meaning (VstigVmProofs.v); composed with C103 |
| C120 | the same meanings, with the model of stigmergies and messages of C27 to C31 | symbolic execution of the meanings; fields of the new table by the theory of dictionaries; invariant of reachable stigmergies |
| C121 | meaning of scripts (Source.v) with the meanings of library, swarm and stigmergy functions | invariant of the meaning of scripts (Meaning.v, kp_run) |
| C122 | the swarms, stigmergies and outgoing queue of one robot (Robot.v), with the operations of Swarm.v, Vstig.v and OutMsg.v on the same queue | simulation of the two parts of the history, with the invariant of the queue of C23 to C26 (RobotProofs.v) |
| C123 | the meanings of C115 to C121 on the state of Robot.v | C122, symbolic execution of the meanings, and an invariant for what they leave alone |
| C124 | neighbors.broadcast as a C function of the virtual machine (BroadcastVm.v) with the functions of C115 and C119, on the state of Robot.v | the function refines its meaning (BroadcastVmProofs.v); composed with C103 |
| C125 | the meanings of C124 on the state of Robot.v | symbolic execution; invariant of the meaning of scripts (Meaning.v, kp_run) |
| C126 | neighbors.listen, neighbors.ignore and neighbors.broadcast as C functions of the virtual machine (Listen.v, nb_listen, nb_ignore, nb_broadcast), beside the library | the functions refine their meanings (ListenVmProofs.v); composed with C103 |
| C127 | the meanings of C126 on the state of Listen.v | symbolic execution; dictionary lemmas of C55; invariant of the meaning of scripts (Meaning.v, kp_run) |
| C128 | handle of Listen.v and closure_call of Vm.v on the compiled script (waiting, HostSpec.v), against call of Source.v | symbolic execution of the entry of the call; the compiler theorem for calls (PropsCompile.v, compiled) and the loop lemmas of C102 |

## Trusted base

**Proof checker.** The kernel of Coq 8.16.1, including its bytecode machine (`vm_compute` is used to evaluate closed
terms in examples and counterexamples). No plugin, no axiom of ours, no kernel check switched off, no functor, no
`Declare Module`.

**Axioms.** Every property theorem is followed by `Print Assumptions`; each answer is "Closed under the global
context". No axiom of the standard library is used either: floats are `Coq.Floats.SpecFloat`, an executable
specification over integers, not the primitive floats and not the reals.

**The reading of the C code.** The code was not run. The model is a reading of it, recorded definition by definition in
comments with file and lines. The theorems say nothing about a mistake in this reading. Things taken from outside the
code: the C standard (wrap-around of unsigned types, undefined signed overflow, string functions; of the result of
`strcmp` only the sign, C111), IEEE single
precision with rounding to nearest even and without extended precision, a machine with 32-bit `int`, little endian.

**What is modelled, by source file** (model file in brackets):

* buzzdarray.c [Darray, with memory], buzzdict.c [Dict with NULL buckets; PDict without], buzzset.c [BSet],
  buzzstrman.c [Strman];
* buzzmsg.c [Msg], the object codec of buzztype.c [Wire], object comparison, hashing and tables of buzztype.c [Obj],
  the functions on tables and types of buzztype.c [TableLib];
* buzzheap.c with pointers [Heap], and as the first thing `buzzvm_step` does [Gc];
* buzzinmsg.c [InMsg], buzzoutmsg.c [OutMsg for the queues, Messages for the bytes], the reading of messages and
  `buzzvm_process_inmsgs`/`buzzvm_process_outmsgs` of buzzvm.c [Messages, Listen, Vstig, Swarm, OutStep];
* buzzswarm.c [Swarm; SwarmVm and SwarmExec for its closures as C functions of the virtual machine], buzzneighbors.c [Neighbors, NeighborsVm, Listen; BroadcastVm for broadcasts on the shared queue], buzzvstig.c [Vstig; Robot for histories that mix swarms, stigmergies and broadcasts, BroadcastVm for neighbors.broadcast on its queue; VstigVm for create, put, get and size as C functions of the virtual machine;
  Net is a network of robots, the environment of the code];
* buzzvm.c: every instruction, calls of closures and of C functions, `buzzvm_function_call`,
  `buzzvm_execute_script`, loading bytecode, registration of C functions [Instr, Vm, Load, FunReg] and of the
  standard library [Register];
* buzzasm.c: assembler, disassembler, numbers and lines [Text, Asm]; buzzdebug.c [Debug];
* buzzlex.c [Lex], buzzparser.c [Parser], that is the compiler bzzc from files to assembly text;
* buzzstring.c [Strlib], buzzmath.c with its generator of random numbers [Mathlib; the functions of libm are
  parameters];
* include/string.bzz, table.bzz, vec2.bzz and arrows.bzz, libraries written in Buzz [StringBzz, TableBzz, Vec2Bzz, ArrowsBzz: their text, read by the models above; in table.bzz, what swap, cmp_number and sort do].

**What is not modelled**:

* include/neighbors.bzz; of table.bzz, what max, min, maxkey, minkey, print and shuffle do;
* buzzio.c (files) beyond the registration of its names, the command-line programs (buzzparse.c, buzzasm_main.c, buzzdeasm_main.c, buzzrun.c, and
  `bzzc`) beyond the calls they make in order, everything under argos/ (C++ and Qt), utility/ and testing/, CMake files;
* text printed on the terminal: error messages, `log`, `buzzdebug_*_dump`, stack dumps;
* failures of `malloc`; addresses, except in Heap, Gc and FunReg; sizes over 2^31 where a comment says so;
* the file system: opening a file is a function from names to an absolute path and contents, the same at each call;
* threads: the code has none.

**Where the model is cut.** Layers meet at interfaces that are theorems, not assumptions: dynamic arrays are lists for
the layers above (C01), dictionaries are finite maps (C05), strings are identified with their ids (C08). Three cuts are
not closed by a theorem: Heap (C17-C20) and Vm use different representations of objects, with or without addresses, and
Gc (C96, C97) is the collector on the representation of Vm; the closures foreach, onconflict and onconflictlost
of virtual stigmergies are modelled on the data they change, not as C functions of Vm (create, put, get and size are, C119-C121, and those on swarms, C115-C118, except swarm.id); the meaning of a C function that calls back into the
script is not part of the meaning of scripts (Source.v).

**Specifications to read.** What the theorems claim depends on the files named `*Spec.v`, on Source.v (the language) and,
for the composition of C94, C97, C101-C107, C109, C113, C115 and C119, on LexSpec, AsmSpec and CompileSpec. Front.v is a reader of scripts
used to produce concrete cases; nothing depends on it but examples.
