# Formal model of rtbot in Rocq (Coq 8.16.1)

The C++ code in `/repo` is modelled function by function as total, computable
Gallina functions in `rocq/theories/Model`; specifications that do not mention
the model are in `rocq/theories/Spec`; proofs are in `rocq/theories/Proofs`; the
final statements (one theorem per claim, closed by `exact`, followed by
`Print Assumptions`, with `Example`s showing non-vacuity) are in
`rocq/theories/Properties`.

## 1. Modelling decisions

* **Time** `T = uint64_t` is `Z`, every C++ addition, subtraction and
  multiplication is followed by an explicit `mod 2^64`.
* **Values** `V = double` are abstract: a record `NumOps` lists every primitive
  the code uses (add, sub, mul, div, comparisons, conversion from and to
  integers, pow, sqrt, cos, pi, 8 byte image).  Theorems that need arithmetic
  laws take them as hypotheses of a separate record (`NumLaws`: an ordered field).
  Two instances are given: exact rationals `Qc` (satisfies the laws) and IEEE
  binary64 from Flocq (does not, used for the facts about real doubles).
  `pow` and `cos` of libm are parameters of the binary64 instance.
* **Outcome** of a C++ call: `Ok r`, `Throw e` (an exception), `UB` (undefined
  behaviour, e.g. reading outside a buffer, signed overflow), `Diverges` (an
  inner loop that never ends) or `OutOfFuel` (the recursion depth bound of the
  model was reached).  The state is returned next to the outcome in all cases, so
  the partial mutations left behind by an exception are visible.
* **`std::map`/`std::set` keyed by `std::string`** are association lists sorted by
  the byte-wise lexicographic order; iteration order is therefore the C++ one.
* **Graph**: a heap from operator id to operator state, connections are stored in
  the source operator as (destination id, destination port).  Pointers are ids
  (ids are unique inside a program, `Program::init` uses a map).  `executeData` /
  `executeControl` / `emit` are one function recursive on fuel (the recursion
  depth); acyclic graphs provably need no more than their depth.
* **Bytes**: `collect`/`restore` are modelled at byte level (little endian,
  8 byte `size_t`, 4 byte `int`, 1 byte `bool`); reading outside is `UB`.
* **JSON** is an AST.  Text parsing and printing (nlohmann) are two parameters,
  `parse` and `dump` of the class `JsonText`, over which the theorems are
  quantified; where the code dumps a value and parses it again, `Model/Json.v`
  hands the value over.
* **JSON schema**: `Model/Schema.v` has the schema that tools/generator makes of
  its template and the operators' *.md files, and the keywords of the validator
  that occur in it.  Which doubles the validator takes for integers, and its check
  of dates, are parameters (class `SchemaLib`).
* **Wrappers**: `Model/Wrapper.v` has the classes Run and Program of the Python module
  and the class Program of the JavaScript package.  Python's `json.loads` and
  `json.dumps`, and which values survive the way through JSON text, are parameters
  (class `PyJson`).  The random id of a program is an argument.
* **JavaScript calls**: `Model/Javascript.v` has the classes RtBot and RtBotRun and the
  methods of class Program that run a program.  A call is two steps of the event loop, and
  calls may overlap in any order that the queue of microtasks allows.  What embind makes of
  JavaScript's numbers is a parameter (class `JsRuntime`).
* **Command line tool**: `Model/Cli.v` has the format EXTENDED of RtBotRun, the command
  `debug` of apps/cli from the rows of the file on, and the state of the debugger's screen.
  What the tool makes of texts and numbers is a parameter (class `CliText`).
* **Uninitialised memory** (members that constructors leave unset) is a parameter
  of the constructors (`junk`), so that a dependence on it is visible (C54, C55).
* **Composites** exist in the C++ interface only: `Model/Composite.v` has a `world`
  of operators and Composites by address and the calls of a C++ user on it.

## 2. What is not modelled

Text of JSON (parse/dump), the text of the validator's error messages; the Python/JS/wasm
bindings' conversion code beyond the C++ functions of `bindings.cpp`; of the wrappers:
the JavaScript schema (zod), class-transformer, the loading of the wasm module,
aliasing of Python objects that are changed after they were added to a Program; the programs
around the library (apps/: Redis module, server, microcontroller, benchmark, documentation site; of the command line tool: reading files, the CSV parser, the screen); `debug`
printing; real `std::sort` instability between equivalent points (−0.0/+0.0);
memory exhaustion; multi-threading (the code has none); platforms with 4 byte
`size_t` (wasm32) for the byte format; the least-squares pre-history of
HermiteResampler is modelled but nothing is claimed about its numeric quality.

## 3. Plan per property

| id | what is modelled | how it is proved |
|----|------------------|------------------|
| C01 | `Input` receive/execute on the base operator | induction on the arrival history, invariant: last sent = max so far |
| C02 | `Operator::receiveData` buffer | induction, `lastn` specification |
| C03 | `Operator::executeData` gate | induction on history, generic over the process function |
| C04 | MovingAverage over an ordered field | C02 + field |
| C05 | MovingAverage over binary64 | refutation by computing with Flocq and by NaN propagation for every later history |
| C06-C07 | StandardDeviation, FIR | C03 + list algebra |
| C08 | AutoRegressive | invariant: buffer = last n outputs; documented order refuted |
| C09 | PeakDetector | C03; documented variants refuted |
| C10-C12 | Count, CumulativeSum, Difference, maps, filters | induction |
| C13 | TimeShift | case analysis on 64 bit arithmetic; refutations for zero and negative shifts |
| C14-C16 | resamplers | loop invariants; Hermite refuted, conditional version proved |
| C17-C18 | Function | sorting lemma, field algebra; hermite line reproduction refuted |
| C19-C20 | Variable | invariant on pending query and retained data; lost query refuted |
| C21-C25 | Join, BinaryJoin, Linear | invariant relating queues to per-port histories; refutations of immediacy and of coefficient order (for every Linear from ten coefficients on); immediacy proved for one clock and for arrivals in global order of time |
| C26 | Demultiplexer | invariant relating queues to histories |
| C27 | RSI | induction, order lemmas |
| C28 | emit/merge over graphs | instrumented semantics with a trace, simulation by induction on fuel |
| C29-C30 | termination | rank function; self loop refutation for every fuel; any loop of operators that answer at once: in every heap with the shape of the created program, an execution that succeeds keeps the messages that wait in the loop, so none of the loop was executed with one (Proofs/LoopsP.v, by induction on the depth) |
| C31 | reachability frame | induction on fuel |
| C32 | program-wide monotonicity | trace invariant by induction over rank and fuel |
| C33 | order of connections | refuted by a computed program with a diamond; proved for programs without diamonds by exchanging executions of operators that share no descendants; proved with diamonds for messages in order of time, because every stream is then determined by the streams upstream (C72); for any graph, any messages and any failures, proved for lists that keep the order of the connections of each output, because these are stored apart (C33_outputs_partial) |
| C34 | order of arrivals | refuted by a computed program; proved for interleavings in order of time (C72); positive fragments |
| C35-C36 | Program.receive | fold lemmas, merge algebra |
| C37-C40 | codec | decode∘encode on every operator; program bisimulation; refutations |
| C41-C43 | construction from JSON | case analysis; round-trip per operator; refutations |
| C44-C47 | FactoryOp and bindings | frame lemmas on maps; refutations |
| C48-C49 | Pipeline, Composite | simulation |
| C50 | bounds | invariant; for AutoRegressive by pairing receptions and executions in the log of a call; for Join on one clock from the join invariant; unboundedness of Join and Demultiplexer refuted for every bound |
| C51-C52 | causality, exceptions | fold prefix lemma; refutation by Demultiplexer; a message for an input that is not there changes nothing (Pipelines included, Refuse.v), but through the message buffer it makes every later processing call fail until the program is deleted (Stuck.v: it stays buffered because the buffer is emptied only after success) |
| C53 | `from_json` of every operator | case analysis per type; refutations by computed definitions |
| C54-C55 | uninitialised members | relation between programs that differ in them only; refutation by a computed snapshot |
| C56 | whole programs, Pipelines included | an invariant of every operator (ports and sizes as created, buffers within their size, only existing ports pending) under which receiving and executing succeed; it holds after creation and is kept by every message; depth from C29 |
| C57 | the schema, `validate`, `createProgram` of the bindings | the schema of each type, with parameters in range, implies what `from_json` needs; ports of the created operators as the definition says; induction over operators and connections; refutations by computed definitions |
| C58 | the bindings' `createProgram` in histories of calls | induction over the history; invariant on the programs' definitions |
| C59-C60 | `to_json`/`from_json` of every operator against its schema | case analysis per type; exactly one schema can match a type |
| C61 | "output" in schema and program | the pattern of the schema implies what `get` needs |
| C62-C63 | MovingAverage, CumulativeSum, FIR over binary64 | Flocq's error bounds of one operation; induction over the history for the running sum |
| C64 | RSI over binary64 | signs are kept by every operation; monotonicity of rounding |
| C65 | StandardDeviation over binary64 | no NaN from sums, quotients and roots of non-negative numbers; C62 for the average |
| C66-C67 | Run of the Python module on top of the bindings | a row is a batch (C45); induction over the rows; ports of created operators contain no ':' and only declared ports are emitted, so that keys of the table are unambiguous |
| C68 | getProgramEntryPorts, Run | sorted lists with the same elements are equal; refutation with ten inputs, and for every definition whose entry has ten inputs or more: in the sorted names of the ports i10 follows i1 (Proofs/PortNames10.v) |
| C69-C70 | editing calls of the Program classes | invariants over histories of calls; refutations for every program |
| C71 | parse, toJson | members of the written object by cases; `init` only looks at four members |
| C72 | programs whose operators answer at once | the log of a run (C28) splits into rounds, one per message, in which every connection is used in order; in order of time a join has at most one message waiting per port and emits each complete time in the round that completes it; induction over the rank for two programs with the same wiring; for joins fed in any order, the run of the join alone on its calls (C21) gives a prefix of the common times, the rest still waiting |
| C73 | HermiteResampler values | the loop invariant of C16 carries the four messages each value is computed from; field algebra; the made up point by minimising the squared distance |
| C74-C75 | RtBotRun | as C66; the outputs are a member of the object, so that runs add up; refutations for every runtime whose `unsigned long` has 32 bits |
| C76 | start, processMessage, stop in histories of calls | a delivered message leaves no buffer; a message for an input that is not there stays in the buffer whatever follows, and no operator accepts it (Refuse.v) |
| C77 | overlapping calls | induction over the schedule with the queue of microtasks; splitting a batch at any point gives the same outputs (C35) |
| C78 | progressCb | arithmetic on the counter |
| C79 | RtBotRun, format EXTENDED | as C74, by induction on the rows |
| C80 | command debug | C79; with verbose the callback that is no function is called once a twentieth of the rows is done |
| C81 | debugger screen | induction on the actions: the state is a function of the position and of the selected operators; a cell that reads an undefined value is an exception |
| C82 | HermiteResampler on a straight line | the run lemma of C73 with the fitted line computed; the wrapped time and the overflow followed through the code |
| C83 | generated Python classes | Model/Classes.v derives the parameters from the schema as the generator does; a lemma on the binding of arguments; then all types with all their parameters, by C53 |
| C84 | generated JavaScript classes | the same without defaults: members that are undefined are not written |
| C85 | programs built in Python | induction on the edits: all operators come from classes, hence are valid (C83) and can be read; then C57 |
| C86 | examples/data/program-test-1.json, created from its parsed JSON | creation is computed; no call fails by C56; the stream of each operator follows from the streams before it (C72, C04, C09), the joins by the theorem on joins of which one input leads (all other inputs have its times) |
| C87 | examples/data/program-test-6.json, created from its parsed JSON | the same, with C16 for the times of the resampler and C06, C12 for the bands; that the calls are answered follows from C88 with a contract about the entry, and from C73 for the resampler |
| C88 | all of Program::receive and the operators; no Pipelines, no cycles, one connection per input | the recursion is followed to the failing call: the log of what was done so far is the beginning of a complete log (trees of calls, balanced, each input in step with its source); the contract by induction along the connections, fuel by C29 |
| C89 | examples/data/program-test-2.json and program-test-3.json, created from their parsed JSON | as C86 |
| C90 | examples/data/program-test-4.json, created from its parsed JSON; natural numbers below 2^53 compare as numbers do (class NumCount, with instances for the rationals and for the doubles) | the states between two messages (Proofs/SwitchP.v): every message is one symbolic execution of the program in each of four cases (not accepted; count below, equal to, above 20), then induction over messages, batches and calls |
| C91 | examples/data/program-test-5.json, created from its parsed JSON, with any coefficients; what it computes is written down in Spec/Feedback.v without the operators | a state for every phase (no message, 1 to 14, after the 15th with one or no average missing, later); every message is a symbolic execution of the 41 operators in each of the cases negative, zero, positive difference (Proofs/Symbolic.v, FeedbackP.v, FeedbackRun.v, FeedbackAsk.v, FeedbackLate.v), then induction over messages, batches and calls (FeedbackHist.v); C91_gap_refuted shows why the times have to be one apart; C91_any_times covers all times: a further state after a gap, in which the averages have lost their first input (FeedbackGap.v, Spec/Gap.v) |
| C92 | the program of C91 with exact weights 13/14 and 1/14 in an ordered field whose power inverts for the exponent -1 (the rationals do), and the operator of C27 | both specifications are compared (Proofs/Generated.v): sums of gains and losses, the two ways of smoothing, the two ways of writing the index; then C91_feedback and C27_wilder |
| C93 | the definition made by the first cell of examples/notebook/Fibonacci.ipynb, as JSON, and the same with an entry; what it computes is written down in Spec/Fibonacci.v | creation is computed (it is refused without the entry); a state for no, one, more messages and for the time after a gap (Proofs/FibP.v), one symbolic execution for each kind of message, then induction (FibHist.v). No assumption about gaps: the specification stops at the first one. The values are compared with the Fibonacci numbers over ordered fields and, up to the 78th, over doubles |
| C94 | the definition made by the first code cell of examples/notebook/rtbot_peak_detection.ipynb, as JSON, with the window sizes as parameters, and the same with an entry (Spec/Notebook.v) | creation is computed for unknown sizes (the JSON numbers are read as unsigned 64-bit ones); then as C86, with the sizes as parameters |
| C95 | toMermaidJs of the Python module as a function to text (Model/Mermaid.v); what an f-string makes of a value is a parameter. Spec/Mermaid.v has a reader of such diagrams, written from their syntax | the reader gives back the connections (Proofs/MermaidP.v), by induction over the lines; that the operators are found follows from C69; adding an operator leaves the text unchanged; a missing member makes the text impossible |
| C96 | `init` and the check against the schema, on definitions as JSON values; Spec/Members.v lists, per type, the members that mean something and what stands for a missing one | two definitions that agree on these: reading gives the same operator type by type (Proofs/MembersP.v), each of the 35 schemas says the same of both (Proofs/MembersV.v); induction over the lists of operators and connections, and over the history of calls. examples/data/debug-test.json follows from C94 |
| C97 | `init` and `receive`/`receiveDebug` on two definitions as JSON values, the second with other names for its top-level operators and the operators in any order (Spec/Names.v); operators inside a Pipeline keep their names | constructors and calls on one operator commute with a change of its id and of the names in its connections (Proofs/Retag.v); a relation of heaps and results preserved by delivery, execution, emission and the output filter (Proofs/NamesP.v) and established by reading (Proofs/NamesR.v); permutations of operators with different ids by induction; an id that occurs twice: the second operator is dropped; the relation of programs is kept by all calls of the manager except creation and snapshots, and the other programs do not notice (Properties/Renamed.v) |
| C98 | creation through the validator and all calls of the manager, from the JSON definition only (Spec/Dependable.v: types, connections without cycles, messages for inputs) | the types of the definition give reliable operators, none a Pipeline, at most one per item (Proofs/DependableP.v); the connections of the program are those listed (C41), so it has no cycle; then C57 and C56; an invariant of the manager for all calls (Properties/Dependable.v); the depth bound is the number of operators |

## 4. Trusted base

* Coq 8.16.1's kernel (the compiled files are checked again by `coqchk`).
* The correspondence between the model and the C++ text: every definition in
  `Model/` cites the file and lines it models and says where it simplifies.
* The statements: the theorems of `Properties/` and the definitions of `Spec/`.
* The axioms of section 5.

## 5. Axioms, as listed by `Print Assumptions`

`Print Assumptions` is run at the end of each file in `Properties/`.

* The following theorems are about IEEE binary64 numbers.  They rest on the axioms
  of Coq's standard library that Flocq's use of the real numbers brings in:
  `ClassicalDedekindReals.sig_forall_dec`, `ClassicalDedekindReals.sig_not_dec`,
  `Classical_Prop.classic`, `FunctionalExtensionality.functional_extensionality_dep`.
  They are C05_window_only_refuted, C05_infinity_is_never_forgotten,
  C05_integers_partial, C11_difference_refuted, C11_difference_undefined,
  C11_difference_b64_partial, C24_numbers_are_comparable,
  C24_and_is_not_symmetric_on_nan, C39_rsi_refuted, C39_pipeline_refuted,
  C40_silent_loss_refuted, and all theorems of C62, C63, C64 and C65.
* All other theorems named in MANIFEST.json are closed under the global context:
  they use no axiom.

## 6. What is modelled of each source file

| file in /repo | model | left out |
|---------------|-------|----------|
| libs/core/include/rtbot/Message.h | Core.v, Codec.v | debug printing |
| libs/core/include/rtbot/Operator.h | Core.v, Ops.v, Make.v, Graph.v, Codec.v | debug printing, getters that nothing uses |
| libs/core: Input, Output, Collector, Join, BinaryJoin, FilterByValue, Demultiplexer | Ops.v, Make.v | debug printing |
| libs/core/include/rtbot/Composite.h | Composite.v | nothing |
| libs/std: all operators | Ops.v, Make.v | Arma.h, which is commented out |
| libs/finance: RelativeStrengthIndex | Ops.v, Make.v | |
| libs/api: Program.h, Program.cpp | Graph.v, Json.v, Codec.v | printing of results |
| libs/api: Pipeline.h, Pipeline.cpp | Graph.v, Json.v | |
| libs/api: FactoryOp.h, FactoryOp.cpp | Json.v, Factory.v | JSON text |
| libs/api/src/bindings.cpp | Factory.v, Schema.v | conversion of results to JSON text |
| libs/wrappers/python/rtbot.py | Wrapper.v, Mermaid.v | random ids, the order of the arguments in the labels of a diagram |
| libs/wrappers/javascript/src/program.ts | Wrapper.v, Javascript.v | parameters of operators, validate |
| libs/wrappers/javascript/src/api.ts | Javascript.v, Cli.v | verbose log, exceptions as text |
| tools/generator/templates/jsonschema.hbs, tools/generator/src/index.ts (target jsonschema/cpp), front matter of libs/{core,std}/include/**/*.md | Schema.v | the target markdown; descriptions, examples |
| examples/data/program-test-1.json, 2, 3, 4, 5, 6, debug-test.json | Spec/Shipped.v, Spec/Shipped2.v, Spec/Feedback.v, Spec/Members.v | the recordings |
| examples/notebook/Fibonacci.ipynb and rtbot_peak_detection.ipynb, the program of the first code cell | Spec/Fibonacci.v, Spec/Notebook.v | the cells that run it and plot |
| tools/generator/templates/{python,typescript}.hbs, tools/generator/src/index.ts (targets python, typescript), the defaults in the front matter | Classes.v | the declared types of TypeScript; zod is taken to check the JSON schema; programSchema of typescript.hbs |
