{"id": "C01", "title": "Input forwards exactly the strictly newer messages", "statement": "An Input operator with any number of ports forwards, on the output matching each input port, exactly those received messages whose time is strictly greater than that of every message previously received on the same port, each once, in arrival order and unchanged; the other ports' outputs are unaffected. In particular the times seen on one output are strictly increasing.", "quantifier": "every number of ports, every interleaving and every finite history of (port, message) arrivals", "why_tests_cant": "tests use one port and a few dozen hand-written times; the property is about every history and interleaving", "anchors": ["libs/core/include/rtbot/Input.h: Input::processData"]}
{"id": "C02", "title": "A bounded port holds exactly the last n messages", "statement": "A data port declared with size n>0 always holds exactly the last min(n, received) messages in arrival order, never reports overflow, and (in exact arithmetic) its running sum equals the sum of the held values.", "quantifier": "every n and every finite history of messages received on the port", "why_tests_cant": "unit tests only see a few sizes and lengths; eviction and the incremental sum must agree forever", "anchors": ["libs/core/include/rtbot/Operator.h: Operator::receiveData", "libs/core/include/rtbot/Operator.h: Operator::Input"]}
{"id": "C03", "title": "Windowed operators fire once per message from the n-th on", "statement": "An operator on one port with window n emits nothing for the first n-1 messages, then processes exactly once for each further message, on the window of the last n messages; if the processing yields no output (filters) nothing is emitted.", "quantifier": "every operator of this shape (MovingAverage, StandardDeviation, FiniteImpulseResponse, Difference, PeakDetector, and the size-1 operators), every window size and history", "why_tests_cant": "warm-up and steady state for all sizes and lengths cannot be enumerated", "anchors": ["libs/core/include/rtbot/Operator.h: Operator::executeData", "libs/std/include/rtbot/std/MovingAverage.h", "libs/std/include/rtbot/std/Add.h"]}
{"id": "C04", "title": "MovingAverage equals the mean of the last n values", "statement": "In exact arithmetic the k-th message (k>=n) makes MovingAverage(n) emit one message with the time of the k-th message and value the arithmetic mean of the last n received values.", "quantifier": "every n>=1 and every history", "why_tests_cant": "the implementation uses an incrementally maintained sum; agreement with the mean is an inductive fact over histories of every length", "anchors": ["libs/std/include/rtbot/std/MovingAverage.h", "libs/core/include/rtbot/Operator.h: Operator::receiveData"]}
{"id": "C05", "title": "MovingAverage in double precision stays close to the mean of the window", "statement": "With IEEE binary64 values, the emitted average is a function of the current window only (a value that has left the window no longer influences the output).", "quantifier": "every history of doubles including infinities and values of very different magnitude", "why_tests_cant": "tests use well scaled data; cancellation and NaN poisoning need adversarial histories", "anchors": ["libs/std/include/rtbot/std/MovingAverage.h", "libs/core/include/rtbot/Operator.h: Operator::receiveData"]}
{"id": "C06", "title": "StandardDeviation equals the sample deviation of the window", "statement": "In exact arithmetic, from the n-th message on, StandardDeviation(n) emits with the newest time the square root of the sum of squared deviations of the last n values from their mean divided by n-1.", "quantifier": "every n>=2 and every history", "why_tests_cant": "same as the moving average: inductive over histories and window sizes", "anchors": ["libs/std/include/rtbot/std/StandardDeviation.h"]}
{"id": "C07", "title": "FiniteImpulseResponse is the convolution with its coefficients", "statement": "From the n-th message on (n = number of coefficients) the emitted value is sum_j coeff[j]*x[k-j] where x[k] is the newest value, with the newest time.", "quantifier": "every coefficient vector and every history", "why_tests_cant": "index reversal errors only show for asymmetric coefficients and long histories", "anchors": ["libs/std/include/rtbot/std/FiniteImpulseResponse.h"]}
{"id": "C08", "title": "AutoRegressive implements the documented recurrence", "statement": "AutoRegressive with coefficients c_0..c_{n-1} emits for every input x_t, with the input's time, y_t = x_t + sum_i c_i*y_{t-i-1}, the y before the start being 0.", "quantifier": "every coefficient vector and every history", "why_tests_cant": "the existing test uses few coefficients; the order of coefficients is only visible with asymmetric ones", "anchors": ["libs/std/include/rtbot/std/AutoRegressive.h", "libs/std/include/rtbot/std/AutoRegressive.md"]}
{"id": "C09", "title": "PeakDetector emits exactly the window-centre maxima", "statement": "From the n-th message on, PeakDetector(n) emits the message at the centre of the window of the last n messages, with its own time and value, iff no value in the window exceeds it; otherwise nothing. (The documentation says strictly larger than any other, and the newest time.)", "quantifier": "every n, every history, including plateaus and ties", "why_tests_cant": "ties and even window sizes are corner cases of an infinite domain", "anchors": ["libs/std/include/rtbot/std/PeakDetector.h", "libs/std/include/rtbot/std/PeakDetector.md"]}
{"id": "C10", "title": "Count and CumulativeSum are exact running aggregates", "statement": "Count emits for its k-th message the value k; CumulativeSum emits the sum of all values received so far; both with the incoming time, once per message.", "quantifier": "every history", "why_tests_cant": "accumulated state must stay right after every number of messages", "anchors": ["libs/std/include/rtbot/std/Count.h", "libs/std/include/rtbot/std/CumulativeSum.h"]}
{"id": "C11", "title": "Difference emits consecutive differences at the newest time", "statement": "From the second message on, Difference emits x_k - x_{k-1} with the time of message k.", "quantifier": "every history of messages with any 64 bit times", "why_tests_cant": "times above 2^53 and the useOldestTime=false branch are not exercised by tests", "anchors": ["libs/std/include/rtbot/std/Difference.h", "libs/std/include/rtbot/std/Difference.md"]}
{"id": "C12", "title": "Size-one operators map each message independently", "statement": "Add, Scale, Power, Constant and Identity emit exactly one message per received message, at the same time, whose value is the documented function of the value; GreaterThan, LessThan and EqualTo forward unchanged exactly the messages whose value passes the comparison with the constant.", "quantifier": "every constant and every history", "why_tests_cant": "all values, all histories", "anchors": ["libs/std/include/rtbot/std/Add.h", "libs/std/include/rtbot/std/Scale.h", "libs/std/include/rtbot/std/Power.h", "libs/std/include/rtbot/std/Constant.h", "libs/std/include/rtbot/std/Identity.h", "libs/std/include/rtbot/std/GreaterThan.h", "libs/std/include/rtbot/std/LessThan.h", "libs/std/include/rtbot/std/EqualTo.h", "libs/core/include/rtbot/FilterByValue.h"]}
{"id": "C13", "title": "TimeShift moves every message by dt*times", "statement": "TimeShift(dt, times) emits each message with its value unchanged at time t + dt*times, negative results being clamped to 0.", "quantifier": "every dt, times (positive, zero, negative) and every history", "why_tests_cant": "unsigned wrap-around corner cases cannot be enumerated", "anchors": ["libs/std/include/rtbot/std/TimeShift.h"]}
{"id": "C14", "title": "ConstantResampler emits exactly the regular grid with last known values", "statement": "For strictly increasing times and interval d>0 the output over any history is exactly one message at each grid time t0+k*d (k>=1) not after the newest time (t0 the first message's time), in increasing order, each carrying the value of the latest message whose time is not after the grid time.", "quantifier": "every interval d>0 and every strictly increasing history (no 64 bit overflow of the grid)", "why_tests_cant": "gaps spanning any number of grid points, aligned and unaligned", "anchors": ["libs/std/include/rtbot/std/ConstantResampler.h"]}
{"id": "C15", "title": "CosineResampler emits exactly the regular grid, interpolating neighbours", "statement": "For strictly increasing times and dt>0 the output over any history is exactly one message at each grid time t0+k*dt (k>=1) not after the newest time, in order; each value is the cosine interpolation of the two received messages surrounding the grid time.", "quantifier": "every dt>0 and every strictly increasing history within 64/31 bit bounds", "why_tests_cant": "the carry-over between windows must stay consistent for every history", "anchors": ["libs/std/include/rtbot/std/CosineResampler.h"]}
{"id": "C16", "title": "HermiteResampler emits a regular, strictly increasing grid", "statement": "For strictly increasing times and dt>0 HermiteResampler emits messages at strictly increasing times on the grid t0+k*dt, without skipping or repeating grid points.", "quantifier": "every dt>0 and every strictly increasing history", "why_tests_cant": "the failing histories (dt larger than the first gap) are not in the tests", "anchors": ["libs/std/include/rtbot/std/HermiteResampler.h"]}
{"id": "C17", "title": "Function (linear) is the piecewise linear interpolant", "statement": "For points with pairwise distinct abscissae, a linear Function maps x to the value at x of the line through the two points bracketing x (the first/last segment outside the range), independent of the order in which points were given; it passes through every given point.", "quantifier": "every point list of length >=2 with distinct abscissae, every x", "why_tests_cant": "continuous domain, all permutations", "anchors": ["libs/std/include/rtbot/std/Function.h"]}
{"id": "C18", "title": "Function (hermite) interpolates smoothly", "statement": "For points with distinct abscissae a hermite Function passes through every given point and reproduces straight lines (if all points are on a line, so is every output).", "quantifier": "every point list on a line and every x", "why_tests_cant": "tests use unit spaced points only", "anchors": ["libs/std/include/rtbot/std/Function.h"]}
{"id": "C19", "title": "Variable answers queries with the value valid at the query time", "statement": "With data messages in increasing time order, a query with time q on c1 that is answered, is answered exactly once, with time q and the value of the last data message with time <= q, or the default value if q is before the first data message ever received; an answer is only given once a data message with time >= q has arrived.", "quantifier": "every history interleaving data and queries", "why_tests_cant": "all interleavings of two asynchronous streams", "anchors": ["libs/std/include/rtbot/std/Variable.h"]}
{"id": "C20", "title": "Variable answers every query", "statement": "Every query sent to a Variable is eventually answered once later data messages cover its time.", "quantifier": "every history of queries and data", "why_tests_cant": "requires several queries pending before data arrive", "anchors": ["libs/std/include/rtbot/std/Variable.h"]}
{"id": "C21", "title": "Join emits only synchronized tuples", "statement": "With strictly increasing times per port, whatever the interleaving of arrivals on its ports, every emission of Join consists of exactly one message per port, all with one common time, each being the message received on that port at that time; emission times strictly increase (no duplicates).", "quantifier": "every number of ports >=2, every interleaving of arrivals and executions", "why_tests_cant": "interleavings of unbounded histories", "anchors": ["libs/core/include/rtbot/Join.h"]}
{"id": "C22", "title": "Join never loses a common time", "statement": "The times emitted by Join are always a prefix of the increasing list of times that all ports have received; a common time not yet emitted is still queued on every port, and finitely many further executions emit all of them. Consequently after flushing the output depends only on what each port received, not on the interleaving.", "quantifier": "every number of ports, every interleaving and history", "why_tests_cant": "interleavings of unbounded histories", "anchors": ["libs/core/include/rtbot/Join.h"]}
{"id": "C23", "title": "Join emits as soon as a time is complete", "statement": "As soon as the last port receives its message for a common time (and Join is executed) that time is emitted.", "quantifier": "every interleaving and history", "why_tests_cant": "needs ports with different unmatched times; tests only cover simple alignments", "anchors": ["libs/core/include/rtbot/Join.h"]}
{"id": "C24", "title": "Two-input operators apply their function pointwise on synchronized inputs", "statement": "Plus, Minus, Multiplication, Division, And, Or, GreaterThanStream and LessThanStream emit at each synchronized time the documented function of the two values (i1 first, i2 second); Division by zero, and a failed stream comparison, emit nothing but consume the pair.", "quantifier": "every interleaving and history on the two ports", "why_tests_cant": "interleavings of unbounded histories", "anchors": ["libs/core/include/rtbot/BinaryJoin.h", "libs/std/include/rtbot/std/Minus.h", "libs/std/include/rtbot/std/Division.h", "libs/std/include/rtbot/std/And.h", "libs/std/include/rtbot/std/GreaterThanStream.h"]}
{"id": "C25", "title": "Linear pairs the k-th coefficient with port ik", "statement": "Linear with coefficients c_1..c_n emits at each synchronized time sum_k c_k * (value received on port ik).", "quantifier": "every number of coefficients and every history", "why_tests_cant": "needs ten or more ports", "anchors": ["libs/std/include/rtbot/std/Linear.h", "libs/core/include/rtbot/Join.h"]}
{"id": "C26", "title": "Demultiplexer routes each message by its controls", "statement": "A data message at time t is emitted (unchanged, once) exactly on the outputs ok whose control ck received value 1 at time t, once every control has received a 0/1 message at time t; it is held back until then.", "quantifier": "every number of ports and every interleaving of data and control arrivals with increasing times per port", "why_tests_cant": "interleavings of unbounded histories", "anchors": ["libs/core/include/rtbot/Demultiplexer.h"]}
{"id": "C27", "title": "RelativeStrengthIndex follows Wilder's formula and stays within 0..100", "statement": "From the (n+1)-th message on, RelativeStrengthIndex(n) emits 100 - 100/(1+avgGain/avgLoss) (100 when there is no loss) where the averages start as the means of the first n changes and are then smoothed with weight (n-1)/n; the value always lies in [0,100].", "quantifier": "every n>=1 and every history (exact arithmetic)", "why_tests_cant": "smoothing state over unbounded histories", "anchors": ["libs/finance/include/rtbot/finance/RelativeStrengthIndex.h"]}
{"id": "C28", "title": "The program result lists exactly what was emitted, in order", "statement": "The map returned by receiveDebug contains, under each operator id and output port, exactly the messages that operator emitted on that port while processing the call, in emission order, and no other entries.", "quantifier": "every program graph, every state and every batch", "why_tests_cant": "merging over arbitrary graphs and recursion depth", "anchors": ["libs/core/include/rtbot/Operator.h: Operator::emit, mergeOutput", "libs/api/include/rtbot/Program.h: receiveDebug"]}
{"id": "C29", "title": "Processing terminates on acyclic programs", "statement": "On a program whose connections form no cycle, processing any batch terminates, with recursion depth bounded by the longest path.", "quantifier": "every acyclic graph, state and batch", "why_tests_cant": "all graphs", "anchors": ["libs/core/include/rtbot/Operator.h: Operator::emit"]}
{"id": "C30", "title": "Creating a program rejects graphs on which processing cannot terminate", "statement": "A program accepted at creation never recurses forever on a message.", "quantifier": "every accepted program", "why_tests_cant": "needs cyclic graphs", "anchors": ["libs/api/src/Program.cpp: Program::init", "libs/core/include/rtbot/Operator.h: Operator::connect"]}
{"id": "C31", "title": "Only reachable operators are affected", "statement": "Processing a message changes the state of, and returns output for, only operators reachable from the entry operator through connections.", "quantifier": "every graph, state and message", "why_tests_cant": "all graphs", "anchors": ["libs/core/include/rtbot/Operator.h: Operator::emit"]}
{"id": "C32", "title": "Strictly increasing timestamps everywhere", "statement": "In an acyclic program where every input port is fed by one connection and made of time-preserving operators behind an Input entry, the times emitted on every output port of every operator over the whole life of the program are strictly increasing, whatever the user sends.", "quantifier": "every such program and every sequence of batches", "why_tests_cant": "all programs and all inputs", "anchors": ["libs/core/include/rtbot/Input.h", "libs/core/include/rtbot/Operator.h", "libs/core/include/rtbot/Join.h"]}
{"id": "C33", "title": "Behaviour does not depend on the order of connections", "statement": "Listing the connections of a program in another order does not change the messages each output port emits (the docs call programs declarative).", "quantifier": "every program and every permutation of its connections", "why_tests_cant": "all permutations of all programs", "anchors": ["libs/core/include/rtbot/Operator.h: Operator::emit", "docs/site/docs/user-guide"]}
{"id": "C34", "title": "Output does not depend on when inputs arrive", "statement": "For a program with a multi-port Input, two interleavings of the same per-port histories produce the same output messages (the docs call operators deterministic).", "quantifier": "every program, every two interleavings of the same per-port histories", "why_tests_cant": "interleavings", "anchors": ["libs/core/include/rtbot/Join.h", "docs/site/docs/user-guide"]}
{"id": "C35", "title": "Batches equal message-by-message processing", "statement": "Sending a list of messages on one port in one call returns the concatenation of the results of sending them one by one, and leaves the program in the same state; splitting a batch at any point does not matter.", "quantifier": "every program, state, batch and split", "why_tests_cant": "all splits of all batches", "anchors": ["libs/api/include/rtbot/Program.h: receiveDebug"]}
{"id": "C36", "title": "The output filter only restricts", "statement": "receive returns exactly the part of what receiveDebug would return that is listed in the program's output section (each listed operator/port with precisely its messages), and everything when there is no such section; it leaves the program in the same state as receiveDebug.", "quantifier": "every program, state, batch and filter", "why_tests_cant": "all filters including unknown operators, ports and duplicates", "anchors": ["libs/api/include/rtbot/Program.h: receive"]}
{"id": "C37", "title": "Operator snapshots round-trip", "statement": "Restoring the bytes collected from an operator into a freshly created operator of the same definition yields an operator in the same state.", "quantifier": "every operator type, configuration and reachable state", "why_tests_cant": "all reachable states and byte patterns", "anchors": ["libs/core/include/rtbot/Operator.h: collect, restore", "libs/core/include/rtbot/Input.h", "libs/std/include/rtbot/std/Variable.h"]}
{"id": "C38", "title": "A restored program continues as if never interrupted", "statement": "Serializing a program after any history and reconstructing it from the bytes gives a program that returns the same results as the original for every future sequence of batches.", "quantifier": "every program of the supported operators, every crash point and every future", "why_tests_cant": "every crash point and continuation", "anchors": ["libs/api/src/Program.cpp: serialize", "libs/api/include/rtbot/Program.h: Program(Bytes)"]}
{"id": "C39", "title": "Restoring works for RelativeStrengthIndex and Pipeline too", "statement": "The same for programs that contain a RelativeStrengthIndex or a Pipeline.", "quantifier": "every program, crash point and future", "why_tests_cant": "every crash point and continuation", "anchors": ["libs/finance/include/rtbot/finance/RelativeStrengthIndex.h", "libs/api/include/rtbot/Pipeline.h"]}
{"id": "C40", "title": "Damaged snapshots are rejected", "statement": "Constructing a program from a truncated snapshot reports an error instead of reading outside the buffer or silently losing state.", "quantifier": "every program, state and truncation point", "why_tests_cant": "every truncation point", "anchors": ["libs/api/include/rtbot/Program.h: Program(Bytes)", "libs/core/include/rtbot/Operator.h: restore"]}
{"id": "C41", "title": "Connections are resolved or rejected", "statement": "Connecting two operators without naming ports picks the unique output/input port when there is one; ambiguous or unknown ports make program creation fail; a successful creation delivers along exactly the listed connections.", "quantifier": "every pair of operators and port names", "why_tests_cant": "all port configurations", "anchors": ["libs/core/include/rtbot/Operator.h: connect", "libs/api/src/Program.cpp: init"]}
{"id": "C42", "title": "An invalid entry operator is rejected", "statement": "A program definition whose entry operator does not exist or has control inputs is rejected at creation.", "quantifier": "every program definition", "why_tests_cant": "all definitions", "anchors": ["libs/api/src/Program.cpp: init"]}
{"id": "C43", "title": "Operator JSON round-trips", "statement": "Reading an operator definition and writing it back gives a definition that, when read again, builds the same operator.", "quantifier": "every operator type and parameter values", "why_tests_cant": "all parameter values", "anchors": ["libs/api/src/FactoryOp.cpp: readOp, writeOp, to_json, from_json"]}
{"id": "C44", "title": "Programs in the manager are isolated", "statement": "Creating, deleting, buffering, sending to or processing one program never changes the state, the pending buffer or the future results of another program.", "quantifier": "every manager state, all pairs of distinct program ids, every operation", "why_tests_cant": "all histories of operations", "anchors": ["libs/api/include/rtbot/FactoryOp.h", "libs/api/src/bindings.cpp"]}
{"id": "C45", "title": "Buffered processing equals direct processing", "statement": "Messages added one by one to a program's buffer and then processed give the same result and program state as sending the same messages as one batch, each message is processed exactly once, and the buffer is empty afterwards.", "quantifier": "every program, state and sequence of additions", "why_tests_cant": "all sequences", "anchors": ["libs/api/include/rtbot/FactoryOp.h: addToMessageBuffer, processMessageBuffer"]}
{"id": "C46", "title": "Creating over an existing id fails", "statement": "Creating a program under an id already in use reports an error and leaves the existing program untouched.", "quantifier": "every manager state and id", "why_tests_cant": "all histories", "anchors": ["libs/api/include/rtbot/FactoryOp.h: createProgram"]}
{"id": "C47", "title": "Deleting a program forgets it completely", "statement": "After deleting a program and creating one with the same id, the new program starts fresh: nothing sent to the old one influences it.", "quantifier": "every manager history", "why_tests_cant": "all histories", "anchors": ["libs/api/include/rtbot/FactoryOp.h: deleteProgram"]}
{"id": "C48", "title": "A Pipeline hides its inner program and behaves like it", "statement": "A Pipeline emits on its output ports exactly what the designated inner operators emit when the inner program is given the messages received by the Pipeline, in order; inner operators are not visible in the result.", "quantifier": "every inner program and every history", "why_tests_cant": "all inner programs and histories", "anchors": ["libs/api/include/rtbot/Pipeline.h", "libs/api/src/Pipeline.cpp"]}
{"id": "C49", "title": "A Composite behaves like its inner graph", "statement": "A Composite operator delivers to its inner input and connects from its inner output exactly as the same operators wired directly.", "quantifier": "every inner graph and history", "why_tests_cant": "all inner graphs", "anchors": ["libs/core/include/rtbot/Composite.h"]}
{"id": "C50", "title": "Buffers stay bounded", "statement": "However many messages are processed, an operator's buffers never exceed their declared sizes; operators with synchronised ports hold a bounded number of messages.", "quantifier": "every operator and every history", "why_tests_cant": "unbounded histories", "anchors": ["libs/core/include/rtbot/Operator.h: receiveData", "libs/core/include/rtbot/Join.h"]}
{"id": "C51", "title": "Causality", "statement": "Results returned for a prefix of the inputs are never changed by later inputs, and a message emitted while processing an input message is determined by the messages received up to it.", "quantifier": "every program and every history and its extensions", "why_tests_cant": "all extensions", "anchors": ["docs/site/docs/user-guide", "libs/api/include/rtbot/Program.h"]}
{"id": "C52", "title": "A failed message leaves the program usable", "statement": "When processing a message throws an exception the program keeps processing later messages as if the failing one had not been sent.", "quantifier": "every program, state and failing message", "why_tests_cant": "all failure points", "anchors": ["libs/core/include/rtbot/Demultiplexer.h", "libs/core/include/rtbot/Operator.h", "libs/api/include/rtbot/Program.h"]}
{"id": "C53", "title": "Operators are created with the parameters of their definition", "statement": "The operator built from a JSON definition behaves as one constructed with exactly the parameter values written in the definition: no value is truncated, wrapped or replaced by a default.", "quantifier": "every operator type that can be defined and every value of its parameters", "why_tests_cant": "parameters range over all doubles and 64-bit integers; tests use a few small ones", "anchors": ["libs/api/src/FactoryOp.cpp: from_json, readOp", "libs/std/include/rtbot/std/Variable.h", "libs/std/include/rtbot/std/TimeShift.h"]}
{"id": "C54", "title": "Results are reproducible", "statement": "Two programs created from the same definition (or restored from the same bytes) return the same results for the same sequence of batches, and two runs of the same API calls get the same replies: nothing depends on what uninitialised memory contained.", "quantifier": "every definition, every sequence of batches or API calls, every content of memory", "why_tests_cant": "a test cannot choose the content of uninitialised memory and would pass by luck", "anchors": ["libs/std/include/rtbot/std/ConstantResampler.h: nextEmit, lastValue", "libs/finance/include/rtbot/finance/RelativeStrengthIndex.h: averageGain", "libs/api/include/rtbot/Program.h"]}
{"id": "C55", "title": "Snapshots are reproducible", "statement": "The bytes of a snapshot are determined by the program's definition and its history of batches.", "quantifier": "every definition and history, every content of memory", "why_tests_cant": "a test cannot choose the content of uninitialised memory", "anchors": ["libs/std/include/rtbot/std/ConstantResampler.h: collect", "libs/api/src/Program.cpp: serialize"]}
{"id": "C56", "title": "Messages for existing inputs are accepted", "statement": "A created program without cycles answers every call of Program::receive whose messages are for inputs of its entry operator: no exception, no undefined behaviour and no endless loop, whatever the times (decreasing and repeated ones included), values and number of the messages. The program consists of Input, Output, Join and the binary and linear types derived from it, the value filters, Add, Scale, Power, Constant, Identity, MovingAverage, StandardDeviation, PeakDetector, FiniteImpulseResponse (with a coefficient), RelativeStrengthIndex (n at least 1), Count, CumulativeSum, TimeShift, and Pipelines of these (inner ids without ':').", "quantifier": "every definition of that kind, every sequence of batches for existing inputs", "why_tests_cant": "the histories that might leave an operator in a state in which the next message fails are unbounded in number and length", "anchors": ["libs/core/include/rtbot/Operator.h: receiveData, executeData, emit", "libs/core/include/rtbot/Join.h", "libs/api/include/rtbot/Program.h: receive", "libs/api/include/rtbot/Pipeline.h"]}
{"id": "C57", "title": "A definition that validate accepts is created", "statement": "createProgram of the bindings never fails on a definition that passes validate, except by reporting a connection to a port that does not exist or an entry operator that does not exist or has control inputs; in particular it has no undefined behaviour on validated definitions.", "quantifier": "every definition text, every state of the manager", "why_tests_cant": "the schema and the readers of the operators are written independently, and the definitions that satisfy one and not the other must be searched among all", "anchors": ["libs/api/src/bindings.cpp: validate, createProgram", "tools/generator/templates/jsonschema.hbs", "libs/std/include/rtbot/std/*.md", "libs/core/include/rtbot/*.md", "libs/api/src/FactoryOp.cpp: from_json", "libs/api/src/Program.cpp: init"]}
{"id": "C58", "title": "Invalid definitions change nothing", "statement": "Creating a program through the bindings from a definition that does not pass validate returns an error and leaves all programs and buffers as they were; all other calls of a history behave as if the rejected creations had not been made; every program that exists has a definition that passes validate.", "quantifier": "every history of API calls", "why_tests_cant": "histories are unbounded", "anchors": ["libs/api/src/bindings.cpp: createProgram, validate", "libs/api/include/rtbot/FactoryOp.h: createProgram"]}
{"id": "C59", "title": "What the library writes is valid", "statement": "The JSON that writeOp produces for an operator passes validateOperator, and is accepted as an operator of a program by validate.", "quantifier": "every operator created from JSON", "why_tests_cant": "the writer's output depends on every parameter value, among them those that do not survive the conversions of the reader", "anchors": ["libs/api/src/FactoryOp.cpp: to_json, writeOp", "libs/api/src/bindings.cpp: validateOperator, validate", "libs/std/include/rtbot/std/LessThan.md", "libs/std/include/rtbot/std/TimeShift.md"]}
{"id": "C60", "title": "Every operator type can be used through the bindings", "statement": "For every operator type of the library there are definitions that validate accepts and from which createProgram creates that operator.", "quantifier": "every operator type, every operator id, every definition containing the type", "why_tests_cant": "that no definition with a given type is valid is a statement about all definitions", "anchors": ["tools/generator/src/index.ts", "libs/finance/include/rtbot/finance/RelativeStrengthIndex.h", "libs/api/include/rtbot/Pipeline.h", "libs/api/src/bindings.cpp: validate, validateOperator"]}
{"id": "C61", "title": "A validated output filter takes effect", "statement": "When a definition with a member \"output\" passes validate, the created program's output filter is the one written there.", "quantifier": "every definition", "why_tests_cant": "the filter is read with all exceptions swallowed, so a malformed entry silently removes the whole filter; which entries validate lets through must be shown for all keys", "anchors": ["tools/generator/templates/jsonschema.hbs: output", "libs/api/src/Program.cpp: init", "libs/api/include/rtbot/Program.h: getProgramOutputFilter"]}
{"id": "C62", "title": "The error of a long-running moving average is bounded", "statement": "On doubles of absolute value at most B, after k < 2^51 messages the average emitted by a MovingAverage of window n differs from the exact average of the last n values by at most (2k+1) * B * 2^-52 (plus an underflow term), as long as n * B does not come near the largest double; the error depends on how long the operator has been running, and no value overflows.", "quantifier": "every window, every bound B and every history of values within it, of any length", "why_tests_cant": "the running sum accumulates rounding errors of all values ever received; only a bound over all histories says how far it can drift", "anchors": ["libs/std/include/rtbot/std/MovingAverage.h: processData", "libs/core/include/rtbot/Operator.h: receiveData, sum"]}
{"id": "C63", "title": "CumulativeSum and FiniteImpulseResponse are accurate sums", "statement": "On finite doubles, what a CumulativeSum emits after k messages is within (k+1) * 2^-52 times the sum of the absolute values of the exact sum; what a FiniteImpulseResponse emits is within (n+1) * 2^-52 times the sum of the absolute values of its n terms (plus an underflow term) of the exact weighted sum of the last n values, whatever came before them.", "quantifier": "every history of finite values, every list of finite coefficients, short of overflow", "why_tests_cant": "rounding errors depend on all values and their order", "anchors": ["libs/std/include/rtbot/std/CumulativeSum.h: processData", "libs/std/include/rtbot/std/FiniteImpulseResponse.h: processData"]}
{"id": "C64", "title": "The relative strength index of doubles stays between 0 and 100", "statement": "Every value emitted by a RelativeStrengthIndex on doubles is NaN or lies in [0, 100], rounding included; it is never NaN when all values received are finite and of absolute value at most 2^969.", "quantifier": "every period, every history of doubles, infinities and NaN included for the first part", "why_tests_cant": "the smoothed averages carry rounding errors of the whole history; a result of 100.00000000000001 or -1e-15 for one history would break users' thresholds", "anchors": ["libs/finance/include/rtbot/finance/RelativeStrengthIndex.h: processData"]}
{"id": "C65", "title": "A standard deviation of doubles is never NaN and never negative", "statement": "On finite doubles of absolute value at most B with n * B away from overflow, a StandardDeviation of window n >= 2 emits a value that is not NaN and not negative, even though the average it uses has drifted.", "quantifier": "every window of at least 2, every history of bounded values of any length, every C library whose pow(x, 2) is a non-negative number for each number x", "why_tests_cant": "a variance formula with cancellation could become slightly negative for some history, and the square root NaN; the absence must be shown for all of them", "anchors": ["libs/std/include/rtbot/std/StandardDeviation.h: processData"]}
{"id": "C66", "title": "A run of the Python module returns exactly the program's answers", "statement": "Run(program, data).exec() returns, for every \"operator:port\", the messages that a new program of this definition emits on that port when it is sent the rows one after the other, in order, nothing missing and nothing added; other programs of the process are not touched and nothing of the run is left afterwards.", "quantifier": "every valid definition, every list of rows of at least one and not more values than the entry operator has inputs, every state of the other programs, provided that the id is unused and no emitted value is NaN or infinite", "why_tests_cant": "the result is assembled from many calls through buffers that all programs share; tests see a few programs, rows and process states", "anchors": ["libs/wrappers/python/rtbot.py: Run.exec", "libs/api/src/bindings.cpp: addToMessageBuffer, processMessageBufferDebug"]}
{"id": "C67", "title": "A run can be repeated", "statement": "Calling exec() again gives the result of a run on a new program, whatever happened in earlier calls.", "quantifier": "every history of runs, failed ones included", "why_tests_cant": "depends on everything earlier runs left behind in the process", "anchors": ["libs/wrappers/python/rtbot.py: Run.exec", "libs/api/include/rtbot/FactoryOp.h: createProgram, deleteProgram"]}
{"id": "C68", "title": "The k-th column goes to the k-th input", "statement": "In the data of a Run, the k-th value of a row is the message for the entry operator's input ik.", "quantifier": "every number of inputs, every row", "why_tests_cant": "the order is that of names sorted as texts; it is right for the numbers of inputs usually tested", "anchors": ["libs/wrappers/python/rtbot.py: Run.exec", "libs/api/include/rtbot/Program.h: getProgramEntryPorts"]}
{"id": "C69", "title": "Editing keeps a program consistent", "statement": "After any sequence of addOperator, addConnection, deleteOperator and deleteConnection, failed calls included, every connection of a Program (Python or JavaScript) is between operators of the program, ids are unique, no connection occurs twice, and the entry operator is one of the operators.", "quantifier": "every sequence of editing calls", "why_tests_cant": "invariants over all histories of calls", "anchors": ["libs/wrappers/python/rtbot.py: Program.addOperator, Program.addConnection", "libs/wrappers/javascript/src/program.ts: addOperator, deleteOperator, addConnection, deleteConnection"]}
{"id": "C70", "title": "deleteConnection removes the connection", "statement": "In JavaScript, after deleteConnection(from, to, fromPort, toPort) that connection is gone and all others are still there.", "quantifier": "every program, every connection", "why_tests_cant": "a wrong filter can look right on a program with one or two connections", "anchors": ["libs/wrappers/javascript/src/program.ts: deleteConnection"]}
{"id": "C71", "title": "Python accepts valid definitions and keeps their meaning", "statement": "parse(payload) accepts every definition that the schema accepts, and the program created from its toJson() has the operators, connections and entry operator of the payload.", "quantifier": "every valid definition", "why_tests_cant": "which optional members are present decides what is written; tests have the members that happen to work", "anchors": ["libs/wrappers/python/rtbot.py: parse, Program.__init__, Program.toJson, Program.validate"]}
{"id": "C72", "title": "A program computes what its wiring says", "statement": "What an operator emits during a run is what the documentation of its kind says for the streams on the outputs it is connected to: an operator with one connected input emits what it emits by itself on that stream; an Output repeats its inputs port by port; an Input forwards the records of each port; Join, the two-input operators and Linear combine, at exactly the times all their inputs have, the messages with that time, wherever branches meet.", "quantifier": "every acyclic program with at most one connection per input port and every history of messages (for joins: times that never decrease and upstream operators that answer at once)", "why_tests_cant": "depends on the schedule inside every graph: an operator may be executed several times per message, with some of its inputs present", "anchors": ["libs/core/include/rtbot/Operator.h: executeData, emitData", "libs/core/include/rtbot/Join.h", "libs/core/include/rtbot/Program.h: Program::receive"]}
{"id": "C73", "title": "HermiteResampler's values lie on a smooth curve through the messages", "statement": "Each value HermiteResampler emits lies on the cubic between the two messages around its time that passes through both and whose slope at each end is half the difference of that end's neighbours; in particular, at the time of a received message the value is that message's.", "quantifier": "every dt>0 and every strictly increasing history, over exact numbers", "why_tests_cant": "all values, gaps and positions", "anchors": ["libs/std/include/rtbot/std/HermiteResampler.h: hermiteInterpolate, lookAt"]}
{"id": "C74", "title": "RtBotRun returns exactly what the program answers", "statement": "After run() on an RtBotRun the outputs hold, under 'operator:port', exactly the messages the new program emits on that port for the rows of the data, in order and with their times; nothing of the run is left in the library.", "quantifier": "every program, every list of rows, every earlier history of calls under other ids", "why_tests_cant": "all programs, row counts and times; the tests use small times and complete rows", "anchors": ["libs/wrappers/javascript/src/api.ts: RtBotRun.run, RtBot.processDebug, RtBot.prepareInternalMessageBuffer", "libs/api/wasm/emscripten-bindings.cpp", "libs/api/src/bindings.cpp: addToMessageBuffer, processMessageBufferDebug"]}
{"id": "C75", "title": "A run from JavaScript can be repeated", "statement": "Calling run() again gives the same outputs; a run that fails leaves nothing behind that changes later runs.", "quantifier": "every program and data", "why_tests_cant": "state that survives between runs: the member outputs and the registered program", "anchors": ["libs/wrappers/javascript/src/api.ts: RtBotRun.outputs, RtBotRun.run"]}
{"id": "C76", "title": "processMessage answers each message by itself", "statement": "After start(), every processMessage(time, value, port?) that is awaited before the next call returns what the program emits for exactly that message (on the first entry port if none is given), whatever earlier calls failed; stop() leaves nothing behind.", "quantifier": "every program and every history of start, processMessage and stop", "why_tests_cant": "histories with failing calls followed by good ones; an error must not disturb later calls", "anchors": ["libs/wrappers/javascript/src/program.ts: Program.start, processMessage, processMessageDebug, stop", "libs/wrappers/javascript/src/api.ts: RtBot.process", "libs/api/include/rtbot/FactoryOp.h: processMessageBuffer"]}
{"id": "C77", "title": "Overlapping calls from JavaScript are answered separately", "statement": "If process is called again before earlier calls are answered, each call gets the answer to its own messages; no message is lost, duplicated or processed out of order.", "quantifier": "every program, every number of calls and every interleaving of calls and microtasks", "why_tests_cant": "interleavings of asynchronous steps", "anchors": ["libs/wrappers/javascript/src/api.ts: RtBot.process, RtBot.processDebug, RtBot.prepareInternalMessageBuffer"]}
{"id": "C78", "title": "The progress of a run is reported in even steps up to 1", "statement": "RtBotRun calls progressCb about twenty times with increasing fractions, the last being 1.", "quantifier": "every number of rows", "why_tests_cant": "all numbers of rows", "anchors": ["libs/wrappers/javascript/src/api.ts: RtBotRun.run, progressCb"]}
{"id": "C79", "title": "A run in the extended format records every row with its answer", "statement": "After a run of RtBotRun with the format EXTENDED the outputs have one element per row, in the order of the rows: the messages sent and what the program, alone and new, answers to them. Nothing of the run remains in the library, and the run can be repeated with the same result.", "quantifier": "every valid program, every list of rows, every other state of the library, with or without progress callback", "why_tests_cant": "needs every program and every list of rows; the outputs are state that survives a run", "anchors": ["libs/wrappers/javascript/src/api.ts: RtBotRun.run, getOutputs, ExtendedFormat"]}
{"id": "C80", "title": "The debug command answers every numeric row of the file, whatever its options", "statement": "The command 'debug' sends exactly the rows of the file whose first two columns are numbers, in order, and prints each with the program's answer; the option 'verbose' only adds information.", "quantifier": "every program with one entry port, every file, both values of the option", "why_tests_cant": "depends on the number of rows and on the option together", "anchors": ["apps/cli/src/commands/debug.ts: registerDebug", "libs/wrappers/javascript/src/api.ts: RtBotRun.constructor, run"]}
{"id": "C81", "title": "Every iteration of a run can be looked at in the debugger", "statement": "Whatever keys are pressed and check boxes set, the debugger's table shows, for the current iteration and those after it, what each selected operator emitted on each of its outputs; no sequence of keys makes the tool fail.", "quantifier": "every program, every result of a run, every sequence of keys and check boxes", "why_tests_cant": "needs every sequence of keys and every pattern of outputs", "anchors": ["apps/cli/src/tui/store.ts: debuggerStore, computeOperators, computeColumns, forward, backward, selectOperator"]}
{"id": "C82", "title": "HermiteResampler keeps a straight line straight", "statement": "Messages at regular times on a straight line are resampled to points of the same line, from the first interval on.", "quantifier": "every dt, every start time, gap, slope and number of messages", "why_tests_cant": "all start times and slopes; the unit test of the values starts at time 0 and only checks an upper bound, which the wrong value (about -10^18) meets", "anchors": ["libs/std/include/rtbot/std/HermiteResampler.h: get, getLineLeastSquares, lookAt"]}
{"id": "C83", "title": "An operator made with a Python class is the operator asked for", "statement": "Calling an operator class of the Python module with arguments by position or by name, with the documented parameters in their documented ranges, gives an operator from which createProgram creates the operator of that type with these parameters, and with the documented defaults for parameters left out; every operator type has a class.", "quantifier": "every operator type, every way of passing the arguments, every value of the parameters", "why_tests_cant": "the classes are generated from the documentation and checked by the schema, while the operators are read by hand-written code; whether they agree must be shown for all types and all arguments", "anchors": ["tools/generator/src/index.ts", "tools/generator/templates/python.hbs: Operator", "libs/std/include/rtbot/std/Linear.md", "libs/std/include/rtbot/std/Function.md", "libs/api/src/FactoryOp.cpp: from_json"]}
{"id": "C84", "title": "An operator made with a JavaScript class is the operator asked for", "statement": "An operator object of the JavaScript package that its constructor accepts is one from which createProgram creates the operator of that type with the given parameters, and with the documented defaults for parameters left out.", "quantifier": "every operator type, every list of arguments", "why_tests_cant": "which parameters are left out, and whether the schema, the defaults and the reader agree on them, must be checked for all types and all arguments", "anchors": ["tools/generator/src/index.ts", "tools/generator/templates/typescript.hbs", "libs/wrappers/javascript/src/program.ts: Operator, toJSON", "libs/core/include/rtbot/Join.md", "libs/api/src/FactoryOp.cpp: from_json"]}
{"id": "C85", "title": "A program built with the Python module can be created", "statement": "A program built from operators made with the classes, addOperator and addConnection between existing ports, with an entry operator that was added, is accepted by createProgram, and the created program has exactly these operators.", "quantifier": "every sequence of addOperator and addConnection calls, including those that raise exceptions", "why_tests_cant": "sequences of edits are unbounded, and what is written depends on optional members that tests happen to give", "anchors": ["libs/wrappers/python/rtbot.py: Program, toJson, addOperator, addConnection, Run.exec", "tools/generator/templates/python.hbs", "libs/api/src/bindings.cpp: createProgram"]}
{"id": "C86", "title": "The peak detection example reports exactly the peaks", "statement": "The program examples/data/program-test-1.json is created; whatever messages are then sent to its input, in however many calls, every call succeeds and the answers together show, for out1 and nothing else, the received message at each time where the 6-message mean minus the 250-message mean is the largest of 13 consecutive ones and in the middle of them, once each and in order; messages that are not later than all before them do not count.", "quantifier": "every history of calls with any number of messages, times and values", "why_tests_cant": "the repository's test feeds one recording; the four operators hold several hundred messages each, and messages have to meet in two joins over different delays, for every recording and every division of it into calls", "anchors": ["examples/data/program-test-1.json", "libs/api/test/test_misc_pipeline.cpp", "libs/api/include/rtbot/Program.h: receive", "libs/std/include/rtbot/std/PeakDetector.h", "libs/std/include/rtbot/std/MovingAverage.h"]}
{"id": "C87", "title": "The Bollinger bands example shows the bands of the resampled signal", "statement": "The program examples/data/program-test-6.json is created; as long as its calls are answered, which they all are if the fourth of the received times is below 2^30, the answers together show for 37 and nothing else: on o3 the mean of each 14 consecutive values of the resampled signal, on o1 the mean minus and on o2 the mean plus two standard deviations of the same 14 values, each at the last of their times; the resampled signal has one message for every time unit from the one after the first message to the last message but one.", "quantifier": "every history of calls with times below 2^64 and gaps below 2^31 units", "why_tests_cant": "the three bands come over paths of different lengths and meet in two joins; that they belong to the same window must hold for every signal", "anchors": ["examples/data/program-test-6.json", "libs/std/include/rtbot/std/HermiteResampler.h", "libs/std/include/rtbot/std/StandardDeviation.h", "libs/api/include/rtbot/Program.h: receive"]}
{"id": "C88", "title": "A program fails only where one of its operators, by itself, fails on what the wiring gives it", "statement": "If a call to a program fails (an exception, undefined behaviour or an endless loop), then one of its operators, run alone, fails in the same way on a sequence of messages and executions that the wiring can give it: for the entry operator the messages of the user in the order sent, for every other operator at each input the beginning of what the connected operator, run alone in the same manner, has emitted. So if every operator answers all that the wiring can give it, as long as the operators before it kept their part of a contract, every call is answered; operators of the kinds of C56 need no contract.", "quantifier": "every program without cycles and Pipelines in which no input has two connections; every history of calls; every contract", "why_tests_cant": "to know that a program cannot fail one would have to try all messages and the interleavings of executions that the recursion produces; the theorem reduces it to the operators one by one", "anchors": ["libs/api/include/rtbot/Program.h: receive", "libs/core/include/rtbot/Operator.h: executeData, executeControl, emit", "libs/api/include/rtbot/Program.h: init"]}
{"id": "C89", "title": "Two more of the example programs answer what they are meant to", "statement": "The programs examples/data/program-test-2.json and program-test-3.json are created; whatever messages are then sent to their input, in however many calls, every call succeeds. The first shows, on both outputs of join, exactly the received messages that are the middle one of three consecutive ones and not below the other two; the second shows every received message with its value doubled on o1 and tripled on o2 of out1. Messages that are not later than all before them do not count.", "quantifier": "every history of calls with any number of messages, times and values", "why_tests_cant": "the repository's tests feed one recording; that a join never loses or delays a message of two paths of different length must hold for every one", "anchors": ["examples/data/program-test-2.json", "examples/data/program-test-3.json", "libs/api/test/test_misc_pipeline.cpp", "libs/std/include/rtbot/std/PeakDetector.h", "libs/core/include/rtbot/Join.h", "libs/core/include/rtbot/Output.h"]}
{"id": "C90", "title": "The switching example sends the first nineteen messages to one output and all others to the other", "statement": "The program examples/data/program-test-4.json, whose control inputs have three connections each, is created; whatever messages are then sent to its input, in however many calls (fewer than 2^53 in all), every call succeeds, the output o1 of dm shows exactly the first 19 received messages and the output o2 all others, each in the order received. Messages that are not later than all before them do not count.", "quantifier": "every history of calls with any times and values, with fewer than 2^53 messages", "why_tests_cant": "the repository's test sends 100 messages one by one with times 1, 2, ...; that exactly one of six paths reaches each control input, at the right time, must hold for every history", "anchors": ["examples/data/program-test-4.json", "libs/api/test/test_demultiplexer_pipeline.cpp", "libs/core/include/rtbot/Demultiplexer.h", "libs/std/include/rtbot/std/Count.h", "libs/std/include/rtbot/std/Constant.h", "libs/std/include/rtbot/std/FilterByValue.h"]}
{"id": "C91", "title": "The generated program with feedback computes the relative strength index, one message late at first", "statement": "The program examples/data/program-test-5.json (41 operators, with two cycles through time shifts) is created; whatever messages are then sent to its input, in however many calls, as long as the received ones (those later than all before them) are one unit of time apart from the fifteenth on and their values can be compared, every call succeeds and the output shows 100 - 100/(1 + g/l) for every received message from the fifteenth on: g and l are first the sums of the first 14 gains and losses times b, then g*a + gain*b and l*a + loss*b, with the coefficients a and b of the definition. Nothing is shown when l is zero. The answer to the fifteenth message comes together with that to the sixteenth, unless the fifteenth repeats the value before. For any other increasing times every call succeeds too, the index is shown up to the last message before the first gap (after the fifteenth), and from then on the program is silent for ever.", "quantifier": "every history of calls with any values that can be compared and any times below 2^53; any coefficients a and b; exact numbers and doubles", "why_tests_cant": "the feedback makes every answer depend on the whole history; the test test_rsi_generated.cpp follows one recording of 37 prices with times 1, 2, ...", "anchors": ["examples/data/program-test-5.json", "libs/api/test/test_rsi_generated.cpp", "libs/core/include/rtbot/Demultiplexer.h", "libs/core/include/rtbot/Join.h", "libs/std/include/rtbot/std/Variable.h", "libs/std/include/rtbot/std/TimeShift.h", "libs/std/include/rtbot/std/Linear.h", "libs/std/include/rtbot/std/Division.h", "libs/std/include/rtbot/std/CumulativeSum.h"]}
{"id": "C92", "title": "The generated program and the RelativeStrengthIndex operator agree", "statement": "With exact arithmetic and the weights 13/14 and 1/14, the generated program examples/data/program-test-5.json shows exactly what the operator RelativeStrengthIndex with n = 14 emits for the same messages, except that it stays silent where the operator emits 100 (no losses so far). Only when exactly fifteen messages were received the answer to the fifteenth may still be outstanding. With other times it shows what the operator emits for the messages up to the first gap (from the fifteenth message on), and nothing afterwards.", "quantifier": "every history of calls (with increasing times below 2^53 after dropping late messages)", "why_tests_cant": "two different implementations, one of them a graph of 41 operators with feedback, have to agree on every sequence of values; the tests of both follow one recording", "anchors": ["examples/data/program-test-5.json", "libs/finance/include/rtbot/finance/RelativeStrengthIndex.h", "libs/api/test/test_rsi_generated.cpp"]}
{"id": "C93", "title": "The program of the Fibonacci notebook", "statement": "The definition that examples/notebook/Fibonacci.ipynb builds does not name its entry operator (Program.toJson of rtbot.py writes it only together with a date), so the program is refused when it is created. With the entry named, whatever messages are sent to its input, in however many calls, every call succeeds and the operator plus1 shows 2, 3, 5, 8, ... at the times of the third, fourth, ... received message, until a message comes later than one unit after the one before; from then on it is silent for ever. The demultiplexer keeps every received message from the third on for ever. With exact numbers the values are the Fibonacci numbers; doubles hold the first 78 of them exactly.", "quantifier": "every history of calls with any values and any times below 2^53, with or without gaps", "why_tests_cant": "there is no test for the notebook; every answer depends on all answers before through two time shifts, and the behaviour after a gap and the growth of the buffer show only in long histories", "anchors": ["examples/notebook/Fibonacci.ipynb", "libs/wrappers/python/rtbot.py:Program.toJson", "libs/std/include/rtbot/std/Variable.h", "libs/core/include/rtbot/Demultiplexer.h", "libs/std/include/rtbot/std/TimeShift.h", "libs/std/include/rtbot/std/Plus.h"]}
{"id": "C94", "title": "The program of the peak detection notebook", "statement": "The definition that examples/notebook/rtbot_peak_detection.ipynb builds does not name its entry operator, so the program is refused when it is created. With the entry named, and for any sizes a <= b and c of the two moving averages and the peak detector (20, 200 and 13 in the notebook), every call succeeds and out1 shows exactly the received messages at the times where the mean of the last a values minus the mean of the last b values has the largest of c consecutive values in the middle, each once and in order.", "quantifier": "every history of calls with any times and values; all window sizes", "why_tests_cant": "the notebook is not tested; the test of the similar program examples/data/program-test-1.json follows one recording with one choice of sizes", "anchors": ["examples/notebook/rtbot_peak_detection.ipynb", "libs/wrappers/python/rtbot.py:Program.toJson", "libs/std/include/rtbot/std/MovingAverage.h", "libs/std/include/rtbot/std/PeakDetector.h", "libs/core/include/rtbot/Join.h"]}
{"id": "C95", "title": "The diagram of a program shows its connections", "statement": "Whatever calls of addOperator and addConnection came before, toMermaidJs of the Python class Program returns a text; if ids, arguments and names of ports do not contain the punctuation of the diagram, reading the text gives one arrow for every connection, in order, with the ids and types of the two operators and the two ports. It does not show operators without connections: adding one never changes the text. For a program read with parse it may fail: whenever a connection does not name its ports, which the schema allows, or starts at an operator that is not there.", "quantifier": "every sequence of edits of a program; every parsed program with such a connection; any texts", "why_tests_cant": "no test of the module calls the function; the claim is about all programs, and about what the text means to a reader", "anchors": ["libs/wrappers/python/rtbot.py: toMermaidJs, addOperator, addConnection, parse"]}
{"id": "C96", "title": "What a definition says beyond the documented members has no effect", "statement": "Two definitions that give their operators the same types, ids and parameters, their connections the same ends, and the same entry and output section, are both accepted or both refused with the same error, whatever other members the definitions or their operators have (such as the policies in debug-test.json), and a parameter or port that is left out means its default; the programs answer every history of calls the same. Through createProgram this holds too, except that a connection with any other member is refused.", "quantifier": "every pair of such definitions, every set of further members with any values, every history of calls", "why_tests_cant": "there are unboundedly many further members, values and places for them, and equality of behaviour is about all histories", "anchors": ["libs/api/src/FactoryOp.cpp: from_json functions, readOp", "libs/api/src/Program.cpp: Program::init", "libs/api/src/bindings.cpp: createProgram, validate", "tools/generator/templates/jsonschema.hbs", "examples/data/debug-test.json"]}
{"id": "C97", "title": "The names of the operators and the order they are listed in do not matter", "statement": "If the operators of a definition get other, still different names, everywhere the names occur (ids, ends of the connections, entry, output section), and are listed in any other order, the definition is accepted or refused as before, and every call, debug or not, gives the same answer: the same failure, or the same messages on the same ports of the operators under their new names and nothing else. With the names unchanged the programs are the same. If an id occurs twice, only the first operator with it counts, and the program is the one without the second.", "quantifier": "every definition, every injective change of names, every order of the operators, every history of calls in either mode", "why_tests_cant": "there are infinitely many names and their alphabetical order decides the order in which the maps of the implementation are traversed; equality of behaviour is about all histories", "anchors": ["libs/api/src/Program.cpp: Program::init", "libs/api/include/rtbot/Program.h: receive, receiveDebug", "libs/core/include/rtbot/Operator.h: emit, connect, mergeOutput", "libs/api/src/Pipeline.cpp"]}
{"id": "C98", "title": "A valid definition without cycles works from creation on", "statement": "Take a definition that the validator accepts, whose parameters fit and whose connections name existing ports, with an existing entry operator, whose operators are of any type of the schema except Demultiplexer, Variable, AutoRegressive, Difference, Function and the resamplers (a FiniteImpulseResponse with at least one coefficient), and whose connections form no cycle. Creating it under a new id succeeds, and every later call about it, debug or not, that gives messages for the inputs of the entry operator, processes them, asks for a snapshot or for the entry, its ports or the filter, is answered, whatever calls about other programs come between: no exception, no undefined behaviour, no endless loop, whatever the times and the values of the messages and their order.", "quantifier": "every such definition, of any size, and every history of calls with any messages for the inputs of the entry operator", "why_tests_cant": "both the definitions and the histories are infinitely many; a test covers one graph and a few messages", "anchors": ["libs/api/src/bindings.cpp: validate, createProgram", "tools/generator/templates/jsonschema.hbs", "libs/std/include/rtbot/std/*.md", "libs/core/include/rtbot/*.md", "libs/api/src/FactoryOp.cpp: from_json", "libs/api/src/Program.cpp: init", "libs/core/include/rtbot/Operator.h: receiveData, executeData, emit", "libs/core/include/rtbot/Join.h", "libs/api/include/rtbot/Program.h: receive", "libs/api/include/rtbot/Pipeline.h"]}
