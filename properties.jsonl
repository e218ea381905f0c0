{"id": "C01", "title": "Safety transitions follow exactly the registered events", "statement": "After any history of event triggers and safety cycles, the level executed by a cycle is the entry level or the previous level, or a level that is the registered destination of some event that was triggered (with sufficient rights) while an earlier level was current. A trigger that has no registered destination in the current level changes nothing.", "quantifier": "all level sets, event tables, and all finite interleavings of triggers and cycles", "why_tests_cant": "histories and event tables are unbounded; a test samples a few", "anchors": ["src/safety/SafetySystem.cpp: triggerEvent, run", "src/safety/SafetyLevel.cpp: getDestLevelForEvent, addEvent"]}
{"id": "C02", "title": "Private safety events cannot be fired from outside", "statement": "An event registered as private in the current level has an effect only when it is triggered through the safety system's own context (from a level action or an input action). From any other context it leaves the current and the pending level unchanged.", "quantifier": "all levels, events, contexts and system states", "why_tests_cant": "a test can try some caller/level pairs, not all", "anchors": ["src/safety/SafetyLevel.cpp: getDestLevelForEvent", "src/safety/SafetySystem.cpp: triggerEvent"]}
{"id": "C03", "title": "The lowest destination wins among events of one cycle", "statement": "If several events with destinations are triggered between two cycles, the level of the next cycle is the destination with the lowest level number, whatever the order of the triggers.", "quantifier": "all finite multisets of triggers in all orders, from every level", "why_tests_cant": "orders grow factorially and the events may come from several threads", "anchors": ["src/safety/SafetySystem.cpp: triggerEvent"]}
{"id": "C04", "title": "One safety cycle performs a fixed, complete sequence of effects", "statement": "Each cycle executes exactly one level: it checks every input action of that level once and in order, then runs the level action once, then drives every output action of that same level once and in order, even when an event fired during the cycle; the level change takes effect only for the next cycle.", "quantifier": "all configurations and histories", "why_tests_cant": "which actions run after an event fires depends on history; tests fix one history", "anchors": ["src/safety/SafetySystem.cpp: run"]}
{"id": "C05", "title": "Accepted safety configurations cover every critical signal", "statement": "The system accepts a safety configuration exactly when there is an entry level and every level has an output action for every critical output and an input action for every critical input; in an accepted configuration each cycle therefore writes every critical output and reads every critical input (at least once).", "quantifier": "all finite configurations", "why_tests_cant": "number of levels, signals and actions is unbounded", "anchors": ["src/safety/SafetyProperties.cpp: verify", "src/safety/SafetySystem.cpp: setProperties, run"]}
{"id": "C06", "title": "Events added to a range of levels reach exactly that range", "statement": "Adding an event to a level and above / and below / between two levels makes the event fire in exactly the levels added so far whose number is >= / <= / within the inclusive bounds, and in no other; other events keep their destinations.", "quantifier": "all level lists and ranges", "why_tests_cant": "tests use fixed small level lists", "anchors": ["src/safety/SafetyProperties.cpp: addEventToLevelAndAbove, addEventToLevelAndBelow, addEventToAllLevelsBetween"]}
{"id": "C07", "title": "The first registration of an event in a level wins", "statement": "Once an event has a destination in a level, later registrations of the same event in that level do not change the destination nor the visibility of the event.", "quantifier": "all registration histories", "why_tests_cant": "history dependent", "anchors": ["src/safety/SafetyLevel.cpp: addEvent"]}
{"id": "C08", "title": "The activation counter counts cycles since the level was entered", "statement": "While a level is active, the counter a level action observes equals the number of consecutive cycles for which that level has been executed since it was last chosen as destination (1 in the first cycle).", "quantifier": "all histories in which the level was entered through an event", "why_tests_cant": "depends on arbitrarily long histories", "anchors": ["src/safety/SafetySystem.cpp: run, triggerEvent", "includes/eeros/safety/SafetyLevel.hpp: getNofActivations"]}
{"id": "C09", "title": "Input checks fire exactly when the input violates the requirement", "statement": "A checked logic input fires its event exactly when the read value differs from the required one; a range-checked input fires exactly when the value lies strictly outside [min,max] (or strictly inside, for an inverted range).", "quantifier": "all double values including infinities and NaN", "why_tests_cant": "2^64 values, NaN and boundary behaviour", "anchors": ["includes/eeros/safety/InputAction.hpp: CheckInputAction, CheckRange"]}
{"id": "C10", "title": "Out-of-range detection includes not-a-number readings", "statement": "A range-checked critical input triggers the configured safety event whenever the reading is not a number inside the permitted range, including when it is NaN.", "quantifier": "all double values", "why_tests_cant": "NaN cases are rarely exercised", "anchors": ["includes/eeros/safety/InputAction.hpp: CheckRangeInputAction"]}
{"id": "C11", "title": "Safety levels are totally ordered by creation", "statement": "Levels receive consecutive numbers in the order they are added; comparison between any two levels is the strict total order of that creation order and never changes afterwards.", "quantifier": "all sequences of level additions", "why_tests_cant": "unbounded number of levels", "anchors": ["src/safety/SafetyProperties.cpp: addLevel", "src/safety/SafetyLevel.cpp: operator<, operator>"]}
{"id": "C12", "title": "At most one safety system, and a failed construction does not block a later one", "statement": "A second safety system cannot be constructed while one exists; after all systems are gone (or a construction failed) a new one can be constructed.", "quantifier": "all construction/destruction histories", "why_tests_cant": "unbounded histories with failures in between", "anchors": ["src/safety/SafetySystem.cpp: SafetySystem, ~SafetySystem"]}
{"id": "C13", "title": "Ring buffer is a bounded FIFO", "statement": "For every sequence of pushes and pops the pops return the accepted items in push order; a push is refused exactly when N items are stored, a pop exactly when none is stored; the reported length is the number of stored items.", "quantifier": "all capacities and all operation sequences", "why_tests_cant": "wrap-around of the indices depends on long sequences", "anchors": ["includes/eeros/core/RingBuffer.hpp: push, pop, length, size"]}
{"id": "C14", "title": "Harmonic tasks run exactly every k-th period", "statement": "A harmonic task with factor k>=1 is executed in exactly every k-th run of its parent: after n runs it has been executed floor(n/k) times.", "quantifier": "all k and n", "why_tests_cant": "unbounded n", "anchors": ["src/task/Harmonic.cpp: Harmonic::run", "includes/eeros/task/HarmonicTaskList.hpp"]}
{"id": "C15", "title": "Harmonic task lists keep each member's own rate", "statement": "A list of harmonic tasks runs its members in insertion order, each exactly every k-th run, independent of the other members.", "quantifier": "all lists, factors and numbers of runs", "why_tests_cant": "unbounded", "anchors": ["src/task/HarmonicTaskList.cpp", "includes/eeros/task/HarmonicTaskList.hpp"]}
{"id": "C16", "title": "Task periods that are multiples of the base period are accepted", "statement": "The executor accepts a harmonic task exactly when its period is an integer multiple (>=1) of its parent's period (within 1 %), and then runs it with that integer factor.", "quantifier": "all pairs of periods", "why_tests_cant": "floating-point quotients misbehave for particular decimal periods only", "anchors": ["src/core/Executor.cpp: createThread"]}
{"id": "C17", "title": "Statistics are the mean, variance, minimum and maximum of all samples", "statement": "After any non-empty sequence of samples the running statistics equal count, mean, population variance, minimum and maximum of exactly these samples.", "quantifier": "all finite real sample sequences", "why_tests_cant": "unbounded sequences", "anchors": ["src/core/Statistics.cpp", "includes/eeros/core/Statistics.hpp"]}
{"id": "C18", "title": "Asynchronous tasks never run more often than they were requested", "statement": "An asynchronous task is executed at most once per trigger, and without stop every trigger leads to an execution; no trigger is lost while the worker is busy.", "quantifier": "all interleavings of triggers, worker steps and stop", "why_tests_cant": "interleavings", "anchors": ["src/task/Async.cpp: run, run_thread", "src/core/Semaphore.cpp"]}
{"id": "C19", "title": "Realtime tasks get priority before others, shorter periods first", "statement": "Thread priorities are assigned so that every realtime task is ranked before every non-realtime task and within realtime tasks a shorter period gets the higher priority.", "quantifier": "all task sets", "why_tests_cant": "unbounded task sets", "anchors": ["src/core/Executor.cpp: assignPriorities"]}
{"id": "C20", "title": "Stopping the executor is never lost", "statement": "A call to stop the executor issued at any time after it was started ends the executor's main loop.", "quantifier": "all times of the stop call", "why_tests_cant": "timing dependent", "anchors": ["src/core/Executor.cpp: stop, run"]}
{"id": "C21", "title": "A step or sequence runs its action at most when its precondition holds", "statement": "Executing a step checks the precondition first; when it is false, the action and the exit condition are not executed and the step ends at once with result -1. When it holds the action is run and its result is returned.", "quantifier": "all pre/exit conditions, monitors and their histories", "why_tests_cant": "conditions change over time arbitrarily", "anchors": ["src/sequencer/BaseSequence.cpp: action"]}
{"id": "C22", "title": "A step ends only for a permitted reason", "statement": "A running step ends only when its exit condition holds, or when a monitor (its own or one of a blocking ancestor) requested the abort; when it ends its state is idle again.", "quantifier": "all condition histories of any length", "why_tests_cant": "unbounded polling sequences", "anchors": ["src/sequencer/BaseSequence.cpp: action, checkMonitors"]}
{"id": "C23", "title": "A restart monitor re-runs the action", "statement": "When a monitor with restart behaviour fires while the step runs, the precondition is evaluated again and the action is run again; the number of action executions is one plus the number of restarts (when the precondition holds).", "quantifier": "all condition histories", "why_tests_cant": "unbounded", "anchors": ["src/sequencer/BaseSequence.cpp: action, checkMonitor"]}
{"id": "C24", "title": "Monitors of calling sequences apply to nested blocking steps", "statement": "A step checks its own monitors and those of every blocking ancestor in its call stack; the stack of a step called by a blocking caller is the caller's stack extended by the step.", "quantifier": "all nesting depths", "why_tests_cant": "unbounded depth", "anchors": ["src/sequencer/BaseSequence.cpp: BaseSequence, checkMonitorsOfCallers, checkMonitors"]}
{"id": "C25", "title": "Timeouts fire only after the configured time", "statement": "A timeout condition set to T>0 seconds is false until more than T seconds (in whole milliseconds) elapsed since its first evaluation after start or reset, and true from then on; a timeout of 0 never fires.", "quantifier": "all evaluation times (monotone clock)", "why_tests_cant": "time dependent", "anchors": ["includes/eeros/sequencer/ConditionTimeout.hpp: validate, resetTimeout"]}
{"id": "C26", "title": "Sequence names and ids identify sequences uniquely", "statement": "Sequences have distinct non-empty names; the id of each is its registration index and looking up by id or by name returns exactly that sequence or fails.", "quantifier": "all registration histories", "why_tests_cant": "unbounded registries", "anchors": ["src/sequencer/Sequencer.cpp: addSequence, getSequenceById, getSequenceByName", "src/sequencer/Sequence.cpp: Sequence"]}
{"id": "C27", "title": "Inputs keep their first connection and fail loudly when unconnected", "statement": "A second connect on a connected input is refused and leaves the first connection; reading an input that is not connected raises a fault naming the block; after disconnecting, a new connection is possible.", "quantifier": "all connect/disconnect/read histories", "why_tests_cant": "history dependent", "anchors": ["includes/eeros/control/Input.hpp: connect, disconnect, getSignal"]}
{"id": "C28", "title": "Block inputs and outputs are bounds-checked", "statement": "Getting input or output number i of a block with n inputs or outputs succeeds exactly for i<n, otherwise an index fault is raised.", "quantifier": "all n and i (0..255)", "why_tests_cant": "template-size dependent", "anchors": ["includes/eeros/control/Blockio.hpp: getIn, getOut"]}
{"id": "C29", "title": "Signal ids are unique", "statement": "No two live signals share an id and no signal has the id reserved for invalid signals.", "quantifier": "all numbers of created signals", "why_tests_cant": "needs more than 65535 signals", "anchors": ["includes/eeros/control/Signal.hpp: Signal, getId", "src/control/Signal.cpp"]}
{"id": "C30", "title": "Time domains run all blocks in order and turn block faults into the safety event", "statement": "A running time domain runs its blocks in the order they were added; when a block reports an unconnected input or a NaN output the rest of the blocks are skipped and the registered safety event is triggered, or, when none is registered, a fault naming the time domain is raised. A stopped time domain runs nothing.", "quantifier": "all block lists and fault positions", "why_tests_cant": "unbounded lists", "anchors": ["src/control/TimeDomain.cpp: run, start, stop, addBlock, removeBlock"]}
{"id": "C31", "title": "Saturation output always lies within its limits", "statement": "For limits lower<=upper and any non-NaN input the output lies within [lower,upper], equals the input when the input is within the limits and the nearest limit otherwise; the input timestamp is kept.", "quantifier": "all doubles (with infinities)", "why_tests_cant": "boundary/NaN cases over 2^64 values", "anchors": ["includes/eeros/control/Saturation.hpp: run, calculateResult"]}
{"id": "C32", "title": "Rate limiter bounds the change per run", "statement": "With an enabled rate limiter, two consecutive outputs differ by at least the falling limit times dt and at most the rising limit times dt, and the output equals the input when the requested change is within the limits.", "quantifier": "all input sequences and time stamps", "why_tests_cant": "unbounded sequences", "anchors": ["includes/eeros/control/RateLimiter.hpp: run, calculateResult"]}
{"id": "C33", "title": "The integrator output stays within its limits and integrates in between", "statement": "The integrator's value never leaves [lower,upper] (once inside); while the limits are not reached the output is the initial condition plus the sum of input times elapsed time over all enabled runs after the first.", "quantifier": "all input sequences", "why_tests_cant": "unbounded sequences", "anchors": ["includes/eeros/control/I.hpp: run, setLimit, setInitCondition"]}
{"id": "C34", "title": "The differentiator computes the difference quotient", "statement": "From the second run on, with a changed time stamp, the output is the difference of the last two inputs divided by their time difference, and the first output is 0; with an unchanged time stamp the previous output is kept.", "quantifier": "all input sequences", "why_tests_cant": "unbounded sequences", "anchors": ["includes/eeros/control/D.hpp: run"]}
{"id": "C35", "title": "Sum and product blocks compute the mathematical result over all inputs", "statement": "The sum block outputs the sum of all its inputs with the configured signs; negating or presetting a non-existing input raises a fault and changes nothing.", "quantifier": "all numbers of inputs, signs and values", "why_tests_cant": "template-size dependent", "anchors": ["includes/eeros/control/Sum.hpp: run, negateInput, setInitCondition", "includes/eeros/control/Mul.hpp: run"]}
{"id": "C36", "title": "Multiplexing then demultiplexing is the identity", "statement": "Feeding a demultiplexer with the output of a multiplexer of the same size reproduces every input value, and vice versa.", "quantifier": "all sizes and values", "why_tests_cant": "template-size dependent", "anchors": ["includes/eeros/control/Mux.hpp: run", "includes/eeros/control/DeMux.hpp: run"]}
{"id": "C37", "title": "Gain changes smoothly, without overshoot, within its limits", "statement": "With smooth change enabled, each run moves the effective gain toward the last accepted target by at most the configured increment, never past the target, and reaches it after finitely many runs; the effective gain always stays within [min,max] and setting a gain outside [min,max] has no effect.", "quantifier": "all histories of setters and runs", "why_tests_cant": "unbounded histories", "anchors": ["includes/eeros/control/Gain.hpp: run, setGain, setMinGain, setMaxGain"]}
{"id": "C38", "title": "Delay reproduces the input of a fixed number of runs earlier", "statement": "A delay block with buffer length n = floor(delay/sampleTime) >= 1 outputs, in every run k >= n-1 (counting from 0), the input signal of run k-(n-1); before that its output is not written.", "quantifier": "all n, input sequences and run numbers", "why_tests_cant": "ring-index wrap over long runs", "anchors": ["includes/eeros/control/Delay.hpp: Delay, run"]}
{"id": "C39", "title": "Delay of n sample times delays by n samples", "statement": "A delay block for a delay of n sample times outputs the input of n runs earlier.", "quantifier": "all n and input sequences", "why_tests_cant": "tests check constants only", "anchors": ["includes/eeros/control/Delay.hpp: run"]}
{"id": "C40", "title": "Wrap-around output is congruent to the input and within range", "statement": "The output differs from the input by an integer multiple of the range width and lies in [min,max] for every input.", "quantifier": "all real inputs and ranges", "why_tests_cant": "measure-zero boundary inputs", "anchors": ["includes/eeros/control/WrapAround.hpp: run, calculateResult"]}
{"id": "C41", "title": "Switch changes its input only when armed and triggered once", "statement": "A switch block forwards exactly the selected input; it changes the selection only by an explicit request with a valid index or when it is armed and the watched value comes within delta of the switch level, and after an automatic switch it does not switch again until armed again; combined switches change together.", "quantifier": "all histories and input sequences", "why_tests_cant": "unbounded histories", "anchors": ["includes/eeros/control/Switch.hpp: run, switchToInput, arm, setCondition, combine"]}
{"id": "C42", "title": "A signal checker fires at most once until reset", "statement": "A signal checker triggers its event in the first run in which the signal violates the limits while the safety level condition holds, and not again before it is reset; within limits it never triggers.", "quantifier": "all signal and safety level histories", "why_tests_cant": "unbounded histories", "anchors": ["includes/eeros/control/SignalChecker.hpp: run, reset, setLimits, setActiveLevel"]}
{"id": "C43", "title": "A signal checker detects not-a-number in vectors as in scalars", "statement": "A signal that contains NaN is reported as out of range, for scalar and for vector signals.", "quantifier": "all vectors with a NaN component", "why_tests_cant": "NaN rarely tested on vectors", "anchors": ["includes/eeros/control/SignalChecker.hpp: run", "includes/eeros/math/Matrix.hpp: operator<, operator>"]}
{"id": "C44", "title": "A trace holds the last samples in order", "statement": "After n enabled runs the trace of length k returns the last min(n,k) samples, oldest first, together with their timestamps.", "quantifier": "all k and n", "why_tests_cant": "ring wrap-around", "anchors": ["includes/eeros/control/Trace.hpp: run, getTrace, getTimestampTrace"]}
{"id": "C45", "title": "Step source switches from its initial to its final value after the delay", "statement": "The step block outputs the initial value up to the given delay and the initial value plus the step afterwards, never going back until reset.", "quantifier": "all delays and run times", "why_tests_cant": "time dependent", "anchors": ["includes/eeros/control/Step.hpp: run, reset"]}
{"id": "C46", "title": "Peripheral outputs never pass NaN or infinity to the hardware", "statement": "When the input of a peripheral output block is NaN or infinite, the configured safe value is written instead and a fault is raised; otherwise exactly the input value and its timestamp are written.", "quantifier": "all doubles", "why_tests_cant": "special values", "anchors": ["includes/eeros/control/PeripheralOutput.hpp: run"]}
{"id": "C47", "title": "Low pass filter stays in the range of its inputs", "statement": "For 0<=alpha<=1 the low pass filter's output always lies between the minimum and maximum of all inputs so far, starts at the first input and satisfies the exponential smoothing recurrence; a constant input is a fixed point.", "quantifier": "all real input sequences", "why_tests_cant": "unbounded sequences", "anchors": ["includes/eeros/control/filter/LowPassFilter.hpp: run"]}
{"id": "C48", "title": "Moving average is the weighted sum of the last N inputs", "statement": "In every run the moving average outputs the coefficient-weighted sum of the last N inputs (zeros before the first).", "quantifier": "all N, coefficients and input sequences", "why_tests_cant": "unbounded sequences", "anchors": ["includes/eeros/control/filter/MovingAverageFilter.hpp: run"]}
{"id": "C49", "title": "Median filter outputs the median of the last N inputs", "statement": "In every run the median filter outputs the element of rank floor(N/2) among the last N inputs (zeros before the first), hence always one of them, for any order of arrival.", "quantifier": "all N and sequences of totally ordered values", "why_tests_cant": "unbounded sequences", "anchors": ["includes/eeros/control/filter/MedianFilter.hpp: run"]}
{"id": "C50", "title": "Kalman filter covariance stays symmetric and positive semidefinite", "statement": "If the initial error covariance, process and measurement noise are symmetric (positive semidefinite, measurement noise such that the innovation covariance is invertible), the error covariance remains symmetric (and positive semidefinite) after every prediction and correction.", "quantifier": "all system orders, matrices and measurement sequences (exact arithmetic)", "why_tests_cant": "matrix sizes and sequences unbounded", "anchors": ["includes/eeros/control/filter/KalmanFilter.hpp: prediction, correction"]}
{"id": "C51", "title": "Kalman filter reproduces a noise-free system exactly", "statement": "If the estimate equals the true state of a noise-free system, it stays equal after every prediction and correction whatever the gains are.", "quantifier": "all matrices and input sequences (exact arithmetic)", "why_tests_cant": "unbounded", "anchors": ["includes/eeros/control/filter/KalmanFilter.hpp: prediction, correction"]}
{"id": "C52", "title": "Constant acceleration planner reaches exactly the target", "statement": "After an accepted move the planned position starts at the start position and, in the cycle that reports the end, equals the target exactly with zero velocity and acceleration; velocity and acceleration limits are respected in every cycle.", "quantifier": "all dimensions, start and end positions, limits and step sizes (exact arithmetic)", "why_tests_cant": "continuum of moves", "anchors": ["includes/eeros/control/PathPlannerConstAcc.hpp: move, run"]}
{"id": "C53", "title": "Constant jerk planner reaches its target", "statement": "After an accepted move the constant jerk planner reaches the end position after finitely many cycles and reports the end.", "quantifier": "all moves", "why_tests_cant": "particular moves without constant-velocity phase get stuck", "anchors": ["includes/eeros/control/PathPlannerConstJerk.hpp: move, run"]}
{"id": "C54", "title": "Cubic planner integrates piecewise constant jerk exactly", "statement": "The cubic planner's acceleration, velocity and position outputs are the exact integrals of the piecewise constant jerk of the loaded path at every sample.", "quantifier": "all paths (exact arithmetic)", "why_tests_cant": "continuum of paths", "anchors": ["includes/eeros/control/PathPlannerCubic.hpp: run, move"]}
{"id": "C55", "title": "A planner refuses new moves until the previous one ended", "statement": "A move request is refused while a motion is in progress and when the distance is zero, and a refused request does not change the running motion.", "quantifier": "all request histories", "why_tests_cant": "history dependent", "anchors": ["includes/eeros/control/PathPlannerConstAcc.hpp: move", "includes/eeros/control/PathPlannerConstJerk.hpp: move"]}
{"id": "C56", "title": "Matrix element access is bounds-checked and layout is consistent", "statement": "Reading an element after writing it returns the written value and no other element changes; (row,col) and linear access agree (column-major); every out-of-range access raises an exception instead of touching memory.", "quantifier": "all dimensions and indices", "why_tests_cant": "template-size dependent", "anchors": ["includes/eeros/math/Matrix.hpp: operator(), operator[], set, get"]}
{"id": "C57", "title": "Matrix product, sum and transpose obey the ring laws", "statement": "Over exact arithmetic the library's product, sum, scalar multiplication and transpose are the mathematical ones; hence associative, distributive, identity-neutral, and transpose reverses products.", "quantifier": "all dimensions and matrices over a commutative ring", "why_tests_cant": "template-size dependent", "anchors": ["includes/eeros/math/Matrix.hpp: operator*, operator+, transpose, eye"]}
{"id": "C58", "title": "Determinant equals the mathematical determinant for every size", "statement": "det() returns the Leibniz determinant for every square matrix of any order (and throws for non-square).", "quantifier": "all orders and matrices over a commutative ring (exact arithmetic)", "why_tests_cant": "unbounded orders", "anchors": ["includes/eeros/math/Matrix.hpp: det"]}
{"id": "C59", "title": "Inverse is a two-sided inverse", "statement": "Inverting an invertible square matrix yields a matrix whose product with the original is the identity; inverting a singular one raises a fault.", "quantifier": "all orders and matrices over a field (exact arithmetic)", "why_tests_cant": "order dependent indexing errors show only for some sizes", "anchors": ["includes/eeros/math/Matrix.hpp: operator!"]}
{"id": "C60", "title": "rank() returns the rank of the matrix", "statement": "rank() returns the dimension of the row space for every matrix.", "quantifier": "all sizes and matrices", "why_tests_cant": "pivoting errors show only on particular patterns", "anchors": ["includes/eeros/math/Matrix.hpp: rank, gaussRowElimination, sortForGaussAlgorithm"]}
{"id": "C61", "title": "Rotation matrices are proper rotations", "statement": "The rotation matrices about x, y and z are orthogonal with determinant 1 for every angle, compose by adding angles, and their inverse is the rotation by the negative angle.", "quantifier": "all angles (exact arithmetic)", "why_tests_cant": "continuum", "anchors": ["includes/eeros/math/Matrix.hpp: createRotX, createRotY, createRotZ"]}
{"id": "C62", "title": "Cross product and skew symmetric matrix agree", "statement": "The cross product of two vectors is orthogonal to both, anti-commutative, and equals multiplication by the skew symmetric matrix.", "quantifier": "all vectors over a commutative ring", "why_tests_cant": "continuum", "anchors": ["includes/eeros/math/Matrix.hpp: crossProduct, createSkewSymmetric"]}
{"id": "C63", "title": "Polynomial and fraction arithmetic is evaluation-compatible", "statement": "Evaluating the sum/product of two polynomials (fractions) equals the sum/product of their evaluations at every point (where denominators do not vanish), for all orders.", "quantifier": "all orders, coefficients and points (commutative ring/field)", "why_tests_cant": "orders are template parameters", "anchors": ["includes/eeros/math/Fraction.hpp: Polynome, Fraction"]}
{"id": "C64", "title": "z transfer function implements its difference equation", "statement": "The z-transfer-function block computes the difference equation given by its numerator and denominator, starting from rest, without accessing memory outside its own history.", "quantifier": "all orders, coefficients and input sequences", "why_tests_cant": "undefined behaviour", "anchors": ["includes/eeros/control/ZTransferFunction.hpp: run"]}
{"id": "C65", "title": "Frames are unique per coordinate pair and compose associatively", "statement": "At most one live frame exists per ordered pair of coordinate systems; the product of frames a->b and b->c is a frame a->c whose matrix is the matrix product; a product with mismatching systems faults.", "quantifier": "all creation/destruction histories", "why_tests_cant": "history dependent", "anchors": ["src/math/Frame.cpp", "src/math/CoordinateSystem.cpp"]}
{"id": "C66", "title": "Looking up a coordinate system has no side effects", "statement": "Asking for an unknown coordinate system id does not influence later operations.", "quantifier": "all histories", "why_tests_cant": "history dependent", "anchors": ["src/math/CoordinateSystem.cpp: getCoordinateSystem"]}
{"id": "C67", "title": "Exclusive hardware claims are exclusive", "statement": "An input or output that was claimed exclusively cannot be claimed again (exclusively or not) until it is released, and one claimed non-exclusively cannot be claimed exclusively until released.", "quantifier": "all claim/release histories over all signal names", "why_tests_cant": "unbounded histories", "anchors": ["src/hal/HAL.cpp: getInput, getOutput, getLogicInput, releaseInput, releaseOutput"]}
{"id": "C68", "title": "Releasing one shared claim keeps the others", "statement": "When a signal is shared by several non-exclusive claims, releasing one of them does not allow an exclusive claim while the others are in use.", "quantifier": "all claim histories", "why_tests_cant": "history dependent", "anchors": ["src/hal/HAL.cpp: releaseInput, releaseOutput"]}
{"id": "C69", "title": "Unknown signal names are reported and leave no trace", "statement": "Requesting a signal that does not exist raises a fault and does not influence later requests or registrations.", "quantifier": "all names and histories", "why_tests_cant": "history dependent", "anchors": ["src/hal/HAL.cpp: getInput, getOutput, getLogicInput, addInput"]}
{"id": "C70", "title": "Configured scaling maps the declared end points", "statement": "A scale entry with minIn,maxIn,minOut,maxOut maps minIn to minOut and maxIn to maxOut, and consecutive entries are composed in order.", "quantifier": "all scale chains (exact arithmetic)", "why_tests_cant": "sign-dependent formula", "anchors": ["src/hal/JsonParser.cpp: calcScale"]}
{"id": "C71", "title": "Configuration saved to a file is restored by loading it", "statement": "Saving a configuration of integer, integer array and string properties and loading the file restores exactly the saved values, for property names without white space and strings without line breaks; unknown properties in the file are ignored.", "quantifier": "all property sets, names and values", "why_tests_cant": "unbounded strings", "anchors": ["src/config/Config.cpp: add", "includes/eeros/config/FileConfig.hpp: save, load"]}
{"id": "C72", "title": "Loading a configuration never writes outside the registered variables", "statement": "Whatever the file contains, loading writes at most the declared number of elements of each array property.", "quantifier": "all file contents", "why_tests_cant": "adversarial file contents", "anchors": ["src/config/Config.cpp: add (array overloads)"]}
{"id": "C73", "title": "Log messages appear exactly when their level is visible", "statement": "A message is written exactly when its level is at least as urgent as the visible level at the time it is created, completely and in one piece.", "quantifier": "all levels and message sequences", "why_tests_cant": "histories", "anchors": ["includes/eeros/logger/LogEntry.hpp", "includes/eeros/logger/Logger.hpp: show"]}
{"id": "C74", "title": "Socket frames are reassembled whatever the chunking", "statement": "A peer reading fixed-size frames delivers exactly the next frame of the byte stream, for every way the network splits the stream; after a connection loss the receive buffer reads zero.", "quantifier": "all frame sizes and chunkings", "why_tests_cant": "chunking is chosen by the network", "anchors": ["includes/eeros/sockets/SocketServer.hpp: run", "includes/eeros/sockets/SocketClient.hpp: run"]}
{"id": "C75", "title": "A key press is reported exactly once", "statement": "Each detected key press is reported by exactly one read of the key's input; reads of one key do not consume another key's press.", "quantifier": "all press/read histories", "why_tests_cant": "histories", "anchors": ["includes/eeros/hal/KeyList.hpp: addKeys", "includes/eeros/hal/KeyboardDigIn.hpp: get"]}
{"id": "C76", "title": "Transitions are taken from the current level under every thread interleaving", "statement": "For every interleaving of threads triggering events with the safety cycle, a level change from level c to level d happens only if an event leading from c to d was triggered.", "quantifier": "all interleavings of any number of threads and cycles, all configurations", "why_tests_cant": "The failing schedules need a preemption between two adjacent statements; tests do not control the scheduler.", "anchors": ["src/safety/SafetySystem.cpp:49-71", "src/safety/SafetySystem.cpp:81-123"]}
{"id": "C77", "title": "No cycle executes a level that was not verified", "statement": "In an accepted configuration, every level that any cycle executes has been checked to cover all critical inputs and outputs.", "quantifier": "all configurations, all histories of triggers and cycles", "why_tests_cant": "Tests only contain well-formed configurations where every level was added.", "anchors": ["src/safety/SafetyProperties.cpp:25-61", "src/safety/SafetySystem.cpp:37-47"]}
{"id": "C78", "title": "Toggle outputs alternate strictly, set outputs stay constant", "statement": "A toggle output action writes low, high, low, ... on successive cycles starting with low; a set output action writes its value in every cycle; a leave action writes nothing.", "quantifier": "all numbers of cycles, all values with low != high", "why_tests_cant": "A test observes a fixed number of toggles.", "anchors": ["includes/eeros/safety/OutputAction.hpp:22-58"]}
{"id": "C79", "title": "Executor wake-up times do not drift", "statement": "The n-th wake-up target of the executor loop is start + n*period, independent of how long the cycles took.", "quantifier": "all start times, periods and cycle numbers (exact arithmetic)", "why_tests_cant": "drift only shows after long operation", "anchors": ["src/core/Executor.cpp:361-372"]}
{"id": "C80", "title": "The periodic counter measures every period except the first", "statement": "After any sequence of cycles the recorded periods are the differences of consecutive start times, the jitters are period minus nominal period, and every run time is recorded.", "quantifier": "all sequences of cycles with arbitrary times", "why_tests_cant": "unbounded sequences, real clocks are not controllable", "anchors": ["src/core/PeriodicCounter.cpp:27-49"]}
{"id": "C81", "title": "The default period monitor warns exactly outside the tolerance band", "statement": "The default monitor warns about a period T iff T < period*(1-tolerance) or T > period*(1+tolerance).", "quantifier": "all periods, tolerances and measurements", "why_tests_cant": "tests use few values and a real clock", "anchors": ["src/core/PeriodicCounter.cpp:84-96"]}
{"id": "C82", "title": "Constructing a periodic counter has defined behaviour", "statement": "Constructing a PeriodicCounter (also with its default arguments) or setting its period has no undefined behaviour.", "quantifier": "all periods", "why_tests_cant": "undefined conversions usually go unnoticed at run time", "anchors": ["src/core/PeriodicCounter.cpp:6-17,51-56", "includes/eeros/core/PeriodicCounter.hpp:21"]}
{"id": "C83", "title": "Async tasks do not use members before initialisation", "statement": "For every interleaving of the constructor of Async with the worker thread, the worker only uses initialised members.", "quantifier": "all interleavings", "why_tests_cant": "needs a preemption inside the constructor", "anchors": ["includes/eeros/task/Async.hpp:26-34", "src/task/Async.cpp:12-64"]}
{"id": "C84", "title": "Nested harmonic tasks run at the product of their factors", "statement": "A task nested below parents with factors k1..kn (itself kn) is executed floor(m/(k1*...*kn)) times in m base periods.", "quantifier": "all nesting depths, factors and numbers of periods", "why_tests_cant": "unbounded", "anchors": ["src/core/Executor.cpp:50-92", "src/task/Harmonic.cpp:16-21"]}
{"id": "C85", "title": "The executor's thread tree realises the task tree", "statement": "If thread creation succeeds, the tree of threads has the shape and tasks of the configured tree and every factor k>=1 approximates the period within 1 %; if all periods are exact multiples, creation succeeds.", "quantifier": "all task trees with positive periods (exact arithmetic)", "why_tests_cant": "unbounded trees", "anchors": ["src/core/Executor.cpp:50-92"]}
{"id": "C86", "title": "Assigned realtime priorities are valid", "statement": "Every priority the executor assigns to a realtime task is a valid SCHED_FIFO priority (>= 1) below the executor's own.", "quantifier": "all task sets", "why_tests_cant": "tests have few tasks", "anchors": ["src/core/Executor.cpp:164-193", "includes/eeros/core/Executor.hpp:135"]}
{"id": "C87", "title": "The reported variance is never negative", "statement": "The variance computed by Statistics is non-negative for every sequence of samples.", "quantifier": "all sample sequences", "why_tests_cant": "cancellation shows for particular values only", "anchors": ["src/core/Statistics.cpp:11-23"]}
{"id": "C88", "title": "System time in nanoseconds is order preserving", "statement": "The conversion of a timespec to nanoseconds is strictly monotone and does not wrap for the next 500 years.", "quantifier": "all normalised timespecs below 18e9 seconds", "why_tests_cant": "wrap-around is far in the future", "anchors": ["src/core/System_POSIX.cpp:18-20"]}
{"id": "C89", "title": "A thread always runs the derived class's run method", "statement": "A thread object of a derived class executes the run() of the derived class, whenever the new thread gets scheduled.", "quantifier": "all interleavings of constructor and thread", "why_tests_cant": "needs the new thread to be scheduled before the constructor ends", "anchors": ["src/core/Thread.cpp:9-19"]}
{"id": "C90", "title": "A step whose exit condition holds ends", "statement": "A step whose exit condition is true in every poll ends after finitely many polls, whatever its monitors do.", "quantifier": "all condition histories", "why_tests_cant": "Non-termination cannot be observed by a finite test; the condition history is unbounded.", "anchors": ["src/sequencer/BaseSequence.cpp:32-77"]}
{"id": "C91", "title": "An abort monitor of a caller ends the running nested step", "statement": "When in a poll of a step an abort or restart monitor of a blocking caller is true, the step and all sequences between it and the owner of the monitor are put into aborting.", "quantifier": "all stacks, monitor lists and other monitors true at the same time", "why_tests_cant": "The combinations of simultaneously true monitors on several nesting levels grow exponentially.", "anchors": ["src/sequencer/BaseSequence.cpp:86-146"]}
{"id": "C92", "title": "After an abort request no further step of the sequence acts", "statement": "After an abort monitor of a sequence fired, the steps that its running action still starts end without running their action.", "quantifier": "all actions and condition histories", "why_tests_cant": "Needs a condition that is true for one poll only at a particular moment of a nested run.", "anchors": ["src/sequencer/BaseSequence.cpp:23-38", "src/sequencer/BaseSequence.cpp:99-108"]}
{"id": "C93", "title": "Single stepping lets one step pass per step command", "statement": "After single stepping is switched on, the number of steps that start does not exceed the number of step commands given since, and a step command lets a waiting step pass.", "quantifier": "all interleavings of user commands and gate passages", "why_tests_cant": "The interleavings of the UI thread and the sequence threads cannot be enumerated.", "anchors": ["src/sequencer/BaseSequence.cpp:26-30", "src/sequencer/Sequencer.cpp:51-62", "src/sequencer/SequencerUI.cpp:85-97"]}
{"id": "C94", "title": "Aborting all sequences is permanent", "statement": "After Sequencer::abort() the abort condition of every registered sequence is set and stays set.", "quantifier": "all later operations", "why_tests_cant": "All later histories of starts matter.", "anchors": ["src/sequencer/Sequencer.cpp:72-78", "src/sequencer/Sequence.cpp:43-47"]}
{"id": "C95", "title": "The run of a sequence is determined by the condition values", "statement": "For a given configuration and given values of the successively evaluated conditions, a run has at most one outcome, log and end state.", "quantifier": "all configurations and condition histories", "why_tests_cant": "Determinism is a statement about pairs of all runs.", "anchors": ["src/sequencer/BaseSequence.cpp:23-146"]}
{"id": "C96", "title": "A successful connect leaves the input connected", "statement": "When connect on an input returns true, the input is connected afterwards.", "quantifier": "all connection states and arguments, including null pointers", "why_tests_cant": "The null pointer case needs a caller bug no unit test writes; the result true hides it until the first read.", "anchors": ["includes/eeros/control/Input.hpp:41-57", "includes/eeros/control/Input.hpp:71-73"]}
{"id": "C97", "title": "Port numbers beyond the last port are refused for every index value", "statement": "Getting input or output number i of a block with n ports is refused with an index fault for every i >= n of the caller's index type, also beyond 255.", "quantifier": "all n and all integer indices", "why_tests_cant": "The parameter type uint8_t silently truncates the argument; tests use small indices.", "anchors": ["includes/eeros/control/Blockio.hpp:83-97", "includes/eeros/control/Subio.hpp:48-62"]}
{"id": "C98", "title": "The integrator saturates at its limit", "statement": "When the integral passes an upper or lower limit the output of the integrator is that limit.", "quantifier": "all states, inputs and time steps", "why_tests_cant": "The output stays at the last value inside the limits, which for small steps is close to the limit in a test.", "anchors": ["includes/eeros/control/I.hpp:53-75", "includes/eeros/control/I.hpp:105-125"]}
{"id": "C99", "title": "The parabolic gain characteristic is odd, monotone and below the linear one", "statement": "The parabolic characteristic of the gain block is odd, linear up to the transition point, proportional to a square root beyond it, nondecreasing everywhere and never larger in magnitude than the linear gain.", "quantifier": "all real gains >= 0, transition points >= 0 and inputs", "why_tests_cant": "Tests sample a few points of a curve over all reals.", "anchors": ["includes/eeros/control/Gain.hpp:304-314"]}
{"id": "C100", "title": "Subsystem outputs are bounds-checked and initialised", "statement": "Setting a subsystem output with an index that does not exist raises a fault, and getting an output that was not set raises a fault.", "quantifier": "all numbers of outputs, indices and histories", "why_tests_cant": "Writing beyond the array or reading an uninitialised pointer is undefined behaviour and may look right in a test.", "anchors": ["includes/eeros/control/Subio.hpp:33-35", "includes/eeros/control/Subio.hpp:59-62", "includes/eeros/control/Subio.hpp:70-74"]}
{"id": "C102", "title": "Blocks distinguish all time stamps", "statement": "Two signals with different nanosecond time stamps have different times for the time dependent blocks (differentiator, integrator, rate limiter).", "quantifier": "all pairs of 64 bit time stamps", "why_tests_cant": "The collision needs time stamps beyond 2^53 ns, for example epoch time, and sub-microsecond spacing.", "anchors": ["includes/eeros/control/D.hpp:37-59", "includes/eeros/control/I.hpp:53-75", "includes/eeros/control/RateLimiter.hpp:79-93"]}
{"id": "C103", "title": "An integrator outputs numbers from its first run", "statement": "An integrator outputs a number (not NaN) in every run with number inputs, whether or not an initial condition was set.", "quantifier": "all operation histories", "why_tests_cant": "Tests set an initial condition first.", "anchors": ["includes/eeros/control/I.hpp:34-37", "includes/eeros/control/I.hpp:53-75"]}
{"id": "C101", "title": "Combining switches terminates", "statement": "Combining switch blocks and switching combined switch blocks terminates for every combination.", "quantifier": "all combination graphs", "why_tests_cant": "unbounded recursion needs cyclic graphs", "anchors": ["includes/eeros/control/Switch.hpp: combine, switchToInput"]}
{"id": "C104", "title": "Setting the wrap-around range takes effect", "statement": "After setMinMax(min,max) the wrap-around block wraps to the new range.", "quantifier": "all ranges", "why_tests_cant": "setter untested", "anchors": ["includes/eeros/control/WrapAround.hpp: setMinMax"]}
{"id": "C105", "title": "A falling rate transition delivers the newest older signal", "statement": "Every run of the output block of a falling rate transition outputs the newest received signal older than its own time stamp, or the oldest received if none is older.", "quantifier": "all sequences of received signals and time stamps", "why_tests_cant": "timing-dependent interleaving of two time domains", "anchors": ["includes/eeros/control/Transition.hpp: TransitionOutBlock run"]}
{"id": "C106", "title": "A reported automatic switch has taken place", "statement": "If a switch block reports an automatic switch or triggers its event, its selection is the configured next input.", "quantifier": "all conditions and inputs", "why_tests_cant": "invalid index", "anchors": ["includes/eeros/control/Switch.hpp: run, setCondition"]}
{"id": "C107", "title": "Running a switch block is always defined", "statement": "A run of a constructed switch block with connected inputs reads no uninitialised members and no input out of range.", "quantifier": "all constructor arguments and histories", "why_tests_cant": "reads of uninitialised members go unnoticed", "anchors": ["includes/eeros/control/Switch.hpp: Switch, run, arm"]}
{"id": "C108", "title": "A rising rate transition interpolates between the last two signals", "statement": "The runs of the output block after a received signal output values interpolated linearly between the last two signals, never beyond them.", "quantifier": "all signals and numbers of runs", "why_tests_cant": "timing-dependent number of runs", "anchors": ["includes/eeros/control/Transition.hpp: TransitionOutBlock run"]}
{"id": "C109", "title": "Only finite values reach the hardware", "statement": "A peripheral output block writes only finite values to its channel, whatever safe value is configured.", "quantifier": "all doubles and configurations", "why_tests_cant": "special values and missing configuration", "anchors": ["includes/eeros/control/PeripheralOutput.hpp: run", "src/hal/JsonParser.cpp: createHalObjects"]}
{"id": "C110", "title": "Every accepted move of the constant acceleration planner ends", "statement": "After an accepted move the constant acceleration planner reports the end after finitely many cycles, in the arithmetic the machine uses.", "quantifier": "all moves and step sizes", "why_tests_cant": "the accumulated time misses the end of a phase by more than 1e-12 only for some combinations of step size and duration", "anchors": ["includes/eeros/control/PathPlannerConstAcc.hpp: run, move"]}
{"id": "C111", "title": "Planned positions are the integral of the planned velocities", "statement": "In every cycle of a constant acceleration move the position advances by the mean of the old and the new velocity times the sampling time.", "quantifier": "all moves", "why_tests_cant": "only moves without a constant velocity phase are affected, by one cycle", "anchors": ["includes/eeros/control/PathPlannerConstAcc.hpp: run"]}
{"id": "C112", "title": "A scaled cubic path leads exactly over the requested distance", "statement": "After move(time, startPos, deltaPos) the cubic planner ends at startPos + deltaPos.", "quantifier": "all path files, durations and distances", "why_tests_cant": "continuum of durations; only those that are not multiples of the sampling time for each segment are affected", "anchors": ["includes/eeros/control/PathPlannerCubic.hpp: move, scalePath"]}
{"id": "C113", "title": "An accepted cubic move begins at its start position", "statement": "In the first cycle after an accepted move the cubic planner outputs the requested start position at rest.", "quantifier": "all histories of run, move and reset", "why_tests_cant": "depends on whether an idle cycle lies between the end (or reset) and the next move", "anchors": ["includes/eeros/control/PathPlannerCubic.hpp: run, move, reset"]}
{"id": "C114", "title": "Rows, columns and sub-matrices are copied element by element", "statement": "getCol, getRow and getSubMatrix return exactly the addressed elements, setCol and setRow replace exactly the addressed row or column, and addressing anything outside the matrix raises an exception.", "quantifier": "all dimensions, positions and contents", "why_tests_cant": "template-size dependent; out-of-range vectors read past their end silently", "anchors": ["includes/eeros/math/Matrix.hpp: getCol, getRow, getSubMatrix, setCol, setRow"]}
{"id": "C115", "title": "The comma initialiser fills the matrix row by row", "statement": "M << a, b, c ... stores the k-th value in row k/N and column k mod N, leaves the remaining elements, and rejects more values than elements.", "quantifier": "all dimensions and value lists", "why_tests_cant": "template-size dependent", "anchors": ["includes/eeros/math/Matrix.hpp: MatrixInitializer, operator<<"]}
{"id": "C116", "title": "Matrix comparison operators compare element by element", "statement": "A < B (and <=, >, >=) holds exactly when it holds for every element.", "quantifier": "all dimensions and contents", "why_tests_cant": "NaN elements are rarely tested", "anchors": ["includes/eeros/math/Matrix.hpp: operator<, operator<=, operator>, operator>="]}
{"id": "C117", "title": "Matrix predicates and the trace", "statement": "trace() is the sum of the diagonal; isSymmetric, isOrthogonal, isDiagonal, isLowerTriangular, isUpperTriangular and == decide the mathematical properties, also for 1 x 1 matrices.", "quantifier": "all dimensions and contents over a commutative ring", "why_tests_cant": "template-size dependent, separate specialisation for 1 x 1", "anchors": ["includes/eeros/math/Matrix.hpp: trace, isSymmetric, isOrthogonal, isDiagonal, isLowerTriangular, isUpperTriangular"]}
{"id": "C118", "title": "Typed signal access returns the registered object", "statement": "getLogicInput, getScalableInput and the output variants return the object registered under the name and only if it has the requested type; a failing request claims nothing; a name is registered at most once; inputs and outputs do not influence each other.", "quantifier": "all histories", "why_tests_cant": "unbounded histories", "anchors": ["src/hal/HAL.cpp: getLogicInput, getScalableInput, getLogicOutput, getScalableOutput, addInput, addOutput"]}
{"id": "C119", "title": "The configured input range is the intersection of all limits", "statement": "The range computed from a chain of scale and range entries contains exactly the input values that respect the input and output limits of every entry.", "quantifier": "all chains (exact arithmetic)", "why_tests_cant": "sign and order dependent", "anchors": ["src/hal/JsonParser.cpp: calcScale lines 292-329"]}
{"id": "C120", "title": "Gamepad state follows the events", "statement": "Each button and axis has the value of its last event, events with other numbers are ignored, and the edge flags tell whether the button changed with the latest event.", "quantifier": "all event sequences", "why_tests_cant": "unbounded histories", "anchors": ["src/hal/XBox.cpp: run"]}
{"id": "C121", "title": "Mouse position is the sum of all movements", "statement": "Each mouse axis is the sum of the movements reported for it and each button has its last reported value.", "quantifier": "all event sequences without overflow", "why_tests_cant": "unbounded histories", "anchors": ["src/hal/Mouse.cpp: run"]}
{"id": "C122", "title": "Raw axis values are decoded as signed 16 bit numbers", "statement": "Each pair of bytes sent for a value of -32768..32767 is decoded to that value.", "quantifier": "all values", "why_tests_cant": "all byte combinations", "anchors": ["src/hal/SpaceNavigator.cpp: run"]}
{"id": "C123", "title": "A sysfs pin reports its level on every read", "statement": "SysFsDigIn::get returns the (possibly inverted) pin level each time it is called.", "quantifier": "all levels and numbers of reads", "why_tests_cant": "undefined behaviour", "anchors": ["src/hal/SysFsDigIn.cpp: constructor, get"]}
{"id": "C124", "title": "A configuration property is registered once and with a consistent length", "statement": "Registering a property under a name that is already in use, or an array whose bounds do not enclose the declared number of elements, fails and changes nothing; every other registration adds exactly that property.", "quantifier": "all registrations and histories", "why_tests_cant": "histories of registrations", "anchors": ["src/config/Config.cpp: add"]}
{"id": "C125", "title": "Double properties survive saving and loading", "statement": "Saving a configuration with double or double array properties and loading the file restores exactly the saved values.", "quantifier": "all doubles", "why_tests_cant": "the set of doubles cannot be enumerated", "anchors": ["src/config/Config.cpp: add (double overloads)"]}
{"id": "C126", "title": "Log file and log stream agree", "statement": "With a log file configured, the file holds exactly the same text as the log stream.", "quantifier": "all histories and interleavings of messages", "why_tests_cant": "depends on the schedule", "anchors": ["src/logger/StreamLogWriter.cpp: end"]}
{"id": "C127", "title": "Logging is defined whenever a logger can be obtained", "statement": "A logger obtained with getLogger can be used for messages and level changes without undefined effects.", "quantifier": "all histories of logger calls", "why_tests_cant": "order of static initialisation and set-up", "anchors": ["src/logger/Logger.cpp: log", "includes/eeros/logger/Logger.hpp: getLogger, setDefaultStreamLogger"]}
{"id": "C128", "title": "Frames sent over a socket arrive unchanged and in order", "statement": "The sequence of frames received by one peer is the sequence of frames sent by the other, whatever the network does with the byte stream.", "quantifier": "all frame contents, chunkings and amounts accepted by write", "why_tests_cant": "chunking and partial writes are decided by the system", "anchors": ["includes/eeros/sockets/SocketServer.hpp: run", "includes/eeros/sockets/SocketClient.hpp: run"]}
{"id": "C129", "title": "A silent peer is detected", "statement": "A connection on which no complete frame arrives within the time out is given up.", "quantifier": "all behaviours of the peer", "why_tests_cant": "behaviour of a stalled peer", "anchors": ["includes/eeros/sockets/SocketServer.hpp: run (read loop)"]}
{"id": "C130", "title": "The socket block outputs whole frames", "statement": "The value output by the socket block is one of the received frames (or zero), never a mixture, whatever the socket thread does during the run of the block.", "quantifier": "all interleavings", "why_tests_cant": "thread schedules", "anchors": ["includes/eeros/control/SocketData.hpp: run", "includes/eeros/sockets/SocketServer.hpp: getReceiveBuffer"]}
{"id": "C131", "title": "A frame belongs to the coordinate systems it was created for", "statement": "A live frame connects the two coordinate systems given when it was created, for its whole life.", "quantifier": "all creation and destruction histories, all addresses", "why_tests_cant": "depends on which object the allocator places where", "anchors": ["includes/eeros/math/Frame.hpp: members a, b", "src/math/CoordinateSystem.cpp: destructor"]}
{"id": "C132", "title": "A polynomial or fraction constructed from coefficients has these coefficients", "statement": "The value of a polynomial constructed from a list of coefficients is the value of the polynomial with these coefficients, and a fraction given by its numerator is that numerator.", "quantifier": "all orders, coefficient lists and points", "why_tests_cant": "orders are template parameters, lists unbounded", "anchors": ["includes/eeros/math/Fraction.hpp: constructors"]}
{"id": "C133", "title": "Products and sums of transfer functions are series and parallel connections", "statement": "The response of the product of two fractions is the response of the second to the response of the first; that of the sum is the sum of the responses; scaling and adding a constant act on the output.", "quantifier": "all orders, coefficients with non-zero leading denominator, all input sequences (field)", "why_tests_cant": "unbounded sequences and orders", "anchors": ["includes/eeros/control/ZTransferFunction.hpp: operators", "includes/eeros/math/Fraction.hpp: operators"]}
{"id": "C134", "title": "Kalman correction is optimal and never increases the uncertainty", "statement": "With 1, 3 or 2^j outputs and an invertible innovation covariance, a correction of the Kalman filter never increases the error covariance in any direction, and the resulting covariance is the smallest that any gain could reach; the very first correction after construction leaves estimate and covariance unchanged.", "quantifier": "all system matrices, covariances, measurements, gains and directions over any ordered field", "why_tests_cant": "A test covers a few matrices and a few directions; optimality ranges over all gains", "anchors": ["includes/eeros/control/filter/KalmanFilter.hpp:KalmanFilter::correction"]}
{"id": "C135", "title": "PDO contents arrive at the configured signals", "statement": "If the objects of a PDO fit into 8 bytes, every float signal, digital signal and control word packed by CANopenSend is delivered by CANopenReceive, configured with the same mapping, to the signal with the same index: digital values modulo the object size, float values truncated and as signed 32 bit number, the status word masked with 0x26F. A cycle starts with the sync message, contains one PDO per request for a known node in the order of the requests, and whatever part of it is received, in any order, duplicated or with errors in between, affects exactly the signals of the PDOs received.", "quantifier": "for all node lists, mappings (object lengths and signal indices), values, receiver states and sequences of received messages", "why_tests_cant": "The number of mappings and values is unbounded; tests need a CAN bus and cover a few mappings.", "anchors": ["includes/eeros/control/can/CANopenSend.hpp:76-107", "includes/eeros/control/can/CANopenReceive.hpp:80-119"]}
{"id": "C136", "title": "PDO packing stays within its buffer", "statement": "CANopenSend::run never writes beyond the 8 byte local buffer and never reads beyond the list of signal indices, whatever PDO was configured with configureRPDO.", "quantifier": "for all configurations and input values", "why_tests_cant": "An overrun of a local buffer often has no visible effect in a test.", "anchors": ["includes/eeros/control/can/CANopenSend.hpp:85-102", "includes/eeros/control/can/CANopenSend.hpp:171-183"]}
{"id": "C137", "title": "CANopen signals are scaled with their own factor", "statement": "Signal s of drive k is multiplied by element (k, s) of the matrix given to setScale, for sending as well as for receiving.", "quantifier": "for all numbers of drives and signals and all scale matrices", "why_tests_cant": "Tests with one signal per drive or with scale 1 cannot notice a wrong factor.", "anchors": ["includes/eeros/control/can/CANopenSend.hpp:92", "includes/eeros/control/can/CANopenSend.hpp:140-142", "includes/eeros/control/can/CANopenReceive.hpp:99-104", "includes/eeros/control/can/CANopenReceive.hpp:153-155"]}
{"id": "C138", "title": "Negative set points can be sent over CAN", "statement": "A negative scaled set point is transmitted as two's complement number.", "quantifier": "for all set points in the 32 bit signed range", "why_tests_cant": "The conversion of a negative double to an unsigned type is undefined; a test on one compiler and processor may show the wanted result.", "anchors": ["includes/eeros/control/can/CANopenSend.hpp:93", "includes/eeros/control/can/CANsend.hpp:57"]}
{"id": "C139", "title": "Received angles belong to the drive which sent them", "statement": "Element i of the output of CANreceive is the scaled 16 bit angle sent by the i-th node.", "quantifier": "for all node lists and all orders of arrival of the frames", "why_tests_cant": "Frames normally arrive in the same order in a laboratory set-up.", "anchors": ["includes/eeros/control/can/CANreceive.hpp:55-68"]}
{"id": "C140", "title": "CANsend sends one complete frame per drive", "statement": "For every node one frame with identifier 0x140 + node is sent, and all 8 data bytes are determined by command code, speed and position.", "quantifier": "for all node lists, positions and speeds", "why_tests_cant": "An uninitialised byte usually has the same value in all test runs.", "anchors": ["includes/eeros/control/can/CANsend.hpp:54-69"]}
{"id": "C141", "title": "Received PDOs are parsed within their length", "statement": "A PDO that is not registered changes no signal, and a registered one is never read beyond the bytes received.", "quantifier": "for all configurations and all sequences of received PDOs, including PDOs shorter than configured", "why_tests_cant": "Depends on misconfigured devices and on indeterminate memory.", "anchors": ["includes/eeros/control/can/CANopenReceive.hpp:80-119"]}
{"id": "C142", "title": "Digital EtherCAT terminals map bit i to channel i", "statement": "Output i of EL1008 is bit i of the input word, and bit i of the word written by EL2008 is input i.", "quantifier": "for all words and all inputs", "why_tests_cant": "256 combinations times the content of uninitialised memory.", "anchors": ["includes/eeros/control/ethercat/beckhoff/EL1008.hpp:46-53", "includes/eeros/control/ethercat/beckhoff/EL2008.hpp:32-40"]}
{"id": "C143", "title": "Analog EtherCAT terminals convert without overflow", "statement": "EL4004 converts every double to a number in 0 to 32767, monotonically and with the end points 0 V and 10 V exact; EL3004 yields voltages in [-10, 10); an output wired to an input is read back with an error below 1/1600 V.", "quantifier": "for all binary64 inputs (range, monotony), all raw values and all voltages", "why_tests_cant": "There are 2^64 doubles; overflow and rounding happen at isolated values.", "anchors": ["includes/eeros/control/ethercat/beckhoff/EL4004.hpp:34-41", "includes/eeros/control/ethercat/beckhoff/EL3004.hpp:35-41"]}
{"id": "C144", "title": "A drive gets the set point of its mode only", "statement": "ElmoOutput sets exactly the target belonging to the present mode of the drive, always together with the torque limit, and nothing in other modes.", "quantifier": "for all modes and inputs", "why_tests_cant": "Needs a drive in each mode.", "anchors": ["includes/eeros/control/ethercat/ElmoOutput.hpp:35-54"]}
{"id": "C145", "title": "Mouse block respects its limits", "statement": "Every value the mouse input block outputs on an axis lies between the configured minimum and maximum of this axis.", "quantifier": "all limits and scales with min <= max, all states of the block, all counts of the device", "why_tests_cant": "tests use a few counts; rounding of (min - v) + v misses the limit only for particular counts", "anchors": ["src/control/MouseInput.cpp:30-65", "includes/eeros/control/MouseInput.hpp:40-53"]}
{"id": "C146", "title": "Mouse block follows the movement", "statement": "From one run to the next each output of the mouse block changes by the scaled movement of the mouse, limited to the range, so counts beyond a limit do not accumulate.", "quantifier": "all states, scales, limits and pairs of counts", "why_tests_cant": "needs long mouse movements beyond the limits and back", "anchors": ["src/control/MouseInput.cpp:39-57"]}
{"id": "C147", "title": "Initial position of the mouse block", "statement": "After setInitPos the mouse block outputs this position as long as the mouse does not move.", "quantifier": "all positions within the limits, all counts", "why_tests_cant": "with counts of zero the exchange of x and y is invisible", "anchors": ["src/control/MouseInput.cpp:31-37", "src/control/MouseInput.cpp:71-85"]}
{"id": "C148", "title": "Keyboard block reports its keys", "statement": "The outputs of a keyboard block tell for every key given to its constructor whether it was pressed since its last reset; several blocks are independent.", "quantifier": "all key lists, all sequences of key strokes and resets", "why_tests_cant": "tests use one block with a matching number of outputs", "anchors": ["includes/eeros/control/KeyboardInput.hpp:36-86", "includes/eeros/hal/KeyList.hpp:40-49", "src/hal/Keyboard.cpp:21-34", "src/hal/HAL.cpp:71-80"]}
{"id": "C149", "title": "Corrector stays in its buffer", "statement": "Correcting a point never accesses memory outside the buffer of mapped points.", "quantifier": "all meshes and points", "why_tests_cant": "reserved memory is usually accessible, the test seems to work", "anchors": ["src/control/Vector2Corrector.cpp:54-76"]}
{"id": "C150", "title": "Corrector maps triangles affinely", "statement": "A point in a triangle of the mesh is mapped with the weights of the corners to the mapped corners; if several triangles contain it and agree, the common value results; points outside are unchanged.", "quantifier": "all meshes, points and weights; buffer large enough", "why_tests_cant": "only sampled points of sample meshes can be tested", "anchors": ["src/control/Vector2Corrector.cpp:8-85", "includes/eeros/math/Matrix.hpp:672-690"]}
{"id": "C151", "title": "Pretty printing keeps the value", "statement": "The text printed for a number denotes this number truncated at its third decimal place, with the right sign and power of ten.", "quantifier": "all real numbers of absolute value at least 1e-12", "why_tests_cant": "infinitely many values, boundaries at powers of 1000", "anchors": ["includes/eeros/logger/Pretty.hpp:12-126"]}
{"id": "C152", "title": "Pretty printing has fixed width", "statement": "The text printed for a number between 1e-12 and 1e15 has nine characters.", "quantifier": "all real numbers in this range", "why_tests_cant": "only negative powers of 1000 break the width", "anchors": ["includes/eeros/logger/Pretty.hpp:24-60"]}
{"id": "C153", "title": "Time stamps survive the conversion to ROS", "statement": "A time stamp in nanoseconds converted to seconds and nanoseconds of ROS and back is unchanged.", "quantifier": "all time stamps", "why_tests_cant": "only the last nanoseconds of a second of an epoch time are affected by rounding", "anchors": ["includes/eeros/control/ros2/RosTools.hpp:113-128"]}
{"id": "C154", "title": "Subscriber outputs the newest message", "statement": "When a ROS subscriber block runs it consumes all pending messages and outputs the newest one; the outputs keep the order of arrival.", "quantifier": "all interleavings of messages and executor steps", "why_tests_cant": "interleavings of two threads", "anchors": ["includes/eeros/control/ros2/RosSubscriber.hpp:63-89"]}
{"id": "C155", "title": "One cycle for each message", "statement": "An executor synchronised to a topic runs one cycle for each received message and handles the message in it.", "quantifier": "all interleavings of messages, wake ups and executor steps", "why_tests_cant": "a message in the middle of a cycle is a matter of timing", "anchors": ["src/core/Executor.cpp:239-241", "src/core/Executor.cpp:349-357", "includes/eeros/control/ros2/RosSubscriber.hpp:63-69"]}
{"id": "C156", "title": "Stop ends the synchronised executor", "statement": "After stop() an executor synchronised to a topic leaves its loop.", "quantifier": "all moments of the call of stop", "why_tests_cant": "the window between the test of running and the wait is very short", "anchors": ["src/core/Executor.cpp:195-208", "src/core/Executor.cpp:349-357"]}
{"id": "C157", "title": "Commands are executed once", "statement": "Every command character received by the user interface of the sequencer is executed exactly once, and nothing else is executed.", "quantifier": "all sequences of results of read and time outs", "why_tests_cant": "the effect after a disconnect is rarely looked at", "anchors": ["src/sequencer/SequencerUI.cpp:63-99"]}
{"id": "C158", "title": "Shared memory is released", "statement": "When a SharedMemory object is destroyed, its mapping and its descriptor are released.", "quantifier": "all results of the system calls, initialize called or not", "why_tests_cant": "leaks are invisible to functional tests", "anchors": ["src/core/SharedMemory.cpp:12-53"]}
{"id": "C159", "title": "Destroying a device driver ends its thread", "statement": "Whenever a driver object with its own thread is destroyed, the thread leaves its loop and the destructor returns.", "quantifier": "all interleavings of the driver thread and the thread which constructs and destroys the driver, successful and failed connections", "why_tests_cant": "the fault needs a missing device or a particular interleaving at start up", "anchors": ["src/hal/BaumerOM70.cpp:5-27", "src/hal/RPLidar.cpp:5-58", "includes/eeros/hal/SBGEllipseA.hpp:33-70", "includes/eeros/hal/PixyCam.hpp:36-57", "includes/eeros/hal/ODriveUSB.hpp:479-493"]}
{"id": "C160", "title": "Driver threads do not use released handles", "statement": "The thread of a device driver never uses its connection after the destructor has closed or deleted it.", "quantifier": "all interleavings", "why_tests_cant": "use after free is a race at shutdown", "anchors": ["src/hal/BaumerOM70.cpp:22-27", "includes/eeros/hal/ODriveUART.hpp:52-65", "includes/eeros/hal/ODriveUSB.hpp:61-73"]}
{"id": "C161", "title": "A driver measures as long as it exists", "statement": "The thread of a driver whose device could be opened stays in its loop until the destructor stops it.", "quantifier": "all interleavings, all initial contents of the memory of the flags", "why_tests_cant": "the thread is started before the flags are initialised; a test sees one order", "anchors": ["src/core/Thread.cpp:9-19", "src/hal/RPLidar.cpp:6", "src/hal/RPLidar.cpp:78-81"]}
{"id": "C162", "title": "A destroyed ODrive driver leaves velocity zero", "statement": "The last velocity sent to an axis when the driver is destroyed is zero.", "quantifier": "all interleavings", "why_tests_cant": "race between the destructor and the loop of the thread", "anchors": ["includes/eeros/hal/ODriveUART.hpp:52-65", "includes/eeros/hal/ODriveUART.hpp:229-241", "includes/eeros/hal/ODriveUSB.hpp:61-73"]}
{"id": "C163", "title": "The velocity of the ODrive is the number it sent", "statement": "The velocity stored after a reply over UART equals the decimal number in the reply.", "quantifier": "all signs, integer parts and fractions", "why_tests_cant": "needs the device; only whole numbers look right", "anchors": ["includes/eeros/hal/ODriveUART.hpp:186-224"]}
{"id": "C164", "title": "Replies of the ODrive stay in the buffer", "statement": "Reading a reply over UART never writes outside its array and never uses an uninitialised byte, whatever arrives.", "quantifier": "all byte sequences and failures of read", "why_tests_cant": "malformed replies are not produced in tests", "anchors": ["includes/eeros/hal/ODriveUART.hpp:196-223"]}
{"id": "C165", "title": "The lidar block outputs the scan", "statement": "After every scan the ranges are the measured distances in metres, infinite where nothing was seen, and behind the scan infinite.", "quantifier": "all scans of up to 380 nodes", "why_tests_cant": "a scan without any echo is rare", "anchors": ["src/hal/RPLidar.cpp:82-118"]}
{"id": "C166", "title": "Velocities of the ODrive block are scaled", "statement": "The reference velocity sent to the drive and the velocity output by the block are the input and the measured value times a nonzero constant.", "quantifier": "all values", "why_tests_cant": "needs the drive; the conversion to int is silent", "anchors": ["includes/eeros/control/drive/ODriveUSBInput.hpp:47-51", "includes/eeros/hal/ODriveUSB.hpp:205-218"]}
{"id": "C167", "title": "Both end stops are configured", "statement": "The configuration of the ODrive sets the input pin, the polarity and the enabling of the end stops of both motors.", "quantifier": "all previous configurations of the drive", "why_tests_cant": "only one axis is usually wired", "anchors": ["includes/eeros/hal/ODriveUSB.hpp:308-314"]}
{"id": "C168", "title": "The ODrive block outputs the measured values", "statement": "The velocities and currents output by the block are those which the drive reported last.", "quantifier": "all sequences of measurements", "why_tests_cant": "currents are not compared with the drive", "anchors": ["includes/eeros/hal/ODriveUSB.hpp:464-514"]}
{"id": "C169", "title": "The watchdog of the ODrive is fed", "statement": "Every round of the loop feeds the watchdog.", "quantifier": "any number of rounds", "why_tests_cant": "long runs", "anchors": ["includes/eeros/hal/ODriveUSB.hpp:481-512"]}
{"id": "C170", "title": "The T265 transformation is a rotation", "statement": "For every unit quaternion the upper left part of the matrix has orthonormal columns and determinant one.", "quantifier": "all unit quaternions over the reals", "why_tests_cant": "one orientation tells nothing about the others", "anchors": ["src/hal/RealsenseT265.cpp:47-55"]}
{"id": "C171", "title": "Camera data are valid exactly when all markers are in view", "statement": "isDataValid is true exactly when all four dots lie in the window ten pixels from the border and the height is below 1.2 m.", "quantifier": "all positions of the four dots", "why_tests_cant": "the code tests only the extremal dots in eight comparisons; tests cover few positions", "anchors": ["includes/eeros/hal/PixyCam.hpp:129-180"]}
{"id": "C172", "title": "Valid camera data come from detected markers", "statement": "Data are reported as valid only if the camera has detected the four markers in this picture.", "quantifier": "all numbers of blocks and contents of the block array", "why_tests_cant": "needs a picture with hidden markers", "anchors": ["includes/eeros/hal/PixyCam.hpp:121-127", "includes/eeros/hal/PixyCam.hpp:179-180"]}
{"id": "C173", "title": "The filtered camera position recovers", "statement": "The filtered position stays in the range of the raw positions and becomes usable again after a picture without usable markers.", "quantifier": "all sequences of pictures", "why_tests_cant": "a single infinite value has its effect much later", "anchors": ["includes/eeros/hal/PixyCam.hpp:182-206"]}
{"id": "C174", "title": "Filtered and raw camera position agree at rest", "statement": "As long as nothing moves the filtered position equals the raw position.", "quantifier": "all positions, any number of rounds", "why_tests_cant": "axes are exchanged only in one of two outputs", "anchors": ["includes/eeros/hal/PixyCam.hpp:188-212"]}
{"id": "C175", "title": "A wait step waits for its time", "statement": "A wait step ends at the first check at which more than the waiting time has passed since it began.", "quantifier": "all waiting times, all sequences of check times", "why_tests_cant": "real clocks cannot be set in a test", "anchors": ["includes/eeros/sequencer/Wait.hpp:33-39"]}
{"id": "C176", "title": "Default value of a constant", "statement": "A constant of an integer type constructed without a value holds the smallest value of the type.", "quantifier": "all integer types", "why_tests_cant": "tests use int only", "anchors": ["includes/eeros/control/Constant.hpp:24-32", "includes/eeros/control/Constant.hpp:78-89"]}
{"id": "C177", "title": "A sysfs output sets its pin", "statement": "After set(v) the pin has the level v.", "quantifier": "all sequences of calls, all contents of uninitialised members", "why_tests_cant": "needs the hardware", "anchors": ["src/hal/SysFsDigOut.cpp:6-48"]}
{"id": "C178", "title": "Messages reach the syslog", "statement": "Every message of a visible level is written with the priority of its level, no other message is.", "quantifier": "all sequences of messages and interleavings of threads", "why_tests_cant": "interleavings of two log entries", "anchors": ["src/logger/SysLogWriter.cpp:22-77"]}
{"id": "C179", "title": "Failing peripheral blocks claim nothing", "statement": "When the construction of a peripheral input or output fails, the claims of the HAL are as before; when it succeeds the signal of the right type is claimed.", "quantifier": "all registries, names and types", "why_tests_cant": "the state of the HAL after a fault is not looked at", "anchors": ["includes/eeros/control/PeripheralInput.hpp:30-33", "includes/eeros/control/PeripheralOutput.hpp:34-37"]}
{"id": "C180", "title": "Destroyed peripheral blocks release their signal", "statement": "After a peripheral block was destroyed, its signal can be claimed again.", "quantifier": "all registries and names", "why_tests_cant": "needs destruction and a second construction", "anchors": ["includes/eeros/control/PeripheralInput.hpp:30-70"]}
{"id": "C181", "title": "Signals survive a ROS message", "statement": "A vector published by RosPublisherAnalogSignal arrives unchanged at a subscriber with the same signal type; other messages are handled.", "quantifier": "all vectors and message lengths", "why_tests_cant": "messages of other nodes have other lengths", "anchors": ["includes/eeros/control/ros2/RosPublisherAnalogSignal.hpp:43-54", "includes/eeros/control/ros2/RosSubscriberAnalogSignal.hpp:50-64"]}
{"id": "C182", "title": "Laser scans are transferred with all fields", "statement": "Ranges, intensities and time stamps of a laser scan are transferred.", "quantifier": "all scans", "why_tests_cant": "intensities are rarely used", "anchors": ["includes/eeros/control/ros2/RosPublisherLaserScan.hpp:46-60", "includes/eeros/control/ros2/RosSubscriberLaserScan.hpp:22-53"]}
{"id": "C183", "title": "The safety level publisher is always defined", "statement": "Running a RosPublisherSafetyLevel is defined whether or not the safety system was set.", "quantifier": "all contents of the uninitialised pointer", "why_tests_cant": "depends on memory contents", "anchors": ["includes/eeros/control/ros2/RosPublisherSafetyLevel.hpp:40-58"]}
{"id": "C184", "title": "Starting a non-blocking sequence returns at once", "statement": "start() of a non-blocking sequence returns without waiting for a run of that sequence.", "quantifier": "all histories of starts, waits, aborts and ends of any number of sequences and threads", "why_tests_cant": "needs a start during an earlier run, i.e. a special timing", "anchors": ["src/sequencer/Sequence.cpp:43-56"]}
{"id": "C185", "title": "A sequence runs once for each start and never twice at the same time", "statement": "Every call of start() of a non-blocking sequence leads to exactly one run; two runs of the same sequence are never active together.", "quantifier": "all histories", "why_tests_cant": "interleavings of threads", "anchors": ["src/sequencer/Sequence.cpp:28-56", "src/sequencer/BaseSequence.cpp:29-38"]}
{"id": "C186", "title": "The result of a finished sequence can be read", "statement": "After a run has ended getResult() gives what it returned.", "quantifier": "all histories", "why_tests_cant": "reads of uninitialised memory look plausible", "anchors": ["src/sequencer/Sequence.cpp:58-64", "includes/eeros/sequencer/Sequence.hpp:80-92"]}
{"id": "C187", "title": "An abort request ends the run of a sequence", "statement": "After abort() the run in progress notices the request at its next check of the monitors. A request made before the start of a run does not reach that run.", "quantifier": "all histories, all interleavings between request and check", "why_tests_cant": "the lost request needs a start between abort and check", "anchors": ["src/sequencer/Sequence.cpp:43-47", "src/sequencer/BaseSequence.cpp:190-196", "includes/eeros/sequencer/ConditionAbort.hpp:14-18"]}
{"id": "C188", "title": "Waiting for the sequencer waits for all sequences", "statement": "When Sequencer::wait() returns, the threads of all sequences have ended.", "quantifier": "all histories and numbers of sequences", "why_tests_cant": "depends on the order of construction and on timing", "anchors": ["src/sequencer/Sequencer.cpp:64-69"]}
{"id": "C189", "title": "Starting sequences is free of data races", "statement": "The future of a sequence is never accessed by two threads at the same time.", "quantifier": "all histories", "why_tests_cant": "data races rarely show", "anchors": ["src/sequencer/Sequence.cpp:53"]}
{"id": "C190", "title": "Destroyed sequences are not accessed", "statement": "Sequencer::wait(), abort() and the constructors access living sequences only.", "quantifier": "all histories of construction and destruction", "why_tests_cant": "use after free may go unnoticed", "anchors": ["src/sequencer/Sequencer.cpp:21-24", "src/sequencer/Sequence.cpp:14-26"]}
{"id": "C191", "title": "The thread of an input device processes its events", "statement": "While a gamepad, mouse or space navigator is in use its thread exists, and the thread reads no uninitialised member.", "quantifier": "all interleavings of the owner, the thread and the events", "why_tests_cant": "depends on whether the thread starts before the constructor of the derived class", "anchors": ["src/hal/XBox.cpp:12-46", "src/hal/Mouse.cpp:12-38", "src/hal/SpaceNavigator.cpp:13-29", "src/core/Thread.cpp:9-19"]}
{"id": "C192", "title": "Destroying an input device ends its thread", "statement": "The destructor of a gamepad, mouse or space navigator returns, without undefined behaviour.", "quantifier": "all interleavings of the owner, the thread and the events", "why_tests_cant": "the hang needs a rare schedule or a device without events", "anchors": ["src/hal/XBox.cpp:24-30", "src/hal/Mouse.cpp:24-28", "src/hal/SpaceNavigator.cpp:31-40"]}
{"id": "C193", "title": "The speed factor of the gamepad block takes effect", "statement": "XBoxInput outputs the axes times the speed factor set by setSpeedScaleFactor().", "quantifier": "all factors and axes", "why_tests_cant": "needs the value of the factor to be compared with the output", "anchors": ["src/control/XBoxInput.cpp:17-55"]}
{"id": "C194", "title": "The outputs of the space navigator block are defined", "statement": "SpaceNavigatorInput outputs initialised values only, whatever events have arrived. Each of them is the value of the last event for its axis, rotation or button.", "quantifier": "all sequences of events", "why_tests_cant": "uninitialised memory often holds zeros", "anchors": ["src/control/SpaceNavigatorInput.cpp:14-32", "src/hal/SpaceNavigator.cpp:13-29"]}
{"id": "C195", "title": "The raw stream of the space navigator is decoded packet by packet", "statement": "After each packet the state of the space navigator is that sent in the packet, also when reading starts within a packet.", "quantifier": "all streams of packets", "why_tests_cant": "needs a stream which starts within a packet", "anchors": ["src/hal/SpaceNavigator.cpp:96-135"]}
{"id": "C196", "title": "The semaphore counts", "statement": "A semaphore lets through at most its initial value plus the number of posts, leaves no thread asleep while its counter is positive, and times out only with a counter of zero.", "quantifier": "all interleavings of any number of waiting and posting threads", "why_tests_cant": "lost wake-ups need rare schedules", "anchors": ["src/core/Semaphore.cpp:6-29"]}
{"id": "C197", "title": "The HAL gets the objects of its configuration", "statement": "After a configuration was loaded the HAL has exactly the inputs and outputs which it describes, with their library, device, channels, scaling, unit and safe value.", "quantifier": "all configurations, libraries and previous states of the HAL", "why_tests_cant": "values leak from one channel to the next only for certain combinations of optional keys", "anchors": ["src/hal/JsonParser.cpp:34-172", "src/hal/JsonParser.cpp:174-191", "src/hal/JsonParser.cpp:354-443", "src/hal/HAL.cpp:17-21"]}
{"id": "C198", "title": "The order of the keys of a configuration is irrelevant", "statement": "A configuration which can be loaded can also be loaded with its keys in another order.", "quantifier": "all configurations and orders of keys", "why_tests_cant": "there are too many orders of the keys", "anchors": ["src/hal/JsonParser.cpp:53-166"]}
{"id": "C199", "title": "A failed load leaves the HAL unchanged", "statement": "When a configuration cannot be loaded the HAL is as it was before, so that a corrected configuration can be loaded.", "quantifier": "all configurations and previous states of the HAL", "why_tests_cant": "the failure may come at any channel", "anchors": ["src/hal/JsonParser.cpp:51-172", "src/hal/HAL.cpp:71-90"]}
{"id": "C200", "title": "Identifiers of inputs and outputs are unique", "statement": "Identifiers stay unique per direction; a configuration with an identifier in use is rejected, also the same configuration read twice.", "quantifier": "all configurations and previous states of the HAL", "why_tests_cant": "quantifies over all sequences of loaded configurations", "anchors": ["src/hal/HAL.cpp:71-90", "src/hal/JsonParser.cpp:354-443"]}
{"id": "C201", "title": "A hardware library is opened once", "statement": "Each hardware library is opened once, however often it is named.", "quantifier": "all configurations", "why_tests_cant": "a library opened twice has no visible effect", "anchors": ["src/hal/JsonParser.cpp:56-68", "src/hal/HAL.cpp:17-21"]}
{"id": "C202", "title": "Unknown keys of a configuration are rejected", "statement": "A configuration with a key which the parser does not know is rejected.", "quantifier": "all configurations", "why_tests_cant": "tests use well-formed files", "anchors": ["src/hal/JsonParser.cpp:53-166"]}
{"id": "C203", "title": "Encoders are created with the right signature", "statement": "The function createFqd of a library is called with the signature it has, and a comedi encoder only with given channels.", "quantifier": "all configurations and libraries", "why_tests_cant": "depends on the name of the library", "anchors": ["src/hal/JsonParser.cpp:101-117", "src/hal/JsonParser.cpp:417-443"]}
{"id": "C204", "title": "Every channel type has a direction and a kind", "statement": "The tables of directions and kinds have the same types, with DigIn, AnalogIn, Fqd and Watchdog as inputs and AnalogIn, AnalogOut, Pwm and Fqd as real numbers.", "quantifier": "all strings", "why_tests_cant": "an entry missing in one table shows only for this type", "anchors": ["includes/eeros/hal/HALFeatures.hpp:11-39"]}
{"id": "C205", "title": "readConfigFromFile returns true only after loading", "statement": "When readConfigFromFile(argc, argv) returns true the given file was loaded.", "quantifier": "all command lines and files, both kinds of char", "why_tests_cant": "depends on the signedness of char of the platform", "anchors": ["src/hal/HAL.cpp:23-63"]}
{"id": "C206", "title": "A feature is called only if the library of the object has it", "statement": "callInputFeature and callOutputFeature call a function only if the library of the object provides it and fail otherwise.", "quantifier": "all objects, libraries and features", "why_tests_cant": "needs objects without library handle", "anchors": ["includes/eeros/hal/HAL.hpp:36-56", "src/hal/HAL.cpp:229-247"]}
{"id": "C207", "title": "A displayed user interface serves keys", "statement": "Once dispay() was called and until exit() is called the text user interface reads keys.", "quantifier": "all interleavings of the interface thread and the application", "why_tests_cant": "the loop condition is wrong only for a state a headless test never enters", "anchors": ["src/ui/CursesUI.cpp:34-39", "src/ui/CursesUI.cpp:218-272"]}
{"id": "C208", "title": "Leaving the user interface ends its thread", "statement": "After exit(), which the destructor calls before joining, the thread of the interface ends.", "quantifier": "all interleavings", "why_tests_cant": "a hang depends on the moment of the call", "anchors": ["src/ui/CursesUI.cpp:30-46", "src/ui/CursesUI.cpp:218-272", "src/core/Thread.cpp:23-33"]}
{"id": "C209", "title": "A single user interface", "statement": "At most one interface exists, and one can be created whenever none exists.", "quantifier": "all sequences of creations and destructions", "why_tests_cant": "the counter wraps only after 2^32 attempts", "anchors": ["src/ui/CursesUI.cpp:17-32"]}
{"id": "C210", "title": "The last five messages are kept", "statement": "The message list holds the last five messages in order.", "quantifier": "all sequences of messages", "why_tests_cant": "unbounded histories", "anchors": ["src/ui/CursesUI.cpp:290-296"]}
{"id": "C211", "title": "Messages are displayed as given", "statement": "A message is displayed exactly as it was added.", "quantifier": "all message texts", "why_tests_cant": "only texts with a percent sign differ", "anchors": ["src/ui/CursesUI.cpp:97-108"]}
{"id": "C212", "title": "The areas of the screen do not overlap", "statement": "Header, sequence list, messages, status, commands and footer use different rows on the screen.", "quantifier": "all screen heights and numbers of sequences and messages", "why_tests_cant": "terminals of all sizes cannot be tried", "anchors": ["src/ui/CursesUI.cpp:48-190", "src/ui/CursesUI.cpp:210-215"]}
{"id": "C213", "title": "The prompt returns the number typed", "statement": "promptForInt returns the number typed by the user and stays within its buffer.", "quantifier": "all input lines", "why_tests_cant": "long lines overrun silently", "anchors": ["src/ui/CursesUI.cpp:298-310"]}
{"id": "C214", "title": "Sensor blocks update all outputs", "statement": "After a run every output of a sensor or drive input block carries the measured quantity and the time of the run.", "quantifier": "all blocks, measurements, times and previous outputs", "why_tests_cant": "a missing time stamp shows only with blocks using it", "anchors": ["includes/eeros/control/sensor/RPLidarInput.hpp:45-50", "includes/eeros/control/drive/ODriveUARTInput.hpp:42-50", "includes/eeros/control/sensor/PixyCamInput.hpp:99-115", "includes/eeros/control/sensor/RealsenseT265Input.hpp:43-59", "includes/eeros/control/sensor/SBGEllipseAInput.hpp:43-57", "includes/eeros/control/sensor/BaumerOM70Input.hpp:49-52", "includes/eeros/control/ethercat/ElmoInput.hpp:35-43"]}
{"id": "C215", "title": "Sensor vectors are not mixed", "statement": "A vector output by a sensor block is one which the sensor delivered.", "quantifier": "all interleavings of driver thread and block", "why_tests_cant": "the race needs an unlucky moment", "anchors": ["src/hal/RealsenseT265.cpp:28-34", "includes/eeros/hal/SBGEllipseA.hpp:148-186", "includes/eeros/control/sensor/RealsenseT265Input.hpp:44-49", "includes/eeros/control/sensor/SBGEllipseAInput.hpp:44-48"]}
{"id": "C216", "title": "A ROS1 subscriber processes its own messages", "statement": "Running a ROS1 subscriber block processes the messages of its topic.", "quantifier": "all sequences of arrivals and runs of any number of blocks", "why_tests_cant": "shows only with several subscribers and pending messages", "anchors": ["includes/eeros/control/ros/RosSubscriber.hpp:36-44", "includes/eeros/control/ros/RosSubscriber.hpp:75-82"]}
{"id": "C217", "title": "ROS1 blocks transfer arrays and laser scans", "statement": "Arrays, ranges, intensities and time stamps are transferred unchanged.", "quantifier": "all arrays and output sizes", "why_tests_cant": "message lengths are chosen by other programs", "anchors": ["includes/eeros/control/ros/RosPublisherDoubleArray.hpp:43-49", "includes/eeros/control/ros/RosSubscriberDoubleArray.hpp:50-56", "includes/eeros/control/ros/RosPublisherLaserScan.hpp:27-62", "includes/eeros/control/ros/RosSubscriberLaserScan.hpp:23-54", "includes/eeros/math/Matrix.hpp:217-221"]}
{"id": "C218", "title": "Time stamps survive the conversion to ROS1", "statement": "The ROS1 time made of a time stamp has the same value.", "quantifier": "all time stamps below 2^63", "why_tests_cant": "the error occurs for few nanoseconds of each second", "anchors": ["includes/eeros/control/ros/EerosRosTools.hpp:27-32"]}
{"id": "C219", "title": "Gamepad buttons follow the events", "statement": "The state of every button, and whether it was just pressed or released, is that of the events read.", "quantifier": "all sequences of events and failing reads", "why_tests_cant": "event histories are unbounded; unplugging is not tested", "anchors": ["src/hal/XBox.cpp:78-118"]}
{"id": "C220", "title": "A gamepad button event is reported once", "statement": "The button action is called once for every genuine button event.", "quantifier": "all sequences of events and failing reads", "why_tests_cant": "unplugging the device is not tested", "anchors": ["src/hal/XBox.cpp:82-97"]}
{"id": "C221", "title": "Safety inputs of devices read their button", "statement": "The inputs which gamepad, mouse and space navigator register deliver the button of their name, other names nothing, and all names differ.", "quantifier": "all identifiers and button states", "why_tests_cant": "all names cannot be tried", "anchors": ["includes/eeros/hal/XBoxDigIn.hpp:15-25", "includes/eeros/hal/MouseDigIn.hpp:24-29", "includes/eeros/hal/SpaceNavigatorDigIn.hpp:15-19", "src/hal/XBox.cpp:15-24", "src/hal/Mouse.cpp:14-20", "src/hal/SpaceNavigator.cpp:16-19"]}
{"id": "C222", "title": "A control input follows its input", "statement": "A ControlInput made from the input of a block delivers the value this input reads.", "quantifier": "all sequences of connections and values", "why_tests_cant": "needs a reconnection after start up", "anchors": ["includes/eeros/safety/ControlInput.hpp:28-44", "includes/eeros/control/Input.hpp:41-87"]}
{"id": "C223", "title": "Executor wakes up every period, in machine arithmetic", "statement": "The wake-up time of cycle n, computed by repeated addition in double precision, is the start time plus n+1 periods.", "quantifier": "all start times, periods and cycle counts", "why_tests_cant": "the accumulated rounding shows only after days of uptime", "anchors": ["src/core/Executor.cpp:259,363-372"]}
{"id": "C224", "title": "Low pass filter stays in the range of its inputs, in machine arithmetic", "statement": "The output of the low pass filter computed in double precision stays between the least and the greatest input, for any number of cycles.", "quantifier": "all inputs, coefficients and run lengths", "why_tests_cant": "rounding errors feed back through the state for ever; tests use few samples and exact numbers", "anchors": ["includes/eeros/control/filter/LowPassFilter.hpp: run"]}
{"id": "C225", "title": "Moving average in machine arithmetic is close to the weighted sum", "statement": "The output of the moving average filter computed in double precision differs from the exact weighted sum of the last inputs by at most (n+1) 2^-51 times sum of coefficients times input bound.", "quantifier": "all inputs, coefficient lists and run lengths", "why_tests_cant": "a bound for all inputs cannot be tested", "anchors": ["includes/eeros/control/filter/MovingAverageFilter.hpp: run"]}
{"id": "C226", "title": "Integrator in machine arithmetic follows the exact integral", "statement": "Computed in double precision from 64 bit nanosecond time stamps, the integrator stays within n M 2^-50 of the exact integral after n cycles, and with input zero it keeps its value exactly.", "quantifier": "all inputs, time stamps and run lengths", "why_tests_cant": "accumulation over long runs", "anchors": ["includes/eeros/control/I.hpp:53-75"]}
{"id": "C227", "title": "Error of the differentiator in machine arithmetic", "statement": "The slope computed in double precision deviates from the exact difference quotient by a relative error of at most (6 T/h + 3) 2^-53, with the absolute time T and the step h.", "quantifier": "all values and time stamps", "why_tests_cant": "the amplification by the uptime shows only after long runs", "anchors": ["includes/eeros/control/D.hpp:37-59"]}
{"id": "C228", "title": "A time domain computes its block diagram", "statement": "After a cycle of a time domain without fault, the states and outputs of all blocks are the one solution of the equations of the block diagram: every block applies its run function to the new values of the sources which were added before it and to the values of the last cycle of all others (feedback is a delay of one cycle), and nothing else changes.", "quantifier": "all networks, block functions, states and orders of blocks each added once", "why_tests_cant": "any diagram with feedback", "anchors": ["src/control/TimeDomain.cpp:25-40", "includes/eeros/control/Input.hpp:82-87", "includes/eeros/control/Output.hpp:39-41"]}
{"id": "C229", "title": "Order of blocks matters only between connected blocks", "statement": "Two time domains with the same blocks, whose orders agree on every pair of connected blocks, compute the same states and outputs.", "quantifier": "all networks and all pairs of orders", "why_tests_cant": "number of orders", "anchors": ["src/control/TimeDomain.cpp:50-56", "src/control/TimeDomain.cpp:25-40"]}
{"id": "C230", "title": "A fault leaves out the rest of the cycle", "statement": "When a block of a time domain throws, all blocks after it keep their states and outputs of the last cycle.", "quantifier": "all networks, orders and positions of the faulty block", "why_tests_cant": "all positions and diagrams", "anchors": ["src/control/TimeDomain.cpp:25-40"]}
{"id": "C231", "title": "A fault in a time domain reaches the critical outputs", "statement": "After a block of a running time domain with safety event has thrown, the next cycle of the safety system executes a level not above the destination of this event and drives every critical output with an action of that level.", "quantifier": "all configurations, programs, interleavings between two cycles of the safety system, further triggers", "why_tests_cant": "combines time domain, events of other threads and the level system", "anchors": ["src/control/TimeDomain.cpp:25-40", "src/safety/SafetySystem.cpp:37-123", "src/safety/SafetyProperties.cpp:14-54"]}
{"id": "C232", "title": "A control loop of library blocks converges", "statement": "A loop of Constant, Sum, Gain and I (as plant) run by a time domain brings the output of the integrator to the reference: if every step shrinks the error by q, after n steps it is at most q^n of the initial error, whatever the outputs held before the first cycle.", "quantifier": "all references, gains, initial values, step lengths and numbers of cycles", "why_tests_cant": "infinite runs; interplay of four blocks and the delay of the feedback", "anchors": ["src/control/TimeDomain.cpp:25-40", "includes/eeros/control/Sum.hpp:42-62", "includes/eeros/control/Gain.hpp:107-140", "includes/eeros/control/I.hpp:53-75", "includes/eeros/control/Constant.hpp:49-55"]}
{"id": "C233", "title": "Rounding error of the Sum block", "statement": "The output of a Sum block with n inputs in binary64 differs from the exact signed sum by at most ((1+2^-53)^n - 1) times the sum of the absolute values.", "quantifier": "all numbers of inputs, signs and finite inputs without overflow", "why_tests_cant": "an error bound over all inputs needs the exact real result", "anchors": ["includes/eeros/control/Sum.hpp:42-62"]}
{"id": "C234", "title": "Rounding error of the matrix product", "statement": "Every entry of a product of matrices of doubles differs from the exact scalar product by at most ((1+2^-53)^(N+1) - 1) times the scalar product of the absolute values plus underflow.", "quantifier": "all sizes and finite entries without overflow", "why_tests_cant": "an error bound over all entries and sizes needs the exact real result", "anchors": ["includes/eeros/math/Matrix.hpp:564-580"]}
{"id": "C235", "title": "Rounding error of the statistics", "statement": "Mean and variance after n samples bounded by M differ from the exact mean and variance by at most 5 n 2^-53 M and 64 n 2^-53 M^2; count, last value, minimum and maximum are exact.", "quantifier": "up to 2^40 samples, bounds M between 2^-400 and 2^400", "why_tests_cant": "the one-pass formula cancels; only a proof bounds the error for all sample sequences", "anchors": ["src/core/Statistics.cpp:11-34"]}
{"id": "C236", "title": "The control loop in binary64 settles at its reference", "statement": "The loop of Constant, Sum, Gain and I in binary64 comes as near to its reference as wanted.", "quantifier": "all references, gains, initial values, step lengths and numbers of cycles", "why_tests_cant": "needs infinite runs and the accumulated rounding errors of four blocks", "anchors": ["src/control/TimeDomain.cpp:25-40", "includes/eeros/control/Sum.hpp:42-62", "includes/eeros/control/Gain.hpp:107-140", "includes/eeros/control/I.hpp:53-75"]}
{"id": "C237", "title": "Packets of the ODrive protocol carry the request", "statement": "A packet read by the protocol contains the sequence number, endpoint with the acknowledge bit, size, address, bytes and checksum of the request it was made for.", "quantifier": "all sequence numbers, endpoints, sizes, addresses and payloads", "why_tests_cant": "a wrong byte order or mask shows only for numbers above 255 or with rare payloads", "anchors": ["external/odrive/src/odriveEP.cpp:24-39", "external/odrive/src/odriveEP.cpp:68-86"]}
{"id": "C238", "title": "Sequence numbers of requests to the ODrive differ", "statement": "Any two requests less than 2^14 apart carry different sequence numbers, each a positive short with bit 7 set.", "quantifier": "any number of requests", "why_tests_cant": "the numbers repeat only after thousands of requests", "anchors": ["external/odrive/src/odriveEP.cpp:161-164", "external/odrive/include/odrive/odriveEP.hpp:76"]}
{"id": "C239", "title": "A request to the ODrive returns its own answer", "statement": "The data returned by a request is the answer of the drive to that request.", "quantifier": "all histories of requests, with answers in time, late and lost, and failing transfers; all values", "why_tests_cant": "needs an answer later than 200 ms; after that all values are from another endpoint", "anchors": ["external/odrive/src/odriveEP.cpp:149-205"]}
{"id": "C240", "title": "A round of the ODrive driver stores the values of the drive", "statement": "After a round the stored velocities and end stops are those the drive has, whatever happens on the bus.", "quantifier": "all values, late answers and failing transfers", "why_tests_cant": "uninitialised variables usually hold plausible values", "anchors": ["includes/eeros/hal/ODriveUSB.hpp:432-459", "includes/eeros/hal/ODriveUSB.hpp:504-513", "external/odrive/src/odriveEP.cpp:93-105"]}
{"id": "C241", "title": "The description of the drive is read completely", "statement": "getJson ends and the text is the description stored in the drive.", "quantifier": "all descriptions, all packet sizes, failing transfers", "why_tests_cant": "a failing transfer in the middle of the text cannot be provoked", "anchors": ["includes/eeros/hal/ODriveUSB.hpp:186-203", "external/odrive/src/odrive.cpp:108-127"]}
{"id": "C242", "title": "The driver uses the drive asked for", "statement": "The drive whose handle is kept has the serial number asked for, and if a usable drive has it, one is found.", "quantifier": "all lists of USB devices, all serial numbers", "why_tests_cant": "needs devices with particular serial numbers", "anchors": ["includes/eeros/hal/ODriveUSB.hpp:119-180", "external/odrive/src/odrive.cpp:41-101"]}
{"id": "C243", "title": "The search leaves only the handle of the drive open", "statement": "After the search every opened handle except the one kept was closed, its claimed interface released before.", "quantifier": "all lists of USB devices and all failures of the USB calls", "why_tests_cant": "leaks and failures of single calls are not visible", "anchors": ["includes/eeros/hal/ODriveUSB.hpp:91-184"]}
{"id": "C244", "title": "A destroyed ODrive driver has released its interface", "statement": "Every interface claimed by the driver is released before its handle is closed.", "quantifier": "all lists of USB devices", "why_tests_cant": "closing the handle hides the missing release", "anchors": ["external/odrive/src/odriveEP.cpp:8-17", "includes/eeros/hal/ODriveUSB.hpp:138-149"]}
{"id": "C245", "title": "A missing ODrive is reported and not used", "statement": "If the drive is not found, init returns a code other than 0 and no transfer is made.", "quantifier": "all lists of USB devices", "why_tests_cant": "needs machines without USB devices or without the drive", "anchors": ["includes/eeros/hal/ODriveUSB.hpp:45-56", "includes/eeros/hal/ODriveUSB.hpp:86-90"]}
{"id": "C246", "title": "The endpoint numbers match the description of the drive", "statement": "Every endpoint number used by the driver is the one which the drive describes for the axis and the quantity meant.", "quantifier": "both axes, all quantities used", "why_tests_cant": "a wrong number addresses a valid endpoint of the same type", "anchors": ["includes/eeros/hal/ODriveUSB.hpp:516-675", "external/odrive/include/odrive/odriveEP.hpp:2050-2058", "external/odrive/include/odrive/odriveEP.hpp:3539-3601"]}
{"id": "C247", "title": "A pressed emergency button is reported", "statement": "After a round isEndstopActive() is true if the end stop input of either axis is active.", "quantifier": "all values of the drive", "why_tests_cant": "needs the button of the second axis", "anchors": ["includes/eeros/hal/ODriveUSB.hpp:234-236", "includes/eeros/hal/ODriveUSB.hpp:453-459", "includes/eeros/hal/ODriveUSB.hpp:672"]}
{"id": "C248", "title": "The emergency button is read again and again", "statement": "Between two reads of an end stop the driver makes a bounded number of other requests.", "quantifier": "any number of rounds, any duration of the calibration", "why_tests_cant": "a calibration which does not end needs a faulty motor", "anchors": ["includes/eeros/hal/ODriveUSB.hpp:324-388", "includes/eeros/hal/ODriveUSB.hpp:479-514"]}
{"id": "C249", "title": "The executor runs with the first chosen main task or throws", "statement": "After any sequence of calls of setMainTask, setExecutorPeriod and add, with the exceptions caught, run() starts with the first main task which was chosen and with its monitors; it throws when none was chosen or its period is 0. It never dereferences a missing main task.", "quantifier": "all sequences of configuration calls, all periods", "why_tests_cant": "A test tries some orders of the calls; the null pointer would appear only in an order not tried.", "anchors": ["src/core/Executor.cpp:95-153", "src/core/Executor.cpp:244-257"]}
{"id": "C250", "title": "run() executes the requested loop in every build", "statement": "For all combinations of the compile options (EtherCAT, ROS, ROS2) and of the requested synchronisation, run() executes the requested loop, or the loop with the system clock.", "quantifier": "all 8 builds and all 8 requests", "why_tests_cant": "A test runs in one build of the library.", "anchors": ["src/core/Executor.cpp:278-375"]}
{"id": "C251", "title": "An added task is executed once per period", "statement": "The list of tasks of the executor contains each task once. When no task is added twice no error is reported.", "quantifier": "all sequences of configuration calls", "why_tests_cant": "The second entry shows only in the number of executions of a task.", "anchors": ["src/core/Executor.cpp:140-153"]}
{"id": "C252", "title": "Monitors given to a periodic before run() are used", "statement": "Every monitor the program adds to a periodic before run() is called in the cycles of the task.", "quantifier": "all sequences of configuration calls and additions of monitors", "why_tests_cant": "The order of the calls decides; a monitor which is not called reports nothing.", "anchors": ["src/core/Executor.cpp:140-145", "src/core/Executor.cpp:256", "includes/eeros/task/Periodic.hpp:128"]}
{"id": "C253", "title": "Cycles synchronised to the time of ROS are never early", "statement": "Cycle i of the loop waits for start + (i + 1) periods, without drift, and starts at this time of ROS or later; after stop() the loop ends within two steps.", "quantifier": "all start times, periods, readings of the clock and interleavings with stop()", "why_tests_cant": "Any number of cycles and any instant of stop().", "anchors": ["src/core/Executor.cpp:294-309"]}
{"id": "C254", "title": "No cycle synchronised to the time of ROS is lost", "statement": "When n periods have passed on the clock of ROS, at least n cycles are executed after 2n + 1 further steps, whatever happened before.", "quantifier": "all start times, periods, numbers of cycles and earlier readings", "why_tests_cant": "Unbounded delays and jumps of the simulated time.", "anchors": ["src/core/Executor.cpp:298-309"]}
{"id": "C255", "title": "At least a period between two cycles synchronised to the time of ROS", "statement": "Between cycles i and j more than j - i - 1 periods pass when cycle i was at most a period late.", "quantifier": "all readings of the clock", "why_tests_cant": "The bursts appear only after a delay.", "anchors": ["src/core/Executor.cpp:300-309"]}
{"id": "C256", "title": "The loop synchronised to the time of ROS keeps the period", "statement": "The period in nanoseconds computed by the machine is at most 1 ns and a relative error of 2^-52 away from the period of the main task.", "quantifier": "all binary64 periods between 2^-30 and 2^30 s", "why_tests_cant": "Which periods are truncated depends on the last bit of the product.", "anchors": ["src/core/Executor.cpp:298"]}
{"id": "C257", "title": "Each cycle synchronised to a topic of ROS1 has a new time and new messages", "statement": "A cycle of the loop starts with a time other than that of the cycle before and after at least one message; all messages are handled once and in the order of arrival.", "quantifier": "all interleavings of messages, clock changes, stop() and steps", "why_tests_cant": "All interleavings with the thread of ROS.", "anchors": ["src/core/Executor.cpp:313-342"]}
{"id": "C258", "title": "stop() ends the loop synchronised to a topic of ROS1", "statement": "After stop() the loop ends after at most four steps and at most one cycle.", "quantifier": "all states and interleavings", "why_tests_cant": "The loop may be in each of its three waiting loops when stop() is called.", "anchors": ["src/core/Executor.cpp:320-341"]}
{"id": "C259", "title": "One cycle for each step of a simulator", "statement": "A simulator which publishes a new time and a message in each step and waits until the executor waits again gets exactly one cycle for each step, with its time and its message.", "quantifier": "all sequences of times and messages, all numbers of steps of the executor from 4 on", "why_tests_cant": "Any length of the simulation.", "anchors": ["src/core/Executor.cpp:313-342"]}
{"id": "C260", "title": "The members of a signal checker are never raced", "statement": "The signal checker is documented as suitable for use with multiple threads (SignalChecker.hpp:37). No access to its limits, its flag, its safety system, event and level, or its range mode is part of a data race.", "quantifier": "any number of threads, any number of calls of its methods, all interleavings", "why_tests_cant": "A race needs two accesses in the same moment, a test rarely meets it and cannot show its absence.", "anchors": ["includes/eeros/control/SignalChecker.hpp:37", "includes/eeros/control/SignalChecker.hpp:83-160"]}
{"id": "C261", "title": "A cycle of the signal checker sees both limits of one setLimits", "statement": "Between two accesses of one call of the signal checker to its members no other thread changes them, so the lower and the upper limit, the event and its safety system always belong together.", "quantifier": "any number of threads and calls, all interleavings", "why_tests_cant": "The mixture of an old and a new limit exists for a few instructions only.", "anchors": ["includes/eeros/control/SignalChecker.hpp:83-127"]}
{"id": "C262", "title": "The gain can be changed by another thread while the block runs", "statement": "The documentation of Gain excepts only enabling and smooth change from thread safety. The gain, its bounds, the target, the step and the parameters of the parabolic gain are never raced and not changed during a cycle.", "quantifier": "any number of threads and calls of all its methods, all interleavings", "why_tests_cant": "The interleavings cannot be enumerated by tests.", "anchors": ["includes/eeros/control/Gain.hpp:27-29", "includes/eeros/control/Gain.hpp:107-271"]}
{"id": "C263", "title": "The value of a constant is never raced", "statement": "run, setValue and getValue may be called by different threads.", "quantifier": "any number of threads and calls, all interleavings", "why_tests_cant": "A torn value of a matrix needs an exact interleaving.", "anchors": ["includes/eeros/control/Constant.hpp:49-72"]}
{"id": "C264", "title": "The members of an integrator are never raced", "statement": "The integrator has a mutex; its flag, its limits and its state may be changed while another thread runs it.", "quantifier": "any number of threads and calls, all interleavings", "why_tests_cant": "Races depend on the scheduler and the compiler.", "anchors": ["includes/eeros/control/I.hpp:53-138"]}
{"id": "C265", "title": "Values which are set together take effect together", "statement": "Limits, rates and conditions which are set in one call are seen by a cycle either all or not at all.", "quantifier": "integrator, saturation, switch, rate limiter, wrap around; any number of threads and calls, all interleavings", "why_tests_cant": "The mixture of old and new values exists for a few instructions.", "anchors": ["includes/eeros/control/I.hpp:119-125", "includes/eeros/control/Saturation.hpp:90-93", "includes/eeros/control/Switch.hpp:143-147", "includes/eeros/control/RateLimiter.hpp:123-127", "includes/eeros/control/WrapAround.hpp:84-88"]}
{"id": "C266", "title": "The members of a rate limiter are never raced", "statement": "enable, disable and setRate may be called while another thread runs the rate limiter.", "quantifier": "any number of threads and calls, all interleavings", "why_tests_cant": "Races depend on the scheduler.", "anchors": ["includes/eeros/control/RateLimiter.hpp:79-127"]}
{"id": "C267", "title": "The members of a saturation are never raced", "statement": "enable, disable and setLimit may be called while another thread runs the saturation.", "quantifier": "any number of threads and calls, all interleavings", "why_tests_cant": "Races depend on the scheduler.", "anchors": ["includes/eeros/control/Saturation.hpp:53-117"]}
{"id": "C268", "title": "The members of a wrap around block are never raced", "statement": "enable, disable and setMinMax may be called while another thread runs the block.", "quantifier": "any number of threads and calls, all interleavings", "why_tests_cant": "Races depend on the scheduler.", "anchors": ["includes/eeros/control/WrapAround.hpp:47-88"]}
{"id": "C269", "title": "The members of a switch are never raced", "statement": "The switch may be switched, armed and configured while another thread runs it.", "quantifier": "any number of threads, inputs, combined switches and calls, all interleavings", "why_tests_cant": "Races depend on the scheduler.", "anchors": ["includes/eeros/control/Switch.hpp:56-166"]}
{"id": "C270", "title": "The members of a step source are never raced", "statement": "reset and the setters may be called while another thread runs the step source.", "quantifier": "any number of threads and calls, all interleavings", "why_tests_cant": "Races depend on the scheduler.", "anchors": ["includes/eeros/control/Step.hpp:54-101"]}
{"id": "C271", "title": "The members of a path planner are never raced", "statement": "move, setStart, endReached and the setters may be called while another thread runs the path planner.", "quantifier": "any number of threads and calls, all interleavings", "why_tests_cant": "Races depend on the scheduler.", "anchors": ["includes/eeros/control/PathPlannerConstAcc.hpp:63-256", "includes/eeros/control/TrajectoryGenerator.hpp:67-88"]}
{"id": "C272", "title": "The value of a peripheral output is never raced", "statement": "The value read by getValue is never raced with a cycle, and a cycle does not see it changed.", "quantifier": "any number of threads and calls, all interleavings, with and without a fault", "why_tests_cant": "The exception path must release the mutex as well.", "anchors": ["includes/eeros/control/PeripheralOutput.hpp:46-68"]}
{"id": "C273", "title": "Prediction and correction of the Kalman filter in two time domains", "statement": "KalmanFilter.hpp:76 proposes to run prediction and correction in two time domains. State, covariance, inputs and intermediate matrices are never raced nor changed by the other step meanwhile, and the outputs can be read by other blocks.", "quantifier": "any number of threads, inputs, outputs and calls, all interleavings", "why_tests_cant": "The interleavings cannot be enumerated by tests.", "anchors": ["includes/eeros/control/filter/KalmanFilter.hpp:76", "includes/eeros/control/filter/KalmanFilter.hpp:212-256"]}
{"id": "C274", "title": "The members of a ring buffer are never raced", "statement": "push, pop and length may be called by any threads; push and pop are atomic.", "quantifier": "any number of threads and calls, all interleavings", "why_tests_cant": "Races depend on the scheduler.", "anchors": ["includes/eeros/core/RingBuffer.hpp:15-31"]}
{"id": "C275", "title": "The buffers of a socket server are never raced", "statement": "The thread of the server and its user share the send and receive buffers.", "quantifier": "any number of threads and calls, all interleavings", "why_tests_cant": "The data of two messages mix in rare moments only.", "anchors": ["includes/eeros/sockets/SocketServer.hpp:48-140"]}
{"id": "C276", "title": "A transition passes signals between threads without a race", "statement": "The input and the output block of a transition run in different threads; the signals and the buffer between them are never raced, and both values of a step belong together.", "quantifier": "steady, rising and falling rate, any number of threads and calls, all interleavings", "why_tests_cant": "Races depend on the scheduler.", "anchors": ["includes/eeros/control/Transition.hpp:83-148"]}
{"id": "C277", "title": "No thread waits for ever", "statement": "Threads which call the methods of blocks, transitions, time domains and the safety system never lock a mutex twice nor release a mutex of another thread, and every thread with work to do can go on after finitely many steps of the others.", "quantifier": "all programs made of these calls, any number of threads, all interleavings", "why_tests_cant": "A deadlock needs an exact interleaving, its absence holds for all of them.", "anchors": ["includes/eeros/control/Transition.hpp:83-148", "src/safety/SafetySystem.cpp:49-122", "src/control/TimeDomain.cpp:25-39"]}
{"id": "C278", "title": "A signal may be read by another thread", "statement": "An input connected to an output of another time domain reads values without a race, and its value and timestamp belong together.", "quantifier": "any number of threads and calls, all interleavings", "why_tests_cant": "Races depend on the scheduler.", "anchors": ["includes/eeros/control/Signal.hpp:79-113", "includes/eeros/control/Input.hpp:82-87"]}
{"id": "C279", "title": "The safety level may be read by any thread", "statement": "getCurrentLevel and triggerEvent may be called by the blocks of all time domains while the safety system runs.", "quantifier": "any number of threads and calls, all interleavings", "why_tests_cant": "Races depend on the scheduler.", "anchors": ["src/safety/SafetySystem.cpp:28-35", "src/safety/SafetySystem.cpp:49-122"]}
{"id": "C280", "title": "A time domain may be changed while it runs", "statement": "start, stop, addBlock and removeBlock may be called by other threads while the time domain runs.", "quantifier": "any number of threads and calls, all interleavings", "why_tests_cant": "A changed list under an iterator fails in rare moments only.", "anchors": ["src/control/TimeDomain.cpp:25-63"]}
{"id": "C281", "title": "Saturation, rate limiter and wrap around of vectors work element by element", "statement": "Each element of the output of a Saturation, RateLimiter or WrapAround with vectors is what the block for numbers gives for that element with its own limits or rates.", "quantifier": "all lengths, all input sequences, all number types, limits as numbers or vectors", "why_tests_cant": "Tests use few lengths and hand-picked vectors.", "anchors": ["includes/eeros/control/Saturation.hpp:53-60", "includes/eeros/control/Saturation.hpp:105-112", "includes/eeros/control/RateLimiter.hpp:79-93", "includes/eeros/control/RateLimiter.hpp:153-176", "includes/eeros/control/WrapAround.hpp:47-54", "includes/eeros/control/WrapAround.hpp:106-137"]}
{"id": "C282", "title": "Differentiator, filters and sum of vectors work element by element", "statement": "Each element of the output of D, LowPassFilter, MovingAverageFilter and Sum with vectors is what the block for numbers gives for that element.", "quantifier": "all lengths, all input sequences, all coefficients and signs", "why_tests_cant": "Tests use few lengths and hand-picked vectors.", "anchors": ["includes/eeros/control/D.hpp:37-59", "includes/eeros/control/filter/LowPassFilter.hpp:58-72", "includes/eeros/control/filter/MovingAverageFilter.hpp:64-78", "includes/eeros/control/Sum.hpp:42-66"]}
{"id": "C283", "title": "An integrator of vectors integrates each element by itself", "statement": "Each element of the output of an integrator with vectors is what the integrator for numbers gives for that element with its own limits.", "quantifier": "all lengths, all sequences of inputs and runs", "why_tests_cant": "The elements influence each other only when one of them is at its limit.", "anchors": ["includes/eeros/control/I.hpp:53-75", "includes/eeros/math/Matrix.hpp:493-534"]}
{"id": "C284", "title": "setLimit brings an integrator of vectors inside its limits", "statement": "After setLimit each element of the stored value lies inside the new limits.", "quantifier": "all vectors and limits, all later runs", "why_tests_cant": "Tests with equal elements or one element do not show the difference.", "anchors": ["includes/eeros/control/I.hpp:119-125", "includes/eeros/math/Matrix.hpp:493-534"]}
{"id": "C285", "title": "An element-wise gain reaches its target and keeps its limits", "statement": "With smooth change each element of the gain moves to its target value and lies between its minimum and maximum.", "quantifier": "all gains, targets, differences and limits, any number of runs", "why_tests_cant": "Shows for vectors with different elements only.", "anchors": ["includes/eeros/control/Gain.hpp:107-142", "includes/eeros/control/Gain.hpp:219-229", "includes/eeros/control/Gain.hpp:298-302"]}
{"id": "C286", "title": "The parabolic gain is defined for vectors", "statement": "With the parabolic characteristic enabled the output has, for each element, the value of the characteristic for numbers.", "quantifier": "all kinds of gains, all vectors", "why_tests_cant": "Uninitialised memory often holds zeros in a test.", "anchors": ["includes/eeros/control/Gain.hpp:304-356"]}
{"id": "C287", "title": "A median filter of vectors outputs a median", "statement": "The output is a value of the window with at most half of the others less and at most half of the others greater.", "quantifier": "all windows, every conforming sort", "why_tests_cant": "Undefined behaviour of std::sort mostly shows as a wrong order, rarely as a crash.", "anchors": ["includes/eeros/control/filter/MedianFilter.hpp:62-77", "includes/eeros/math/Matrix.hpp:493-502"]}
{"id": "C288", "title": "A switch with vectors switches when all elements are near the level", "statement": "The condition of the switch holds exactly if each element lies less than delta from its level.", "quantifier": "all vectors of numbers", "why_tests_cant": "NaN in the input is not tested.", "anchors": ["includes/eeros/control/Switch.hpp:60", "includes/eeros/math/Matrix.hpp:493-534"]}
{"id": "C289", "title": "The off-range checker reports signals that are not out of the range", "statement": "With offRange the checker fires exactly if the signal is neither lower than the lower limit nor greater than the upper limit.", "quantifier": "all limits and values", "why_tests_cant": "NaN and values equal to a limit are easily left out.", "anchors": ["includes/eeros/control/SignalChecker.hpp:55", "includes/eeros/control/SignalChecker.hpp:88-109", "includes/eeros/control/SignalChecker.hpp:174-192"]}
{"id": "C290", "title": "The norm check compares the Euclidean norm", "statement": "With checkNorm the checker compares the Euclidean norm of the vector with the limits; the norm is 0 for the zero vector only, scales with the vector and bounds each element; a vector with NaN is reported.", "quantifier": "all vectors", "why_tests_cant": "Overflow and underflow of the squares need extreme values.", "anchors": ["includes/eeros/control/SignalChecker.hpp:179-192", "includes/eeros/math/Matrix.hpp:751-759"]}
{"id": "C291", "title": "A matrix constructed from values equals one initialised with them", "statement": "Matrix(v0, v1, ...) gives the same matrix as m << v0, v1, ... .", "quantifier": "all sizes, all values", "why_tests_cant": "For vectors and symmetric matrices both are the same.", "anchors": ["includes/eeros/math/Matrix.hpp:37-49", "includes/eeros/math/Matrix.hpp:59-62", "includes/eeros/math/Matrix.hpp:147-150"]}
{"id": "C292", "title": "Operators with a number on the left, compound operators and the minus sign work element by element", "statement": "c + A, c - A, c / A, -A, A += B and A -= B give for each element the result of the operation on numbers.", "quantifier": "all sizes, values and number types, any contents of the uninitialised result", "why_tests_cant": "Tests use few sizes.", "anchors": ["includes/eeros/math/Matrix.hpp:622-660", "includes/eeros/math/Matrix.hpp:883-939"]}
{"id": "C293", "title": "Vectors and diagonal matrices are created with the given values", "statement": "createVector2 and createVector3 contain the values; createDiag(v) is v on the diagonal and 0 elsewhere.", "quantifier": "all sizes and values", "why_tests_cant": "Infinite values are not tested.", "anchors": ["includes/eeros/math/Matrix.hpp:781-800"]}
{"id": "C294", "title": "Columns and rows are copied to and from std::vector", "statement": "getColVector and getRowVector return the elements or throw; a column written with setCol is read back, and writing back a column changes nothing.", "quantifier": "all sizes, indices and values", "why_tests_cant": "Tests use few sizes.", "anchors": ["includes/eeros/math/Matrix.hpp:166-172", "includes/eeros/math/Matrix.hpp:182-188", "includes/eeros/math/Matrix.hpp:217-221"]}
{"id": "C295", "title": "A printed matrix contains all its elements", "statement": "The words of the text written by operator<< are the texts of the elements, column by column.", "quantifier": "all sizes and values, every way of writing numbers without blanks, brackets and quotes", "why_tests_cant": "Tests compare single outputs.", "anchors": ["includes/eeros/math/Matrix.hpp:943-956"]}
{"id": "C296", "title": "An odometry message says what the inputs say", "statement": "A run with all inputs connected publishes exactly one message with the frames of the constructor, the time of the clock, and position, velocities and covariances of the inputs; the orientation is a unit quaternion that turns every vector as roll about x, then pitch about y, then yaw about z; the message of an earlier run has no influence.", "quantifier": "all blocks, inputs and angles; real numbers", "why_tests_cant": "A wrong sign in a quaternion shows only for combined rotations.", "anchors": ["includes/eeros/control/ros2/RosPublisherOdometry.hpp:61-89", "includes/eeros/control/ros2/RosPublisher.hpp:59-64"]}
{"id": "C297", "title": "An unconnected input of the odometry block is reported with the name of the block", "statement": "With an unconnected input nothing is published and the fault carries the name of the block.", "quantifier": "all blocks and combinations of unconnected inputs", "why_tests_cant": "Needs a ROS node and an incomplete system.", "anchors": ["includes/eeros/control/ros2/RosPublisherOdometry.hpp:87-88", "includes/eeros/control/ros2/RosPublisherOdometry.hpp:107-108", "includes/eeros/control/Input.hpp:82-87"]}
{"id": "C298", "title": "The mock robot is ready or moving only when it is homed", "statement": "In every interleaving of the executor, the sequencer thread and the signal handler the safety system is at one of the four levels, at the levels ready and moving both axes are at 1 or beyond, and no step faults.", "quantifier": "all interleavings of any length, all times between cycles", "why_tests_cant": "Tests see a few interleavings only.", "anchors": ["examples/system/MockRobotSafetyProperties.hpp:24-35", "examples/system/MockRobotSequencer.hpp:57-76", "examples/system/MockRobotControlSystem.hpp:18-30"]}
{"id": "C299", "title": "The path planner of the mock robot drives the output only after homing", "statement": "When the switch selects the path planner the robot is homed and the level homing is left for good; the path planner moves only at level moving, or at level off after an interrupt.", "quantifier": "all interleavings of any length", "why_tests_cant": "Tests see a few interleavings only.", "anchors": ["examples/system/MockRobotSequencer.hpp:86-100", "examples/system/MockRobotSequencer.hpp:16-55"]}
{"id": "C300", "title": "Throwing the switch does not move the mock robot", "statement": "When the switch changes from the integrator to the path planner the position at the output stays.", "quantifier": "all interleavings of any length", "why_tests_cant": "The example prints positions but compares nothing.", "anchors": ["examples/system/MockRobotControlSystem.hpp:18-28", "examples/system/MockRobotSequencer.hpp:90-93", "includes/eeros/control/TrajectoryGenerator.hpp:32"]}
{"id": "C301", "title": "An interrupt switches the mock robot off", "statement": "After SafetySystem::exitHandler the next cycle of the safety system is at level off and stops the executor, whatever events the sequencer triggers in between, and the level stays off.", "quantifier": "all reachable states, all steps in between and afterwards", "why_tests_cant": "The moment of a signal cannot be chosen in a test.", "anchors": ["examples/system/MockRobotExample.cpp:21-24", "examples/system/MockRobotSafetyProperties.hpp:31-39", "src/safety/SafetySystem.cpp:49-71"]}
{"id": "C302", "title": "The sequencer of the mock robot ends after an abort", "statement": "Once all abort conditions are set and running is cleared, the thread of the main sequence ends after at most 13 of its own steps.", "quantifier": "all states, all interleavings", "why_tests_cant": "The moment of a signal cannot be chosen in a test.", "anchors": ["examples/system/MockRobotSequencer.hpp:40-100", "src/sequencer/BaseSequence.cpp:23-75", "src/sequencer/Sequencer.cpp:71-77"]}
{"id": "C303", "title": "An aborted sequencer leaves the switch of the mock robot alone", "statement": "After the abort the sequencer thread changes no output path any more.", "quantifier": "all interleavings of any length", "why_tests_cant": "Needs the interrupt within the two seconds at level ready.", "anchors": ["examples/system/MockRobotSequencer.hpp:91-93", "src/sequencer/BaseSequence.cpp:50-63"]}
{"id": "C304", "title": "The mock robot does not home at the levels ready and moving", "statement": "At the levels ready and moving the setpoint of the homing is zero and the integrator stays.", "quantifier": "all interleavings of any length", "why_tests_cant": "Needs a late cycle of the safety system.", "anchors": ["examples/system/MockRobotSequencer.hpp:61-72", "examples/system/MockRobotSequencer.hpp:88-97"]}
{"id": "C305", "title": "The system test writes nothing while initializing", "statement": "At level initializing the time domain of SystemTest1 is stopped and nothing is written to the output", "quantifier": "for every interleaving of the two threads and all delays", "why_tests_cant": "Whether the time domain runs before the first cycle of the safety system depends on which thread starts first", "anchors": ["examples/system/SystemTest1.cpp:106-112", "includes/eeros/control/TimeDomain.hpp:126", "src/control/TimeDomain.cpp:25-40"]}
{"id": "C306", "title": "The ramp of the system test starts at zero", "statement": "The first value written is zero and the ramp continues from there without a jump when running begins", "quantifier": "for every interleaving of the two threads and all delays", "why_tests_cant": "Needs one cycle of the time domain before the pause of five seconds, the integrator then counts the pause as one step", "anchors": ["examples/system/SystemTest1.cpp:106-112", "includes/eeros/control/I.hpp:53-75"]}
{"id": "C307", "title": "The output of the system test stays within its limits", "statement": "No value outside -1.5 and 20.1 is written", "quantifier": "for every interleaving of the two threads, with cycles of less than 80 ms", "why_tests_cant": "The overshoot needs the restart to fall between the read and the write of the integrator", "anchors": ["examples/system/SystemTest1.cpp:114-121", "includes/eeros/control/I.hpp:53-75", "includes/eeros/control/Switch.hpp:56-77"]}
{"id": "C308", "title": "Running ends at level stopped", "statement": "When the ramp reaches the switch level of 20 the switch is thrown and the event stop triggered, so that every run ends", "quantifier": "for every interleaving of the two threads, with cycles of less than 80 ms", "why_tests_cant": "A missed window is followed by an unbounded ramp, which no finite test shows to last for ever", "anchors": ["examples/system/SystemTest1.cpp:114-121", "includes/eeros/control/Switch.hpp:56-77", "includes/eeros/control/I.hpp:53-75"]}
{"id": "C309", "title": "The system test never fails by itself", "statement": "No interleaving leads to a fault or writes NaN, and level emergency is reached only by the event emergency", "quantifier": "for every interleaving of the two threads, all delays and any number of cycles", "why_tests_cant": "The number of interleavings is unbounded", "anchors": ["examples/system/SystemTest1.cpp:78-125", "src/control/TimeDomain.cpp:25-40", "src/safety/SafetySystem.cpp:81-123"]}
{"id": "C310", "title": "Emergency halts the system test", "statement": "Nine steps of the safety thread after the event emergency the level is emergency and the time domain stopped, for ever, and at most one more value is written", "quantifier": "for every state reached, every interleaving and any number of further steps", "why_tests_cant": "For ever, and from every intermediate state of both threads", "anchors": ["examples/system/SystemTest1.cpp:102-104", "src/safety/SafetySystem.cpp:81-123", "src/control/TimeDomain.cpp:25-40"]}
{"id": "C311", "title": "The pauses of the system test have their length", "statement": "The level initializing is left for running after exactly 501 cycles and the level stopped after exactly 301", "quantifier": "for every interleaving of the two threads and every round", "why_tests_cant": "Holds in every round of an unbounded number of rounds", "anchors": ["examples/system/SystemTest1.cpp:106-121", "src/safety/SafetySystem.cpp:81-123"]}
{"id": "C312", "title": "The CAN example sends the velocities it means", "statement": "The velocities given to the drives are 0, 2 and -1, and no step of any thread is undefined", "quantifier": "for every interleaving of sequencer, safety system, time domain and interrupts", "why_tests_cant": "The conversion happens two seconds after the start of the motion and only on the real bus", "anchors": ["examples/can/CANexample2.hpp:147-159", "includes/eeros/control/can/CANopenSend.hpp:91-94"]}
{"id": "C313", "title": "An interrupt of the CAN example leads to stop", "statement": "After an interrupt the safety system goes to level stop", "quantifier": "for every reachable state and every interleaving until the next cycle of the safety system", "why_tests_cant": "Whether the interrupt is lost depends on the level and on the moment of one other event", "anchors": ["examples/can/CANexample2.hpp:69-82", "src/safety/SafetySystem.cpp:49-71"]}
{"id": "C314", "title": "The CAN example comes to its end at level stop", "statement": "At level stop fifty steps of the sequencer thread end it, whatever the other threads do; the executor is stopped and both blocks are disabled", "quantifier": "for every reachable state at level stop and every interleaving", "why_tests_cant": "Any point of the program at which the level changes", "anchors": ["examples/can/CANexample2.hpp:171-220", "src/sequencer/BaseSequence.cpp:23-84"]}
{"id": "C315", "title": "No transfers of the configuration while process data is exchanged", "statement": "No SDO frame is sent while the blocks for process data are enabled, as required by their documentation", "quantifier": "for every interleaving in which the safety system is in time", "why_tests_cant": "The frames are mixed on the bus only for certain timings", "anchors": ["examples/can/CANexample2.hpp:94-132", "includes/eeros/control/can/CANopenSend.hpp:20-24"]}
{"id": "C316", "title": "The drives are initialized once", "statement": "The network is started at most once", "quantifier": "for every interleaving", "why_tests_cant": "Needs a late cycle of the safety system", "anchors": ["examples/can/CANexample2.hpp:94-132,205-220"]}
{"id": "C317", "title": "No process data after the drives are disabled", "statement": "After the stopping sequence has disabled the sending block and the drives no process data is sent", "quantifier": "for every interleaving", "why_tests_cant": "Needs the time domain to be between the test of the flag and the frames", "anchors": ["examples/can/CANexample2.hpp:175-188", "includes/eeros/control/can/CANopenSend.hpp:75-106"]}
{"id": "C318", "title": "The velocity is zero unless the level is moving", "statement": "At every level other than moving the velocity given to the drives is zero", "quantifier": "for every interleaving", "why_tests_cant": "The frames are sent between the change of the level and the end of a wait of two seconds", "anchors": ["examples/can/CANexample2.hpp:147-159,175-188"]}
{"id": "C319", "title": "exitHandler can be called from a signal handler", "statement": "Wherever the signal interrupts a thread, as its documentation says, exitHandler is defined", "quantifier": "for every configuration of levels, any number of threads calling triggerEvent and the library, every interleaving and every moment of the signals", "why_tests_cant": "The signal must hit a few instructions", "anchors": ["includes/eeros/safety/SafetySystem.hpp:57-61", "src/safety/SafetySystem.cpp:49-71,125-128"]}
{"id": "C320", "title": "A signal handler returns", "statement": "A handler that calls exitHandler returns and the safety system goes on", "quantifier": "for every configuration, every number of threads and every interleaving", "why_tests_cant": "The signal must hit a few instructions", "anchors": ["src/safety/SafetySystem.cpp:49-71,125-128"]}
{"id": "C321", "title": "The exit event takes effect", "statement": "The level after the handler is the registered destination of the event, or a lower one if another event came in the same cycle", "quantifier": "for every configuration, every number of threads and every interleaving", "why_tests_cant": "Needs a cycle of the safety system in the middle of the handler", "anchors": ["src/safety/SafetySystem.cpp:49-71,83,118,125-128"]}
{"id": "C322", "title": "The ramp starts at zero", "statement": "SystemTest3: when the level ramp begins the integrator holds the initial condition 0 and the checker is armed", "quantifier": "for every interleaving of the time domain with the safety system and every clock", "why_tests_cant": "The time domain must be overtaken by the safety system between two statements", "anchors": ["examples/system/SystemTest3.cpp:16-31,47-64,80-90", "includes/eeros/control/I.hpp:53-110"]}
{"id": "C323", "title": "The reset comes when the ramp reaches 5", "statement": "SystemTest3: the checker reports only when the value is at least 5, which is at least 10 s after the ramp began", "quantifier": "for every interleaving and every clock", "why_tests_cant": "Needs a delayed time domain", "anchors": ["examples/system/SystemTest3.cpp:16-31,47-64", "includes/eeros/control/SignalChecker.hpp:83-118", "includes/eeros/control/I.hpp:53-80"]}
{"id": "C324", "title": "The report of the checker is never lost", "statement": "SystemTest3: in the level ramp the checker is armed, a value outside the limits leads to the level start with the next step of the safety system, and no event fails", "quantifier": "for every interleaving and every clock", "why_tests_cant": "The race between reset, report and level change covers a few instructions", "anchors": ["examples/system/SystemTest3.cpp:55-64", "includes/eeros/control/SignalChecker.hpp:83-130", "src/safety/SafetySystem.cpp:49-71,81-123"]}
{"id": "C325", "title": "Ctrl-C ends the program", "statement": "SystemTest2: after an interrupt the levels shutting down and off follow and the executor is stopped within three cycles of the safety system", "quantifier": "for every moment of the interrupt and every interleaving of the safety system, p1, further interrupts and values of the input", "why_tests_cant": "The interrupt must come between the construction of the safety system and its first cycle", "anchors": ["examples/system/SystemTest2.cpp:54-60,77-78,93,123-145", "src/safety/SafetySystem.cpp:49-71,81-128"]}
{"id": "C326", "title": "The end of the initialization is reported", "statement": "SystemTest2: after the sixth run of p1 the level is not initializing any more", "quantifier": "for every interleaving", "why_tests_cant": "The safety system must start later than the sixth run of p1", "anchors": ["examples/system/SystemTest2.cpp:54-60,140-156", "src/safety/SafetySystem.cpp:49-71"]}
{"id": "C327", "title": "The output is on in running only", "statement": "SystemTest2: each cycle writes the output once, at all levels but running it is switched off, at running the values alternate beginning with off", "quantifier": "for every interleaving and every course of the input", "why_tests_cant": "Executions are unbounded", "anchors": ["examples/system/SystemTest2.cpp:70-74", "includes/eeros/safety/OutputAction.hpp:31-57"]}
{"id": "C328", "title": "Seven cycles in each of the two levels", "statement": "SystemTest2 with the device reflect: the levels initialized and running follow each other, each for exactly seven cycles", "quantifier": "for every interleaving of the safety system with p1 without interrupt", "why_tests_cant": "Executions are unbounded", "anchors": ["examples/system/SystemTest2.cpp:66-67,79-88", "examples/system/SystemTest2Config.json:1-24", "src/safety/SafetySystem.cpp:49-71,81-123"]}
{"id": "C329", "title": "Toggling begins with off", "statement": "SystemTest2: the first cycle of each stay at the level running writes off", "quantifier": "for every course of the input", "why_tests_cant": "Depends on the number of cycles of the stay before", "anchors": ["examples/system/SystemTest2.cpp:74", "includes/eeros/safety/OutputAction.hpp:41-57"]}
{"id": "C330", "title": "Running begins and ends with the input", "statement": "SystemTest2: the level running is entered only by a cycle that reads the input on, left only by one that reads it off or by an interrupt, and these readings are never ignored", "quantifier": "for every interleaving and every course of the input", "why_tests_cant": "Executions are unbounded", "anchors": ["examples/system/SystemTest2.cpp:57-60,66-67", "includes/eeros/safety/InputAction.hpp:33-47", "src/safety/SafetySystem.cpp:49-71,90-105"]}
{"id": "C331", "title": "All steps are defined", "statement": "SystemTest2 can run forever without undefined behaviour", "quantifier": "for every interleaving", "why_tests_cant": "Needs 68 years", "anchors": ["examples/system/SystemTest2.cpp:149-152"]}
{"id": "C332", "title": "Writing a trace stays inside its buffers", "statement": "While the trace writer copies a trace to its file it reads and writes only inside its arrays", "quantifier": "for every buffer length and every interleaving of the time domain with the writer", "why_tests_cant": "The run must fall between two reads of the index", "anchors": ["includes/eeros/control/Trace.hpp:49-78", "includes/eeros/control/Trace.hpp:128-131"]}
{"id": "C333", "title": "A line of the trace file holds a value with its time stamp", "statement": "Every line of a written trace file holds a value together with the time stamp of the same sample", "quantifier": "for every buffer length and every interleaving", "why_tests_cant": "The run must fall between the two copies, and the file still looks regular", "anchors": ["includes/eeros/control/Trace.hpp:49-78", "includes/eeros/control/Trace.hpp:112-135"]}
{"id": "C334", "title": "A request to write is not lost", "statement": "After a request to write the trace a copy is begun later, whatever the writer does at that time", "quantifier": "for every state and every interleaving", "why_tests_cant": "A request within the two instructions which read and clear the flag", "anchors": ["includes/eeros/control/Trace.hpp:108-117"]}
{"id": "C335", "title": "The trace writer runs as long as its object", "statement": "The thread of a trace writer neither ends before its object is destroyed nor goes on after it", "quantifier": "for every interleaving of the construction, the destruction and the thread", "why_tests_cant": "The new thread must be faster than its constructor, or slower than the whole life of the object", "anchors": ["includes/eeros/control/Trace.hpp:105-116", "src/core/Thread.cpp:9-19", "src/core/Thread.cpp:23"]}
{"id": "C336", "title": "The trace writer uses its members only during their life", "statement": "The thread of a trace writer never uses the members name and log before they are initialized or after they are destroyed", "quantifier": "for every interleaving of the construction, the destruction and the thread", "why_tests_cant": "The writer must be in the middle of a file when the program ends", "anchors": ["includes/eeros/control/Trace.hpp:107", "includes/eeros/control/Trace.hpp:117-133", "src/core/Thread.cpp:9-23"]}
{"id": "C337", "title": "TraceTest pairs samples of the same run", "statement": "The file written by TraceTest at its end holds in each line samples of both traces from the same run", "quantifier": "for every buffer length, every moment of enabling and every moment of the interrupt", "why_tests_cant": "The time domain must run between two calls of enable, and the interrupt must come within 64 runs", "anchors": ["examples/block/TraceTest.cpp:38-42", "examples/block/TraceTest.cpp:60-64", "examples/block/TraceTest.cpp:113-116"]}
{"id": "C338", "title": "The transition to the fast domain has a defined output", "statement": "The output block of a transition to a faster domain computes only with members which have been written", "quantifier": "for every ratio and every interleaving of the two domains", "why_tests_cant": "The garbage is multiplied by zero or hidden by NaN", "anchors": ["includes/eeros/control/Transition.hpp:112", "includes/eeros/control/Transition.hpp:121-136", "includes/eeros/control/Transition.hpp:155-158", "examples/block/TransitionBlockTest.cpp:36"]}
{"id": "C339", "title": "The slow domain always finds a sample", "statement": "Whenever the slow domain of TransitionBlockTest reads the transition from the fast domain the buffer holds a sample", "quantifier": "for every ratio and every interleaving of the two domains", "why_tests_cant": "The slow thread must be late by a whole period", "anchors": ["includes/eeros/control/Transition.hpp:137-147", "examples/block/TransitionBlockTest.cpp:23-42"]}
{"id": "C340", "title": "Values and time stamps stay together through both transitions", "statement": "Every signal after one or both transitions of TransitionBlockTest lies on the ramp of the integrator: its value is the time from the first run of the integrator to its time stamp", "quantifier": "for every ratio, every clock and every interleaving of the two domains", "why_tests_cant": "All interleavings of two threads over any time", "anchors": ["includes/eeros/control/Transition.hpp:82-150", "examples/block/TransitionBlockTest.cpp:23-42"]}
{"id": "C341", "title": "The signal which comes back to the slow domain is a number", "statement": "Every output of the second transition of TransitionBlockTest is a number", "quantifier": "for every ratio and every interleaving of the two domains", "why_tests_cant": "Depends on the order of the first runs", "anchors": ["includes/eeros/control/Transition.hpp:42-48", "includes/eeros/control/Transition.hpp:112-136", "examples/block/TransitionBlockTest.cpp:28-32"]}
{"id": "C342", "title": "The round trip delays by two periods less one sample", "statement": "If both domains keep their periods, the slow domain gets back the value interpolated one sample before the end of the interval between the second last and the last run", "quantifier": "for every ratio, every number of periods and every length of each period", "why_tests_cant": "Any number of periods of any length", "anchors": ["includes/eeros/control/Transition.hpp:82-150", "examples/block/TransitionBlockTest.cpp:23-42", "src/task/Harmonic.cpp:16-21"]}
{"id": "C343", "title": "A task in the after list begins after its parent", "statement": "Run j of a task in the after list of another one with the factor k begins after run j*k of the other task has ended.", "quantifier": "all trees of tasks and all interleavings of the threads", "why_tests_cant": "the threads only overtake each other under load", "anchors": ["src/core/Executor.cpp:58-92", "src/task/Async.cpp:25-64"]}
{"id": "C344", "title": "A task in the before list has been run before its parent", "statement": "When run j*k of a task begins, run j of a task in its before list has ended; the same holds for all tasks of the executor and the main task.", "quantifier": "all trees of tasks and all interleavings of the threads", "why_tests_cant": "on an idle machine with several cores the order can look right", "anchors": ["src/core/Executor.cpp:64-70", "src/core/Executor.cpp:365-372", "includes/eeros/task/Periodic.hpp:112-121"]}
{"id": "C345", "title": "No run of a task is lost or added", "statement": "At any time the runs begun and waiting of a task times its factor differ by at most one factor from the runs of its parent; when all threads are done each task has run floor(m / product of the factors) times in m cycles, and never more.", "quantifier": "all trees of tasks, all interleavings, all numbers of cycles", "why_tests_cant": "unbounded and dependent on timing", "anchors": ["src/task/Harmonic.cpp:16-21", "src/task/Async.cpp:25-64", "src/core/Executor.cpp:361-372"]}
{"id": "C346", "title": "The example with harmonic tasks runs its tasks with the given periods", "statement": "PeriodicExample3 creates the threads of the five tasks with the factors 1, 2, 2, 5 and 3; the tasks run in every, second, fourth, fifth and third cycle, and tasks 2, 3 and 4 after those they follow.", "quantifier": "all interleavings of the threads", "why_tests_cant": "takes 60 s for one common period and depends on timing", "anchors": ["examples/task/PeriodicExample3.cpp:50-127", "src/core/Executor.cpp:58-92"]}
{"id": "C347", "title": "A task and the task after it do not run at the same time", "statement": "Two tasks of which one is in the after list of the other are never executed at the same time, nor is a task at the same time as itself.", "quantifier": "all trees of tasks and all interleavings", "why_tests_cant": "the next run of the parent has to begin during the run of the other task", "anchors": ["src/core/Executor.cpp:58-92", "includes/eeros/task/Periodic.hpp:112-121"]}
{"id": "C348", "title": "The number of waiting runs of a task is bounded", "statement": "There is a bound for the number of runs of a task which were triggered and have not begun.", "quantifier": "all interleavings of the threads", "why_tests_cant": "needs a long overload", "anchors": ["src/task/Async.cpp:25-27", "src/core/Semaphore.cpp:23-29"]}
{"id": "C349", "title": "Monitors of harmonic tasks are called", "statement": "Each thread gets all monitors which the program has pushed to its task before run().", "quantifier": "all sequences of configuration calls", "why_tests_cant": "nothing is reported when a monitor is missing", "anchors": ["src/core/Executor.cpp:31-36", "examples/task/PeriodicExample3.cpp:82-101", "includes/eeros/task/Periodic.hpp:116-128"]}
{"id": "C350", "title": "Each task in the list of another one gets a thread", "statement": "When a task of the executor has another one in its after list, the executor creates a thread for the other one too.", "quantifier": "all sequences of configuration calls", "why_tests_cant": "nothing is reported when a task is missing", "anchors": ["src/core/Executor.cpp:50-92", "src/core/Executor.cpp:140-145", "includes/eeros/task/Periodic.hpp:116-121"]}
{"id": "C351", "title": "An interrupt ends CANexample1", "statement": "After the interrupt handler has run, the safety system reaches its lowest level, stops the executor, and the executor leaves its loop.", "quantifier": "all interleavings of main thread, sequencer thread, time domain and interrupt", "why_tests_cant": "the interrupt has to arrive while the safety system is not yet at the level moving, which is a short time", "anchors": ["examples/can/CANexample1.cpp:68-82", "examples/can/CANexample1.cpp:118-121", "src/safety/SafetySystem.cpp:49-71"]}
{"id": "C352", "title": "The sequence of CANexample1 ends after an abort", "statement": "Once the abort has been requested, the sequence thread needs at most 8 steps to its end with the set position back at zero, and main returns when the executor has left its loop and the sequence has ended.", "quantifier": "all interleavings, all states in which the abort may be requested", "why_tests_cant": "the abort may arrive at each statement of the sequence", "anchors": ["examples/can/CANexample1.cpp:93-109", "src/sequencer/BaseSequence.cpp:33-53", "examples/can/CANexample1.cpp:151-154"]}
{"id": "C353", "title": "The drives of CANexample1 are home and disabled at the end", "statement": "When main returns, the last frame carries the position zero, and sending is disabled.", "quantifier": "all interleavings", "why_tests_cant": "the last position is lost when the time domain was joined before it was set; the order differs from run to run", "anchors": ["examples/can/CANexample1.cpp:96-109", "examples/can/CANexample1.cpp:149-154", "includes/eeros/control/can/CANsend.hpp:54-69"]}
{"id": "C354", "title": "The drives of CANexample1 do not get new targets after the interrupt", "statement": "After the abort no position but zero is set.", "quantifier": "all interleavings", "why_tests_cant": "the remaining waits end at once, so the drives get the targets one after the other without the wait, depending on where the sequence is", "anchors": ["examples/can/CANexample1.cpp:98-107", "src/sequencer/BaseSequence.cpp:33-53"]}
{"id": "C355", "title": "Frames of CANexample1 carry set values", "statement": "Each frame is sent with a position which was read from the constant and with the speed set before.", "quantifier": "all interleavings", "why_tests_cant": "sequence and time domain start in any order, a frame without speed would be a matter of chance", "anchors": ["examples/can/CANexample1.cpp:94-97", "includes/eeros/control/can/CANsend.hpp:54-69", "includes/eeros/control/Constant.hpp:49-53"]}
{"id": "C356", "title": "CANexample1 moves at level moving only", "statement": "At other levels than moving no position other than zero is set.", "quantifier": "all interleavings", "why_tests_cant": "the level may change between the comparison and the call of setValue", "anchors": ["examples/can/CANexample1.cpp:98-105", "src/safety/SafetySystem.cpp:81-123"]}
{"id": "C357", "title": "Results of a gain which two threads use are not mixed", "statement": "After run() of the Gain block all elements were calculated with the same gain, and the program multithreading never reports a wrong result.", "quantifier": "all interleavings of the two threads, all sizes of the matrix, all numbers of rounds", "why_tests_cant": "a mixed result needs a switch between two elements in one of many runs", "anchors": ["examples/devel/multithreading.cpp:58-87", "includes/eeros/control/Gain.hpp:107-142", "includes/eeros/control/Gain.hpp:219-229"]}
{"id": "C358", "title": "The program multithreading has no data race", "statement": "The two threads never access the flag or the gain at the same time when one of them writes.", "quantifier": "all interleavings, all sizes, all numbers of rounds", "why_tests_cant": "a data race on a flag has no visible effect with most compilers and machines", "anchors": ["examples/devel/multithreading.cpp:45-51", "examples/devel/multithreading.cpp:61-64", "examples/devel/multithreading.cpp:93"]}
{"id": "C359", "title": "The program multithreading ends", "statement": "There is no deadlock, and when the main thread waits in join the other thread needs a bounded number of steps, r * (n + 3).", "quantifier": "all interleavings, all sizes, all numbers of rounds", "why_tests_cant": "the position of the other thread at the time of join is a matter of chance", "anchors": ["examples/devel/multithreading.cpp:47-53", "examples/devel/multithreading.cpp:93-94", "includes/eeros/control/Gain.hpp:219-229"]}
{"id": "C360", "title": "Failed runs of the program multithreading", "statement": "The number of failed runs is at most the number of rounds; all may fail and none may fail although the gain is protected.", "quantifier": "all interleavings, all sizes, all numbers of rounds", "why_tests_cant": "the extreme numbers need special interleavings", "anchors": ["examples/devel/multithreading.cpp:66-91"]}
{"id": "C361", "title": "Each run of the program multithreading is tested against the other thread", "statement": "The other thread is not at its end before the main thread has called run() in its last round.", "quantifier": "all interleavings, all sizes, all numbers of rounds", "why_tests_cant": "nothing is reported when the other thread has already ended", "anchors": ["examples/devel/multithreading.cpp:47-53", "examples/devel/multithreading.cpp:58-64"]}
{"id": "C362", "title": "A subsystem calculates its output within one run", "statement": "After the first run of the time domain of SubSystemTest the output is twice the sum of the constant and three times the constant, for each constant, and stays so.", "quantifier": "all interleavings with the monitor, all constants", "why_tests_cant": "tests use one constant and look at the output after many runs", "anchors": ["examples/system/SubSystemTest.cpp:23-56", "includes/eeros/control/Subio.hpp:48-74", "src/control/TimeDomain.cpp:25-28"]}
{"id": "C363", "title": "The monitor of SubSystemTest logs whole values", "statement": "A logged value is either the cleared one or the result.", "quantifier": "all interleavings, all constants", "why_tests_cant": "the monitor has to run in the middle of the first write of the output", "anchors": ["examples/system/SubSystemTest.cpp:78-82", "includes/eeros/control/Gain.hpp:107-142"]}
