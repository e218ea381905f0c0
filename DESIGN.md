# Formal model of eeros-framework in Rocq (Coq 8.16.1)

## 1. Method

Every part of the code that is modelled is written as small total Gallina functions
(`rocq/theories/*Model*.v`), one per C++ function, each with a comment citing the file and
lines in /repo and naming what was simplified. Specifications that do not mention the model live
in `*Spec*.v` (or at the top of the property file). Proofs are in `*Proofs*.v` (plain Coq) and
`*Main.v`, `Mat*.v` (mathcomp). The statements that count are in `Prop*.v`: only
`Theorem … exact … Qed. Print Assumptions …` plus non-vacuity `Example`s.

Conventions:

* Failure outcomes are explicit (`Prelude.outcome`): `Ok v`, `Fault` (a C++ exception), `UB`
  (undefined behaviour such as an out-of-bounds access, a null dereference, the read of an
  uninitialised member or an out-of-range float to integer conversion).
* Numbers: indices/lengths are `nat`; ids, counters and clock values are `Z` with explicit
  wrap-around where the code relies on the width; values of template type `T` are an abstract type
  where the code is parametric in it. Arithmetic of the type `double` is written once over an
  abstract interface `Num.num` with two instances: `Rnum` (the reals, exact arithmetic) and `Dnum`
  (IEEE 754 binary64 data of `SpecFloat`, rounding to nearest even, NaN, infinities, signed zero).
  `Dnum` is executable and needs no axioms; its connection to rounding of reals is proved with
  Flocq (`NumDbl.v`, `NumDbl2.v`). Each theorem says which instance it is about: a theorem about
  `Rnum` says nothing about rounding, a theorem about `Dnum` or about every `num` covers doubles.
* Matrices are modelled as arrays with the loops of the code, and proved equal to the mathcomp
  operations over every commutative unit ring / field.
* Loops over template arguments are folds over lists of unbounded length; uninitialised memory is
  an arbitrary argument (or an undefined cell, where reading it matters).
* Threads: where the code uses locks, an operation under the lock is one atomic step and a
  property quantifies over all finite sequences (interleavings) of steps. Where the code has races
  that matter, the model has the finer steps (SafetyRaceModel, Async, Thread, Executor, Logger).
* A property that is false of the code is kept in its full form: the theorem `…_refuted` proves
  `exists` a counterexample in the model, and `…_partial` theorems prove what holds under an
  explicit guard. Such properties have status `partial` in MANIFEST.json and a note "REFUTED: …".

## 2. What is modelled and how it is proved

| source | model | properties | proof |
|---|---|---|---|
| src/safety, includes/eeros/safety (SafetySystem, SafetyLevel, SafetyProperties, InputAction, OutputAction, SafetyContext) | SafetyModel, SafetyActionModel, SafetyRaceModel | C01-C12, C76-C78 | invariant over all operation lists; the log of every history is a run of the specification automaton `allowed` (SafetySpec); priority of events by a fold lemma; interleaving invariant for triggerEvent |
| includes/eeros/core RingBuffer, Semaphore, Statistics, PeriodicCounter, System; src/core/Executor, Thread; src/task Async, Harmonic, HarmonicTaskList, Periodic | TaskModel | C13-C20, C79-C89 | refinement to a list queue; counting theorems; running sums equal list statistics over R; interleaving invariants; every result allowed by the contract of std::sort |
| src/sequencer (BaseSequence, Sequence, Step, Monitor, ConditionTimeout, Sequencer) | SeqModel | C21-C26, C90-C95 | action() as an interpreter over streams of condition values with fuel; fuel independence; induction on the poll history; automaton of a step's life (SeqSpec) |
| includes/eeros/control basic blocks (Input, Output, Signal, Blockio, TimeDomain, SubSystem, Sum, Mul, Gain, I, D, Saturation, RateLimiter, Mux, DeMux) | CtrlModel | C27-C37, C96-C100, C102, C103 | induction over input histories with closed form specs; generic order laws (`NumOrd.ord_laws`) which also hold for doubles |
| includes/eeros/control Delay, Trace, WrapAround, Switch, SignalChecker, Step, PeripheralOutput, Transition, filters (LowPass, MovingAverage, Median) | CtrlModel2 | C38-C49, C101, C104-C109 | same |
| filter/KalmanFilter.hpp | KalmanModel | C50, C51, C134 | equality with the mathcomp matrix expressions, then algebra (positive semidefiniteness, optimality) |
| PathPlannerConstAcc, PathPlannerConstJerk, PathPlannerCubic, TrajectoryGenerator | PlanModel, PlanModel2 | C52-C55, C110-C113 | closed form of the discrete trajectory by induction over cycles; double precision witnesses |
| includes/eeros/math/Matrix.hpp and its 1x1 specialisation | MatModel | C56-C62, C114-C117 | equality of the loop code with `mulmx`, `\det`, `invmx`, `\rank`; Cramer's rule |
| includes/eeros/math/Fraction.hpp (Polynome, Fraction) | PolyModel | C63, C132 | equality with `{poly}` |
| includes/eeros/control/ZTransferFunction.hpp | ZModel | C64, C133 | UB witness; with an oracle for the reads out of range, the difference equation by induction |
| src/math Frame, CoordinateSystem | FrameModel | C65, C66, C131 | invariant over histories of constructions and destructions with reused addresses |
| src/hal/HAL.cpp, HAL.hpp | HalModel | C67-C69, C118 | invariants over claim histories |
| src/hal/JsonParser.cpp (scale, range, feature parsing, 193-352) | ScaleModel | C70, C119 | field identities, intersection of intervals |
| src/hal Keyboard, KeyList, XBox, Mouse, SpaceNavigator, SysFsDigIn | KeyModel | C75, C120-C123 | induction over event histories |
| src/config, FileConfig | ConfModel, ConfDouble | C71, C72, C124, C125 | printing/parsing round trip on texts by induction |
| includes/eeros/logger, StreamLogWriter | LogModel | C73, C126, C127 | induction over histories of all loggers; interleavings of insertions |
| includes/eeros/logger/Pretty.hpp | PrettyModel | C151, C152 | real analysis of log10 and powers |
| includes/eeros/sockets, control/SocketData.hpp | SockModel | C74, C128-C130 | induction over arbitrary read results |
| control/can, control/ethercat, hal/ (CAN, CANopen, EtherCAT blocks) | BusModel | C135-C144 | byte level round trips; arithmetic on Z and on doubles |
| MouseInput, KeyboardInput | InputModel | C145-C148 | induction over runs |
| Vector2Corrector | CorrModel | C149, C150 | UB witness; algebra of affine maps |
| control/ros2/RosTools, RosSubscriber, the topic synchronised executor | RosModel | C153-C156 | rounding analysis with Flocq; interleavings |
| SequencerUI, SharedMemory | UiModel | C157, C158 | induction over read results / operation histories |
| hal/BaumerOM70, RPLidar, RealsenseT265, SBGEllipseA, PixyCam, ODriveUART, ODriveUSB: thread life cycle | DevModel | C159-C162 | invariants over all interleavings of the two threads |
| ODriveUART (replies), RPLidar (scan), ODriveUSB and ODriveUSBInput (velocities, configuration, watchdog), RealsenseT265 (transformation) | DevModel | C163-C170 | induction over bytes; algebra |
| hal/PixyCam (localisation and filter) | PixyModel | C171-C174 | extremal elements; absorption of infinities on binary64 |
| Wait, Constant, SysFsDigOut, SysLogWriter, construction of PeripheralInput/Output, ROS2 message blocks | MiscModel | C175-C183 | induction |
| sequencer/Sequence, Sequencer: sequences with their own thread (futures, waiting, abort requests), list of sequences | ParModel | C184-C190 | invariants over all interleavings |
| hal/XBox, Mouse, SpaceNavigator (threads), control/XBoxInput, SpaceNavigatorInput, core/Semaphore | IdevModel | C191-C196 | invariants over all interleavings; induction over packets |
| hal/JsonParser (creation of objects), HALFeatures, HAL (loading, features) | JsonModel | C197-C206 | induction over configurations against an order-free meaning |
| ui/CursesUI | CursesModel | C207-C213 | invariants over all interleavings; induction |
| sensor and drive input blocks, ROS1 blocks, gamepad events, device buttons as safety inputs, safety/ControlInput | SensModel | C214-C222 | induction over runs and interleavings; exact floating-point conversion |
| binary64 arithmetic of Executor wake-up times, LowPassFilter, MovingAverageFilter, I, D, path planners | DblModel (and the models above over Dnum) | C223-C227, C53, C110 | rounding error analysis with Flocq, invariants over runs of any length |
| networks of blocks in control/TimeDomain with Input/Output, time domains together with the safety system | NetModel | C228-C232 | uniqueness of the solution of the block equations; invariants over interleavings; contraction |
| Sum, Matrix product, core/Statistics and a control loop in binary64 | CtrlModel, MatModel, TaskModel, NetModel over Dnum | C233-C236 | rounding error analysis by induction over the terms; contraction with a perturbation |
| hal/ODriveUSB, external/odrive: packets, requests, rounds, description, search for the drive, endpoint numbers | OdrvModel | C237-C248 | bit arithmetic by induction over the requests; invariant of the queue of answers; counting along the list of requests |
| core/Executor: configuration, choice of the loop by the preprocessor, loops synchronised to ROS | SyncModel | C249-C259 | invariants over configuration calls and interleavings; measure for catching up; rounding of the period |
| concurrent use of SignalChecker, Gain, Constant, I, RateLimiter, Saturation, WrapAround, Switch, Step, path planners, PeripheralOutput, KalmanFilter, Transition, RingBuffer, SocketServer, Signal, TimeDomain, SafetySystem | RaceModel | C260-C280 | ownership of mutexes as invariant over all interleavings; order of the mutexes for progress |
| control blocks with vectors: Saturation, RateLimiter, WrapAround, D, LowPassFilter, MovingAverageFilter, Sum, I, Gain, MedianFilter, Switch, SignalChecker | VecModel | C281-C290 | simulation of the block for numbers by each element; counting in sorted lists |
| math/Matrix: constructor with values, operators with numbers, std::vector, createDiag, output | MatModel2 | C291-C295 | loop invariants; words of a text |
| control/ros2/RosPublisherOdometry | OdomModel | C296-C297 | algebra of quaternions over the reals |
| examples/system/MockRobot*: control system, safety properties, sequencer and signal handler together | MockModel | C298-C304 | invariant over all interleavings; rank of the program points |
| examples/system/SystemTest1: time domain and safety thread, block by block | Sys1Model | C305-C311 | invariant over all interleavings; stronger invariant under punctual, undisturbed cycles; inductive paths for the witnesses |
| examples/can/CANexample2: sequencer, safety system, time domain and interrupt | CanxModel | C312-C318 | invariant over all interleavings; rank of the program points; checked paths for the witnesses |
| signal handlers on top of the threads: exitHandler, triggerEvent, mutex, log | SigModel | C319-C321 | invariant of the mutex over all interleavings with nested handlers; rank of the calls; checked paths for the witnesses |
| examples/system/SystemTest3: time domain with integrator and checker, safety system | Sys3Model | C322-C324 | invariant over all interleavings; history flag for the guard; induction over 300 cycles for the witnesses |
| examples/system/SystemTest2: safety system with input and output actions, periodic task, interrupt | Sys2Model | C325-C331 | invariant over all interleavings; rank of the shutdown; invariant of the counters with the reflect device; induction over 2^31 runs |
| Trace, TraceWriter and examples/block/TraceTest: time domain, writer thread, its construction and destruction | TracModel | C332-C337 | ring buffer invariant modulo N; invariants over all interleavings; rank of the copy; contiguous tails of two traces |
| examples/block/TransitionBlockTest: slow and fast domain, transitions in both directions, harmonic start | TrexModel | C338-C342 | ramp invariant through both transitions; generation counting over all interleavings; induction over runs and periods |
| the threads of the executor with nested harmonic tasks, interleaved; copies of periodics; examples/task/PeriodicExample3 | PeriModel | C343-C350 | invariant of triggers, waiting and begun runs over all interleavings and trees; induction over paths of the tree; induction over cycles for the backlog |
| examples/can/CANexample1: safety system, sequence, time domain and interrupt handler, interleaved | Can1Model | C351-C356 | invariant over all interleavings; ranks of main and sequencer thread; witnesses by computation |
| examples/devel/multithreading: two threads with one Gain block, element by element | MultModel | C357-C361 | invariant of mutex, gain and result over all interleavings; rank of the other thread |
| examples/system/SubSystemTest: time domain with a subsystem, monitor in another thread, element by element | SubxModel | C362-C363 | exact invariant over all interleavings |

Every model file begins with a comment on its simplifications. The properties, theorems and their
assumptions are listed one by one in section 5.

### Not modelled

* Behaviour of the operating system and the compiler: real scheduling and execution times, the
  memory model of racing accesses (a race is reported as a finding, its outcome is modelled as an
  interleaving at most), signals (except the flag they set), files (except their contents as text),
  curses, sockets (except as an arbitrary stream of read results).
* External libraries: ROS, ROS2, libucl, modbus, RPLidar SDK, librealsense, sbgECom, libusb, CAN,
  CANopen and ecmasterlib. What is assumed about a function of these is stated in the model file.
* Code which only passes values on to such a library: ROS1 blocks (control/ros), some of the ROS2
  publishers, the register reading of BaumerOM70 and SBGEllipseA, the USB protocol of ODriveUSB,
  ComediDevice, ROSLogWriter, CursesUI, System_Windows.cpp, Version.
* Loading of HAL libraries (dlopen) and the text level of the JSON files.
* Output on `std::ostream` of blocks and matrices.
* The interplay of the monitors of one sequence with another, concurrently running one (threads of sequences are modelled in ParModel, their bodies in SeqModel).
* Overflow of `nat` indices for objects larger than the address space.

## 3. Trusted base

* Coq kernel (coqc 8.16.1; the compiled files are checked again with coqchk).
* The reading of the C++ source into the model (cited per definition) and the C++ standard's
  meaning of what is used of the standard library (std::map::insert, std::sort, streams, …), given
  in the model files.
* IEEE 754 binary64 with round to nearest even for `double`, no extended precision and no
  fast-math (SpecFloat of Coq's standard library).
* Axioms. No axiom is declared in /verif. What `Print Assumptions` lists is one of four sets, given
  for each theorem in section 5 by its letter:
  * **0**: closed under the global context.
  * **R**: `ClassicalDedekindReals.sig_forall_dec`, `FunctionalExtensionality.functional_extensionality_dep`
    (Coq's real numbers).
  * **S**: R and `ClassicalDedekindReals.sig_not_dec`.
  * **C**: R or S and `Classical_Prop.classic` (used by Flocq and Coquelicot lemmas on reals).

  All are axioms of Coq's standard library. The libraries used (mathcomp, Flocq, Coquelicot) add
  none.

Counts: 363 properties (127 proved, 236 partial or refuted), 1015 theorems; assumptions: 0: 859, R: 91, S: 28, C: 37.

## 4. Findings: where the code differs from what its users may rely on

Each refuted property (see the notes in section 5) is a finding with a machine-checked witness.
Further observations made while reading the code; those without a property number are not formalised:

*Safety.* A throwing SafetySystem constructor leaves the instance counter incremented (C12). The
static instance used by exitHandler (SafetySystem.cpp 125-128) dangles after the destructor. A
`Leave` action counts as driving a critical output (C78). Adding the same level twice changes its
id. The destination of an event is read outside of the mutex (C76). Entry level and destinations
need not have been added (C77). NaN never violates a range (C10). A self-transition hides the
priority of other events (C03).

*Sequencer.* Restart and abort requests are not latched, the last true monitor on the stack wins
(C90-C92); a left-over step command lets a step pass (C93); `start` cancels `abort` (C94);
sequences are never removed from the registry. SequencerUI executes a stale or uninitialised
command at disconnect (C157), and its loop `while(connected)` ignores `running`, so its destructor
waits for the client. After a restart with a false precondition the old action's result is returned.

*Core and tasks.* The executor overwrites an earlier stop (C20, Executor.cpp 276), dereferences
the main task's monitors although it was tested for null (250/257); period 0 passes the deviation
test as NaN (C16); Async starts its thread before its members are initialised (C83); Thread starts
in the base constructor (C89); PeriodicCounter has an undefined conversion for period 0 (C82);
SharedMemory leaks its descriptor and earlier mappings (C158). The ROS2 synchronisation waits
without predicate (C155, C156). The `else`/`else if` chains across `#ifdef` in Executor.cpp
239-309 change meaning with the configuration.

*Control.* MouseInput ignores setInitPos after its first run (C147); a second KeyboardInput throws
(C148); MovingAverageFilter keeps a pointer to the caller's coefficients; the median filter breaks
the precondition of std::sort for NaN; Vector2Corrector reserves instead of resizing (C149);
ZTransferFunction reads index -1 and uninitialised memory (C64); KalmanFilter's documentation says
zero initial covariance while the identity is set, and with nofStates = 1 it does not compile;
planners leave `t` and `range` uninitialised (C113); Signal::getSignalById always returns null (its
list is never filled); Transition loses buffered signals (C105); XBoxInput and
SpaceNavigatorInput never use axisScale, limits and speedScaleFactor; Constant reads its value
without the lock; time stamps pass through double (C102).

*Math.* Matrix.hpp 722 `a & (M-1)` instead of modulo (C59); rank() tests the diagonal of an
incompletely eliminated matrix (C60); the 1x1 specialisation inverts rank and its isOrthogonal
misses -1 (C60, C117). `Fraction(n)` has denominator zero; vector constructors drop coefficients
(C132). Looking up a coordinate system inserts a null entry (C66). The implicit copy constructor
of Frame does not register the copy (C65).

*HAL.* getInput with an unknown name reserves a null pointer, a later registration of that name
throws (C69); releasing one shared claim releases all (C68); the comparison in HAL.cpp 226 uses a
plain char; JsonParser uses numeric_limits::min() as the lowest double (C119) and tests isfinite of
the same bound twice (326); SpaceNavigator leaves rotAxis uninitialised and busy-loops at end of
file; XBox maps -32768 below -1 and reuses a stale event after a failed read (C120, C122); SysFsDigIn
never rewinds its file (C123) and both SysFs pins ignore `inverted` of the constructor (uninitialised
member); KeyList counts only the keys of the last call and races with the keyboard thread (C75).

*Config.* A zero length array is saved in a form that cannot be loaded; too many elements are
written beyond the variable (C72); the string accessor drops the first character (C71); doubles are
saved with 6 digits (C125).

*Logger.* A logger obtained before a writer was set dereferences null (C127); the file and the
stream are not written under one lock (C126); pretty() gives "1000.000" with a wrong width for
values rounding up (C152), is undefined for NaN, and is a non-inline function in a header.

*Sockets.* A failed read moves the buffer pointer back (C74), incomplete frames are published, the
time out is only tested between blocking reads (C129), short writes are not completed (C128).

*Buses.* PDO packing beyond the buffer, unsigned conversion of negative set points, angles
assigned by position, channels overflow (C136-C143). CANopenSend line 92 assigns matrices of different shapes;
CANreceive's initialiser fits N = 2 only.

*Drivers.* After a failed connection the thread spins on `while(starting)` and the destructor's join
never returns; destruction before the thread has left this loop has the same effect (C159). The thread is
started by the base class before the flags are initialised (C161). ODriveUART and ODriveUSB release their
connection before the thread has ended (C160). ODriveUART drops the fraction of the velocity and may
overflow tmpData (C163, C164). RPLidar.cpp 94-97 searches without bound (C165). ODriveUSBInput passes
1/6.28 as an int: the reference velocity is always 0, the measured one infinite (C166). ODriveUSB never
sets the pin of the second end stop (C167) and never reads the currents (C168). PixyCam uses four blocks
whatever the number received, and one picture with equal dots makes its filtered position infinite for
ever (C172, C173); x and y are exchanged in the filtered position (C174).

*Small parts.* Constant<T>() takes the minimum of int32 for every integer type (C176). SysFsDigOut never
flushes its stream and does not initialise `inverted` (C177). SysLogWriter keeps the state of an entry in
the shared writer (C178). Peripheral blocks keep their claim after a failed construction and after
destruction (C179, C180). ROS2 subscribers read beyond short messages (C181), RosPublisherLaserScan
publishes the ranges as intensities (C182), RosPublisherSafetyLevel does not initialise its pointer (C183).

*Sequences with their own thread.* A second start() waits for the end of the first run, so that a sequence
which starts itself hangs for ever (C184); start() cancels a pending abort request of the run in progress
(C187); Sequencer::wait() misses sequences started by ones later in the list (C188); sequences are never
removed from the list of the sequencer, which therefore keeps dangling pointers (C190).

*Input devices.* The thread of a gamepad, mouse or space navigator is started by its base class and may run
before the derived object exists; it then ends at once or reads an uninitialised descriptor (C191). The
destructor may wait for ever (C192). The speed factor of XBoxInput has no effect (C193), the rotations of the
space navigator are not initialised (C194) and its raw stream is never resynchronised (C195).

*HAL configuration.* The keys library, devHandle and type must stand before the channels (C198); a failed load
keeps the channels created so far, so that the corrected file is rejected (C199); the map of opened libraries
is copied, so that each file opens its libraries again (C201); misspelt keys of a device are ignored (C202); the
regular expression for comedi libraries rejects digits and reads `A-z` for `A-Z`, and the test for missing encoder
channels never fires (C203); on platforms with unsigned char an en dash in the arguments makes
readConfigFromFile return true without loading anything (C205).

*Text interface, sensor blocks, ROS1.* The key loop of CursesUI runs while the interface is *not* active, so a
displayed interface ends without reading a key (C207) and an early exit() makes the destructor hang (C208); the
instance counter never goes down (C209), messages are used as printf formats (C211), the prompt overruns its
buffer of ten characters (C213) and the list of sequences may run into the messages (C212). RPLidarInput and
ODriveUARTInput leave outputs without time stamp or value (C214); camera and IMU vectors are copied without a
lock (C215). All ROS1 subscribers share one queue, so that a block processes messages of other topics (C216);
the ROS1 laser scan publisher sends the ranges as intensities (C217) and its time stamps may jump by a second
(C218). The gamepad ignores failing reads (C219, C220).

*Machine arithmetic.* The executor adds its period to a double counting nanoseconds, so that a period of 1/3000 s
drifts by 0.04 ns per cycle after eleven days of uptime (C223). A low pass filter with constant input may settle
above this input, but never by more than 2^-30 of the input range (C224). The differentiator amplifies rounding by
the ratio of uptime and time step (C227).

*Time domains and safety system together.* The event of a time domain is triggered without context, so that a level
which registers it as private ignores the fault, and goes on; exceptions other than the two known types end the thread
of the time domain without any event (C231).

*Loops stop short of the reference (C236).* In binary64 an integrator whose increment is below half an ulp of its value does not move: a loop with gain 10 and 10 ms steps stays at 1 - 2^-53 for the reference 1. The distance is bounded by 2^-52 M/(1-q'), where q' grows with the uptime T, because the step is the difference of two absolute times in seconds (I.hpp:63).

*ODrive over USB (C237-C248).* The emergency button of axis 1 is read from endpoint 513, which the drive describes as
the *lower* end stop, while the *upper* one is configured and enabled (its state is endpoint 520): a button at axis 1 is never
seen (C246, C247). Answers are matched to requests only by their order: a wrong sequence number is logged and its data used,
so after one answer later than 200 ms every value is that of the request before it, for ever (C239), and the next round
reads a variable without value (C240). Failing transfers are ignored everywhere (C240, C241). The serial number is compared
up to the length of the device's number, and printed without leading zeros (C242). The constructor configures a drive it has
not found through a null handle, and an empty list of devices counts as success (C245). The end stops are not read during the
calibration (C248).

*A library built with EtherCAT does nothing without a stack (C250).* With USE_ETHERCAT the preprocessor removes all loops of
`Executor::run` but the one for EtherCAT (Executor.cpp:278-373). When no stack was set, the `else` of line 291 governs the log
message of line 375 and run() returns at once: no cycle, no error. A program which asked for the time of ROS gets the same. With
USE_ROS and USE_ROS2 together lines 342 and 345 read `else else if`.

*Periodics are copied (C251, C252).* `Executor::add` stores a copy: a task added twice is executed twice, and monitors added to the
periodic after `add` are never called. The main task is kept by reference.

*The loops synchronised to ROS (C253 to C259).* `stop()` makes a waiting loop execute one more cycle, too early, or without the
message it waited for. When the simulated time is set back the loop for the time of ROS is silent until the old time is reached.
After a delay it executes the missed cycles in a burst, at the same time. The period is truncated to nanoseconds: 65 us becomes
64999 ns. In the loop for a topic of ROS1 two steps of a simulator can fall together into one cycle.

*Mutexes that protect only some members (C262 to C271).* Integrator, Gain, RateLimiter, Saturation, WrapAround, Switch and the path
planners take a mutex in `run` and in some setters only: `enable`, `disable`, `setLimit`, `setInitCondition`,
`enableParabolicGain`, `arm`, `setCondition`, `switchToInput`, the limits of the planners and `Constant::getValue` do not. A cycle
may use the new upper with the old lower limit. `move` of a path planner tests `finished` and computes the coefficients before it
takes the mutex, so two callers can both start a movement. `Step` has no mutex.

*The mutex of a transition stays locked after a fault (C277).* The blocks of `Transition` use `mtx.lock()` and `mtx.unlock()`. If the
input is not connected the fault passes between them: the mutex stays locked, the time domain of the output waits for ever, and the next
cycle of the input locks a mutex it owns. With connected inputs no thread is ever blocked for good: the mutex of the safety system
is taken last and no other one is taken while it is held.

*References and flags outside the mutex (C274 to C276).* `SocketServer::getReceiveBuffer` returns a reference which is read after the
mutex was released; `RingBuffer::length` and the flag `refresh` of a rising transition are read without it.

*Signals and the safety level have no mutex (C273, C278, C279, C280).* An input connected to a block of another time domain races with it, and value and
timestamp may come from different cycles; this includes the outputs of a Kalman filter whose two steps run in two time domains. Blocks read
the current safety level while the safety system changes it. The list of blocks of a time domain is changed without a mutex.

*Blocks with vectors (C281-C290).* The operators < and > of Matrix compare all elements at once and are used as if they compared numbers.
An integrator stops all elements as soon as one of them would leave its limits, and setLimit does nothing if only some elements are outside;
such an integrator never moves again. An element-wise gain with smooth change stops as soon as one element has reached its target, or
overshoots and stays there, and does not keep its limits. MedianFilter sorts with an operator that is no strict weak order, which is undefined
behaviour. The operators are negations of <= and >=, so that NaN counts as less and as greater. The parabolic gain with a matrix returns an
uninitialised result. The norm overflows from elements of 1.4e154 on. RateLimiter with vectors writes a line to the standard output in each
cycle (RateLimiter.hpp:154, 167), which is not modelled.

*Matrix values (C291-C293).* The constructor with values fills a matrix column by column, the operator << row by row; the same list of values
gives two different matrices. createDiag multiplies the identity with the value, so an infinite value gives NaN beside the diagonal.

*The covariance inputs of the odometry publisher have no owner (C297).* `RosPublisherOdometry` declares two further inputs with the default constructor, so that a fault for one of them reads "in block ''". The header also defines `operator<<` without `inline`, which gives a duplicate symbol when two files include it.

*The mock robot jumps when the switch is thrown (C300, C303, C304).* The example homes with an integrator up to about (1, 1) and then switches to a path planner that starts at (0, 0): `pp.setStart` is never called. An interrupt during the two seconds at level ready ends the waiting step only, so that the aborted sequence still throws the switch and the position jumps while the robot is being switched off. If the safety system runs late, the homing sequence is entered again and the axes move at level ready. The order of the levels itself is right in all interleavings (C298, C299, C301).

*The system test can run away (C305-C308).* In SystemTest1 an integrator ramps up until a switch block with a window of 20 ± 0.1 throws, triggers the event stop and, three seconds later, the safety thread resets the switch and the integrator with three separate calls. `I::run` reads its state, computes and writes it back without a lock, so that a reset between the read and the write is lost. The ramp then goes on from above 20.1, never meets the window again and grows for ever at level running. One cycle that comes more than 80 ms late steps over the window with the same result. Moreover the time domain is running when it is constructed, so that a cycle before the first one of the safety system writes to the output at level initializing, and the integrator later counts the whole pause of five seconds as one step: the output jumps to 12.5.

*The CAN example computes with an unsigned velocity (C312).* `MoveSequence` declares `uint32_t vel = 2` and assigns -1 to it for the way back. The drives are given 4294967295, and `CANopenSend::run` converts 50 times and 200 times this value to `uint32_t`, which is undefined.

*The CAN example loses interrupts (C313, C315-C318).* Stop is the highest of its levels, while of two events in the same cycle the safety system takes the one with the lower level: an interrupt at level ready is overridden by "start moving". At level init the event is not defined at all. The example also reads the states of the drives by SDO after enabling the blocks for process data, initializes twice when the safety system is late, keeps sending a velocity of 2 at level stop, and may send one more set of process data after the drives are disabled.

*Calling exitHandler from a signal handler is not safe (C319-C321).* The documentation of `SafetySystem::exitHandler` tells the user to call it from a signal handler, and the examples do. It calls `triggerEvent`, which locks a `std::mutex` and writes log messages. When the signal interrupts a thread in `triggerEvent` between lock and unlock (an input action or a level action of the safety system, an event of the sequencer), the same thread locks the mutex twice: the safety system stops for ever. When it interrupts an allocation or another log message the behaviour is undefined as well. In another thread than that of the safety system the handler may lead out of a level with an event that is not registered there.

*Integrator and its initial condition (C322, C323).* `I::setInitCondition` writes `prev` without a lock while `I::run` reads it, adds and
writes it back. In SystemTest3 the safety level start sets it to 0 in each of its 301 cycles. A run that read the NaN of the constructor
and is resumed only after the last of them puts NaN back; the ramp then starts with NaN and the checker resets it at once. One cycle that
finds the time domain idle is enough to exclude this, which is why the example works in practice.

*Events at the entry level (C325, C326).* SystemTest2 triggers its first event before the executor runs; until the first cycle the current
level is still off. An interrupt or the one report of p1 in this time finds no transition, is logged as an error and forgotten: the program
ignores Ctrl-C once, or stays at initializing for good.

*Toggle (C329).* `ToggleOutputAction` keeps its value when the level is left. After a stay with an odd number of cycles, as in SystemTest2
with its seven, the next stay begins with on.

*A trace is copied while it is recorded (C332, C333).* `TraceWriter::run` calls `getTimestampTrace`, then `getTrace`, without any lock against `Trace::run`. Before the buffer is full a run between the two calls makes the size larger than the array of time stamps, which is then read behind its end. A run between `new T[index]` and the loop gives a write behind the end of the new array. After the wrap around nothing is read outside, but values are paired with the time stamps of other samples.

*The trace writer is not tied to its object (C335, C336).* The thread is started by the base class constructor and joined by the base class destructor. A fast thread runs `Thread::run` of the base class, or sees its flag `running` reset by the initializer, and never writes a file. A slow thread sets `running` after the destructor has cleared it, and the join never returns. A thread in the middle of a file uses `name` and `log` after they are destroyed.

*TraceTest pairs two traces by position (C337).* If the time domain runs between `trace1.enable()` and `trace2.enable()` and the program is interrupted before the buffers are full, `buf2` is read behind its end, or each line holds samples of different runs. Once both buffers are full the lines agree again, whatever the order of the calls was.

*Transitions before their first signal (C338, C341).* The output block of a transition to a faster domain computes with `dVal` and `dTime`, which no constructor initializes. In TransitionBlockTest the slow domain starts after 100 runs of the fast one, so this happens in each of these runs. The values are NaN until the second signal arrives. The signal which comes back through the second transition is certainly a number from its fourth output on.

*A late slow domain (C339).* If the slow thread is late by a whole period it runs twice in a row. The second run finds the buffer of the transition cleared and reads the element 0 of an empty vector.

*Before and after (C343-C350).* A task in the after list of another one begins its runs after the runs it follows, and no run is lost.
A task in the before list is only released: the parent does not wait for it, so it usually runs after the parent has gone on, and, because
its period is not shorter, with a lower priority (C344). The main task goes on in the same way. The task and the one it follows may work
at the same time in the next period (C347). Periodics are values: in PeriodicExample3 the monitors of tasks 3 and 4 are pushed after these
were copied into the list of another task and are never called (C349); a task pushed into a list after the copy gets no thread (C350).

*First CAN example (C351, C353, C354, C356).* The interrupt handler of CANexample1 aborts the sequencer and triggers the
event for shutting down, but the level init has no such event. An interrupt before the level moving ends the sequence, and
the executor runs on forever. Sequencer::abort ends waits but not the action: with an interrupt in the first wait the drives get the second
target at once and then the zero position. Or they never get the zero position, when the time domain was stopped first. Sending is
never disabled, and a move may begin at the level shut down.

*Test of the thread-safe gain (C358, C361).* The program multithreading checks that a Gain block may be used by two threads. The mutex
does what it should (C357), but the flag between the two threads is a plain bool, which is a data race and lets the compiler
hoist the read out of the loop. The other thread may also use up all its rounds in the first round of the main thread; the remaining
runs then test nothing.

*Subsystem example (C363).* The monitor of SubSystemTest reads the output while the time domain writes it. In the first run it may
log a vector with one element nan and the other one set. Later runs write the same values again and hide this.

*Not modelled, seen while reading.* The functions of CursesUI which check whether a command is active lack a
return statement (they are called from updateScreen, which nobody calls).
src/core/RingBuffer.cpp is not compiled and does not fit the header.


## 5. Properties, theorems, assumptions

Letter after a theorem: its axioms (section 3). "(p)" after a title means partial or refuted,
with the reason in the note.

### C01 Safety transitions follow exactly the registered events

After any history of event triggers and safety cycles, the level executed by a cycle is the entry level or the previous level, or a level that is the registered destination of some event that was triggered (with sufficient rights) while an earlier level was current. A trigger that has no registered destination in the current level changes nothing.

*PropSafety.v* `C01_safety_transitions` 0; `C01_unregistered_event_ignored` 0

Every log of any finite history of triggers and cycles from an accepted configuration is a run of the specification automaton `allowed`: an executed level is the entry level, the previous level or the registered destination of a triggered event; unregistered events change nothing.

### C02 Private safety events cannot be fired from outside

An event registered as private in the current level has an effect only when it is triggered through the safety system's own context (from a level action or an input action). From any other context it leaves the current and the pending level unchanged.

*PropSafety.v* `C02_private_event_from_outside` 0; `C02_private_event_from_inside` 0

Private events are ignored outside the private context and effective inside.

### C03 The lowest destination wins among events of one cycle (p)

If several events with destinations are triggered between two cycles, the level of the next cycle is the destination with the lowest level number, whatever the order of the triggers.

*PropSafety.v* `C03_lowest_destination_wins_partial` 0; `C03_trigger_order_irrelevant_partial` 0; `C03_lowest_destination_wins_refuted` 0

REFUTED: a self-transition among the triggers makes a later, higher destination win (events to 7, 5, 9 in level 5 end in 9). Partial: without a self-transition the lowest destination wins and the order of the triggers is irrelevant.

### C04 One safety cycle performs a fixed, complete sequence of effects

Each cycle executes exactly one level: it checks every input action of that level once and in order, then runs the level action once, then drives every output action of that same level once and in order, even when an event fired during the cycle; the level change takes effect only for the next cycle.

*PropSafety.v* `C04_cycle_effects` 0; `C04_level_change_after_cycle` 0

The non-trigger effects of a cycle are exactly one execution of the pending level: all input checks, the level action, all output actions, in order; the change is adopted at the end.

### C05 Accepted safety configurations cover every critical signal

The system accepts a safety configuration exactly when there is an entry level and every level has an output action for every critical output and an input action for every critical input; in an accepted configuration each cycle therefore writes every critical output and reads every critical input (at least once).

*PropSafety.v* `C05_accepted_iff_covered` 0; `C05_cycle_covers_critical` 0

verify() accepts exactly the covered configurations; a cycle of a covered level reads/drives every critical signal. (See C77 for levels that were never added.)

### C06 Events added to a range of levels reach exactly that range

Adding an event to a level and above / and below / between two levels makes the event fire in exactly the levels added so far whose number is >= / <= / within the inclusive bounds, and in no other; other events keep their destinations.

*PropSafety.v* `C06_event_to_level_and_above` 0; `C06_event_to_level_and_below` 0; `C06_event_to_levels_between` 0

Exact characterisation of the three range registrations.

### C07 The first registration of an event in a level wins

Once an event has a destination in a level, later registrations of the same event in that level do not change the destination nor the visibility of the event.

*PropSafety.v* `C07_first_registration_wins` 0; `C07_single_registration` 0

First registration wins (std::map::insert).

### C08 The activation counter counts cycles since the level was entered

While a level is active, the counter a level action observes equals the number of consecutive cycles for which that level has been executed since it was last chosen as destination (1 in the first cycle).

*PropSafety.v* `C08_activation_counter` 0; `C08_counts_from_start` 0; `C08_counts_from_entry` 0

The counter clause is part of the automaton of C01_safety_transitions (al_act); C08_activation_counter is its explicit reading for phases without triggers. Counts are modulo 2^32. A self-transition fired in the same cycle lets the action observe 0.

### C09 Input checks fire exactly when the input violates the requirement

A checked logic input fires its event exactly when the read value differs from the required one; a range-checked input fires exactly when the value lies strictly outside [min,max] (or strictly inside, for an inverted range).

*PropSafety.v* `C09_logic_check_fires` 0; `C09_range_check_fires_int` 0; `C09_range_check_fires_double` C; `C09_events_of_a_cycle` 0

bool, integer and binary64 (finite) inputs; the events of a cycle are exactly those of the firing actions.

### C10 Out-of-range detection includes not-a-number readings (p)

A range-checked critical input triggers the configured safety event whenever the reading is not a number inside the permitted range, including when it is NaN.

*PropSafety.v* `C10_nan_never_fires_refuted` 0; `C10_nan_is_silent_for_every_range` 0; `C10_infinite_reading_fires_partial` 0

REFUTED: NaN readings never fire, for any range. Partial: infinite readings fire.

### C11 Safety levels are totally ordered by creation

Levels receive consecutive numbers in the order they are added; comparison between any two levels is the strict total order of that creation order and never changes afterwards.

*PropSafety.v* `C11_levels_numbered_in_order` 0; `C11_numbers_never_change` 0

Numbers are consecutive in the order of addLevel (each level added once); event registrations never change them.

### C12 At most one safety system, and a failed construction does not block a later one (p)

A second safety system cannot be constructed while one exists; after all systems are gone (or a construction failed) a new one can be constructed.

*PropSafety.v* `C12_failed_construction_blocks_refuted` 0; `C12_two_live_systems_refuted` 0; `C12_at_most_one_partial` 0; `C12_reconstruction_partial` 0

REFUTED: a failed construction leaves instCount incremented and blocks every later construction; and the uint8_t counter wraps, so the 256th construction attempt succeeds while another system is alive. Partial: at most one below 256 attempts; reconstruction works without failures.

### C13 Ring buffer is a bounded FIFO

For every sequence of pushes and pops the pops return the accepted items in push order; a push is refused exactly when N items are stored, a pop exactly when none is stored; the reported length is the number of stored items.

*PropTask.v* `C13_ring_buffer_fifo` 0

Refinement to a bounded list queue for every capacity and operation sequence.

### C14 Harmonic tasks run exactly every k-th period

A harmonic task with factor k>=1 is executed in exactly every k-th run of its parent: after n runs it has been executed floor(n/k) times.

*PropTask.v* `C14_harmonic_count` 0; `C14_harmonic_exact_runs` 0

Exact run numbers and counts for every factor and number of runs.

### C15 Harmonic task lists keep each member's own rate

A list of harmonic tasks runs its members in insertion order, each exactly every k-th run, independent of the other members.

*PropTask.v* `C15_harmonic_list` 0

Exact set and order of tasks in every run.

### C16 Task periods that are multiples of the base period are accepted (p)

The executor accepts a harmonic task exactly when its period is an integer multiple (>=1) of its parent's period (within 1 %), and then runs it with that integer factor.

*PropTask.v* `C16_accepted_factor_partial` R; `C16_exact_multiple_partial` R; `C16_double_multiple_refuted` 0; `C16_within_limit_refuted` R; `C16_zero_period_refuted` 0

REFUTED: (a) in binary64 0.3/0.1 truncates to 2 and the task is rejected; (b) 2.99 with base 1 is rejected although within 1 % of 3; (c) period 0 is accepted with factor 0 (NaN deviation). Partial: accepted factors are >= 1 and within the limit, exact multiples are accepted (exact arithmetic).

### C17 Statistics are the mean, variance, minimum and maximum of all samples

After any non-empty sequence of samples the running statistics equal count, mean, population variance, minimum and maximum of exactly these samples.

*PropTask.v* `C17_statistics` R

Over the reals; the sums are the code's running sums.

### C18 Asynchronous tasks never run more often than they were requested

An asynchronous task is executed at most once per trigger, and without stop every trigger leads to an execution; no trigger is lost while the worker is busy.

*PropTask.v* `C18_at_most_once` 0; `C18_no_trigger_lost` 0

Interleaving model of semaphore, worker and callers.

### C19 Realtime tasks get priority before others, shorter periods first

Thread priorities are assigned so that every realtime task is ranked before every non-realtime task and within realtime tasks a shorter period gets the higher priority.

*PropTask.v* `C19_shorter_period_first` 0; `C19_realtime_first` 0; `C19_levels` 0; `C19_every_task` 0

For every result of std::sort allowed by its specification.

### C20 Stopping the executor is never lost (p)

A call to stop the executor issued at any time after it was started ends the executor's main loop.

*PropTask.v* `C20_stop_lost_refuted` 0; `C20_stop_while_looping_partial` 0

REFUTED: a stop issued between run() and line 276 is overwritten by running = true. Partial: a stop while looping always ends the loop.

### C21 A step or sequence runs its action at most when its precondition holds

Executing a step checks the precondition first; when it is false, the action and the exit condition are not executed and the step ends at once with result -1. When it holds the action is run and its result is returned.

*PropSeq.v* `C21_every_run_is_a_life` 0; `C21_false_precondition_ends` 0; `C21_action_needs_precondition` 0; `C21_action_in_run` 0; `C21_true_precondition_in_run` 0; `C21_false_precondition_in_run` 0; `C21_result` 0

Proved for every step at every nesting level, including exception sequences: the log of any history of runs is a concatenation of runs of the life-cycle automaton (SeqSpec.astep). Concurrently running (non-blocking) sequences are not modelled.

### C22 A step ends only for a permitted reason

A running step ends only when its exit condition holds, or when a monitor (its own or one of a blocking ancestor) requested the abort; when it ends its state is idle again.

*PropSeq.v* `C22_end_reason` 0

Each end is justified by a false precondition, a true exit condition or a fired abort/restart monitor of the step or a caller; afterwards all sequences are idle and unlocked (C21_every_run_is_a_life).

### C23 A restart monitor re-runs the action

When a monitor with restart behaviour fires while the step runs, the precondition is evaluated again and the action is run again; the number of action executions is one plus the number of restarts (when the precondition holds).

*PropSeq.v* `C23_handled_restarts_happen` 0; `C23_restart_checks_precondition` 0; `C23_once_per_restart` 0; `C23_action_count` 0; `C23_restart_in_run` 0

Exactly one evaluation of the precondition per restart after the start; the action runs exactly when it holds. A restart monitor that is true before the first start restarts without an earlier action (bounds in C23_action_count). See C90 for a permanently true restart condition.

### C24 Monitors of calling sequences apply to nested blocking steps

A step checks its own monitors and those of every blocking ancestor in its call stack; the stack of a step called by a blocking caller is the caller's stack extended by the step.

*PropSeq.v* `C24_all_monitors_checked` 0; `C24_stack_of_callers` 0

The evaluated monitors are exactly those of the stack in order (monitors without exception sequence); the effect is C91/C92.

### C25 Timeouts fire only after the configured time

A timeout condition set to T>0 seconds is false until more than T seconds (in whole milliseconds) elapsed since its first evaluation after start or reset, and true from then on; a timeout of 0 never fires.

*PropSeq.v* `C25_first_evaluation_starts` R; `C25_reset_restarts` R; `C25_fires_only_after_timeout` R; `C25_fires_within_a_millisecond` R; `C25_stays_true` R; `C25_zero_never_fires` R

Over exact reals, nanosecond clock; double instance evaluated in the example.

### C26 Sequence names and ids identify sequences uniquely

Sequences have distinct non-empty names; the id of each is its registration index and looking up by id or by name returns exactly that sequence or fails.

*PropSeq.v* `C26_ids_and_names` 0; `C26_registration_accepted_iff_new` 0

Proved for all registration histories including clearList().

### C27 Inputs keep their first connection and fail loudly when unconnected

A second connect on a connected input is refused and leaves the first connection; reading an input that is not connected raises a fault naming the block; after disconnecting, a new connection is possible.

*PropCtrl.v* `C27_first_connection_kept` 0; `C27_connect_result` 0; `C27_reconnect` 0; `C27_read_sound` 0; `C27_read_complete` 0; `C27_read_unconnected` 0

### C28 Block inputs and outputs are bounds-checked

Getting input or output number i of a block with n inputs or outputs succeeds exactly for i<n, otherwise an index fault is raised.

*PropCtrl.v* `C28_ports_checked` 0

### C29 Signal ids are unique (p)

No two live signals share an id and no signal has the id reserved for invalid signals.

*PropCtrl.v* `C29_ids_unique_partial` 0; `C29_counter_wraps_refuted` 0; `C29_reserved_id_refuted` 0; `C29_copy_shares_id_refuted` 0

REFUTED: ids are a 16 bit counter, so the 65536th new signal gets the reserved id 0 and later ones repeat ids; the implicit copy constructor copies the id. Proved: up to 65535 default-constructed signals have distinct non-zero ids.

### C30 Time domains run all blocks in order and turn block faults into the safety event

A running time domain runs its blocks in the order they were added; when a block reports an unconnected input or a NaN output the rest of the blocks are skipped and the registered safety event is triggered, or, when none is registered, a fault naming the time domain is raised. A stopped time domain runs nothing.

*PropCtrl.v* `C30_blocks_in_order` 0; `C30_all_blocks_run` 0; `C30_fault_stops_and_triggers` 0; `C30_stopped` 0; `C30_no_other_case` 0

### C31 Saturation output always lies within its limits

For limits lower<=upper and any non-NaN input the output lies within [lower,upper], equals the input when the input is within the limits and the nearest limit otherwise; the input timestamp is kept.

*PropCtrl.v* `C31_saturation` 0; `C31_saturation_vector` 0

All doubles including infinities, scalar and vector.

### C32 Rate limiter bounds the change per run

With an enabled rate limiter, two consecutive outputs differ by at least the falling limit times dt and at most the rising limit times dt, and the output equals the input when the requested change is within the limits.

*PropCtrl.v* `C32_rate_limited` R; `C32_first_run_double` 0

Exact real arithmetic, increasing time stamps; the first run (previous value NaN) for all doubles.

### C33 The integrator output stays within its limits and integrates in between

The integrator's value never leaves [lower,upper] (once inside); while the limits are not reached the output is the initial condition plus the sum of input times elapsed time over all enabled runs after the first.

*PropCtrl.v* `C33_integrator_limits` 0; `C33_integrator_value` R

Limits for all doubles, value of the integral in exact real arithmetic.

### C34 The differentiator computes the difference quotient

From the second run on, with a changed time stamp, the output is the difference of the last two inputs divided by their time difference, and the first output is 0; with an unchanged time stamp the previous output is kept.

*PropCtrl.v* `C34_difference_quotient` R; `C34_time_stamp_in_the_middle` 0

Exact real arithmetic; see C102 for close time stamps in binary64.

### C35 Sum and product blocks compute the mathematical result over all inputs

The sum block outputs the sum of all its inputs with the configured signs; negating or presetting a non-existing input raises a fault and changes nothing.

*PropCtrl.v* `C35_sum_value` R; `C35_summands_later` 0; `C35_summands_first` 0; `C35_run_keeps_signs` 0; `C35_negate` 0; `C35_preset` 0; `C35_product` R

Sum in exact real arithmetic; index checks for all number types.

### C36 Multiplexing then demultiplexing is the identity

Feeding a demultiplexer with the output of a multiplexer of the same size reproduces every input value, and vice versa.

*PropCtrl.v* `C36_demux_mux` 0; `C36_mux_demux` 0

### C37 Gain changes smoothly, without overshoot, within its limits (p)

With smooth change enabled, each run moves the effective gain toward the last accepted target by at most the configured increment, never past the target, and reaches it after finitely many runs; the effective gain always stays within [min,max] and setting a gain outside [min,max] has no effect.

*PropCtrl.v* `C37_run_moves_to_target_partial` R; `C37_reaches_target_partial` R; `C37_within_limits_partial` 0; `C37_set_outside_refused_partial` 0; `C37_moves_away_refuted` 0; `C37_never_reached_refuted` 0

REFUTED: setGain while smooth change is off does not update the target, so enabling smooth change moves the gain back to the old target; in binary64 a small increment can be absorbed so that the target is never reached. Proved: step, no overshoot, arrival (reals) and limits, refusal (all doubles).

### C38 Delay reproduces the input of a fixed number of runs earlier

A delay block with buffer length n = floor(delay/sampleTime) >= 1 outputs, in every run k >= n-1 (counting from 0), the input signal of run k-(n-1); before that its output is not written.

*PropCtrl2.v* `C38_delay` 0; `C38_buffer_length` R; `C38_too_short` R

### C39 Delay of n sample times delays by n samples (p)

A delay block for a delay of n sample times outputs the input of n runs earlier.

*PropCtrl2.v* `C39_one_sample_short_refuted` 0; `C39_rounding_refuted` 0; `C39_conversion_refuted` 0; `C39_delay_partial` 0

REFUTED: the buffer of n elements delays by n-1 runs; 0.3/0.1 in binary64 gives 2 elements, and a negative delay is an undefined conversion. Proved: the delay is exactly n-1 runs.

### C40 Wrap-around output is congruent to the input and within range (p)

The output differs from the input by an integer multiple of the range width and lies in [min,max] for every input.

*PropCtrl2.v* `C40_congruent_partial` R; `C40_inside_partial` R; `C40_identity_inside_partial` R; `C40_multiples_not_wrapped_refuted` R; `C40_double_outside_refuted` 0

REFUTED: an input congruent to the lower bound is not wrapped (3 on [-1,1] stays 3), and in binary64 the negative remainder branch leaves the range. Proved: congruence, identity inside and range for all other inputs.

### C41 Switch changes its input only when armed and triggered once (p)

A switch block forwards exactly the selected input; it changes the selection only by an explicit request with a valid index or when it is armed and the watched value comes within delta of the switch level, and after an automatic switch it does not switch again until armed again; combined switches change together.

*PropCtrl2.v* `C41_forwards_selected_partial` 0; `C41_request_partial` 0; `C41_invalid_request_partial` 0; `C41_not_armed_partial` 0; `C41_automatic_partial` 0; `C41_not_together_refuted` 0

REFUTED: a switch request to a combined switch does not change the switch it was combined with. Proved: forwarding, requests, and automatic switching.

### C42 A signal checker fires at most once until reset

A signal checker triggers its event in the first run in which the signal violates the limits while the safety level condition holds, and not again before it is reset; within limits it never triggers.

*PropCtrl2.v* `C42_fires_once` 0

### C43 A signal checker detects not-a-number in vectors as in scalars (p)

A signal that contains NaN is reported as out of range, for scalar and for vector signals.

*PropCtrl2.v* `C43_scalar_nan_partial` 0; `C43_vector_numbers_partial` 0; `C43_vector_nan_accepted_refuted` 0; `C43_vector_nan_accepted_partial` 0

REFUTED: a vector with NaN components passes the vector comparison. Proved: scalars detect NaN; vectors without NaN are checked element by element.

### C44 A trace holds the last samples in order

After n enabled runs the trace of length k returns the last min(n,k) samples, oldest first, together with their timestamps.

*PropCtrl2.v* `C44_trace` 0

### C45 Step source switches from its initial to its final value after the delay

The step block outputs the initial value up to the given delay and the initial value plus the step afterwards, never going back until reset.

*PropCtrl2.v* `C45_step` 0

Time readings of a run are inputs of the model (the run reads the clock twice).

### C46 Peripheral outputs never pass NaN or infinity to the hardware

When the input of a peripheral output block is NaN or infinite, the configured safe value is written instead and a fault is raised; otherwise exactly the input value and its timestamp are written.

*PropCtrl2.v* `C46_written_value` 0

### C47 Low pass filter stays in the range of its inputs

For 0<=alpha<=1 the low pass filter's output always lies between the minimum and maximum of all inputs so far, starts at the first input and satisfies the exponential smoothing recurrence; a constant input is a fixed point.

*PropCtrl2.v* `C47_recurrence` R; `C47_range` R; `C47_constant` R

Exact real arithmetic; binary64 in C224.

### C48 Moving average is the weighted sum of the last N inputs

In every run the moving average outputs the coefficient-weighted sum of the last N inputs (zeros before the first).

*PropCtrl2.v* `C48_moving_average` R

Exact real arithmetic; binary64 in C225.

### C49 Median filter outputs the median of the last N inputs

In every run the median filter outputs the element of rank floor(N/2) among the last N inputs (zeros before the first), hence always one of them, for any order of arrival.

*PropCtrl2.v* `C49_median` 0; `C49_sort_exists` 0

For every sort function meeting the contract of std::sort, inputs without NaN.

### C50 Kalman filter covariance stays symmetric and positive semidefinite (p)

If the initial error covariance, process and measurement noise are symmetric (positive semidefinite, measurement noise such that the innovation covariance is invertible), the error covariance remains symmetric (and positive semidefinite) after every prediction and correction.

*PropKalman.v* `C50_history_partial` 0; `C50_correction_partial` 0; `C50_five_outputs_refuted` 0; `C50_default_start_partial` 0

REFUTED: with five outputs (an order other than 1, 3 or a power of two) the matrix inverse uses uninitialised memory and a correction leaves a covariance that is not symmetric. Proved for 1, 3 and 2^j outputs: over any ordered field all histories stay symmetric and positive semidefinite, if the measurement noise is positive definite.

### C51 Kalman filter reproduces a noise-free system exactly

If the estimate equals the true state of a noise-free system, it stays equal after every prediction and correction whatever the gains are.

*PropKalman.v* `C51_exact` 0; `C51_prediction_error` 0; `C51_correction_error` 0

Proved for every number of inputs, outputs and states, also where the inverse is wrong: the error is multiplied by A or by 1 - K C.

### C52 Constant acceleration planner reaches exactly the target

After an accepted move the planned position starts at the start position and, in the cycle that reports the end, equals the target exactly with zero velocity and acceleration; velocity and acceleration limits are respected in every cycle.

*PropPlan.v* `C52_reaches_target` S; `C52_profile` S

### C53 Constant jerk planner reaches its target (p)

After an accepted move the constant jerk planner reaches the end position after finitely many cycles and reports the end.

*PropDbl.v, PropPlan.v* `C53_ends_double_partial` C; `C53_jerk_never_ends_refuted` C; `C53_jerk_reaches_partial` C

REFUTED: without a constant velocity phase dT2 is 0, and phase 3 is never left because the time is compared with the duration only after it was advanced (exact arithmetic witness: distance 1, velocity 10, jerk 1, dt 1). Proved when the velocity limit binds, with integration and limits in every cycle; in binary64 the end is proved for phases of n cycles with (n+1)^2 dt <= 4096.

### C54 Cubic planner integrates piecewise constant jerk exactly

The cubic planner's acceleration, velocity and position outputs are the exact integrals of the piecewise constant jerk of the loaded path at every sample.

*PropPlan.v* `C54_path_integrates` R; `C54_scaled_integrates` R; `C54_holds` 0; `C54_previous` 0

### C55 A planner refuses new moves until the previous one ended

A move request is refused while a motion is in progress and when the distance is zero, and a refused request does not change the running motion.

*PropPlan.v* `C55_busy` 0; `C55_no_distance` 0; `C55_refused_unchanged` 0

### C56 Matrix element access is bounds-checked and layout is consistent (p)

Reading an element after writing it returns the written value and no other element changes; (row,col) and linear access agree (column-major); every out-of-range access raises an exception instead of touching memory.

*PropMat.v* `C56_write_read` 0; `C56_out_of_range` 0; `C56_linear_out_of_range` 0; `C56_column_major` 0; `C56_one_by_one_refuted` 0

REFUTED for the 1 x 1 specialisation only: its indices are uint8_t, so index 256 wraps to 0 and is accepted. Proved for all other sizes.

### C57 Matrix product, sum and transpose obey the ring laws

Over exact arithmetic the library's product, sum, scalar multiplication and transpose are the mathematical ones; hence associative, distributive, identity-neutral, and transpose reverses products.

*PropMat2.v* `C57_product` 0; `C57_sum` 0; `C57_scalar` 0; `C57_transpose` 0; `C57_eye_zero` 0; `C57_associative` 0; `C57_distributive` 0; `C57_identity` 0; `C57_transpose_product` 0

Over every commutative unit ring, equal to the mathcomp operations.

### C58 Determinant equals the mathematical determinant for every size

det() returns the Leibniz determinant for every square matrix of any order (and throws for non-square).

*PropMat2.v* `C58_determinant` 0; `C58_non_square` 0; `C58_multiplicative` 0

Over every commutative unit ring, equal to the mathcomp determinant.

### C59 Inverse is a two-sided inverse (p)

Inverting an invertible square matrix yields a matrix whose product with the original is the identity; inverting a singular one raises a fault.

*PropMat2.v* `C59_inverse_partial` 0; `C59_orthogonal_partial` 0; `C59_singular` 0; `C59_inverse_refuted` 0; `C59_other_orders` 0; `C59_one_by_one_refuted` 0

REFUTED: for every order M >= 4 that is not a power of two operator! returns a matrix that is not an inverse (line 722 computes a & (M-1)), and the 1 x 1 specialisation returns infinity for 0. Proved for orders 2, 3, powers of two, and for orthogonal matrices of every order; singular matrices always raise.

### C60 rank() returns the rank of the matrix (p)

rank() returns the dimension of the row space for every matrix.

*PropMat2.v* `C60_rank_partial` 0; `C60_rank_too_small_refuted` 0; `C60_rank_too_large_refuted` 0; `C60_one_by_one_refuted` 0

REFUTED in both directions (a 4 x 4 permuted identity has rank() 3, a 2 x 2 matrix of ones has rank() 2, the 1 x 1 specialisation is inverted). Proved when the leading minors of the sorted matrix are nonzero up to the rank; sorting permutes the rows.

### C61 Rotation matrices are proper rotations

The rotation matrices about x, y and z are orthogonal with determinant 1 for every angle, compose by adding angles, and their inverse is the rotation by the negative angle.

*PropMat.v* `C61_entries` S; `C61_orthogonal` S; `C61_angles_add` S; `C61_inverse` S; `C61_other_sizes` R

Exact real arithmetic.

### C62 Cross product and skew symmetric matrix agree

The cross product of two vectors is orthogonal to both, anti-commutative, and equals multiplication by the skew symmetric matrix.

*PropMat2.v* `C62_cross_product` 0; `C62_perpendicular` 0; `C62_anticommutative` 0; `C62_skew` 0

Over every commutative unit ring.

### C63 Polynomial and fraction arithmetic is evaluation-compatible

Evaluating the sum/product of two polynomials (fractions) equals the sum/product of their evaluations at every point (where denominators do not vanish), for all orders.

*PropPoly.v* `C63_product` 0; `C63_sum` 0; `C63_scalar` 0; `C63_coefficients` 0; `C63_fraction_product` 0; `C63_fraction_sum` 0; `C63_fraction_scalar` 0; `C63_quotient` 0; `C63_construct` 0

### C64 z transfer function implements its difference equation (p)

The z-transfer-function block computes the difference equation given by its numerator and denominator, starting from rest, without accessing memory outside its own history.

*PropZ.v* `C64_outside_refuted` 0; `C64_always_outside` 0; `C64_uninitialised_refuted` 0; `C64_not_from_rest_refuted` 0; `C64_difference_equation_partial` 0; `C64_equation_partial` 0

REFUTED: every cycle reads index -1 of both arrays and the histories are never initialised. Proved: with harmless accesses the block continues the difference equation from whatever its memory contains.

### C65 Frames are unique per coordinate pair and compose associatively (p)

At most one live frame exists per ordered pair of coordinate systems; the product of frames a->b and b->c is a frame a->c whose matrix is the matrix product; a product with mismatching systems faults.

*PropFrame.v, PropFrame2.v* `C65_unique_partial` 0; `C65_copy_refuted` 0; `C65_copy_deleted_refuted` 0; `C65_lookup_partial` 0; `C65_create` 0; `C65_existing_pair_partial` 0; `C65_product` 0; `C65_product_copied_refuted` 0; `C65_mismatch` 0; `C65_rotation_translation` 0; `C65_defined` 0; `C65_associative` 0

REFUTED when frames are copied (two frames per pair; the copy cannot be found), also for a product whose return copy is not elided. Proved for histories without copies; products, mismatch, lookups and associativity (commutative rings) proved.

### C66 Looking up a coordinate system has no side effects (p)

Asking for an unknown coordinate system id does not influence later operations.

*PropFrame.v* `C66_lookup_refuted` 0; `C66_lost_forever_partial` 0; `C66_others_partial` 0; `C66_answer` 0

REFUTED: the lookup inserts a null entry, after which a coordinate system of that id can never be constructed. Proved: it is lost for ever, and nothing else is affected.

### C67 Exclusive hardware claims are exclusive (p)

An input or output that was claimed exclusively cannot be claimed again (exclusively or not) until it is released, and one claimed non-exclusively cannot be claimed exclusively until released.

*PropHal.v* `C67_claims_partial` 0; `C67_release` 0; `C67_claims_refuted` 0

REFUTED for names that were never registered: getInput/getOutput reserve the null pointer, which all unknown names share. Proved for every registered signal and every history.

### C68 Releasing one shared claim keeps the others (p)

When a signal is shared by several non-exclusive claims, releasing one of them does not allow an exclusive claim while the others are in use.

*PropHal.v* `C68_shared_refuted` 0; `C68_shared_partial` 0; `C68_one_release_frees` 0

REFUTED: one release frees a signal however many users share it. Proved for histories without a release.

### C69 Unknown signal names are reported and leave no trace (p)

Requesting a signal that does not exist raises a fault and does not influence later requests or registrations.

*PropHal.v* `C69_unknown_partial` 0; `C69_no_trace_partial` 0; `C69_unknown_refuted` 0; `C69_no_trace_refuted` 0

REFUTED: getInput/getOutput return a null pointer for unknown names, and a failed request inserts a null entry so that a later registration of the name fails. Proved for the typed requests: they raise, and no call other than that registration can see a difference.

### C70 Configured scaling maps the declared end points (p)

A scale entry with minIn,maxIn,minOut,maxOut maps minIn to minOut and maxIn to maxOut, and consecutive entries are composed in order.

*PropHal.v* `C70_scale_partial` R; `C70_end_points` R; `C70_scale_refuted` R; `C70_unknown_property` 0; `C70_missing_range` 0; `C70_finite` 0

REFUTED: wrong whenever the output limits do not enclose zero (0..10 -> 1..11 maps 0 to 3.4). Proved for all chains whose limits enclose zero.

### C71 Configuration saved to a file is restored by loading it (p)

Saving a configuration of integer, integer array and string properties and loading the file restores exactly the saved values, for property names without white space and strings without line breaks; unknown properties in the file are ignored.

*PropConf.v* `C71_saved_restored_partial` 0; `C71_unknown_ignored` 0; `C71_empty_array_refuted` 0

REFUTED for arrays without elements (loading the saved file throws). Proved for all other property sets, also when only some of the properties are registered on loading.

### C72 Loading a configuration never writes outside the registered variables (p)

Whatever the file contains, loading writes at most the declared number of elements of each array property.

*PropConf.v* `C72_no_overrun_refuted` 0; `C72_longer_array` 0; `C72_no_overrun_partial` 0

REFUTED: a line with more elements than the array has writes past its end. Proved for files whose lines have at most the declared number of elements.

### C73 Log messages appear exactly when their level is visible

A message is written exactly when its level is at least as urgent as the visible level at the time it is created, completely and in one piece.

*PropLog.v* `C73_messages` 0

All histories of writers, loggers, level changes and entries; insertions into the stream are taken to be atomic.

### C74 Socket frames are reassembled whatever the chunking (p)

A peer reading fixed-size frames delivers exactly the next frame of the byte stream, for every way the network splits the stream; after a connection loss the receive buffer reads zero.

*PropSock.v* `C74_frames` 0; `C74_connection_partial` 0; `C74_zero_after_loss` 0; `C74_torn_frame_refuted` 0; `C74_uninitialised_refuted` 0

REFUTED on connection loss: a mixture of two frames (or uninitialised bytes in the first cycle) is published before the buffer is zeroed. Proved: frames for every chunking; for every behaviour of the network whole frames, one torn frame, zero.

### C75 A key press is reported exactly once (p)

Each detected key press is reported by exactly one read of the key's input; reads of one key do not consume another key's press.

*PropHal.v* `C75_keys_partial` 0; `C75_two_calls_refuted` 0; `C75_short_names_refuted` 0

REFUTED for a second addKeys (nofKeys is restarted) and for too few names (undefined behaviour). Proved for one addKeys with at most 255 differently named keys.

### C76 Transitions are taken from the current level under every thread interleaving (p)

For every interleaving of threads triggering events with the safety cycle, a level change from level c to level d happens only if an event leading from c to d was triggered.

*PropSafety.v* `C76_stale_destination_refuted` 0; `C76_interleaved_transitions_partial` 0; `C76_concurrent_lowest_partial` 0

REFUTED: the destination is read outside the mutex, so an event can be applied to a level in which it is not registered. Partial: for every interleaving each executed level is a registered destination from some level that has been current. Also proved: for every interleaving of triggers between two cycles the lowest destination is pending in the end (without self-transitions).

### C77 No cycle executes a level that was not verified (p)

In an accepted configuration, every level that any cycle executes has been checked to cover all critical inputs and outputs.

*PropSafety.v* `C77_unregistered_level_refuted` 0; `C77_executed_levels_covered_partial` 0

REFUTED: verify() does not check that the entry level and the destinations were added. Partial: holds when they were.

### C78 Toggle outputs alternate strictly, set outputs stay constant

A toggle output action writes low, high, low, ... on successive cycles starting with low; a set output action writes its value in every cycle; a leave action writes nothing.

*PropSafety.v* `C78_toggle_alternates` 0; `C78_set_constant` 0; `C78_leave_silent` 0

Set and toggle output actions write the documented sequences.

### C79 Executor wake-up times do not drift

The n-th wake-up target of the executor loop is start + n*period, independent of how long the cycles took.

*PropTask.v* `C79_wakeup_no_drift` R

Exact arithmetic; the binary64 time point is treated in C223.

### C80 The periodic counter measures every period except the first

After any sequence of cycles the recorded periods are the differences of consecutive start times, the jitters are period minus nominal period, and every run time is recorded.

*PropTask.v* `C80_period_measurement` R

Over the reals.

### C81 The default period monitor warns exactly outside the tolerance band

The default monitor warns about a period T iff T < period*(1-tolerance) or T > period*(1+tolerance).

*PropTask.v* `C81_default_monitor` R

Over the reals.

### C82 Constructing a periodic counter has defined behaviour (p)

Constructing a PeriodicCounter (also with its default arguments) or setting its period has no undefined behaviour.

*PropTask.v* `C82_default_counter_refuted` 0; `C82_counter_defined_partial` R

REFUTED: the default period 0 gives the int conversion of infinity. Partial: defined for periods above 20/(2^31-1) s.

### C83 Async tasks do not use members before initialisation (p)

For every interleaving of the constructor of Async with the worker thread, the worker only uses initialised members.

*PropTask.v* `C83_async_construction_refuted` 0; `C83_async_construction_partial` 0

REFUTED: the thread member is initialised before finished and log. Partial: no problem when the constructor completes first.

### C84 Nested harmonic tasks run at the product of their factors

A task nested below parents with factors k1..kn (itself kn) is executed floor(m/(k1*...*kn)) times in m base periods.

*PropTask.v* `C84_nested_rate` 0

Under the assumption that a triggered task finishes before its next trigger.

### C85 The executor's thread tree realises the task tree

If thread creation succeeds, the tree of threads has the shape and tasks of the configured tree and every factor k>=1 approximates the period within 1 %; if all periods are exact multiples, creation succeeds.

*PropTask.v* `C85_thread_tree` R; `C85_exact_multiples_accepted` R

Over the reals.

### C86 Assigned realtime priorities are valid (p)

Every priority the executor assigns to a realtime task is a valid SCHED_FIFO priority (>= 1) below the executor's own.

*PropTask.v* `C86_priority_range_refuted` 0; `C86_priority_range_partial` 0

REFUTED: the 49th realtime task gets priority 0. Partial: valid for at most 48 realtime tasks.

### C87 The reported variance is never negative (p)

The variance computed by Statistics is non-negative for every sequence of samples.

*PropTask.v* `C87_double_variance_refuted` 0; `C87_variance_nonneg_partial` R

REFUTED: seven equal samples 7/3 give a negative variance in binary64. Partial: non-negative in exact arithmetic.

### C88 System time in nanoseconds is order preserving

The conversion of a timespec to nanoseconds is strictly monotone and does not wrap for the next 500 years.

*PropTask.v* `C88_clock_order` 0

Full proof.

### C89 A thread always runs the derived class's run method (p)

A thread object of a derived class executes the run() of the derived class, whenever the new thread gets scheduled.

*PropTask.v* `C89_thread_runs_base_refuted` 0; `C89_thread_runs_derived_partial` 0

REFUTED: the thread is started in the base constructor and may call the base run(). Partial: correct when the base constructor has ended.

### C90 A step whose exit condition holds ends (p)

A step whose exit condition is true in every poll ends after finitely many polls, whatever its monitors do.

*PropSeq.v* `C90_restart_livelock_refuted` 0; `C90_quiet_step_ends_partial` 0

REFUTED: a restart monitor whose condition stays true makes the step restart for ever (no fuel suffices), even if the exit condition is always true. Partial: without a true monitor the step ends in the first poll with a true exit condition.

### C91 An abort monitor of a caller ends the running nested step (p)

When in a poll of a step an abort or restart monitor of a blocking caller is true, the step and all sequences between it and the owner of the monitor are put into aborting.

*PropSeq.v* `C91_abort_masked_by_outer_resume_refuted` 0; `C91_own_restart_wins_refuted` 0; `C91_single_monitor_partial` 0

REFUTED: only the last true monitor on the stack counts: a simultaneously true resume monitor of an outer sequence masks the abort, and an own restart monitor of the step is served first (action runs again). Partial: a single true monitor has exactly the documented effect.

### C92 After an abort request no further step of the sequence acts (p)

After an abort monitor of a sequence fired, the steps that its running action still starts end without running their action.

*PropSeq.v* `C92_abort_not_latched_refuted` 0; `C92_start_while_aborting_partial` 0

REFUTED: the abort request is not latched: if the condition is false again, the next step of the aborted sequence runs its action. Partial: a step started while the condition is true ends with -1 without precondition or action.

### C93 Single stepping lets one step pass per step command (p)

After single stepping is switched on, the number of steps that start does not exceed the number of step commands given since, and a step command lets a waiting step pass.

*PropSeq.v* `C93_leftover_step_refuted` 0; `C93_step_bound_partial` 0; `C93_step_command_passes_one_partial` 0

REFUTED: nextStep left over from restart() (or an earlier step) lets one step pass without command. Partial: at most one more than the commands.

### C94 Aborting all sequences is permanent (p)

After Sequencer::abort() the abort condition of every registered sequence is set and stays set.

*PropSeq.v* `C94_start_after_abort_refuted` 0; `C94_abort_all_partial` 0

REFUTED: start() resets the own abort condition, so a sequence started after Sequencer::abort() runs. Partial: stays set until the sequence is started.

### C95 The run of a sequence is determined by the condition values

For a given configuration and given values of the successively evaluated conditions, a run has at most one outcome, log and end state.

*PropSeq.v* `C95_outcome_determined` 0; `C95_more_fuel` 0

Determinism and fuel independence of the model.

### C96 A successful connect leaves the input connected (p)

When connect on an input returns true, the input is connected afterwards.

*PropCtrl.v* `C96_connect_null_refuted` 0; `C96_connect_partial` 0

REFUTED: connect(nullptr) returns true and leaves the input unconnected. Proved for non-null arguments.

### C97 Port numbers beyond the last port are refused for every index value (p)

Getting input or output number i of a block with n ports is refused with an index fault for every i >= n of the caller's index type, also beyond 255.

*PropCtrl.v* `C97_index_truncated_refuted` 0; `C97_every_index_plus_256_partial` 0; `C97_index_refused_partial` 0

REFUTED: indices are truncated to uint8_t, getIn(256) is getIn(0). Proved: refused when the truncated index is beyond the last port.

### C98 The integrator saturates at its limit (p)

When the integral passes an upper or lower limit the output of the integrator is that limit.

*PropCtrl.v* `C98_no_saturation_refuted` 0; `C98_keeps_previous_partial` 0

REFUTED: the integrator keeps its previous value instead of going to the limit. Proved: exactly when it integrates and when it keeps the value.

### C99 The parabolic gain characteristic is odd, monotone and below the linear one

The parabolic characteristic of the gain block is odd, linear up to the transition point, proportional to a square root beyond it, nondecreasing everywhere and never larger in magnitude than the linear gain.

*PropCtrl.v* `C99_parabolic_odd` S; `C99_parabolic_linear_part` S; `C99_parabolic_root_part` S; `C99_parabolic_below_linear` S; `C99_parabolic_monotone` S

### C100 Subsystem outputs are bounds-checked and initialised (p)

Setting a subsystem output with an index that does not exist raises a fault, and getting an output that was not set raises a fault.

*PropCtrl.v* `C100_set_out_unchecked_refuted` 0; `C100_set_out_beyond_partial` 0; `C100_get_out_unset_refuted` 0; `C100_get_out_unset_partial` 0; `C100_get_out_partial` 0

REFUTED: setOut does not check its index and getOut returns an uninitialised pointer for an output that was not set. Proved: getOut faults beyond the last output and returns an output that was set.

### C102 Blocks distinguish all time stamps (p)

Two signals with different nanosecond time stamps have different times for the time dependent blocks (differentiator, integrator, rate limiter).

*PropCtrl.v* `C102_time_stamps_collide_refuted` 0; `C102_quotient_lost_refuted` 0; `C102_exact_arithmetic_partial` R

REFUTED: time stamps are converted to double seconds, 2^60 and 2^60+1 ns collide and the differentiator keeps its old value. Proved for exact arithmetic.

### C103 An integrator outputs numbers from its first run (p)

An integrator outputs a number (not NaN) in every run with number inputs, whether or not an initial condition was set.

*PropCtrl.v* `C103_integrator_nan_refuted` 0; `C103_integrator_nan_partial` 0; `C103_integrator_number_partial` 0

REFUTED: without setInitCondition the integrator outputs NaN in every run. Proved: with a value inside the limits the output is always a number.

### C101 Combining switches terminates (p)

Combining switch blocks and switching combined switch blocks terminates for every combination.

*PropCtrl2.v* `C101_mutual_combine_refuted` 0; `C101_ranked_partial` 0; `C101_combine_each_other_refuted` 0

REFUTED: two switches combined with each other recurse without bound. Proved: termination when combining is acyclic.

### C104 Setting the wrap-around range takes effect (p)

After setMinMax(min,max) the wrap-around block wraps to the new range.

*PropCtrl2.v* `C104_set_min_max_no_effect_refuted` 0; `C104_set_min_max_no_effect_partial` 0

REFUTED: setMinMax assigns the parameters to themselves, the range never changes.

### C105 A falling rate transition delivers the newest older signal (p)

Every run of the output block of a falling rate transition outputs the newest received signal older than its own time stamp, or the oldest received if none is older.

*PropCtrl2.v* `C105_newest_partial` 0; `C105_oldest_partial` 0; `C105_received_partial` 0; `C105_empty_buffer_refuted` 0; `C105_empty_always_partial` 0

REFUTED: the second run of the out block without a new signal reads an empty vector. Proved: newest older signal, else the oldest, while the buffer is not empty.

### C106 A reported automatic switch has taken place (p)

If a switch block reports an automatic switch or triggers its event, its selection is the configured next input.

*PropCtrl2.v* `C106_invalid_next_input_refuted` 0; `C106_valid_next_input_partial` 0

REFUTED: with an invalid next input the switch reports switching and triggers its event without changing. Proved for valid next inputs.

### C107 Running a switch block is always defined (p)

A run of a constructed switch block with connected inputs reads no uninitialised members and no input out of range.

*PropCtrl2.v* `C107_armed_without_condition_refuted` 0; `C107_armed_without_condition_partial` 0; `C107_initial_input_unchecked_refuted` 0; `C107_initial_input_unchecked_partial` 0; `C107_not_armed_partial` 0

REFUTED: arming without condition reads uninitialised members; the constructor does not check the initial input. Proved for unarmed switches with a valid selection.

### C108 A rising rate transition interpolates between the last two signals (p)

The runs of the output block after a received signal output values interpolated linearly between the last two signals, never beyond them.

*PropCtrl2.v* `C108_interpolates_partial` R; `C108_between_partial` R; `C108_extrapolates_refuted` 0

REFUTED: more runs than the ratio extrapolate beyond the newest signal. Proved: exact interpolation and range within the ratio (exact real arithmetic).

### C109 Only finite values reach the hardware (p)

A peripheral output block writes only finite values to its channel, whatever safe value is configured.

*PropCtrl2.v* `C109_finite_partial` 0; `C109_default_safe_value_refuted` 0

REFUTED: a channel without configured safe value writes NaN. Proved: with a finite safe value only finite values are written.

### C110 Every accepted move of the constant acceleration planner ends (p)

After an accepted move the constant acceleration planner reports the end after finitely many cycles, in the arithmetic the machine uses.

*PropDbl.v, PropPlan.v* `C110_ends_double_partial` C; `C110_move_never_ends_refuted` C; `C110_locked_axis_refuted` 0; `C110_ends_partial` S

REFUTED: in binary64 the accumulated time can miss the end of a phase by more than 1e-12 (dt 0.1, distance 10, velocity 0.1, acceleration 1), after which the planner never ends; also with an axis whose velocity limit and distance are both zero. Proved in exact arithmetic, and in binary64 for phases of n cycles with (n+1)^2 dt <= 4096 and dt >= 1e-9.

### C111 Planned positions are the integral of the planned velocities (p)

In every cycle of a constant acceleration move the position advances by the mean of the old and the new velocity times the sampling time.

*PropPlan.v* `C111_position_stalls_refuted` 0; `C111_integral_partial` S

REFUTED: without a constant velocity phase the position stalls for one cycle at maximum velocity. Proved with a constant velocity phase.

### C112 A scaled cubic path leads exactly over the requested distance (p)

After move(time, startPos, deltaPos) the cubic planner ends at startPos + deltaPos.

*PropPlan.v* `C112_misses_target_refuted` 0; `C112_target_partial` R

REFUTED: the durations are rounded segment by segment but all jerks use one common time scale (duration 4.5 for a path of 1 and 2 seconds ends at 21.168 instead of 19). Proved when no duration is rounded.

### C113 An accepted cubic move begins at its start position (p)

In the first cycle after an accepted move the cubic planner outputs the requested start position at rest.

*PropPlan.v* `C113_after_reset_refuted` 0; `C113_first_move_refuted` 0; `C113_begins_partial` R

REFUTED: after reset() followed by move() without an idle cycle, and for a move before the first run (t is uninitialised). Proved after an idle cycle.

### C114 Rows, columns and sub-matrices are copied element by element (p)

getCol, getRow and getSubMatrix return exactly the addressed elements, setCol and setRow replace exactly the addressed row or column, and addressing anything outside the matrix raises an exception.

*PropMat.v* `C114_get` 0; `C114_set` 0; `C114_sub_matrix` 0; `C114_sub_matrix_out` 0; `C114_set_vector_partial` 0; `C114_set_vector_refuted` R

REFUTED for setCol/setRow from a std::vector that is too short: it is read past its end (UB). Proved otherwise.

### C115 The comma initialiser fills the matrix row by row

M << a, b, c ... stores the k-th value in row k/N and column k mod N, leaves the remaining elements, and rejects more values than elements.

*PropMat.v* `C115_init` 0; `C115_too_many` 0

For every number type, including doubles.

### C116 Matrix comparison operators compare element by element (p)

A < B (and <=, >, >=) holds exactly when it holds for every element.

*PropMat.v* `C116_less_partial` 0; `C116_less_equal_partial` 0; `C116_less_refuted` 0

REFUTED for NaN elements: the operators test the negated opposite relation, so NaN < NaN holds. Proved for all ordered elements.

### C117 Matrix predicates and the trace (p)

trace() is the sum of the diagonal; isSymmetric, isOrthogonal, isDiagonal, isLowerTriangular, isUpperTriangular and == decide the mathematical properties, also for 1 x 1 matrices.

*PropMat.v, PropMat2.v* `C117_diagonal` 0; `C117_lower_triangular` 0; `C117_upper_triangular` 0; `C117_trace` 0; `C117_predicates` 0; `C117_orthogonal_refuted` 0

REFUTED only for isOrthogonal of the 1 x 1 specialisation (misses -1).

### C118 Typed signal access returns the registered object

getLogicInput, getScalableInput and the output variants return the object registered under the name and only if it has the requested type; a failing request claims nothing; a name is registered at most once; inputs and outputs do not influence each other.

*PropHal.v* `C118_typed_access` 0; `C118_failed_request_claims_nothing` 0; `C118_unique_registration` 0; `C118_inputs_and_outputs` 0

All histories.

### C119 The configured input range is the intersection of all limits (p)

The range computed from a chain of scale and range entries contains exactly the input values that respect the input and output limits of every entry.

*PropHal.v* `C119_range_partial` R; `C119_range_refuted` R; `C119_no_limit_refuted` R

REFUTED for falling scales (empty range) and for noLimit entries (they discard earlier limits). Proved (equivalence) for chains of rising scales with limits.

### C120 Gamepad state follows the events (p)

Each button and axis has the value of its last event, events with other numbers are ignored, and the edge flags tell whether the button changed with the latest event.

*PropHal.v* `C120_state` 0; `C120_edges_partial` 0; `C120_edges_refuted` 0

REFUTED for the edge flags: they stay set while events of other buttons arrive. State and axes proved; flags proved right after an event of the button.

### C121 Mouse position is the sum of all movements

Each mouse axis is the sum of the movements reported for it and each button has its last reported value.

*PropHal.v* `C121_mouse` 0

Signed overflow of the sum is undefined behaviour and excluded.

### C122 Raw axis values are decoded as signed 16 bit numbers

Each pair of bytes sent for a value of -32768..32767 is decoded to that value.

*PropHal.v* `C122_decode` 0

### C123 A sysfs pin reports its level on every read (p)

SysFsDigIn::get returns the (possibly inverted) pin level each time it is called.

*PropHal.v* `C123_pin_refuted` 0; `C123_always_undefined` 0; `C123_first_read_partial` 0

REFUTED: the member inverted is never initialised and the stream is not rewound, so every read (and even with inverted set, the second one) is undefined.

### C124 A configuration property is registered once and with a consistent length

Registering a property under a name that is already in use, or an array whose bounds do not enclose the declared number of elements, fails and changes nothing; every other registration adds exactly that property.

*PropConf.v* `C124_duplicate` 0; `C124_new` 0; `C124_length` 0; `C124_invariant` 0

All registrations.

### C125 Double properties survive saving and loading (p)

Saving a configuration with double or double array properties and loading the file restores exactly the saved values.

*PropConf.v* `C125_double_refuted` C; `C125_element_refuted` C; `C125_double_integers_partial` C; `C125_double_close_partial` C; `C125_element_integers_partial` C; `C125_element_close_partial` C

REFUTED: values are printed with six decimals (single values) or six significant digits (arrays). Proved: integers up to 2^53 (single) and below 10^6 (arrays) are exact, and the error is bounded by 10^-6 absolute (single, up to 2^31) and 10^-5 relative (arrays).

### C126 Log file and log stream agree (p)

With a log file configured, the file holds exactly the same text as the log stream.

*PropLog.v* `C126_file_order_refuted` 0; `C126_one_thread_partial` 0

REFUTED for two threads (the order in the file can differ from that on the stream). Proved for histories of one thread.

### C127 Logging is defined whenever a logger can be obtained (p)

A logger obtained with getLogger can be used for messages and level changes without undefined effects.

*PropLog.v* `C127_no_default_refuted` 0; `C127_default_set_partial` 0

REFUTED before a default stream was set: the logger has a null writer and using it is undefined. Proved once a default was set.

### C128 Frames sent over a socket arrive unchanged and in order (p)

The sequence of frames received by one peer is the sequence of frames sent by the other, whatever the network does with the byte stream.

*PropSock.v* `C128_end_to_end_partial` 0; `C128_short_write_refuted` 0

REFUTED for writes that accept a part of a frame (the rest is dropped and later frames are shifted). Proved when every write accepts the frame.

### C129 A silent peer is detected (p)

A connection on which no complete frame arrives within the time out is given up.

*PropSock.v* `C129_silent_peer_refuted` 0; `C129_late_read_partial` 0; `C129_cleared_partial` 0

REFUTED: read blocks, so the time out is only seen after the next read returned. Proved for reads that return.

### C130 The socket block outputs whole frames (p)

The value output by the socket block is one of the received frames (or zero), never a mixture, whatever the socket thread does during the run of the block.

*PropSock.v* `C130_torn_output_refuted` 0; `C130_quiet_partial` 0

REFUTED: the buffer is read through a reference after the lock was released. Proved without concurrent update.

### C131 A frame belongs to the coordinate systems it was created for (p)

A live frame connects the two coordinate systems given when it was created, for its whole life.

*PropFrame.v* `C131_outlived_refuted` 0; `C131_kept_partial` 0

REFUTED: a frame outlives its coordinate system and then belongs to whichever is constructed at that address. Proved while the coordinate systems live.

### C132 A polynomial or fraction constructed from coefficients has these coefficients (p)

The value of a polynomial constructed from a list of coefficients is the value of the polynomial with these coefficients, and a fraction given by its numerator is that numerator.

*PropPoly.v* `C132_dropped` 0; `C132_construct_partial` 0; `C132_truncated_refuted` 0; `C132_no_denominator_refuted` 0

REFUTED: coefficients beyond the order are dropped silently, and the constructor with a numerator only makes a fraction with denominator 0. Proved when the coefficients fit.

### C133 Products and sums of transfer functions are series and parallel connections

The response of the product of two fractions is the response of the second to the response of the first; that of the sum is the sum of the responses; scaling and adding a constant act on the output.

*PropZ.v* `C133_series` 0; `C133_parallel` 0; `C133_gain` 0; `C133_feed_through` 0

### C134 Kalman correction is optimal and never increases the uncertainty

With 1, 3 or 2^j outputs and an invertible innovation covariance, a correction of the Kalman filter never increases the error covariance in any direction, and the resulting covariance is the smallest that any gain could reach; the very first correction after construction leaves estimate and covariance unchanged.

*PropKalman.v* `C134_correction_decreases` 0; `C134_optimal` 0; `C134_first_ignored` 0

Proved over any ordered field (exact arithmetic).

### C135 PDO contents arrive at the configured signals

If the objects of a PDO fit into 8 bytes, every float signal, digital signal and control word packed by CANopenSend is delivered by CANopenReceive, configured with the same mapping, to the signal with the same index: digital values modulo the object size, float values truncated and as signed 32 bit number, the status word masked with 0x26F. A cycle starts with the sync message, contains one PDO per request for a known node in the order of the requests, and whatever part of it is received, in any order, duplicated or with errors in between, affects exactly the signals of the PDOs received.

*PropBus.v* `C135_roundtrip` 0; `C135_cycle` 0; `C135_disabled` 0

### C136 PDO packing stays within its buffer (p)

CANopenSend::run never writes beyond the 8 byte local buffer and never reads beyond the list of signal indices, whatever PDO was configured with configureRPDO.

*PropBus.v* `C136_refuted` R; `C136_fitting_partial` 0

REFUTED: configureRPDO accepts objects with more than 64 bits in total and run overruns buf[8]; proved free of undefined behaviour for PDOs that fit.

### C137 CANopen signals are scaled with their own factor (p)

Signal s of drive k is multiplied by element (k, s) of the matrix given to setScale, for sending as well as for receiving.

*PropBus.v* `C137_send_refuted` R; `C137_receive_refuted` R; `C137_first_signal_partial` 0; `C137_unit_scale_partial` R

REFUTED: run uses scale[nodeNr], the factor of the first signal, for all signals, and CANopenReceive never uses its scale; proved for the first signal and for unit scale.

### C138 Negative set points can be sent over CAN (p)

A negative scaled set point is transmitted as two's complement number.

*PropBus.v* `C138_refuted` R; `C138_nonnegative_partial` 0

REFUTED: (uint32_t) of a negative double is undefined behaviour; proved for values in 0 .. 2^32-1.

### C139 Received angles belong to the drive which sent them (p)

Element i of the output of CANreceive is the scaled 16 bit angle sent by the i-th node.

*PropBus.v* `C139_refuted` R; `C139_in_order_partial` 0

REFUTED: the identifier of the received frame is ignored; proved when the frames arrive in the order of the nodes.

### C140 CANsend sends one complete frame per drive (p)

For every node one frame with identifier 0x140 + node is sent, and all 8 data bytes are determined by command code, speed and position.

*PropBus.v* `C140_frames_partial` 0; `C140_refuted` R

REFUTED: data[1] of the frame (direction of rotation) is never written; everything else proved.

### C141 Received PDOs are parsed within their length (p)

A PDO that is not registered changes no signal, and a registered one is never read beyond the bytes received.

*PropBus.v* `C141_unregistered` 0; `C141_refuted` R; `C141_long_enough_partial` 0

REFUTED: the received length is ignored, a short PDO is read beyond its end; proved when the received data is at least as long as configured. Unregistered PDOs are proved to be ignored.

### C142 Digital EtherCAT terminals map bit i to channel i (p)

Output i of EL1008 is bit i of the input word, and bit i of the word written by EL2008 is input i.

*PropBus.v* `C142_inputs` 0; `C142_outputs_refuted` 0; `C142_outputs_partial` 0

REFUTED: EL2008 reads the uninitialised variable val; proved for any initial value of val. EL1008 is proved.

### C143 Analog EtherCAT terminals convert without overflow (p)

EL4004 converts every double to a number in 0 to 32767, monotonically and with the end points 0 V and 10 V exact; EL3004 yields voltages in [-10, 10); an output wired to an input is read back with an error below 1/1600 V.

*PropBus.v* `C143_refuted` 0; `C143_range_partial` C; `C143_monotone` C; `C143_end_points` 0; `C143_input_range` R; `C143_loop` R

REFUTED: a NaN input passes both limits and its conversion to int16_t is undefined behaviour; proved for all other doubles.

### C144 A drive gets the set point of its mode only

ElmoOutput sets exactly the target belonging to the present mode of the drive, always together with the torque limit, and nothing in other modes.

*PropBus.v* `C144_set_points` 0

### C145 Mouse block respects its limits (p)

Every value the mouse input block outputs on an axis lies between the configured minimum and maximum of this axis.

*PropInput.v* `C145_refuted` 0; `C145_real_partial` R

REFUTED on doubles: with the default scale 0.0001 and minimum -0.03, -2995 counts give -0.030000000000000027. Proved on reals for every state and all four axes.

### C146 Mouse block follows the movement

From one run to the next each output of the mouse block changes by the scaled movement of the mouse, limited to the range, so counts beyond a limit do not accumulate.

*PropInput.v* `C146_movement` R

Exact reals; MouseInput run() for all four axes, first run included.

### C147 Initial position of the mouse block (p)

After setInitPos the mouse block outputs this position as long as the mouse does not move.

*PropInput.v* `C147_swapped_refuted` R; `C147_first_run_refuted` R; `C147_equal_counts_partial` R; `C147_z_r_partial` R; `C147_first_zero_partial` R

REFUTED: setInitPos and the first run take the count of y for x and of x for y; a position set before the first run is forgotten. Proved when both counts agree, for z and r, and the value of the first output of z and r.

### C148 Keyboard block reports its keys (p)

The outputs of a keyboard block tell for every key given to its constructor whether it was pressed since its last reset; several blocks are independent.

*PropInput.v* `C148_second_block_refuted` 0; `C148_too_many_keys_refuted` 0; `C148_every_second_partial` 0; `C148_single_partial` 0

REFUTED: constructing a second keyboard block always throws (it registers the first block's key names again), more keys than outputs write past the output array. Proved for one block with enough outputs, for every history.

### C149 Corrector stays in its buffer (p)

Correcting a point never accesses memory outside the buffer of mapped points.

*PropCorr.v* `C149_refuted` R; `C149_every_point_partial` R; `C149_outside_partial` R

REFUTED: reserve() does not create elements, so every point inside a triangle is undefined behaviour. Proved for points outside all triangles.

### C150 Corrector maps triangles affinely

A point in a triangle of the mesh is mapped with the weights of the corners to the mapped corners; if several triangles contain it and agree, the common value results; points outside are unchanged.

*PropCorr.v* `C150_inside` R; `C150_outside` R; `C150_corners` R

Buffer with an element per triangle (its size is the matter of C149). Exact reals.

### C151 Pretty printing keeps the value

The text printed for a number denotes this number truncated at its third decimal place, with the right sign and power of ten.

*PropPretty.v* `C151_value` C

Exact reals; log10 and pow without rounding. NaN and infinity are undefined behaviour in the code and not covered.

### C152 Pretty printing has fixed width (p)

The text printed for a number between 1e-12 and 1e15 has nine characters.

*PropPretty.v* `C152_refuted` C; `C152_partial` C

REFUTED: 1/1000 is printed as 1000.000u (ten characters). Proved when the number is no negative power of 1000.

### C153 Time stamps survive the conversion to ROS (p)

A time stamp in nanoseconds converted to seconds and nanoseconds of ROS and back is unchanged.

*PropRos.v* `C153_refuted` 0; `C153_overflow_refuted` 0; `C153_partial` C

REFUTED: 1763333332999999999 ns comes back one second later, and from 2^31 s the conversion is undefined behaviour. Proved for all time stamps below 2^53 ns.

### C154 Subscriber outputs the newest message

When a ROS subscriber block runs it consumes all pending messages and outputs the newest one; the outputs keep the order of arrival.

*PropRos.v* `C154_newest` 0

Interleaving model of callback and executor thread with atomic steps; the unlocked test queue.empty() is not modelled as a data race.

### C155 One cycle for each message (p)

An executor synchronised to a topic runs one cycle for each received message and handles the message in it.

*PropRos.v* `C155_lost_refuted` 0; `C155_spurious_refuted` 0; `C155_waiting_partial` 0

REFUTED: a message arriving during a cycle does not start another cycle; spurious wake ups start cycles without message. Proved for messages arriving while the executor waits.

### C156 Stop ends the synchronised executor (p)

After stop() an executor synchronised to a topic leaves its loop.

*PropRos.v* `C156_refuted` 0; `C156_partial` 0

REFUTED: stop between the test of running and the wait is lost. Proved for stop at any other moment.

### C157 Commands are executed once (p)

Every command character received by the user interface of the sequencer is executed exactly once, and nothing else is executed.

*PropUi.v* `C157_refuted` 0; `C157_uninitialised_refuted` 0; `C157_connected_partial` 0; `C157_disconnect_partial` 0; `C157_silent_client_partial` 0; `C157_commands_partial` 0

REFUTED: when the connection ends the last command is executed again, or an uninitialised character is used. Proved: exact behaviour for every sequence of read results.

### C158 Shared memory is released (p)

When a SharedMemory object is destroyed, its mapping and its descriptor are released.

*PropUi.v* `C158_descriptor_refuted` 0; `C158_mapping_refuted` 0; `C158_mapping_partial` 0

REFUTED: the descriptor is never closed; initialize() after the constructor leaks a mapping. Proved: the mapping of the constructor is removed.

### C159 Destroying a device driver ends its thread (p)

Whenever a driver object with its own thread is destroyed, the thread leaves its loop and the destructor returns.

*PropDev.v* `C159_failed_connection_refuted` 0; `C159_late_start_refuted` 0; `C159_uncalibrated_refuted` 0; `C159_destroy_partial` 0

REFUTED: after a failed connection, or when the thread leaves its start loop after running was cleared, the destructor never returns; the ODrive over USB never ends without calibration. Proved: a thread in its measuring loop is ended under every schedule.

### C160 Driver threads do not use released handles (p)

The thread of a device driver never uses its connection after the destructor has closed or deleted it.

*PropDev.v* `C160_closed_port_refuted` 0; `C160_deleted_endpoint_refuted` 0; `C160_joining_drivers_partial` 0

REFUTED: both ODrive drivers close or delete the connection before the thread is joined. Proved for the drivers which join first, under every schedule.

### C161 A driver measures as long as it exists (p)

The thread of a driver whose device could be opened stays in its loop until the destructor stops it.

*PropDev.v* `C161_uninitialised_flag_refuted` 0; `C161_initialised_first_partial` 0

REFUTED: the thread may read the flags before they are initialised and end at once. Proved when the flags are initialised first.

### C162 A destroyed ODrive driver leaves velocity zero (p)

The last velocity sent to an axis when the driver is destroyed is zero.

*PropDev.v* `C162_uart_refuted` 0; `C162_usb_refuted` 0; `C162_between_rounds_partial` 0

REFUTED: the thread may send another velocity between the zero of the destructor and the stop. Proved when it is between two rounds.

### C163 The velocity of the ODrive is the number it sent (p)

The velocity stored after a reply over UART equals the decimal number in the reply.

*PropDev.v* `C163_fraction_refuted` 0; `C163_integer_part_partial` 0

REFUTED: the fraction is dropped. Proved: the integer part is stored.

### C164 Replies of the ODrive stay in the buffer (p)

Reading a reply over UART never writes outside its array and never uses an uninitialised byte, whatever arrives.

*PropDev.v* `C164_long_reply_refuted` 0; `C164_no_byte_refuted` 0; `C164_replies_partial` 0

REFUTED: more than 100 bytes before a point leave the array; a failed first read uses an uninitialised byte. Proved for well formed replies with up to 98 digits.

### C165 The lidar block outputs the scan (p)

After every scan the ranges are the measured distances in metres, infinite where nothing was seen, and behind the scan infinite.

*PropDev.v* `C165_nothing_in_range_refuted` 0; `C165_scan_partial` R

REFUTED: a scan without an echo makes the search leave the array. Proved for every other scan.

### C166 Velocities of the ODrive block are scaled (p)

The reference velocity sent to the drive and the velocity output by the block are the input and the measured value times a nonzero constant.

*PropDev.v* `C166_reference_refuted` 0; `C166_velocity_refuted` 0; `C166_exact_refuted` R

REFUTED: the factor 1/6.28 is converted to int 0, so the reference is always 0 and the output infinite or NaN.

### C167 Both end stops are configured (p)

The configuration of the ODrive sets the input pin, the polarity and the enabling of the end stops of both motors.

*PropDev.v* `C167_second_endstop_refuted` 0; `C167_settings_partial` 0

REFUTED: the pin of the second end stop is never set, that of the first is set twice. Proved for the other settings.

### C168 The ODrive block outputs the measured values (p)

The velocities and currents output by the block are those which the drive reported last.

*PropDev.v* `C168_currents_refuted` 0; `C168_velocity_partial` 0

REFUTED: the currents are never read. Proved for the velocities.

### C169 The watchdog of the ODrive is fed

Every round of the loop feeds the watchdog.

*PropDev.v* `C169_watchdog` 0

### C170 The T265 transformation is a rotation

For every unit quaternion the upper left part of the matrix has orthonormal columns and determinant one.

*PropDev.v* `C170_rotation` R

### C171 Camera data are valid exactly when all markers are in view

isDataValid is true exactly when all four dots lie in the window ten pixels from the border and the height is below 1.2 m.

*PropPixy.v* `C171_valid_iff` 0

### C172 Valid camera data come from detected markers (p)

Data are reported as valid only if the camera has detected the four markers in this picture.

*PropPixy.v* `C172_no_marker_refuted` 0

REFUTED: the dots are taken from the block array whatever the number of detected markers.

### C173 The filtered camera position recovers (p)

The filtered position stays in the range of the raw positions and becomes usable again after a picture without usable markers.

*PropPixy.v* `C173_infinite_for_ever_refuted` 0; `C173_range_partial` R

REFUTED: four equal dots give an infinite position, and the filtered position is never finite again. Proved over the reals: the filtered position stays in the range of the raw ones.

### C174 Filtered and raw camera position agree at rest (p)

As long as nothing moves the filtered position equals the raw position.

*PropPixy.v* `C174_axes_refuted` R; `C174_constant_partial` R

REFUTED: x and y are exchanged in the filtered position. Proved: otherwise they agree at rest.

### C175 A wait step waits for its time (p)

A wait step ends at the first check at which more than the waiting time has passed since it began.

*PropMisc.v* `C175_not_a_number_refuted` 0; `C175_wait_partial` R

REFUTED: a wait with a waiting time that is not a number never ends. Proved over the reals for every waiting time and all check times.

### C176 Default value of a constant (p)

A constant of an integer type constructed without a value holds the smallest value of the type.

*PropMisc.v* `C176_other_types_refuted` 0; `C176_int32_partial` 0; `C176_default_partial` 0

REFUTED: the default is the minimum of int32 converted to the type. Proved for 32 bit signed integers.

### C177 A sysfs output sets its pin (p)

After set(v) the pin has the level v.

*PropMisc.v* `C177_buffered_refuted` 0; `C177_uninitialised_refuted` 0; `C177_destroyed_partial` 0; `C177_written_partial` 0

REFUTED: the level stays in the buffer of the stream; inverted is not initialised. Proved: the last level is written when the output is destroyed.

### C178 Messages reach the syslog (p)

Every message of a visible level is written with the priority of its level, no other message is.

*PropMisc.v* `C178_threads_refuted` 0; `C178_one_thread_partial` 0; `C178_priorities_partial` 0

REFUTED: the level of the entry is kept in the writer, which all threads share. Proved for entries which do not overlap.

### C179 Failing peripheral blocks claim nothing (p)

When the construction of a peripheral input or output fails, the claims of the HAL are as before; when it succeeds the signal of the right type is claimed.

*PropMisc.v* `C179_wrong_type_refuted` 0; `C179_unknown_name_refuted` 0; `C179_refused_partial` 0; `C179_constructed_partial` 0

REFUTED: a signal of another type stays claimed, and so does the null pointer for an unknown name. Proved: a claim refused by the HAL changes nothing; a constructed block has claimed a signal of its type.

### C180 Destroyed peripheral blocks release their signal (p)

After a peripheral block was destroyed, its signal can be claimed again.

*PropMisc.v* `C180_claim_stays_refuted` 0

REFUTED: the claim is never released.

### C181 Signals survive a ROS message (p)

A vector published by RosPublisherAnalogSignal arrives unchanged at a subscriber with the same signal type; other messages are handled.

*PropMisc.v* `C181_short_message_refuted` 0; `C181_same_size_partial` 0; `C181_prefix_partial` 0

REFUTED: a shorter message is read beyond its end. Proved for messages which are long enough.

### C182 Laser scans are transferred with all fields (p)

Ranges, intensities and time stamps of a laser scan are transferred.

*PropMisc.v* `C182_intensities_refuted` 0; `C182_stamps_refuted` 0; `C182_ranges_partial` 0

REFUTED: the intensities published are the ranges; the time stamps of ranges and intensities are never set. Proved for the ranges.

### C183 The safety level publisher is always defined (p)

Running a RosPublisherSafetyLevel is defined whether or not the safety system was set.

*PropMisc.v* `C183_no_safety_system_refuted` 0; `C183_level_partial` 0

REFUTED: the pointer is not initialised. Proved after setSafetySystem.

### C184 Starting a non-blocking sequence returns at once (p)

start() of a non-blocking sequence returns without waiting for a run of that sequence.

*PropPar.v* `C184_start_returns_refuted` 0; `C184_start_returns_partial` 0; `C184_self_start_never_returns` 0

REFUTED: when the previous run has not ended, the assignment to fut waits for it; a sequence which starts itself waits for ever (C184_self_start_never_returns). Proved when the previous run has ended or was waited for.

### C185 A sequence runs once for each start and never twice at the same time

Every call of start() of a non-blocking sequence leads to exactly one run; two runs of the same sequence are never active together.

*PropPar.v* `C185_one_active` 0; `C185_runs_count` 0

### C186 The result of a finished sequence can be read (p)

After a run has ended getResult() gives what it returned.

*PropPar.v* `C186_result_refuted` 0; `C186_result_partial` 0

REFUTED: retVal is assigned by wait() only, before it is uninitialised. Proved after wait().

### C187 An abort request ends the run of a sequence (p)

After abort() the run in progress notices the request at its next check of the monitors. A request made before the start of a run does not reach that run.

*PropPar.v* `C187_abort_noticed_refuted` 0; `C187_abort_noticed_partial` 0; `C187_not_stale_partial` 0

REFUTED: start() resets the request, also that for the run still in progress. Proved when the sequence is not started in between.

### C188 Waiting for the sequencer waits for all sequences (p)

When Sequencer::wait() returns, the threads of all sequences have ended.

*PropPar.v* `C188_wait_all_refuted` 0; `C188_wait_all_partial` 0

REFUTED: a sequence started by a sequence later in the list is not waited for. Proved when sequences are started only by the main program (before waiting) and by sequences constructed earlier.

### C189 Starting sequences is free of data races (p)

The future of a sequence is never accessed by two threads at the same time.

*PropPar.v* `C189_no_race_refuted` 0; `C189_no_race_partial` 0

REFUTED: two threads may start the same sequence. Proved when each sequence has a single starter which was constructed earlier.

### C190 Destroyed sequences are not accessed (p)

Sequencer::wait(), abort() and the constructors access living sequences only.

*PropPar.v* `C190_registry_refuted` 0; `C190_registry_partial` 0

REFUTED: sequences are never removed from the list. Proved when no sequence is destroyed.

### C191 The thread of an input device processes its events (p)

While a gamepad, mouse or space navigator is in use its thread exists, and the thread reads no uninitialised member.

*PropIdev.v* `C191_thread_works_refuted` 0; `C191_uninitialised_refuted` 0; `C191_thread_works_partial` 0

REFUTED: when the thread starts before the constructor of the derived class begins, Thread::run is called and returns; when it starts before open(), an uninitialised descriptor is read. Proved when the thread starts after open().

### C192 Destroying an input device ends its thread (p)

The destructor of a gamepad, mouse or space navigator returns, without undefined behaviour.

*PropIdev.v* `C192_destructor_returns_refuted` 0; `C192_needs_event_refuted` 0; `C192_closed_refuted` 0; `C192_destructor_returns_partial` 0

REFUTED: the thread may set running after the destructor has cleared it; blocking devices need one more event; closing a space navigator which could not be opened is undefined. Proved from the loop with one more event.

### C193 The speed factor of the gamepad block takes effect (p)

XBoxInput outputs the axes times the speed factor set by setSpeedScaleFactor().

*PropIdev.v* `C193_speed_refuted` R; `C193_speed_partial` R

REFUTED: the factor is stored and never used. Proved for the factor 1.

### C194 The outputs of the space navigator block are defined (p)

SpaceNavigatorInput outputs initialised values only, whatever events have arrived. Each of them is the value of the last event for its axis, rotation or button.

*PropIdev.v* `C194_defined_refuted` 0; `C194_defined_partial` 0; `C194_latest_partial` 0

REFUTED: the rotations are not initialised. Proved for the axes and buttons.

### C195 The raw stream of the space navigator is decoded packet by packet (p)

After each packet the state of the space navigator is that sent in the packet, also when reading starts within a packet.

*PropIdev.v* `C195_resync_refuted` 0; `C195_aligned_partial` 0

REFUTED: a stream may be misread for ever when reading starts within a packet. Proved for aligned streams.

### C196 The semaphore counts

A semaphore lets through at most its initial value plus the number of posts, leaves no thread asleep while its counter is positive, and times out only with a counter of zero.

*PropIdev.v* `C196_counts` 0; `C196_no_lost_wakeup` 0; `C196_timeout_means_empty` 0

Proved for all interleavings of any number of threads, with spurious wake-ups.

### C197 The HAL gets the objects of its configuration

After a configuration was loaded the HAL has exactly the inputs and outputs which it describes, with their library, device, channels, scaling, unit and safe value.

*PropJson.v* `C197_objects_as_configured` 0

Proved for all configurations with unique keys.

### C198 The order of the keys of a configuration is irrelevant (p)

A configuration which can be loaded can also be loaded with its keys in another order.

*PropJson.v* `C198_order_irrelevant_refuted` 0; `C198_order_irrelevant_partial` 0

REFUTED: the library, the device handle and the type must stand before the channels. For ordered keys: loading succeeds exactly if the identifiers are new.

### C199 A failed load leaves the HAL unchanged (p)

When a configuration cannot be loaded the HAL is as it was before, so that a corrected configuration can be loaded.

*PropJson.v* `C199_failure_leaves_nothing_refuted` 0; `C199_failure_leaves_prefix_partial` 0

REFUTED: the channels before the failing one stay, and the corrected file is then rejected. Proved: what stays is a prefix of what was meant.

### C200 Identifiers of inputs and outputs are unique

Identifiers stay unique per direction; a configuration with an identifier in use is rejected, also the same configuration read twice.

*PropJson.v* `C200_ids_unique` 0

Proved for all configurations with unique keys.

### C201 A hardware library is opened once (p)

Each hardware library is opened once, however often it is named.

*PropJson.v* `C201_library_opened_once_refuted` 0; `C201_library_opened_once_partial` 0

REFUTED: the map of libraries is passed by value, a second file opens them again. Proved within one file.

### C202 Unknown keys of a configuration are rejected (p)

A configuration with a key which the parser does not know is rejected.

*PropJson.v* `C202_unknown_key_rejected_refuted` 0; `C202_unknown_key_rejected_partial` 0

REFUTED: unknown keys of a device are ignored. Proved for the keys of subdevices.

### C203 Encoders are created with the right signature (p)

The function createFqd of a library is called with the signature it has, and a comedi encoder only with given channels.

*PropJson.v* `C203_encoder_defined_refuted` 0; `C203_encoder_channels_refuted` 0; `C203_encoder_defined_partial` 0

REFUTED: a comedi library with a digit in its name is called with the wrong signature; missing encoder channels become 0. Defined if the names tell the signature.

### C204 Every channel type has a direction and a kind

The tables of directions and kinds have the same types, with DigIn, AnalogIn, Fqd and Watchdog as inputs and AnalogIn, AnalogOut, Pwm and Fqd as real numbers.

*PropJson.v* `C204_types_complete` 0

Proved for all strings.

### C205 readConfigFromFile returns true only after loading (p)

When readConfigFromFile(argc, argv) returns true the given file was loaded.

*PropJson.v* `C205_true_means_loaded_refuted` 0; `C205_true_means_loaded_partial` 0

REFUTED: with unsigned char an en dash makes it return -1, which is true. Proved for signed char.

### C206 A feature is called only if the library of the object has it (p)

callInputFeature and callOutputFeature call a function only if the library of the object provides it and fail otherwise.

*PropJson.v* `C206_feature_of_library_refuted` 0; `C206_unknown_name_refuted` 0; `C206_feature_of_library_partial` 0

REFUTED: a null handle searches the whole program, an unknown name dereferences a null pointer. Proved for objects with a handle.

### C207 A displayed user interface serves keys (p)

Once dispay() was called and until exit() is called the text user interface reads keys.

*PropCurses.v* `C207_reads_keys_refuted` 0; `C207_never_reads_partial` 0; `C207_ends_partial` 0; `C207_silent_partial` 0

REFUTED: the key loop runs while state != active, so after dispay() the thread leaves it at once without reading a key, in every interleaving (never_reads, ends). Holds: the terminal is not touched before dispay() or exit().

### C208 Leaving the user interface ends its thread (p)

After exit(), which the destructor calls before joining, the thread of the interface ends.

*PropCurses.v* `C208_exit_ends_refuted` 0; `C208_exit_ends_partial` 0

REFUTED: exit() before the thread has seen the active state leaves it in the key loop for ever, so the destructor hangs; it ends exactly if it had left the key loop before.

### C209 A single user interface (p)

At most one interface exists, and one can be created whenever none exists.

*PropCurses.v* `C209_create_again_refuted` 0; `C209_single_refuted` 0; `C209_single_partial` 0; `C209_no_second_partial` 0

REFUTED: the counter is never decremented, so after the first interface is destroyed none can be created; after 2^32 attempts it wraps and a second one exists. Below 2^32 attempts there is never a second one.

### C210 The last five messages are kept

The message list holds the last five messages in order.

*PropCurses.v* `C210_last_five` 0

Full property.

### C211 Messages are displayed as given (p)

A message is displayed exactly as it was added.

*PropCurses.v* `C211_undefined_refuted` 0; `C211_changed_refuted` 0; `C211_message_partial` 0; `C211_list_partial` 0

REFUTED: messages are used as printf format; "%%" prints one sign, any other '%' is undefined. Shown unchanged exactly if it has no '%'.

### C212 The areas of the screen do not overlap (p)

Header, sequence list, messages, status, commands and footer use different rows on the screen.

*PropCurses.v* `C212_separate_refuted` 0; `C212_overlap_partial` 0; `C212_separate_partial` 0

REFUTED: with more than LINES-21 sequences the list runs into the messages (24 lines, 4 sequences). They fit exactly otherwise.

### C213 The prompt returns the number typed (p)

promptForInt returns the number typed by the user and stays within its buffer.

*PropCurses.v* `C213_prompt_refuted` 0; `C213_overrun_partial` 0; `C213_value_partial` 0; `C213_negative_partial` 0; `C213_range_partial` 0

REFUTED: lines of ten characters or more overrun the buffer. Up to nine characters the number is returned.

### C214 Sensor blocks update all outputs (p)

After a run every output of a sensor or drive input block carries the measured quantity and the time of the run.

*PropSens.v* `C214_rplidar_refuted` 0; `C214_odrive_refuted` 0; `C214_rplidar_partial` 0; `C214_odrive_partial` 0; `C214_complete_partial` 0

REFUTED: RPLidarInput does not stamp the ranges, ODriveUARTInput stamps nothing and never sets two of its three outputs. The other five blocks are complete.

### C215 Sensor vectors are not mixed (p)

A vector output by a sensor block is one which the sensor delivered.

*PropSens.v* `C215_torn_refuted` 0; `C215_elements_partial` 0; `C215_whole_partial` 0

REFUTED: without a lock a copy may mix two samples. Every element is one delivered at its place, and the vector is whole if the copy does not overlap an assignment.

### C216 A ROS1 subscriber processes its own messages (p)

Running a ROS1 subscriber block processes the messages of its topic.

*PropSens.v* `C216_own_refuted` 0; `C216_order_partial` 0; `C216_newest_partial` 0; `C216_oldest_partial` 0

REFUTED: all subscribers share the global queue, a run processes the oldest message of any topic. Messages are processed in order of arrival, each by its block.

### C217 ROS1 blocks transfer arrays and laser scans (p)

Arrays, ranges, intensities and time stamps are transferred unchanged.

*PropSens.v* `C217_short_refuted` 0; `C217_intensities_refuted` 0; `C217_stamps_refuted` 0; `C217_array_partial` 0; `C217_short_partial` 0; `C217_ranges_partial` 0; `C217_intensities_partial` 0; `C217_stamps_partial` 0

REFUTED: shorter arrays are read beyond their end, the laser scan publisher sends the ranges as intensities, ranges and intensities get no time stamp. Arrays of equal size, ranges and scalar stamps are transferred.

### C218 Time stamps survive the conversion to ROS1 (p)

The ROS1 time made of a time stamp has the same value.

*PropSens.v* `C218_jump_refuted` 0; `C218_range_refuted` 0; `C218_time_partial` C

REFUTED: the seconds pass through a double, times since 1970 may jump by one second; seconds beyond 2^32 are undefined. Exact below 2^53 ns.

### C219 Gamepad buttons follow the events (p)

The state of every button, and whether it was just pressed or released, is that of the events read.

*PropSens.v* `C219_uninitialised_refuted` 0; `C219_state_partial` 0

REFUTED: the result of read is ignored, so a failing first read uses an uninitialised event. With successful reads all button states follow the events.

### C220 A gamepad button event is reported once (p)

The button action is called once for every genuine button event.

*PropSens.v* `C220_once_refuted` 0; `C220_again_partial` 0; `C220_once_partial` 0

REFUTED: every failing read processes the last event again. Without failing reads every genuine event is reported once.

### C221 Safety inputs of devices read their button

The inputs which gamepad, mouse and space navigator register deliver the button of their name, other names nothing, and all names differ.

*PropSens.v* `C221_xbox` 0; `C221_mouse` 0; `C221_spacenav` 0; `C221_registered` 0; `C221_distinct` 0

Full property.

### C222 A control input follows its input (p)

A ControlInput made from the input of a block delivers the value this input reads.

*PropSens.v* `C222_reconnect_refuted` 0; `C222_same_partial` 0; `C222_unconnected_partial` 0

REFUTED: the signal is looked up at creation, after reconnecting the input the control input still reads the old output. Without disconnecting both agree.

### C223 Executor wakes up every period, in machine arithmetic (p)

The wake-up time of cycle n, computed by repeated addition in double precision, is the start time plus n+1 periods.

*PropDbl.v* `C223_whole_nanoseconds_partial` C; `C223_error_bound_partial` C; `C223_drift_refuted` C

REFUTED: nextCycle is a double counting nanoseconds, so a period that is no whole number of nanoseconds is rounded to the spacing of doubles at the present uptime, always in the same direction (1/3000 s becomes 333333.375 ns at 11.6 days). Proved: exact for periods of whole nanoseconds up to 2^53 ns, relative error bound otherwise.

### C224 Low pass filter stays in the range of its inputs, in machine arithmetic (p)

The output of the low pass filter computed in double precision stays between the least and the greatest input, for any number of cycles.

*PropDbl.v* `C224_leaves_range_refuted` R; `C224_range_partial` C; `C224_follows_partial` C

REFUTED: with alpha = 0.2 and constant input 3 the output is 3.0000000000000004. Proved: it leaves the range by at most 2^-30 of the input bound, for runs of any length, and follows the exact filter as closely (coefficient at least 2^-20).

### C225 Moving average in machine arithmetic is close to the weighted sum

The output of the moving average filter computed in double precision differs from the exact weighted sum of the last inputs by at most (n+1) 2^-51 times sum of coefficients times input bound.

*PropDbl.v* `C225_follows` C

### C226 Integrator in machine arithmetic follows the exact integral

Computed in double precision from 64 bit nanosecond time stamps, the integrator stays within n M 2^-50 of the exact integral after n cycles, and with input zero it keeps its value exactly.

*PropDbl.v* `C226_follows` C; `C226_holds` C; `C226_time_step` C

Limits outside the reached range; up to 2^48 cycles.

### C227 Error of the differentiator in machine arithmetic

The slope computed in double precision deviates from the exact difference quotient by a relative error of at most (6 T/h + 3) 2^-53, with the absolute time T and the step h.

*PropDbl.v* `C227_error_bound` C

For T/h up to 2^43 and inputs up to 2^400.

### C228 A time domain computes its block diagram

After a cycle of a time domain without fault, the states and outputs of all blocks are the one solution of the equations of the block diagram: every block applies its run function to the new values of the sources which were added before it and to the values of the last cycle of all others (feedback is a delay of one cycle), and nothing else changes.

*PropNet.v* `C228_solves` 0; `C228_unique` 0

Blocks added once; a block reads all inputs before it writes.

### C229 Order of blocks matters only between connected blocks

Two time domains with the same blocks, whose orders agree on every pair of connected blocks, compute the same states and outputs.

*PropNet.v* `C229_order` 0

### C230 A fault leaves out the rest of the cycle

When a block of a time domain throws, all blocks after it keep their states and outputs of the last cycle.

*PropNet.v* `C230_frame` 0

### C231 A fault in a time domain reaches the critical outputs (p)

After a block of a running time domain with safety event has thrown, the next cycle of the safety system executes a level not above the destination of this event and drives every critical output with an action of that level.

*PropNet.v* `C231_reaches_outputs_partial` 0; `C231_other_partial` 0; `C231_unregistered_partial` 0; `C231_other_refuted` 0; `C231_private_refuted` 0

REFUTED: an exception other than NotConnectedFault and NaNOutputFault leaves the time domain and ends its thread without an event; an event which the current level has registered as private is ignored since the time domain triggers it without context. Proved: with NotConnectedFault or NaNOutputFault and a public event of the current level, entry level and destinations added to the configuration, and no trigger leading to the current level itself.

### C232 A control loop of library blocks converges

A loop of Constant, Sum, Gain and I (as plant) run by a time domain brings the output of the integrator to the reference: if every step shrinks the error by q, after n steps it is at most q^n of the initial error, whatever the outputs held before the first cycle.

*PropNet.v* `C232_converges` R

Exact reals.

### C233 Rounding error of the Sum block

The output of a Sum block with n inputs in binary64 differs from the exact signed sum by at most ((1+2^-53)^n - 1) times the sum of the absolute values.

*PropDbl2.v* `C233_sum` C; `C233_cycle` C

Error bound for every number of inputs; the hypothesis excludes overflow.

### C234 Rounding error of the matrix product

Every entry of a product of matrices of doubles differs from the exact scalar product by at most ((1+2^-53)^(N+1) - 1) times the scalar product of the absolute values plus underflow.

*PropDbl2.v* `C234_product` C

### C235 Rounding error of the statistics

Mean and variance after n samples bounded by M differ from the exact mean and variance by at most 5 n 2^-53 M and 64 n 2^-53 M^2; count, last value, minimum and maximum are exact.

*PropDbl2.v* `C235_mean_variance` C; `C235_extremes` C

Complements C87: the variance may be negative, but only by this bound.

### C236 The control loop in binary64 settles at its reference (p)

The loop of Constant, Sum, Gain and I in binary64 comes as near to its reference as wanted.

*PropDbl2.v* `C236_settles_refuted` C; `C236_converges_partial` C

REFUTED: one step before 1 with gain 10 and steps up to 10 ms the integrator never changes again, because the increment is less than half an ulp. Shown instead: the distance is at most q'^n times the initial one plus 2^-52 M/(1-q'), with q' = q + 6 2^-53 K T + 12 2^-53 (T: largest time stamp in seconds).

### C237 Packets of the ODrive protocol carry the request

A packet read by the protocol contains the sequence number, endpoint with the acknowledge bit, size, address, bytes and checksum of the request it was made for.

*PropOdrv.v* `C237_packet` 0; `C237_bytes` 0; `C237_address` 0

### C238 Sequence numbers of requests to the ODrive differ

Any two requests less than 2^14 apart carry different sequence numbers, each a positive short with bit 7 set.

*PropOdrv.v* `C238_distinct` 0; `C238_range` 0; `C238_used` 0

### C239 A request to the ODrive returns its own answer (p)

The data returned by a request is the answer of the drive to that request.

*PropOdrv.v* `C239_own_answer_refuted` 0; `C239_own_answer_partial` 0; `C239_lost_refuted` 0; `C239_lost_partial` 0

REFUTED: a sequence number which does not fit is only logged; after one answer later than 200 ms every later request returns the answer to the request before it. Proved for histories without late answers.

### C240 A round of the ODrive driver stores the values of the drive (p)

After a round the stored velocities and end stops are those the drive has, whatever happens on the bus.

*PropOdrv.v* `C240_round_refuted` 0; `C240_failure_refuted` 0; `C240_empty_refuted` 0; `C240_round_partial` 0

REFUTED: after a late answer, or when a transfer fails, a local variable without value is stored (undefined). Proved when all answers are in time.

### C241 The description of the drive is read completely (p)

getJson ends and the text is the description stored in the drive.

*PropOdrv.v* `C241_ends_refuted` 0; `C241_first_refuted` 0; `C241_description_partial` 0

REFUTED: failing transfers are not noticed: the length is undefined at the first request, later the loop does not end and the text grows. Proved when all answers are in time, for every packet size.

### C242 The driver uses the drive asked for (p)

The drive whose handle is kept has the serial number asked for, and if a usable drive has it, one is found.

*PropOdrv.v* `C242_wrong_drive_refuted` 0; `C242_zero_refuted` 0; `C242_right_drive_partial` 0

REFUTED: a device whose serial number is a beginning of the number asked for is taken, a serial number with leading zeros is never found. Proved for serial numbers of twelve digits and wanted numbers without leading zero.

### C243 The search leaves only the handle of the drive open

After the search every opened handle except the one kept was closed, its claimed interface released before.

*PropOdrv.v* `C243_handles` 0

### C244 A destroyed ODrive driver has released its interface (p)

Every interface claimed by the driver is released before its handle is closed.

*PropOdrv.v* `C244_released_refuted` 0; `C244_released_partial` 0

REFUTED: interface 2 is claimed, interface 0 released. Proved when no drive is attached.

### C245 A missing ODrive is reported and not used (p)

If the drive is not found, init returns a code other than 0 and no transfer is made.

*PropOdrv.v* `C245_reported_refuted` 0; `C245_not_used_refuted` 0; `C245_reported_partial` 0

REFUTED: init returns 0 for an empty list of devices; the constructor configures the drive through a null handle when it was not found. Proved: for a list which is not empty the code is 0 exactly if a drive is attached.

### C246 The endpoint numbers match the description of the drive (p)

Every endpoint number used by the driver is the one which the drive describes for the axis and the quantity meant.

*PropOdrv.v* `C246_numbers_refuted` 0; `C246_numbers_partial` 0

REFUTED: the end stop state of axis 1 is read from endpoint 513, the lower end stop, while the upper one is configured (520). Proved for all other numbers.

### C247 A pressed emergency button is reported (p)

After a round isEndstopActive() is true if the end stop input of either axis is active.

*PropOdrv.v* `C247_button_refuted` 0; `C247_button_partial` 0

REFUTED: a button at axis 1 is never seen, as the wrong endpoint is read. Proved for the endpoints which are read.

### C248 The emergency button is read again and again (p)

Between two reads of an end stop the driver makes a bounded number of other requests.

*PropOdrv.v* `C248_asked_refuted` 0; `C248_asked_partial` 0

REFUTED: the end stops are not read during the calibration, whose waiting loop has no bound. Proved: at most 36 + 4 * (passes of that loop) other requests.

### C249 The executor runs with the first chosen main task or throws

After any sequence of calls of setMainTask, setExecutorPeriod and add, with the exceptions caught, run() starts with the first main task which was chosen and with its monitors; it throws when none was chosen or its period is 0. It never dereferences a missing main task.

*PropSync.v* `C249_main_task` 0; `C249_never_null` 0

### C250 run() executes the requested loop in every build (p)

For all combinations of the compile options (EtherCAT, ROS, ROS2) and of the requested synchronisation, run() executes the requested loop, or the loop with the system clock.

*PropSync.v* `C250_no_loop_refuted` 0; `C250_time_ignored_refuted` 0; `C250_compiles_refuted` 0; `C250_wanted_partial` 0

REFUTED: with USE_ETHERCAT the loops for ROS and the system clock are not compiled; without a stack run() executes no cycle and returns. With USE_ROS and USE_ROS2 the text is "else else if". Proved for the other builds.

### C251 An added task is executed once per period (p)

The list of tasks of the executor contains each task once. When no task is added twice no error is reported.

*PropSync.v* `C251_once_refuted` 0; `C251_once_partial` 0; `C251_reported_partial` 0

REFUTED: a task added twice is reported in the log and executed twice. Proved: the list is the list of the added tasks.

### C252 Monitors given to a periodic before run() are used (p)

Every monitor the program adds to a periodic before run() is called in the cycles of the task.

*PropSync.v* `C252_late_refuted` 0; `C252_early_partial` 0; `C252_main_partial` 0

REFUTED: add() copies the periodic; monitors added to it later are never called. Proved for earlier monitors and for the main task, which is used by reference.

### C253 Cycles synchronised to the time of ROS are never early (p)

Cycle i of the loop waits for start + (i + 1) periods, without drift, and starts at this time of ROS or later; after stop() the loop ends within two steps.

*PropSync.v* `C253_early_refuted` 0; `C253_early_partial` 0; `C253_stop_partial` 0

REFUTED: stop() ends the waiting and one cycle is executed early. Proved for all cycles but the last, which has stop() as its reason.

### C254 No cycle synchronised to the time of ROS is lost (p)

When n periods have passed on the clock of ROS, at least n cycles are executed after 2n + 1 further steps, whatever happened before.

*PropSync.v* `C254_set_back_refuted` 0; `C254_none_lost_partial` 0

REFUTED: when the time of ROS is set back no cycle is executed until the old time is reached. Proved for clocks which pass the due time.

### C255 At least a period between two cycles synchronised to the time of ROS (p)

Between cycles i and j more than j - i - 1 periods pass when cycle i was at most a period late.

*PropSync.v* `C255_distance_refuted` 0; `C255_distance_partial` 0

REFUTED: the loop catches up, late cycles follow at the same time. Proved with the lateness of the first cycle bounded.

### C256 The loop synchronised to the time of ROS keeps the period (p)

The period in nanoseconds computed by the machine is at most 1 ns and a relative error of 2^-52 away from the period of the main task.

*PropSync.v* `C256_period_refuted` 0; `C256_zero_refuted` 0; `C256_period_partial` C

REFUTED: the product is truncated: 65 us becomes 64999 ns, periods below 1 ns become 0 and the loop spins. Proved with an error of 1 ns.

### C257 Each cycle synchronised to a topic of ROS1 has a new time and new messages (p)

A cycle of the loop starts with a time other than that of the cycle before and after at least one message; all messages are handled once and in the order of arrival.

*PropSync.v* `C257_fresh_refuted` 0; `C257_fresh_partial` 0; `C257_messages_partial` 0

REFUTED: stop() lets one cycle run with the old time and without a message. Proved for the other cycles; no message is lost in any case.

### C258 stop() ends the loop synchronised to a topic of ROS1 (p)

After stop() the loop ends after at most four steps and at most one cycle.

*PropSync.v* `C258_no_cycle_refuted` 0; `C258_ends_partial` 0

REFUTED: a waiting loop executes one more cycle after stop(). Proved: at most one, and the loop ends.

### C259 One cycle for each step of a simulator (p)

A simulator which publishes a new time and a message in each step and waits until the executor waits again gets exactly one cycle for each step, with its time and its message.

*PropSync.v* `C259_lost_refuted` 0; `C259_each_partial` 0

REFUTED: steps published faster than the executor runs share a cycle. Proved for a simulator which waits.

### C260 The members of a signal checker are never raced

The signal checker is documented as suitable for use with multiple threads (SignalChecker.hpp:37). No access to its limits, its flag, its safety system, event and level, or its range mode is part of a data race.

*PropRace.v* `C260_signal_checker_race_free` 0

No data race on any member of the signal checker, for all programs that use its methods.

### C261 A cycle of the signal checker sees both limits of one setLimits

Between two accesses of one call of the signal checker to its members no other thread changes them, so the lower and the upper limit, the event and its safety system always belong together.

*PropRace.v* `C261_signal_checker_calls_atomic` 0

The calls of the signal checker do not see changes of other threads.

### C262 The gain can be changed by another thread while the block runs (p)

The documentation of Gain excepts only enabling and smooth change from thread safety. The gain, its bounds, the target, the step and the parameters of the parabolic gain are never raced and not changed during a cycle.

*PropRace.v* `C262_gain_race_free_refuted` 0; `C262_gain_race_free_partial` 0

REFUTED: enableParabolicGain writes its flag without the mutex, and it is not among the documented exceptions. Proved for all other members.

### C263 The value of a constant is never raced (p)

run, setValue and getValue may be called by different threads.

*PropRace.v* `C263_constant_race_free_refuted` 0; `C263_constant_race_free_partial` 0

REFUTED: getValue reads the value without the mutex. Proved without getValue.

### C264 The members of an integrator are never raced (p)

The integrator has a mutex; its flag, its limits and its state may be changed while another thread runs it.

*PropRace.v* `C264_integrator_race_free_refuted` 0; `C264_integrator_race_free_partial` 0

REFUTED: enable, disable, setInitCondition and setLimit write without the mutex. Proved for the level, the safety system, the time and the first-cycle flag.

### C265 Values which are set together take effect together (p)

Limits, rates and conditions which are set in one call are seen by a cycle either all or not at all.

*PropRace.v* `C265_limits_set_together_refuted` 0; `C265_limits_set_together_partial` 0

REFUTED: for the limits of the integrator and the saturation and the condition of the switch. Proved for the rate limiter and the wrap around block.

### C266 The members of a rate limiter are never raced (p)

enable, disable and setRate may be called while another thread runs the rate limiter.

*PropRace.v* `C266_rate_limiter_race_free_refuted` 0; `C266_rate_limiter_race_free_partial` 0

REFUTED: enable and disable write without the mutex. Proved for the rates and the previous output.

### C267 The members of a saturation are never raced (p)

enable, disable and setLimit may be called while another thread runs the saturation.

*PropRace.v* `C267_saturation_race_free_refuted` 0; `C267_saturation_race_free_partial` 0

REFUTED: setLimit, enable and disable write without the mutex. Proved for members which are not changed after the start.

### C268 The members of a wrap around block are never raced (p)

enable, disable and setMinMax may be called while another thread runs the block.

*PropRace.v* `C268_wrap_around_race_free_refuted` 0; `C268_wrap_around_race_free_partial` 0

REFUTED: enable and disable write without the mutex. Proved for the bounds.

### C269 The members of a switch are never raced (p)

The switch may be switched, armed and configured while another thread runs it.

*PropRace.v* `C269_switch_race_free_refuted` 0; `C269_switch_race_free_partial` 0

REFUTED: all methods but setActiveLevel lack the mutex. Proved for the active level.

### C270 The members of a step source are never raced (p)

reset and the setters may be called while another thread runs the step source.

*PropRace.v* `C270_step_race_free_refuted` 0; `C270_step_race_free_partial` 0

REFUTED: the step source has no mutex. Proved for use by one thread.

### C271 The members of a path planner are never raced (p)

move, setStart, endReached and the setters may be called while another thread runs the path planner.

*PropRace.v* `C271_path_planner_race_free_refuted` 0; `C271_path_planner_race_free_partial` 0

REFUTED: move reads finished and computes the coefficients without the mutex, also in two concurrent calls. Proved for the time and the range.

### C272 The value of a peripheral output is never raced

The value read by getValue is never raced with a cycle, and a cycle does not see it changed.

*PropRace.v* `C272_peripheral_output_race_free` 0

No data race on the value, also when the cycle ends with a fault.

### C273 Prediction and correction of the Kalman filter in two time domains (p)

KalmanFilter.hpp:76 proposes to run prediction and correction in two time domains. State, covariance, inputs and intermediate matrices are never raced nor changed by the other step meanwhile, and the outputs can be read by other blocks.

*PropRace.v* `C273_kalman_two_domains_refuted` 0; `C273_kalman_two_domains_partial` 0

REFUTED: consumers of the outputs do not take the mutex of the filter, so the outputs are raced. Proved for all internal members.

### C274 The members of a ring buffer are never raced (p)

push, pop and length may be called by any threads; push and pop are atomic.

*PropRace.v* `C274_ring_buffer_race_free_refuted` 0; `C274_ring_buffer_race_free_partial` 0

REFUTED: length reads without the mutex. Proved for push and pop.

### C275 The buffers of a socket server are never raced (p)

The thread of the server and its user share the send and receive buffers.

*PropRace.v* `C275_socket_buffers_race_free_refuted` 0; `C275_socket_buffers_race_free_partial` 0

REFUTED: getReceiveBuffer returns a reference which is read after the mutex was released. Proved for the send buffer.

### C276 A transition passes signals between threads without a race (p)

The input and the output block of a transition run in different threads; the signals and the buffer between them are never raced, and both values of a step belong together.

*PropRace.v* `C276_transition_race_free_refuted` 0; `C276_transition_race_free_partial` 0

REFUTED: the output block for rising rates reads the flag refresh before it takes the mutex. Proved for the other members.

### C277 No thread waits for ever (p)

Threads which call the methods of blocks, transitions, time domains and the safety system never lock a mutex twice nor release a mutex of another thread, and every thread with work to do can go on after finitely many steps of the others.

*PropRace.v* `C277_threads_go_on_refuted` 0; `C277_threads_go_on_partial` 0

REFUTED: a transition whose input is not connected raises a fault between lock and unlock; the mutex stays locked and the other time domain waits for ever. Proved for connected transitions.

### C278 A signal may be read by another thread (p)

An input connected to an output of another time domain reads values without a race, and its value and timestamp belong together.

*PropRace.v* `C278_signal_across_threads_refuted` 0; `C278_signal_across_threads_partial` 0

REFUTED: signals have no mutex: race, and value and timestamp of different cycles. Proved for signals used by one thread.

### C279 The safety level may be read by any thread (p)

getCurrentLevel and triggerEvent may be called by the blocks of all time domains while the safety system runs.

*PropRace.v* `C279_safety_level_race_free_refuted` 0; `C279_safety_level_race_free_partial` 0

REFUTED: currentLevel is written by the safety system and read by the blocks without a mutex. Proved while no thread writes it.

### C280 A time domain may be changed while it runs (p)

start, stop, addBlock and removeBlock may be called by other threads while the time domain runs.

*PropRace.v* `C280_time_domain_race_free_refuted` 0; `C280_time_domain_race_free_partial` 0

REFUTED: the list of the blocks and the flag have no mutex. Proved for use by one thread.

### C281 Saturation, rate limiter and wrap around of vectors work element by element

Each element of the output of a Saturation, RateLimiter or WrapAround with vectors is what the block for numbers gives for that element with its own limits or rates.

*PropVec.v* `C281_saturation_per_element` 0; `C281_rate_limiter_per_element` 0; `C281_wrap_around_per_element` 0

### C282 Differentiator, filters and sum of vectors work element by element

Each element of the output of D, LowPassFilter, MovingAverageFilter and Sum with vectors is what the block for numbers gives for that element.

*PropVec.v* `C282_differentiator_per_element` 0; `C282_low_pass_per_element` 0; `C282_moving_average_per_element` 0; `C282_sum_per_element` 0

### C283 An integrator of vectors integrates each element by itself (p)

Each element of the output of an integrator with vectors is what the integrator for numbers gives for that element with its own limits.

*PropVec.v* `C283_integrator_per_element_refuted` R; `C283_integrator_per_element_partial` 0

REFUTED: val < upperLimit && val > lowerLimit compares whole vectors, so one element at its limit stops all others. Proved while no element is at its limit.

### C284 setLimit brings an integrator of vectors inside its limits (p)

After setLimit each element of the stored value lies inside the new limits.

*PropVec.v* `C284_limits_applied_refuted` R; `C284_limits_applied_partial` 0

REFUTED: the limits are applied only if all elements are outside on the same side; otherwise the value stays outside for ever. Proved for values all above, all below or all inside.

### C285 An element-wise gain reaches its target and keeps its limits (p)

With smooth change each element of the gain moves to its target value and lies between its minimum and maximum.

*PropVec.v* `C285_target_reached_refuted` R; `C285_overshoot_refuted` R; `C285_limits_refuted` R; `C285_uniform_gain_partial` R

REFUTED: the comparisons of whole vectors keep the gain from moving, let it overshoot and leave it outside its limits. Proved for vectors with equal elements, which behave as the gain for numbers (C37).

### C286 The parabolic gain is defined for vectors (p)

With the parabolic characteristic enabled the output has, for each element, the value of the characteristic for numbers.

*PropVec.v* `C286_parabolic_matrix_refuted` S; `C286_parabolic_one_gain_partial` S; `C286_parabolic_gains_partial` S

REFUTED: with a matrix of gains the result is returned uninitialised (Gain.hpp:337-342). Proved for one gain and for element-wise gains.

### C287 A median filter of vectors outputs a median (p)

The output is a value of the window with at most half of the others less and at most half of the others greater.

*PropVec.v* `C287_median_refuted` 0; `C287_median_partial` 0; `C287_one_element_partial` 0

REFUTED: operator< of vectors with two or more elements is no strict weak order, so std::sort has undefined behaviour, here two inputs after construction. Proved for windows it orders, and for vectors of one element without NaN.

### C288 A switch with vectors switches when all elements are near the level (p)

The condition of the switch holds exactly if each element lies less than delta from its level.

*PropVec.v* `C288_switch_vector_refuted` 0; `C288_switch_vector_partial` 0

REFUTED: operator< and operator> are negations of >= and <=, so NaN passes. Proved for vectors without NaN.

### C289 The off-range checker reports signals that are not out of the range (p)

With offRange the checker fires exactly if the signal is neither lower than the lower limit nor greater than the upper limit.

*PropVec.v* `C289_off_range_refuted` 0; `C289_off_range_limit_refuted` 0; `C289_off_range_partial` 0

REFUTED: NaN and the limits themselves are not reported. Proved for all other values.

### C290 The norm check compares the Euclidean norm (p)

With checkNorm the checker compares the Euclidean norm of the vector with the limits; the norm is 0 for the zero vector only, scales with the vector and bounds each element; a vector with NaN is reported.

*PropVec.v* `C290_norm_overflow_refuted` 0; `C290_norm_underflow_refuted` 0; `C290_nan_reported_partial` 0; `C290_norm_nonneg_partial` S; `C290_norm_square_partial` S; `C290_norm_zero_partial` S; `C290_norm_scales_partial` S; `C290_norm_bounds_elements_partial` S

REFUTED: the squares overflow or underflow in doubles. Proved: NaN is reported; the norm over the reals.

### C291 A matrix constructed from values equals one initialised with them (p)

Matrix(v0, v1, ...) gives the same matrix as m << v0, v1, ... .

*PropMat3.v* `C291_values_refuted` R; `C291_vectors_partial` 0; `C291_columns_partial` 0

REFUTED: the constructor fills the matrix column by column, << row by row. Proved for vectors; the order of the constructor is proved.

### C292 Operators with a number on the left, compound operators and the minus sign work element by element

c + A, c - A, c / A, -A, A += B and A -= B give for each element the result of the operation on numbers.

*PropMat3.v* `C292_left_add` 0; `C292_left_sub` 0; `C292_left_div` 0; `C292_minus` 0; `C292_add_to` 0; `C292_subtract_from` 0

### C293 Vectors and diagonal matrices are created with the given values (p)

createVector2 and createVector3 contain the values; createDiag(v) is v on the diagonal and 0 elsewhere.

*PropMat3.v* `C293_vector2` 0; `C293_vector3` 0; `C293_diag_refuted` 0; `C293_diag_partial` R; `C293_diag_zero_partial` 0

REFUTED: createDiag multiplies the identity, so that an infinite value gives NaN beside the diagonal. Proved for real numbers, and the zeros for finite doubles.

### C294 Columns and rows are copied to and from std::vector

getColVector and getRowVector return the elements or throw; a column written with setCol is read back, and writing back a column changes nothing.

*PropMat3.v* `C294_column` 0; `C294_row` 0; `C294_column_out` 0; `C294_row_out` 0; `C294_set_then_get` 0; `C294_get_then_set` 0

### C295 A printed matrix contains all its elements

The words of the text written by operator<< are the texts of the elements, column by column.

*PropMat3.v* `C295_printed` 0

### C296 An odometry message says what the inputs say

A run with all inputs connected publishes exactly one message with the frames of the constructor, the time of the clock, and position, velocities and covariances of the inputs; the orientation is a unit quaternion that turns every vector as roll about x, then pitch about y, then yaw about z; the message of an earlier run has no influence.

*PropOdom.v* `C296_message` S; `C296_fresh` S; `C296_stamp` S

### C297 An unconnected input of the odometry block is reported with the name of the block (p)

With an unconnected input nothing is published and the fault carries the name of the block.

*PropOdom.v* `C297_names_refuted` S; `C297_unconnected_partial` S; `C297_covariance_partial` S; `C297_not_running_partial` S

REFUTED: the inputs for the covariances have no owner, so that the fault names no block. Proved: nothing is published; the four other inputs are reported with the name.

### C298 The mock robot is ready or moving only when it is homed

In every interleaving of the executor, the sequencer thread and the signal handler the safety system is at one of the four levels, at the levels ready and moving both axes are at 1 or beyond, and no step faults.

*PropMock.v* `C298_homed` 0; `C298_total` 0; `C298_levels` 0

### C299 The path planner of the mock robot drives the output only after homing

When the switch selects the path planner the robot is homed and the level homing is left for good; the path planner moves only at level moving, or at level off after an interrupt.

*PropMock.v* `C299_selected` 0; `C299_moving` 0

### C300 Throwing the switch does not move the mock robot (p)

When the switch changes from the integrator to the path planner the position at the output stays.

*PropMock.v* `C300_jump_refuted` 0; `C300_switch_partial` 0

REFUTED: the planner starts at 0, so that the output jumps from the homed position to (0, 0). Proved: which input the output shows.

### C301 An interrupt switches the mock robot off

After SafetySystem::exitHandler the next cycle of the safety system is at level off and stops the executor, whatever events the sequencer triggers in between, and the level stays off.

*PropMock.v* `C301_interrupt` 0; `C301_stop` 0

### C302 The sequencer of the mock robot ends after an abort

Once all abort conditions are set and running is cleared, the thread of the main sequence ends after at most 13 of its own steps.

*PropMock.v* `C302_ends` 0

### C303 An aborted sequencer leaves the switch of the mock robot alone (p)

After the abort the sequencer thread changes no output path any more.

*PropMock.v* `C303_abort_refuted` 0; `C303_only_partial` 0

REFUTED: an abort ends wait(2) only, and the next line throws the switch. Proved: no other line throws it.

### C304 The mock robot does not home at the levels ready and moving (p)

At the levels ready and moving the setpoint of the homing is zero and the integrator stays.

*PropMock.v* `C304_still_refuted` 0; `C304_setpoint_partial` 0

REFUTED: when the cycle of the safety system comes late, homing starts a second time and the level changes meanwhile. Proved: the setpoint is zero outside the homing sequence.

### C305 The system test writes nothing while initializing (p)

At level initializing the time domain of SystemTest1 is stopped and nothing is written to the output

*PropSys1.v* `C305_early_refuted` 0; `C305_stopped_partial` 0

REFUTED: the time domain is running from its construction, so that cycles before the first one of the safety system write to the output. Proved: afterwards it is stopped until the last action of the level.

### C306 The ramp of the system test starts at zero (p)

The first value written is zero and the ramp continues from there without a jump when running begins

*PropSys1.v* `C306_jump_refuted` 0; `C306_first_partial` 0

REFUTED: after such an early cycle the integrator counts the pause of five seconds as one step and the output jumps from 0 to more than 12. Proved: the first value written is 0.

### C307 The output of the system test stays within its limits (p)

No value outside -1.5 and 20.1 is written

*PropSys1.v* `C307_race_refuted` 0; `C307_late_refuted` 0; `C307_limits_partial` 0

REFUTED: when the restart falls between the read and the write of the integrator its initial condition is lost and the ramp continues above 20.1; a late cycle does the same. Proved: the output stays within -1.5 and 19.9 when cycles are shorter than 80 ms and the restart does not overlap a cycle.

### C308 Running ends at level stopped (p)

When the ramp reaches the switch level of 20 the switch is thrown and the event stop triggered, so that every run ends

*PropSys1.v* `C308_never_refuted` 0; `C308_late_refuted` 0; `C308_thrown_partial` 0

REFUTED: once the ramp has passed the window of 19.9 to 20.1 the switch is never thrown, the level stays running and the output grows for ever. Proved: the switch is thrown under the conditions of C307.

### C309 The system test never fails by itself

No interleaving leads to a fault or writes NaN, and level emergency is reached only by the event emergency

*PropSys1.v* `C309_total` 0; `C309_numbers` 0; `C309_no_emergency` 0

### C310 Emergency halts the system test

Nine steps of the safety thread after the event emergency the level is emergency and the time domain stopped, for ever, and at most one more value is written

*PropSys1.v* `C310_emergency` 0; `C310_halt` 0

### C311 The pauses of the system test have their length

The level initializing is left for running after exactly 501 cycles and the level stopped after exactly 301

*PropSys1.v* `C311_pauses` 0

### C312 The CAN example sends the velocities it means (p)

The velocities given to the drives are 0, 2 and -1, and no step of any thread is undefined

*PropCanx.v* `C312_overflow_refuted` 0; `C312_frames_partial` 0; `C312_only_partial` 0

REFUTED: the variable is unsigned, so that -1 becomes 4294967295 and its scaled value cannot be converted to uint32_t: undefined behaviour two seconds after the start of the motion. Proved: every frame sent carries 0 or 2, and nothing else is undefined.

### C313 An interrupt of the CAN example leads to stop (p)

After an interrupt the safety system goes to level stop

*PropCanx.v* `C313_ignored_refuted` 0; `C313_overridden_refuted` 0; `C313_moving_partial` 0; `C313_ready_partial` 0

REFUTED: at level init the event is not known and the interrupt has no effect; at level ready an event of the sequencer in the same cycle wins, because stop is the highest level. Proved: the interrupt leads to stop from moving, and from ready when nothing else comes in the same cycle.

### C314 The CAN example comes to its end at level stop

At level stop fifty steps of the sequencer thread end it, whatever the other threads do; the executor is stopped and both blocks are disabled

*PropCanx.v* `C314_ends` 0

### C315 No transfers of the configuration while process data is exchanged (p)

No SDO frame is sent while the blocks for process data are enabled, as required by their documentation

*PropCanx.v* `C315_enabled_refuted` 0; `C315_states_partial` 0

REFUTED: the states of the drives are read by SDO transfers after the blocks are enabled. Proved: no others when the safety system is in time.

### C316 The drives are initialized once (p)

The network is started at most once

*PropCanx.v* `C316_twice_refuted` 0; `C316_once_partial` 0

REFUTED: when the cycle of the safety system comes late the initialization runs a second time, with the blocks enabled. Proved: once when it is in time.

### C317 No process data after the drives are disabled (p)

After the stopping sequence has disabled the sending block and the drives no process data is sent

*PropCanx.v* `C317_after_refuted` 0; `C317_rest_partial` 0

REFUTED: the time domain is between the test of the flag and the frames. Proved: at most three more frames.

### C318 The velocity is zero unless the level is moving (p)

At every level other than moving the velocity given to the drives is zero

*PropCanx.v* `C318_stop_refuted` 0; `C318_rest_partial` 0

REFUTED: the velocity of 2 is sent at level stop until the sequencer gets to the stopping sequence. Proved: it is zero at levels init and ready.

### C319 exitHandler can be called from a signal handler (p)

Wherever the signal interrupts a thread, as its documentation says, exitHandler is defined

*PropSig.v* `C319_mutex_refuted` 0; `C319_library_refuted` 0; `C319_only_partial` 0; `C319_indeed_partial` 0; `C319_elsewhere_partial` 0

REFUTED: the handler locks the mutex its own thread already holds, or builds a log message while its thread is inside malloc. Proved: these are the only cases, and signals that come elsewhere are harmless.

### C320 A signal handler returns (p)

A handler that calls exitHandler returns and the safety system goes on

*PropSig.v* `C320_hangs_refuted` 0; `C320_returns_partial` 0

REFUTED: interrupted between lock and unlock the safety thread never goes on. Proved: elsewhere the handler returns after at most 11 steps of its thread and of the owner of the mutex.

### C321 The exit event takes effect (p)

The level after the handler is the registered destination of the event, or a lower one if another event came in the same cycle

*PropSig.v* `C321_stale_refuted` 0; `C321_taken_partial` 0

REFUTED: a handler in another thread takes the destination of the level before the cycle, and leads out of a level without any events. Proved: in the thread of the safety system the next cycle is at the destination or below, if that is lower than the level interrupted.

### C322 The ramp starts at zero (p)

SystemTest3: when the level ramp begins the integrator holds the initial condition 0 and the checker is armed

*PropSys3.v* `C322_ramp_from_zero_refuted` 0; `C322_ramp_from_zero_partial` 0

REFUTED: setInitCondition takes no lock; a run of the integrator that read the NaN of the constructor and is resumed after the last cycle of the level start writes NaN back. Proved: 0, if one cycle of the stay finds the time domain idle.

### C323 The reset comes when the ramp reaches 5 (p)

SystemTest3: the checker reports only when the value is at least 5, which is at least 10 s after the ramp began

*PropSys3.v* `C323_reset_at_five_refuted` 0; `C323_reset_at_five_partial` 0

REFUTED: with the NaN of C322 the checker reports at once. Proved: at least 10 s and 5, if one cycle of every stay finds the time domain idle.

### C324 The report of the checker is never lost

SystemTest3: in the level ramp the checker is armed, a value outside the limits leads to the level start with the next step of the safety system, and no event fails

*PropSys3.v* `C324_armed` 0; `C324_caught` 0; `C324_reported` 0; `C324_back` 0; `C324_goes_on` 0

Proved for all interleavings, with the mutex of the checker as the reason why reset and report cannot mix.

### C325 Ctrl-C ends the program (p)

SystemTest2: after an interrupt the levels shutting down and off follow and the executor is stopped within three cycles of the safety system

*PropSys2.v* `C325_interrupt_refuted` 0; `C325_interrupt_partial` 0

REFUTED: before the first cycle the level is off, which has no transition for the event; the interrupt is lost and the program goes on. Proved: at all other moments 12 steps of the safety system are enough.

### C326 The end of the initialization is reported (p)

SystemTest2: after the sixth run of p1 the level is not initializing any more

*PropSys2.v* `C326_report_refuted` 0; `C326_report_partial` 0; `C326_before_partial` 0

REFUTED: if p1 runs six times before the first cycle of the safety system the event is lost for good. Proved: not, if the sixth run finds the level initializing.

### C327 The output is on in running only

SystemTest2: each cycle writes the output once, at all levels but running it is switched off, at running the values alternate beginning with off

*PropSys2.v* `C327_off` 0; `C327_alternates` 0; `C327_every_cycle` 0

Proved for all interleavings.

### C328 Seven cycles in each of the two levels

SystemTest2 with the device reflect: the levels initialized and running follow each other, each for exactly seven cycles

*PropSys2.v* `C328_seven_cycles` 0

Proved.

### C329 Toggling begins with off (p)

SystemTest2: the first cycle of each stay at the level running writes off

*PropSys2.v* `C329_begins_off_refuted` 0; `C329_begins_off_partial` 0

REFUTED: the toggle action keeps its value from stay to stay. Proved: the first stay begins with off.

### C330 Running begins and ends with the input

SystemTest2: the level running is entered only by a cycle that reads the input on, left only by one that reads it off or by an interrupt, and these readings are never ignored

*PropSys2.v* `C330_begins` 0; `C330_ends` 0; `C330_off_ends` 0; `C330_on_starts` 0

Proved for all interleavings.

### C331 All steps are defined (p)

SystemTest2 can run forever without undefined behaviour

*PropSys2.v* `C331_defined_refuted` 0; `C331_defined_partial` 0

REFUTED: int count overflows after 2^31 runs. Proved: everything else is defined.

### C332 Writing a trace stays inside its buffers (p)

While the trace writer copies a trace to its file it reads and writes only inside its arrays

*PropTrac.v* `C332_copy_safe_refuted` 0; `C332_write_refuted` 0; `C332_wrapped_partial` 0; `C332_lines_partial` 0

REFUTED: the size is set by the second copy, the time stamps are allocated by the first; index is read again after new. Proved: after a wrap around every interleaving is safe and each file has N lines.

### C333 A line of the trace file holds a value with its time stamp (p)

Every line of a written trace file holds a value together with the time stamp of the same sample

*PropTrac.v* `C333_lines_match_refuted` 0; `C333_half_refuted` 0; `C333_quiet_partial` 0; `C333_newest_partial` 0; `C333_early_partial` 0

REFUTED: after a wrap around a run between the two copies shifts the values against the time stamps. Proved: exact file if the time domain does not run during the copy; lines match while fewer than N-1 samples were taken.

### C334 A request to write is not lost

After a request to write the trace a copy is begun later, whatever the writer does at that time

*PropTrac.v* `C334_not_lost` 0; `C334_served` 0

Proved for all interleavings.

### C335 The trace writer runs as long as its object (p)

The thread of a trace writer neither ends before its object is destroyed nor goes on after it

*PropTrac.v* `C335_base_run_refuted` 0; `C335_flag_lost_refuted` 0; `C335_join_refuted` 0; `C335_lives_partial` 0; `C335_stops_partial` 0

REFUTED: the thread may call Thread::run of the base class; the initializer of running may undo the start; destroyed before the start the join never returns. Proved: started after the construction it lives until the destruction; destroyed while under way it ends.

### C336 The trace writer uses its members only during their life (p)

The thread of a trace writer never uses the members name and log before they are initialized or after they are destroyed

*PropTrac.v* `C336_after_refuted` 0; `C336_before_refuted` 0; `C336_idle_partial` 0

REFUTED: the members are destroyed before the base class joins, and go is read before it is initialized. Proved: destroyed while it waits every interleaving is defined.

### C337 TraceTest pairs samples of the same run (p)

The file written by TraceTest at its end holds in each line samples of both traces from the same run

*PropTrac.v* `C337_two_traces_refuted` 0; `C337_shifted_refuted` 0; `C337_full_partial` 0; `C337_together_partial` 0

REFUTED: a run between the two calls of enable gives a read behind the end of buf2 or lines with samples of different runs. Proved: both traces full, or enabled between two runs.

### C338 The transition to the fast domain has a defined output (p)

The output block of a transition to a faster domain computes only with members which have been written

*PropTrex.v* `C338_initialized_refuted` 0; `C338_always_partial` 0; `C338_written_partial` 0; `C338_stays_partial` 0

REFUTED: dVal and dTime are read before the first signal, in TransitionBlockTest in every one of the first runs. Proved: from the first signal on they are written, for all interleavings.

### C339 The slow domain always finds a sample (p)

Whenever the slow domain of TransitionBlockTest reads the transition from the fast domain the buffer holds a sample

*PropTrex.v* `C339_not_empty_refuted` 0; `C339_not_empty_partial` 0

REFUTED: a slow thread late by one period runs twice in a row and reads an empty vector. Proved: defined if it is done when the last sample before its next start is recorded.

### C340 Values and time stamps stay together through both transitions

Every signal after one or both transitions of TransitionBlockTest lies on the ramp of the integrator: its value is the time from the first run of the integrator to its time stamp

*PropTrex.v* `C340_slow` 0; `C340_fast` 0

Proved for all ratios and interleavings (exact arithmetic, time stamps truncated to ns).

### C341 The signal which comes back to the slow domain is a number (p)

Every output of the second transition of TransitionBlockTest is a number

*PropTrex.v* `C341_number_refuted` 0; `C341_number_partial` 0

REFUTED: the first outputs are NaN. Proved: from the fourth on every output is a number, for all interleavings.

### C342 The round trip delays by two periods less one sample

If both domains keep their periods, the slow domain gets back the value interpolated one sample before the end of the interval between the second last and the last run

*PropTrex.v* `C342_delayed` 0

Proved for all ratios and lengths of periods.

### C343 A task in the after list begins after its parent

Run j of a task in the after list of another one with the factor k begins after run j*k of the other task has ended.

*PropPeri.v* `C343_after` 0

### C344 A task in the before list has been run before its parent (p)

When run j*k of a task begins, run j of a task in its before list has ended; the same holds for all tasks of the executor and the main task.

*PropPeri.v* `C344_before_refuted` 0; `C344_main_refuted` 0; `C344_released_partial` 0

REFUTED: a task in the before list is only released by its semaphore; the parent goes on at once, and in C344_main_refuted so does the main task. Proved: it has been released.

### C345 No run of a task is lost or added

At any time the runs begun and waiting of a task times its factor differ by at most one factor from the runs of its parent; when all threads are done each task has run floor(m / product of the factors) times in m cycles, and never more.

*PropPeri.v* `C345_not_lost` 0; `C345_rate` 0; `C345_never_more` 0

### C346 The example with harmonic tasks runs its tasks with the given periods

PeriodicExample3 creates the threads of the five tasks with the factors 1, 2, 2, 5 and 3; the tasks run in every, second, fourth, fifth and third cycle, and tasks 2, 3 and 4 after those they follow.

*PropPeri.v* `C346_built` 0; `C346_rates` 0; `C346_order` 0

### C347 A task and the task after it do not run at the same time (p)

Two tasks of which one is in the after list of the other are never executed at the same time, nor is a task at the same time as itself.

*PropPeri.v* `C347_overlap_refuted` 0; `C347_self_partial` 0

REFUTED: in PeriodicExample3 task 2, task 1 which it follows and the main task can work at the same time. Proved: a task never overlaps with itself.

### C348 The number of waiting runs of a task is bounded (p)

There is a bound for the number of runs of a task which were triggered and have not begun.

*PropPeri.v* `C348_backlog_refuted` 0; `C348_backlog_partial` 0

REFUTED: the semaphore counts without bound when a thread does not get on. Proved: at most one run is waiting when the thread is less than two triggers behind.

### C349 Monitors of harmonic tasks are called (p)

Each thread gets all monitors which the program has pushed to its task before run().

*PropPeri.v* `C349_monitors_refuted` 0; `C349_example_partial` 0; `C349_monitors_partial` 0

REFUTED: periodics are copied into the list of another one; in PeriodicExample3 the monitors of tasks 3 and 4 are pushed after the copy and are never called. Proved: all are used when they were pushed before the first copy.

### C350 Each task in the list of another one gets a thread (p)

When a task of the executor has another one in its after list, the executor creates a thread for the other one too.

*PropPeri.v* `C350_copies_refuted` 0; `C350_example_partial` 0

REFUTED: a task which is pushed into a list after its parent was copied gets no thread. Proved: PeriodicExample3 has the right order.

### C351 An interrupt ends CANexample1 (p)

After the interrupt handler has run, the safety system reaches its lowest level, stops the executor, and the executor leaves its loop.

*PropCan1.v* `C351_ignored_refuted` 0; `C351_moving_partial` 0

REFUTED: an interrupt before the level moving is ignored by the safety system (slInit has no seShutDown) although the sequence is aborted; without a second interrupt the executor runs forever. Proved: at level moving at most 7 steps of the main thread are needed.

### C352 The sequence of CANexample1 ends after an abort

Once the abort has been requested, the sequence thread needs at most 8 steps to its end with the set position back at zero, and main returns when the executor has left its loop and the sequence has ended.

*PropCan1.v* `C352_sequence` 0; `C352_handler` 0; `C352_program` 0

### C353 The drives of CANexample1 are home and disabled at the end (p)

When main returns, the last frame carries the position zero, and sending is disabled.

*PropCan1.v* `C353_not_home_refuted` 0; `C353_enabled_refuted` 0; `C353_end_partial` 0

REFUTED: the time domain may be joined before the sequence sets the position back, so the last frame carries another position; sending is never disabled. Proved: the constant holds zero at the end.

### C354 The drives of CANexample1 do not get new targets after the interrupt (p)

After the abort no position but zero is set.

*PropCan1.v* `C354_goes_on_refuted` 0; `C354_ended_partial` 0

REFUTED: Sequencer::abort ends the waits only; the sequence goes on with the next position, which is sent. Proved: nothing changes after the end of the sequence.

### C355 Frames of CANexample1 carry set values

Each frame is sent with a position which was read from the constant and with the speed set before.

*PropCan1.v* `C355_frames` 0

### C356 CANexample1 moves at level moving only (p)

At other levels than moving no position other than zero is set.

*PropCan1.v* `C356_shut_refuted` 0; `C356_init_partial` 0

REFUTED: the level is compared once per round; the safety system may have changed to shut down before setValue. Proved: at level init the position is zero.

### C357 Results of a gain which two threads use are not mixed

After run() of the Gain block all elements were calculated with the same gain, and the program multithreading never reports a wrong result.

*PropMult.v* `C357_not_mixed` 0; `C357_no_message` 0

### C358 The program multithreading has no data race (p)

The two threads never access the flag or the gain at the same time when one of them writes.

*PropMult.v* `C358_race_refuted` 0; `C358_race_always` 0; `C358_gain_partial` 0

REFUTED: the flag ready is a plain bool which is written by one and read by the other thread without synchronisation, in each run of the program. Proved: the gain is never accessed by both.

### C359 The program multithreading ends

There is no deadlock, and when the main thread waits in join the other thread needs a bounded number of steps, r * (n + 3).

*PropMult.v* `C359_join` 0; `C359_no_deadlock` 0

### C360 Failed runs of the program multithreading

The number of failed runs is at most the number of rounds; all may fail and none may fail although the gain is protected.

*PropMult.v* `C360_bound` 0; `C360_all_fail` 0; `C360_none_fails` 0

### C361 Each run of the program multithreading is tested against the other thread (p)

The other thread is not at its end before the main thread has called run() in its last round.

*PropMult.v* `C361_all_at_once_refuted` 0; `C361_then_alone_partial` 0; `C361_starts_late_partial` 0

REFUTED: the other thread repeats setGain as long as the flag is set and may do all its rounds in the first round of the main thread. Proved: afterwards no run fails, so the remaining runs test nothing.

### C362 A subsystem calculates its output within one run

After the first run of the time domain of SubSystemTest the output is twice the sum of the constant and three times the constant, for each constant, and stays so.

*PropSubx.v* `C362_after_run` 0; `C362_in_time` 0

### C363 The monitor of SubSystemTest logs whole values (p)

A logged value is either the cleared one or the result.

*PropSubx.v* `C363_torn_refuted` 0; `C363_torn_other_refuted` 0; `C363_elements_partial` 0; `C363_then_whole_partial` 0

REFUTED: the monitor reads the signal without a lock while the first run writes it; one element is nan and the other the result. Proved: each element is nan or the result, and all values read after the first run are whole.
