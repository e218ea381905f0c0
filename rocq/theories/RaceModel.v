(** * Threads, mutexes and the members of the control blocks

    The blocks of a time domain are run by one thread while other threads (the
    sequencer, the safety system, other time domains, the user interface) call
    their methods.  Here the methods are modelled by the accesses they make to
    the members of the objects and by the mutexes they take. *)
From Coq Require Import List String Bool Arith.
Import ListNotations.
Local Open Scope string_scope.
Local Open Scope list_scope.
Local Open Scope nat_scope.

(** An object, a member of an object.  Every block of /repo with a mutex has
    exactly one, called mtx (includes/eeros/control/I.hpp:153,
    Gain.hpp:289, includes/eeros/safety/SafetySystem.hpp): the mutex is
    named by its object.  Object 0 is the safety system. *)
Definition obj := nat.
Definition loc := (obj * string)%type.

(** What a thread does, one step at a time.  [ABegin] and [AEnd] mark the
    beginning and the end of a call. *)
Inductive act :=
| ALock (m : obj) | AUnlock (m : obj)
| ARead (x : loc) | AWrite (x : loc)
| ABegin | AEnd.

(** The body of a method.  [Alt] is a branch whose condition depends on
    values that are not modelled, [Rep] a loop, [Guard] the scope of a
    std::lock_guard, [Throw] an exception. *)
Inductive cmd :=
| Skip
| Rd (x : loc) | Wr (x : loc)
| Lk (m : obj) | Un (m : obj)
| Sq (a b : cmd) | Alt (a b : cmd) | Rep (a : cmd)
| Guard (m : obj) (a : cmd)
| Throw.

(** The step sequences of a body; [true]: it ends with an exception.  The
    destructor of a lock_guard releases the mutex in both cases (C++
    [thread.lock.guard]); a mutex locked by mtx.lock() is released by
    mtx.unlock() only. *)
Inductive exec : cmd -> list act -> bool -> Prop :=
| x_skip : exec Skip [] false
| x_rd x : exec (Rd x) [ARead x] false
| x_wr x : exec (Wr x) [AWrite x] false
| x_lk m : exec (Lk m) [ALock m] false
| x_un m : exec (Un m) [AUnlock m] false
| x_sq a b l k r : exec a l false -> exec b k r -> exec (Sq a b) (l ++ k) r
| x_sqt a b l : exec a l true -> exec (Sq a b) l true
| x_alt1 a b l r : exec a l r -> exec (Alt a b) l r
| x_alt2 a b l r : exec b l r -> exec (Alt a b) l r
| x_rep0 a : exec (Rep a) [] false
| x_rep a l k r : exec a l false -> exec (Rep a) k r -> exec (Rep a) (l ++ k) r
| x_rept a l : exec a l true -> exec (Rep a) l true
| x_guard m a l r : exec a l r -> exec (Guard m a) (ALock m :: l ++ [AUnlock m]) r
| x_throw : exec Throw [] true.

(** A thread makes one call after the other.  An exception ends a call, not
    the thread (TimeDomain::run catches the faults of its blocks,
    src/control/TimeDomain.cpp:25-39). *)
Inductive calls : list cmd -> list act -> Prop :=
| c_nil : calls [] []
| c_cons c cs l r k : exec c l r -> calls cs k ->
    calls (c :: cs) (ABegin :: l ++ AEnd :: k).

(** The steps the threads still have to do and the owners of the mutexes. *)
Record st := { todo : nat -> list act; own : obj -> option nat }.

Definition set {A} (f : nat -> A) (k : nat) (v : A) : nat -> A :=
  fun i => if i =? k then v else f i.

(** One step of thread [t].  Locking a mutex that is taken blocks.  (Locking
    one's own mutex again and unlocking a mutex of somebody else are undefined
    in C++; here the thread does not step.) *)
Inductive step : st -> nat -> act -> st -> Prop :=
| s_lock s t m k : todo s t = ALock m :: k -> own s m = None ->
    step s t (ALock m) {| todo := set (todo s) t k; own := set (own s) m (Some t) |}
| s_unlock s t m k : todo s t = AUnlock m :: k -> own s m = Some t ->
    step s t (AUnlock m) {| todo := set (todo s) t k; own := set (own s) m None |}
| s_read s t x k : todo s t = ARead x :: k ->
    step s t (ARead x) {| todo := set (todo s) t k; own := own s |}
| s_write s t x k : todo s t = AWrite x :: k ->
    step s t (AWrite x) {| todo := set (todo s) t k; own := own s |}
| s_begin s t k : todo s t = ABegin :: k ->
    step s t ABegin {| todo := set (todo s) t k; own := own s |}
| s_end s t k : todo s t = AEnd :: k ->
    step s t AEnd {| todo := set (todo s) t k; own := own s |}.

(** All interleavings, with the steps done so far. *)
Inductive run : st -> list (nat * act) -> st -> Prop :=
| r_nil s : run s [] s
| r_snoc s h s1 t a s2 : run s h s1 -> step s1 t a s2 -> run s (h ++ [(t, a)]) s2.

(** The threads at the start: thread [t] will make the calls [cs t]. *)
Definition starts (cs : nat -> list cmd) (s : st) : Prop :=
  (forall t, calls (cs t) (todo s t)) /\ forall m, own s m = None.

Definition seq (l : list cmd) : cmd := fold_right Sq Skip l.

(** ** Signals *)

(** Signal::getValue/getTimestamp, setValue/setTimestamp: two members, no
    mutex (includes/eeros/control/Signal.hpp:79-113).
    [v], [ts]: the signal of the output of object [o]. *)
Definition v (o : obj) : loc := (o, "out.value").
Definition ts (o : obj) : loc := (o, "out.timestamp").

(** Input::getSignal followed by getValue or getTimestamp: raises if the input
    is not connected (includes/eeros/control/Input.hpp:82-87). *)
Definition in_v (src : option obj) : cmd :=
  match src with Some o => Rd (v o) | None => Throw end.
Definition in_t (src : option obj) : cmd :=
  match src with Some o => Rd (ts o) | None => Throw end.
Definition in_sig (src : option obj) : cmd := Sq (in_v src) (in_t src).

(** ** Safety system (object 0) *)

Definition cur : loc := (0, "currentLevel").
Definition nxt : loc := (0, "nextLevel").

(** SafetySystem::getCurrentLevel (src/safety/SafetySystem.cpp:28-35). *)
Definition ss_level : cmd := Sq (Rd cur) (Alt (Rd cur) Throw).

(** SafetySystem::triggerEvent (src/safety/SafetySystem.cpp:49-70); the
    levels themselves are not modelled, the log is. *)
Definition ss_trigger : cmd :=
  Sq (Rd cur)
     (Alt Throw
          (Sq (Rd cur)
              (Alt (seq [Lk 0; Rd nxt; Rd cur;
                         Alt (Sq (Wr nxt) (Rd nxt))
                             (Sq (Rd nxt) (Alt (Sq (Wr nxt) (Rd nxt)) Skip));
                         Un 0; Rd cur; Rd nxt])
                   (Rd cur)))).

(** SafetySystem::run (src/safety/SafetySystem.cpp:80-122).  [user]: what the
    input actions, the level action and the output actions call; no mutex is
    held meanwhile. *)
Definition ss_run (user : list cmd) : cmd :=
  seq [Rd nxt; Alt (Sq (Rd nxt) (Wr cur)) Skip; Rd cur;
       Alt (seq [Rd cur; seq user; Rd nxt; Alt (Sq (Rd nxt) (Wr cur)) Skip]) Skip].

(** ** SignalChecker (includes/eeros/control/SignalChecker.hpp) *)

(** The test of the active level and the event, 91-97 and 103-109. *)
Definition sc_fire (o : obj) : cmd :=
  seq [Rd (o, "safetySystem"); Rd (o, "safetyEvent");
       Alt Skip
         (seq [Rd (o, "activeLevel");
               Alt Skip (seq [Rd (o, "activeLevel"); Rd (o, "safetySystem"); ss_level;
                              Rd (o, "activeLevel")]);
               Alt Skip
                 (seq [Rd (o, "safetySystem"); Rd (o, "safetyEvent"); ss_trigger;
                       Wr (o, "fired")])])].

(** run, lines 83-114. *)
Definition sc_run (o : obj) (src : option obj) : cmd :=
  Guard o (seq [in_v src; Rd (o, "fired");
    Alt Skip
      (seq [Rd (o, "offRange"); Rd (o, "lowerLimit"); Rd (o, "upperLimit");
            Alt Skip (sc_fire o)])]).
(** setLimits, lines 123-127. *)
Definition sc_setLimits (o : obj) : cmd :=
  Guard o (seq [Wr (o, "lowerLimit"); Wr (o, "upperLimit")]).
(** reset, lines 133-136. *)
Definition sc_reset (o : obj) : cmd := Guard o (Wr (o, "fired")).
(** registerSafetyEvent, lines 145-149. *)
Definition sc_register (o : obj) : cmd :=
  Guard o (seq [Wr (o, "safetySystem"); Wr (o, "safetyEvent")]).
(** setActiveLevel, lines 157-160. *)
Definition sc_setActiveLevel (o : obj) : cmd := Guard o (Wr (o, "activeLevel")).

Definition sc_methods (o : obj) (src : option obj) : list cmd :=
  [sc_run o src; sc_setLimits o; sc_reset o; sc_register o; sc_setActiveLevel o].

(** ** Constant (includes/eeros/control/Constant.hpp) *)

(** run, 49-53; setValue, 60-63; getValue, 70-72 (no mutex). *)
Definition ct_run (o : obj) : cmd :=
  Guard o (seq [Rd (o, "value"); Wr (v o); Wr (ts o)]).
Definition ct_setValue (o : obj) : cmd := Guard o (Wr (o, "value")).
Definition ct_getValue (o : obj) : cmd := Rd (o, "value").

(** ** Integrator (includes/eeros/control/I.hpp) *)

(** run, 53-75. *)
Definition i_run (o : obj) (src : option obj) : cmd :=
  Guard o (seq [Rd (o, "activeLevel");
    Alt Skip (seq [Rd (o, "safetySystem"); ss_level; Rd (o, "activeLevel");
                   Wr (o, "enabled")]);
    in_t src; Rd (o, "prev.timestamp"); Rd (o, "first");
    Alt (Wr (o, "first")) Skip;
    in_v src; Rd (o, "prev.value"); Rd (o, "enabled");
    Alt (Sq (Rd (o, "upperLimit")) (Alt (Rd (o, "lowerLimit")) Skip)) Skip;
    Wr (v o); in_t src; Wr (ts o); Rd (v o); Rd (ts o);
    Wr (o, "prev.value"); Wr (o, "prev.timestamp")]).
(** enable, 84-86; disable, 95-97; setInitCondition, 106-108; setLimit,
    119-125 (no mutex); setActiveLevel, 134-138. *)
Definition i_enable (o : obj) : cmd := Wr (o, "enabled").
Definition i_disable (o : obj) : cmd := Wr (o, "enabled").
Definition i_setInitCondition (o : obj) : cmd := Wr (o, "prev.value").
Definition i_setLimit (o : obj) : cmd :=
  seq [Wr (o, "upperLimit"); Wr (o, "lowerLimit"); Rd (o, "prev.value");
       Alt (Wr (o, "prev.value")) Skip; Alt (Wr (o, "prev.value")) Skip].
Definition i_setActiveLevel (o : obj) : cmd :=
  Guard o (seq [Wr (o, "safetySystem"); Wr (o, "activeLevel")]).

Definition i_methods (o : obj) (src : option obj) : list cmd :=
  [i_run o src; i_enable o; i_disable o; i_setInitCondition o; i_setLimit o;
   i_setActiveLevel o].

(** ** Gain (includes/eeros/control/Gain.hpp) *)

(** run, 107-142, with calculate and calculateParabolic, 291-356. *)
Definition g_run (o : obj) (src : option obj) : cmd :=
  Guard o (seq [Rd (o, "smoothChange");
    Alt Skip (seq [Rd (o, "gain"); Rd (o, "targetGain");
      Alt Skip (seq [Rd (o, "gainDiff"); Wr (o, "gain"); Rd (o, "targetGain");
                     Alt Skip (Wr (o, "gain"))]);
      Rd (o, "gain"); Rd (o, "targetGain");
      Alt Skip (seq [Rd (o, "gainDiff"); Wr (o, "gain"); Rd (o, "targetGain");
                     Alt Skip (Wr (o, "gain"))])]);
    Rd (o, "gain"); Rd (o, "maxGain"); Alt Skip (Wr (o, "gain"));
    Rd (o, "gain"); Rd (o, "minGain"); Alt Skip (Wr (o, "gain"));
    Rd (o, "enabled");
    Alt (seq [Rd (o, "parabolic"); in_v src;
              Alt Skip (Rd (o, "parabolicSwitchPoint")); Rd (o, "gain"); Wr (v o)])
        (seq [in_v src; Wr (v o)]);
    in_t src; Wr (ts o)]).
(** enable, 155-157; disable, 170-172; enableSmoothChange, 188-190;
    enableParabolicGain, 205-207 (no mutex). *)
Definition g_enable (o : obj) : cmd := Wr (o, "enabled").
Definition g_disable (o : obj) : cmd := Wr (o, "enabled").
Definition g_smooth (o : obj) : cmd := Wr (o, "smoothChange").
Definition g_parabolic (o : obj) : cmd := Wr (o, "parabolic").
(** setGain, 219-229; setMaxGain, 237-240; setMinGain, 248-251; setGainDiff,
    258-261; setParabolicGainParams, 268-271. *)
Definition g_setGain (o : obj) : cmd :=
  Guard o (seq [Rd (o, "maxGain"); Rd (o, "minGain");
    Alt Skip (seq [Rd (o, "smoothChange"); Alt (Wr (o, "targetGain")) (Wr (o, "gain"))])]).
Definition g_setMaxGain (o : obj) : cmd := Guard o (Wr (o, "maxGain")).
Definition g_setMinGain (o : obj) : cmd := Guard o (Wr (o, "minGain")).
Definition g_setGainDiff (o : obj) : cmd := Guard o (Wr (o, "gainDiff")).
Definition g_setParams (o : obj) : cmd := Guard o (Wr (o, "parabolicSwitchPoint")).

Definition g_methods (o : obj) (src : option obj) : list cmd :=
  [g_run o src; g_enable o; g_disable o; g_smooth o; g_parabolic o; g_setGain o;
   g_setMaxGain o; g_setMinGain o; g_setGainDiff o; g_setParams o].

(** ** RateLimiter (includes/eeros/control/RateLimiter.hpp) *)

(** run, 79-93; enable, 102-104; disable, 113-115 (no mutex); setRate,
    123-127. *)
Definition rl_run (o : obj) (src : option obj) : cmd :=
  Guard o (seq [in_v src; in_t src; Rd (o, "outPrev"); Rd (o, "enabled");
    Alt Skip (seq [Rd (o, "outPrev"); Rd (o, "fallingRate"); Rd (o, "risingRate")]);
    Wr (o, "outPrev"); in_t src; Wr (o, "outPrev"); Wr (v o); in_t src; Wr (ts o)]).
Definition rl_enable (o : obj) : cmd := Wr (o, "enabled").
Definition rl_disable (o : obj) : cmd := Wr (o, "enabled").
Definition rl_setRate (o : obj) : cmd :=
  Guard o (seq [Wr (o, "fallingRate"); Wr (o, "risingRate")]).

Definition rl_methods (o : obj) (src : option obj) : list cmd :=
  [rl_run o src; rl_enable o; rl_disable o; rl_setRate o].

(** ** Saturation (includes/eeros/control/Saturation.hpp) *)

(** run, 53-60, with calculateResult, 96-117; enable, 69-71; disable, 80-82;
    setLimit, 90-93 (no mutex). *)
Definition sa_run (o : obj) (src : option obj) : cmd :=
  Guard o (seq [in_v src; Rd (o, "enabled");
    Alt Skip (Rep (seq [Rd (o, "upperLimit"); Rd (o, "lowerLimit")]));
    Wr (v o); in_t src; Wr (ts o)]).
Definition sa_enable (o : obj) : cmd := Wr (o, "enabled").
Definition sa_disable (o : obj) : cmd := Wr (o, "enabled").
Definition sa_setLimit (o : obj) : cmd :=
  seq [Wr (o, "lowerLimit"); Wr (o, "upperLimit")].

Definition sa_methods (o : obj) (src : option obj) : list cmd :=
  [sa_run o src; sa_enable o; sa_disable o; sa_setLimit o].

(** ** WrapAround (includes/eeros/control/WrapAround.hpp) *)

(** run, 47-54; enable, 63-65; disable, 74-76 (no mutex); setMinMax, 84-88
    (assigns the members to themselves). *)
Definition wa_run (o : obj) (src : option obj) : cmd :=
  Guard o (seq [in_v src; Rd (o, "enabled");
    Alt Skip (Rep (seq [Rd (o, "maxVal"); Rd (o, "minVal")]));
    Wr (v o); in_t src; Wr (ts o)]).
Definition wa_enable (o : obj) : cmd := Wr (o, "enabled").
Definition wa_disable (o : obj) : cmd := Wr (o, "enabled").
Definition wa_setMinMax (o : obj) : cmd :=
  Guard o (seq [Rd (o, "minVal"); Wr (o, "minVal"); Rd (o, "maxVal"); Wr (o, "maxVal")]).

Definition wa_methods (o : obj) (src : option obj) : list cmd :=
  [wa_run o src; wa_enable o; wa_disable o; wa_setMinMax o].

(** ** PeripheralOutput (includes/eeros/control/PeripheralOutput.hpp) *)

(** run, 46-58, including the fault raised for NaN; getValue, 65-68.  The
    output of the hardware abstraction is [hw]. *)
Definition po_run (o hw : obj) (src : option obj) : cmd :=
  Guard o (seq [in_v src; Wr (o, "val"); Rd (o, "val");
    Alt Skip (seq [Rd (hw, "safe"); Wr (o, "val")]);
    Rd (o, "val"); Wr (hw, "value"); in_t src; Wr (hw, "timestamp"); Alt Skip Throw]).
Definition po_getValue (o : obj) : cmd := Guard o (Rd (o, "val")).

(** ** Kalman filter (includes/eeros/control/filter/KalmanFilter.hpp) *)

(** prediction, 212-224; correction, 229-256.  The inputs are connected to
    the outputs of [us] and [ys]; constant matrices are not listed. *)
Definition kf_out (o : obj) : cmd := Rep (seq [Rd (o, "x"); Wr (v o); Wr (ts o)]).
Definition kf_prediction (o : obj) (us : list (option obj)) : cmd :=
  Guard o (seq [seq (map (fun u => Sq (in_v u) (Wr (o, "u"))) us);
    Rd (o, "x"); Rd (o, "u"); Wr (o, "x"); kf_out o; Rd (o, "P"); Wr (o, "P")]).
Definition kf_correction (o : obj) (us ys : list (option obj)) : cmd :=
  Guard o (seq [Rd (o, "first");
    Alt (seq [kf_out o; Wr (o, "first")])
        (seq [seq (map (fun y => Sq (in_v y) (Wr (o, "y"))) ys);
              seq (map (fun u => Sq (in_v u) (Wr (o, "u"))) us);
              Rd (o, "P"); Wr (o, "CPCTR"); Rd (o, "CPCTR"); Rd (o, "P"); Wr (o, "K");
              Rd (o, "y"); Rd (o, "x"); Rd (o, "u"); Wr (o, "dy");
              Rd (o, "K"); Rd (o, "dy"); Rd (o, "x"); Wr (o, "x"); kf_out o;
              Rd (o, "K"); Rd (o, "P"); Wr (o, "P")])]).

(** ** Step (includes/eeros/control/Step.hpp): no mutex *)

(** run, 54-65; reset, 71-74; setInitValue, 81-83; setStepHeight, 90-92;
    setDelayTime, 99-101. *)
Definition sp_run (o : obj) : cmd :=
  seq [Rd (o, "first");
       Alt (seq [Rd (o, "delayTime"); Wr (o, "time"); Rd (o, "initValue"); Wr (v o);
                 Wr (o, "first")]) Skip;
       Rd (o, "stepDone");
       Alt (Sq (Rd (o, "time"))
               (Alt (seq [Rd (o, "initValue"); Rd (o, "stepHeight"); Wr (v o);
                          Wr (o, "stepDone")]) Skip)) Skip;
       Wr (ts o)].
Definition sp_reset (o : obj) : cmd := seq [Wr (o, "stepDone"); Wr (o, "first")].
Definition sp_setInitValue (o : obj) : cmd := Wr (o, "initValue").
Definition sp_setStepHeight (o : obj) : cmd := Wr (o, "stepHeight").
Definition sp_setDelayTime (o : obj) : cmd := Wr (o, "delayTime").

Definition sp_methods (o : obj) : list cmd :=
  [sp_run o; sp_reset o; sp_setInitValue o; sp_setStepHeight o; sp_setDelayTime o].

(** ** Switch (includes/eeros/control/Switch.hpp) *)

(** switchToInput, 85-92; combined switches one level deep ([comb]). *)
Definition sw_to (o : obj) (comb : list obj) : cmd :=
  Alt Skip (seq (Wr (o, "currentInput") ::
                 map (fun i => Alt Skip (Wr (i, "currentInput"))) comb)).
(** run, 56-77; [srcs]: the outputs connected to the inputs. *)
Definition sw_in (srcs : list obj) : cmd :=
  fold_right (fun s c => Alt (Sq (Rd (v s)) (Rd (ts s))) c) Throw srcs.
Definition sw_run (o : obj) (srcs comb : list obj) : cmd :=
  Guard o (seq [Rd (o, "currentInput"); sw_in srcs; Rd (o, "armed");
    Alt Skip (seq [Rd (o, "switched");
      Alt Skip (seq [Rd (o, "switchLevel"); Rd (o, "delta");
        Alt Skip (seq [Rd (o, "activeLevel");
          Alt Skip (seq [Rd (o, "activeLevel"); Rd (o, "safetySystem"); ss_level]);
          Alt Skip (seq [Rd (o, "nextInput"); sw_to o comb;
            seq (map (fun i => seq [Rd (o, "nextInput"); sw_to i []]) comb);
            Wr (o, "switched"); Wr (o, "armed");
            Rd (o, "safetySystem"); Rd (o, "safetyEvent");
            Alt Skip ss_trigger])])])]);
    Rd (o, "currentInput"); sw_in srcs; Wr (v o);
    Rd (o, "currentInput"); sw_in srcs; Wr (ts o)]).
(** getCurrentInput, 99-101; registerSafetyEvent, 111-114; setCondition,
    143-147; arm, 153-156; triggered, 164-166 (no mutex); setActiveLevel,
    125-129. *)
Definition sw_getCurrentInput (o : obj) : cmd := Rd (o, "currentInput").
Definition sw_register (o : obj) : cmd := seq [Wr (o, "safetySystem"); Wr (o, "safetyEvent")].
Definition sw_setCondition (o : obj) : cmd :=
  seq [Wr (o, "switchLevel"); Wr (o, "delta"); Wr (o, "nextInput")].
Definition sw_arm (o : obj) : cmd := seq [Wr (o, "armed"); Wr (o, "switched")].
Definition sw_triggered (o : obj) : cmd := Rd (o, "switched").
Definition sw_setActiveLevel (o : obj) : cmd :=
  Guard o (seq [Wr (o, "safetySystem"); Wr (o, "activeLevel")]).

Definition sw_methods (o : obj) (srcs comb : list obj) : list cmd :=
  [sw_run o srcs comb; sw_to o comb; sw_getCurrentInput o; sw_register o;
   sw_setCondition o; sw_arm o; sw_triggered o; sw_setActiveLevel o].

(** ** Path planner (includes/eeros/control/PathPlannerConstAcc.hpp)

    The coefficients c1a ... c3p and the durations dT1 ... dT3 are one member
    "coeff", the limits velMax, acc and dec one member "limits".
    PathPlannerConstJerk.hpp:65-299 has the same structure. *)

(** endReached, 63-66; run, 73-136. *)
Definition pp_endReached (o : obj) : cmd := Guard o (Rd (o, "finished")).
Definition pp_run (o : obj) : cmd :=
  Guard o (seq [Rd (o, "last"); Rd (o, "t"); Wr (o, "t"); Rd (o, "finished");
    Alt Skip (Rep (seq [Rd (o, "range");
      Alt (seq [Rd (o, "t"); Rd (o, "coeff"); Alt Skip (Sq (Wr (o, "range")) (Wr (o, "t")))])
          (seq [Wr (o, "finished"); Rd (o, "endPos")]);
      Wr (o, "last")]));
    Wr (v o); Wr (ts o)]).
(** move, 154-222; the overloads of TrajectoryGenerator.hpp:67-88 read last
    first. *)
Definition pp_move (o : obj) : cmd :=
  seq [Alt Skip (Rd (o, "last")); Rd (o, "finished");
       Alt Skip (seq [Wr (o, "endPos");
         Alt Skip (seq [Rd (o, "limits"); Wr (o, "coeff"); Rd (o, "coeff"); Wr (o, "coeff");
                        Guard o (seq [Wr (o, "finished"); Wr (o, "range"); Wr (o, "t")])])])].
(** setStart, 231-235; setMaxSpeed, setMaxAcc, setMaxDec, 242-256 (no
    mutex). *)
Definition pp_setStart (o : obj) : cmd := Guard o (seq [Wr (o, "last"); Wr (o, "finished")]).
Definition pp_setMax (o : obj) : cmd := Wr (o, "limits").

Definition pp_methods (o : obj) : list cmd :=
  [pp_run o; pp_endReached o; pp_move o; pp_setStart o; pp_setMax o].

(** ** Transition (includes/eeros/control/Transition.hpp)

    [o]: the container with the mutex, [b]: the output block. *)

(** TransitionInBlock::run: steady 83-86, up 88-93, down 94-98. *)
Definition tr_in_steady (o : obj) (src : option obj) : cmd :=
  seq [Lk o; in_sig src; Wr (o, "in"); Un o].
Definition tr_in_up (o : obj) (src : option obj) : cmd :=
  seq [Lk o; Rd (o, "in"); Wr (o, "prevIn"); in_sig src; Wr (o, "in");
       Wr (o, "refresh"); Un o].
Definition tr_in_down (o : obj) (src : option obj) : cmd :=
  seq [Lk o; in_sig src; Wr (o, "buf"); Un o].
(** TransitionOutBlock::run: steady 115-119, up 121-137, down 138-148. *)
Definition tr_out_steady (o b : obj) : cmd :=
  seq [Lk o; Rd (o, "in"); Wr (v b); Rd (o, "in"); Wr (ts b); Un o].
Definition tr_out_up (o b : obj) : cmd :=
  seq [Rd (o, "refresh");
       Alt Skip (seq [Lk o; Rd (o, "prevIn"); Rd (o, "in"); Wr (o, "refresh"); Un o]);
       Wr (v b); Wr (ts b)].
Definition tr_out_down (o b : obj) (src : option obj) : cmd :=
  seq [in_t src; Lk o; Rep (Rd (o, "buf")); Rd (o, "buf"); Wr (o, "buf"); Un o;
       Wr (v b); Wr (ts b)].

(** ** RingBuffer (includes/eeros/core/RingBuffer.hpp) *)

(** push, 15-20; pop, 22-29; length, 31 (no mutex). *)
Definition rb_push (o : obj) : cmd :=
  Guard o (seq [Rd (o, "len"); Alt Skip (seq [Rd (o, "tail"); Rd (o, "len"); Wr (o, "len");
                                              Wr (o, "items")])]).
Definition rb_pop (o : obj) : cmd :=
  Guard o (seq [Rd (o, "len"); Alt Skip (seq [Rd (o, "tail"); Rd (o, "items"); Rd (o, "tail");
                                              Wr (o, "tail"); Rd (o, "len"); Wr (o, "len")])]).
Definition rb_length (o : obj) : cmd := Rd (o, "len").

(** ** SocketServer (includes/eeros/sockets/SocketServer.hpp) *)

(** One cycle of the thread, 98-135, and the end of a connection, 136-140;
    the socket calls are left out. *)
Definition so_cycle (o : obj) : cmd :=
  seq [Rd (o, "connected"); Guard o (Rep (Rd (o, "txBuf"))); Alt Skip (Wr (o, "connected"));
       Rep (seq [Rd (o, "connected"); Alt Skip (Wr (o, "connected"))]);
       Guard o (Rep (Wr (o, "rxBuf"))); Wr (o, "newData")].
Definition so_close (o : obj) : cmd := seq [Rep (Wr (o, "rxBuf")); Wr (o, "newData")].
(** getReceiveBuffer, 52-55: returns a reference; the caller reads the buffer
    after the mutex was released.  setSendBuffer, 57-60; isConnected, 48-50. *)
Definition so_getReceiveBuffer (o : obj) : cmd := seq [Guard o Skip; Rep (Rd (o, "rxBuf"))].
Definition so_setSendBuffer (o : obj) : cmd := Guard o (Rep (Wr (o, "txBuf"))).
Definition so_isConnected (o : obj) : cmd := Rd (o, "connected").

Definition so_methods (o : obj) : list cmd :=
  [so_cycle o; so_close o; so_getReceiveBuffer o; so_setSendBuffer o; so_isConnected o].

(** ** Blocks without state, run by one thread *)

(** A block that reads its input and writes its output without a mutex, as
    Sum (includes/eeros/control/Sum.hpp:42-66). *)
Definition plain_run (o : obj) (srcs : list (option obj)) : cmd :=
  seq [seq (map in_v srcs); Wr (v o); in_t (nth 0 srcs None); Wr (ts o)].

(** ** Time domain (src/control/TimeDomain.cpp) *)

(** run, 25-39, with the blocks [bs]; start, 41-43; stop, 45-47; addBlock,
    49-55; removeBlock, 57-63.  "blocks" is the std::list of the blocks. *)
Definition td_run (o : obj) (bs : list cmd) : cmd :=
  Sq (Rd (o, "running"))
     (Alt Skip (seq (map (fun b => Sq (Rd (o, "blocks")) b) bs))).
Definition td_start (o : obj) : cmd := Wr (o, "running").
Definition td_stop (o : obj) : cmd := Wr (o, "running").
Definition td_addBlock (o : obj) : cmd := Wr (o, "blocks").
Definition td_removeBlock (o : obj) : cmd := Wr (o, "blocks").
