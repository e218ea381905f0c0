(** Model of the control system base classes and of the basic control blocks
    (includes/eeros/control/*.hpp, src/control/TimeDomain.cpp).

    Blocks are modelled as state machines: a state record, the public setters and [run], which
    maps the connected input signals to the new state and the written output.  Values are
    elements of a number type [N] (scalar instances of the templates; the vector instances of
    Saturation and RateLimiter are element-wise and are modelled by [map2]/[map3] below).
    Mutexes are not modelled: every operation is atomic. *)
From Coq Require Import Reals Floats.SpecFloat.
From Flocq Require Import Core.Raux.
From Verif Require Import Prelude Num.
Open Scope Z_scope.

(** Signal.hpp:79-113, value and time stamp (uint64_t nanoseconds). *)
Record signal (T : Type) := mksig { sv : T; st : Z }.
Arguments mksig {T} _ _.
Arguments sv {T} _.
Arguments st {T} _.

(** ** Connections (Input.hpp, InputSub.hpp, Output.hpp) *)

(** What an input can be connected to: an output with its own signal (Output.hpp:39-41) or the
    input of a subsystem, which is itself an output (InputSub.hpp:23). *)
Inductive outref := OSig (s : nat) | OSub (i : nat).

Inductive conn_op :=
| CConnect (i : nat) (r : outref)        (* connect(Output<T>&) *)
| CConnectPtr (i : nat) (p : option outref)  (* connect(Output<T>* ), None: nullptr *)
| CDisconnect (i : nat).

(** connectedOutput of every input; the constructors (Input.hpp:26,33) set nullptr. *)
Definition conns := nat -> option outref.
Definition conns_new : conns := fun _ => None.

(** Input.hpp:41-57 connect, 62-64 disconnect; returns the result of connect. *)
Definition conn_step (c : conns) (o : conn_op) : conns * bool :=
  match o with
  | CConnect i r => match c i with Some _ => (c, false) | None => (upd c i (Some r), true) end
  | CConnectPtr i p => match c i with Some _ => (c, false) | None => (upd c i p, true) end
  | CDisconnect i => (upd c i None, true)
  end.
Definition conn_runs (os : list conn_op) : conns := fold_left (fun c o => fst (conn_step c o)) os conns_new.

(** Input.hpp:71-73 *)
Definition is_connected (c : conns) (i : nat) : bool := match c i with Some _ => true | None => false end.

(** Input.hpp:82-87 and InputSub.hpp:44-46: the signal that is read, the fault that names the
    owner of the unconnected input, or unbounded recursion (a cycle of subsystem inputs). *)
Inductive rdres := RSignal (s : nat) | RNotConnected (i : nat) | RLoop.
Fixpoint get_signal (fuel : nat) (c : conns) (i : nat) : rdres :=
  match fuel with
  | O => RLoop
  | S n => match c i with
           | None => RNotConnected i
           | Some (OSig s) => RSignal s
           | Some (OSub j) => get_signal n c j
           end
  end.

(** ** Number of inputs and outputs *)

(** Blockio.hpp:83-97 (and 150-153, 214-217, 280-283, 449-452) and Subio.hpp:48-62:
    the argument is converted to uint8_t by the caller. *)
Definition get_port (n : Z) (i : Z) : outcome Z :=
  let index := i mod 256 in
  if index >=? n then Fault else Ok index.

(** Subio.hpp:70-74 setOut: no check. The second component: the output pointers. *)
Definition set_out (M : Z) (out : Z -> option nat) (o : nat) (i : Z) : outcome (Z -> option nat) :=
  let index := i mod 256 in
  if index >=? M then UB else Ok (fun k => if k =? index then Some o else out k).
(** Subio.hpp:59-62 getOut: the pointers are not initialised by the constructor (33-35). *)
Definition sub_get_out (M : Z) (out : Z -> option nat) (i : Z) : outcome nat :=
  match get_port M i with
  | Ok index => match out index with Some o => Ok o | None => UB end
  | _ => Fault
  end.

(** ** Signal ids (Signal.hpp:14,30-32,39-41; Signal.cpp:5) *)
Inductive sig_op := SNew | SCopy (i : nat).   (* default constructor; copy constructor of the i-th signal *)
Record sigs := { scounter : Z; sids : list Z }.
Definition sigs_new : sigs := {| scounter := 1; sids := [] |}.
Definition sig_step (s : sigs) (o : sig_op) : sigs :=
  match o with
  | SNew => {| scounter := (scounter s + 1) mod 2 ^ 16; sids := sids s ++ [scounter s] |}
  | SCopy i => {| scounter := scounter s; sids := sids s ++ [nth i (sids s) 0] |}
  end.
Definition sig_runs (os : list sig_op) : sigs := fold_left sig_step os sigs_new.
(** Signal.hpp:39-41 getId (uint32_t). *)
Definition get_id (id : Z) : Z := (id * 2 ^ 16) mod 2 ^ 32.
(** Signal.hpp:141-150: signalList is never filled. *)
Definition get_signal_by_id (signal_list : list Z) (id : Z) : option Z :=
  find (fun x => get_id x =? id) signal_list.

(** ** TimeDomain.cpp *)

(** How the run method of a block ends. *)
Inductive bres :=
| BNormal
| BNotConnected       (* NotConnectedFault *)
| BNaN                (* NaNOutputFault *)
| BOther.             (* any other exception *)
Inductive tdres :=
| TDone               (* run returns *)
| TEvent              (* safety event triggered, error logged *)
| TFault              (* eeros::Fault "..., time domain cannot trigger safety event" *)
| TOther.             (* exception of the block passes through *)

Record tdom := { tdrunning : bool; tdblocks : list nat; tdsafety : bool }.
(** TimeDomain.cpp:5-6; safety: both pointers set by registerSafetyEvent (20-23). *)
Definition td_new : tdom := {| tdrunning := true; tdblocks := []; tdsafety := false |}.
Inductive td_op := TDStart | TDStop | TDAdd (b : nat) | TDRemove (b : nat) | TDRegister.
(** TimeDomain.cpp:20-23, 42-64 *)
Definition td_step (t : tdom) (o : td_op) : tdom :=
  match o with
  | TDStart => {| tdrunning := true; tdblocks := tdblocks t; tdsafety := tdsafety t |}
  | TDStop => {| tdrunning := false; tdblocks := tdblocks t; tdsafety := tdsafety t |}
  | TDAdd b => {| tdrunning := tdrunning t; tdblocks := tdblocks t ++ [b]; tdsafety := tdsafety t |}
  | TDRemove b => {| tdrunning := tdrunning t;
      tdblocks := filter (fun x => negb (Nat.eqb x b)) (tdblocks t); tdsafety := tdsafety t |}
  | TDRegister => {| tdrunning := tdrunning t; tdblocks := tdblocks t; tdsafety := true |}
  end.

Section TD.
  Context {W : Type} (brun : nat -> W -> W * bres).
  Fixpoint run_blocks (bs : list nat) (w : W) : W * bres :=
    match bs with
    | [] => (w, BNormal)
    | b :: bs' => match brun b w with
                  | (w', BNormal) => run_blocks bs' w'
                  | (w', e) => (w', e)
                  end
    end.
  (** TimeDomain.cpp:25-40 *)
  Definition td_run (t : tdom) (w : W) : W * tdres :=
    if tdrunning t then
      match run_blocks (tdblocks t) w with
      | (w', BNormal) => (w', TDone)
      | (w', BNotConnected) => (w', if tdsafety t then TEvent else TFault)
      | (w', BNaN) => (w', if tdsafety t then TEvent else TFault)
      | (w', BOther) => (w', TOther)
      end
    else (w, TDone).
End TD.

(** ** Numeric blocks *)
Section Blocks.
  Context (N : num).

  (** getTimestamp() / 1000000000.0 *)
  Definition secs (t : Z) : N := ndiv N (nofZ N t) (nofZ N 1000000000).

  (** *** Saturation.hpp *)
  Record sat := { sat_en : bool; sat_lo : N; sat_hi : N }.
  (** Saturation.hpp:97-102 *)
  Definition sat_calc (lo hi x : N) : N :=
    let o := if nltb N hi x then hi else x in
    if nltb N x lo then lo else o.
  (** Saturation.hpp:53-60 *)
  Definition sat_run (s : sat) (i : signal N) : signal N :=
    mksig (if sat_en s then sat_calc (sat_lo s) (sat_hi s) (sv i) else sv i) (st i).
  (** Saturation.hpp:105-112, element-wise; lower, upper and input have the same size. *)
  Definition sat_calc_vec (lo hi x : list N) : list N :=
    map (fun p => sat_calc (fst (fst p)) (snd (fst p)) (snd p)) (combine (combine lo hi) x).

  (** *** RateLimiter.hpp *)
  Record rlim := { rl_prev : signal N; rl_fall : N; rl_rise : N; rl_en : bool }.
  (** RateLimiter.hpp:59-63 (47-51 with -rate, rate); nan is the value of a cleared signal,
      the limiter is initially disabled (139). *)
  Definition rl_new (nan fall rise : N) : rlim :=
    {| rl_prev := mksig nan 0; rl_fall := fall; rl_rise := rise; rl_en := false |}.
  (** RateLimiter.hpp:143-150 *)
  Definition rl_calc (fall rise prev x dt : N) : N :=
    let rate := ndiv N (nsub N x prev) dt in
    if nltb N rise rate then nadd N (nmul N dt rise) prev
    else if nltb N rate fall then nadd N (nmul N dt fall) prev
    else x.
  (** RateLimiter.hpp:79-93 *)
  Definition rl_run (s : rlim) (i : signal N) : rlim * signal N :=
    let dt := nsub N (secs (st i)) (secs (st (rl_prev s))) in
    let o := if rl_en s then rl_calc (rl_fall s) (rl_rise s) (sv (rl_prev s)) (sv i) dt else sv i in
    ({| rl_prev := mksig o (st i); rl_fall := rl_fall s; rl_rise := rl_rise s; rl_en := rl_en s |},
     mksig o (st i)).
  (** RateLimiter.hpp:102-127 *)
  Inductive rl_op := RLRun (i : signal N) | RLEnable (b : bool) | RLRate (f r : N).
  Definition rl_step (s : rlim) (o : rl_op) : rlim * option (signal N) :=
    match o with
    | RLRun i => let (s', y) := rl_run s i in (s', Some y)
    | RLEnable b => ({| rl_prev := rl_prev s; rl_fall := rl_fall s; rl_rise := rl_rise s; rl_en := b |}, None)
    | RLRate f r => ({| rl_prev := rl_prev s; rl_fall := f; rl_rise := r; rl_en := rl_en s |}, None)
    end.

  (** *** I.hpp *)
  Record integ := { i_first : bool; i_en : bool; i_prev : signal N; i_hi : N; i_lo : N }.
  (** I.hpp:34-37 with clearLimits (156-171): lowest/greatest finite value. *)
  Definition i_new (nan lowest greatest : N) : integ :=
    {| i_first := true; i_en := false; i_prev := mksig nan 0; i_hi := greatest; i_lo := lowest |}.
  (** I.hpp:53-75; [lvl]: with an active level the result of currentLevel >= activeLevel. *)
  Definition i_run (s : integ) (lvl : option bool) (i : signal N) : integ * signal N :=
    let en := match lvl with Some b => b | None => i_en s end in
    let dt := if i_first s then nofZ N 0 else nsub N (secs (st i)) (secs (st (i_prev s))) in
    let p := sv (i_prev s) in
    let v := nadd N p (nmul N (sv i) dt) in
    let o := if en then (if nltb N v (i_hi s) && nltb N (i_lo s) v then v else p) else p in
    ({| i_first := false; i_en := en; i_prev := mksig o (st i); i_hi := i_hi s; i_lo := i_lo s |},
     mksig o (st i)).
  Inductive i_op :=
  | IRun (lvl : option bool) (i : signal N)
  | IEnable (b : bool)
  | IInit (v : N)
  | ILimit (hi lo : N).
  (** I.hpp:84-125 *)
  Definition i_step (s : integ) (o : i_op) : integ * option (signal N) :=
    match o with
    | IRun lvl i => let (s', y) := i_run s lvl i in (s', Some y)
    | IEnable b => ({| i_first := i_first s; i_en := b; i_prev := i_prev s; i_hi := i_hi s; i_lo := i_lo s |}, None)
    | IInit v => ({| i_first := i_first s; i_en := i_en s; i_prev := mksig v (st (i_prev s));
                     i_hi := i_hi s; i_lo := i_lo s |}, None)
    | ILimit hi lo =>
      let v := sv (i_prev s) in
      let p1 := if nltb N hi v then hi else v in
      let p2 := if nltb N v lo then lo else p1 in
      ({| i_first := i_first s; i_en := i_en s; i_prev := mksig p2 (st (i_prev s)); i_hi := hi; i_lo := lo |}, None)
    end.

  (** *** D.hpp *)
  Record diff := { d_prev : signal N; d_out : N; d_time : Z; d_first : bool }.
  (** D.hpp:19-22 and members 69-72 *)
  Definition d_new (nan : N) : diff := {| d_prev := mksig nan 0; d_out := nan; d_time := 0; d_first := true |}.
  (** D.hpp:37-59; time stamps are added as uint64_t. *)
  Definition d_run (s : diff) (i : signal N) : diff * signal N :=
    let tin := secs (st i) in
    let tprev := secs (st (d_prev s)) in
    let '(o, t) :=
      if d_first s then (nofZ N 0, st i)
      else if neqb N tin tprev then (d_out s, d_time s)
      else (ndiv N (nsub N (sv i) (sv (d_prev s))) (nsub N tin tprev),
            ((st i + st (d_prev s)) mod 2 ^ 64) / 2) in
    ({| d_prev := i; d_out := o; d_time := t; d_first := false |}, mksig o t).
  Fixpoint d_runs (s : diff) (is : list (signal N)) : diff * list (signal N) :=
    match is with
    | [] => (s, [])
    | i :: is' => let (s1, y) := d_run s i in let (s2, ys) := d_runs s1 is' in (s2, y :: ys)
    end.

  (** *** Sum.hpp *)
  Record sum := { s_neg : list bool; s_first : bool; s_init : list (option N) }.
  (** Sum.hpp:27-32 *)
  Definition sum_new (n : nat) : sum :=
    {| s_neg := repeat false n; s_first := true; s_init := repeat None n |}.
  Fixpoint set_nth {A : Type} (k : nat) (x : A) (l : list A) : list A :=
    match l, k with
    | [], _ => []
    | _ :: t, O => x :: t
    | h :: t, S k' => h :: set_nth k' x t
    end.
  (** Sum.hpp:68-71 *)
  Definition sum_negate (s : sum) (i : Z) : outcome sum :=
    let index := Z.to_nat (i mod 256) in
    if Nat.leb (length (s_neg s)) index then Fault
    else Ok {| s_neg := set_nth index true (s_neg s); s_first := s_first s; s_init := s_init s |}.
  (** Sum.hpp:83-87 *)
  Definition sum_init (s : sum) (i : Z) (v : N) : outcome sum :=
    let index := Z.to_nat (i mod 256) in
    if Nat.leb (length (s_neg s)) index then Fault
    else Ok {| s_neg := s_neg s; s_first := s_first s; s_init := set_nth index (Some v) (s_init s) |}.
  (** Sum.hpp:45-51, 54-57 *)
  Definition sum_vals (s : sum) (is : list (signal N)) : list N :=
    if s_first s then map (fun p => match fst p with Some v => v | None => sv (snd p) end) (combine (s_init s) is)
    else map sv is.
  Definition sum_acc (neg : list bool) (vs : list N) : N :=
    fold_left (fun a p => if fst p : bool then nsub N a (snd p) else nadd N a (snd p)) (combine neg vs) (nofZ N 0).
  (** Sum.hpp:42-61; the list of inputs has the length of the template parameter N > 0. *)
  Definition sum_run (s : sum) (is : list (signal N)) : sum * signal N :=
    ({| s_neg := s_neg s; s_first := false; s_init := s_init s |},
     mksig (sum_acc (s_neg s) (sum_vals s is)) (match is with i :: _ => st i | [] => 0 end)).

  (** *** Mul.hpp:15-20 *)
  Definition mul_run (a b : signal N) : signal N := mksig (nmul N (sv a) (sv b)) (st a).

  (** *** Gain.hpp, scalar *)
  Record gain := { g_gain : N; g_max : N; g_min : N; g_target : N; g_diff : N; g_en : bool; g_smooth : bool }.
  (** Gain.hpp:73-79 *)
  Definition g_new (c mx mn : N) : gain :=
    {| g_gain := c; g_max := mx; g_min := mn; g_target := c; g_diff := nofZ N 0; g_en := true; g_smooth := false |}.
  Definition g_with (s : gain) (g : N) : gain :=
    {| g_gain := g; g_max := g_max s; g_min := g_min s; g_target := g_target s; g_diff := g_diff s;
       g_en := g_en s; g_smooth := g_smooth s |}.
  (** Gain.hpp:110-132 *)
  Definition g_adapt (s : gain) : N :=
    let g0 := g_gain s in
    let g2 :=
      if g_smooth s then
        let g1 := if nltb N g0 (g_target s) then
                    let g := nadd N g0 (g_diff s) in if nltb N (g_target s) g then g_target s else g
                  else g0 in
        if nltb N (g_target s) g1 then
          let g := nsub N g1 (g_diff s) in if nltb N g (g_target s) then g_target s else g
        else g1
      else g0 in
    let g3 := if nltb N (g_max s) g2 then g_max s else g2 in
    if nltb N g3 (g_min s) then g_min s else g3.
  (** Gain.hpp:107-142 without the parabolic characteristic (see [parabolic]). *)
  Definition g_run (s : gain) (i : signal N) : gain * signal N :=
    let s' := g_with s (g_adapt s) in
    (s', mksig (if g_en s then nmul N (g_gain s') (sv i) else sv i) (st i)).
  Inductive g_op :=
  | GRun (i : signal N) | GEnable (b : bool) | GSmooth (b : bool) | GSet (c : N)
  | GMax (m : N) | GMin (m : N) | GDiff (d : N).
  (** Gain.hpp:155-261 *)
  Definition g_step (s : gain) (o : g_op) : gain :=
    match o with
    | GRun i => fst (g_run s i)
    | GEnable b => {| g_gain := g_gain s; g_max := g_max s; g_min := g_min s; g_target := g_target s;
                      g_diff := g_diff s; g_en := b; g_smooth := g_smooth s |}
    | GSmooth b => {| g_gain := g_gain s; g_max := g_max s; g_min := g_min s; g_target := g_target s;
                      g_diff := g_diff s; g_en := g_en s; g_smooth := b |}
    | GSet c =>
      if nleb N c (g_max s) && nleb N (g_min s) c then
        if g_smooth s then
          {| g_gain := g_gain s; g_max := g_max s; g_min := g_min s; g_target := c;
             g_diff := g_diff s; g_en := g_en s; g_smooth := g_smooth s |}
        else g_with s c
      else s
    | GMax m => {| g_gain := g_gain s; g_max := m; g_min := g_min s; g_target := g_target s;
                   g_diff := g_diff s; g_en := g_en s; g_smooth := g_smooth s |}
    | GMin m => {| g_gain := g_gain s; g_max := g_max s; g_min := m; g_target := g_target s;
                   g_diff := g_diff s; g_en := g_en s; g_smooth := g_smooth s |}
    | GDiff d => {| g_gain := g_gain s; g_max := g_max s; g_min := g_min s; g_target := g_target s;
                    g_diff := d; g_en := g_en s; g_smooth := g_smooth s |}
    end.
  Definition g_runs (s : gain) (os : list g_op) : gain := fold_left g_step os s.
End Blocks.
Arguments sat_en {N} _.
Arguments sat_lo {N} _.
Arguments sat_hi {N} _.
Arguments rl_prev {N} _.
Arguments rl_fall {N} _.
Arguments rl_rise {N} _.
Arguments rl_en {N} _.
Arguments i_first {N} _.
Arguments i_en {N} _.
Arguments i_prev {N} _.
Arguments i_hi {N} _.
Arguments i_lo {N} _.
Arguments d_prev {N} _.
Arguments d_out {N} _.
Arguments d_time {N} _.
Arguments d_first {N} _.
Arguments s_neg {N} _.
Arguments s_first {N} _.
Arguments s_init {N} _.
Arguments g_gain {N} _.
Arguments g_max {N} _.
Arguments g_min {N} _.
Arguments g_target {N} _.
Arguments g_diff {N} _.
Arguments g_en {N} _.
Arguments g_smooth {N} _.
Arguments RLRun {N} _.
Arguments RLEnable {N} _.
Arguments RLRate {N} _ _.
Arguments IRun {N} _ _.
Arguments IEnable {N} _.
Arguments IInit {N} _.
Arguments ILimit {N} _ _.
Arguments GRun {N} _.
Arguments GEnable {N} _.
Arguments GSmooth {N} _.
Arguments GSet {N} _.
Arguments GMax {N} _.
Arguments GMin {N} _.
Arguments GDiff {N} _.

(** Gain.hpp:304-314 calculateParabolic, over the reals. *)
Definition parabolic (g p x : R) : R :=
  if Rlt_bool p (Rabs x) then
    if Rle_bool 0 x then (g * sqrt (p * (2 * x - p)))%R else (g * - sqrt (p * (-2 * x - p)))%R
  else (g * x)%R.

(** *** Mux.hpp:39-46 and DeMux.hpp:39-44; the vector is the list of its components. *)
Definition mux_run {T : Type} (is : list (signal T)) : signal (list T) :=
  mksig (map sv is) (match is with i :: _ => st i | [] => 0 end).
Definition demux_run {T : Type} (i : signal (list T)) : list (signal T) :=
  map (fun v => mksig v (st i)) (sv i).
