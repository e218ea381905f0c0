(** Networks of blocks run by a time domain, and the whole of time domains and safety system.

    /repo/src/control/TimeDomain.cpp:25-40 runs its blocks in the order of addBlock; a block reads its inputs through the
    pointer to the connected output (/repo/includes/eeros/control/Input.hpp:82-87), i.e. the value which this output has at
    that moment, and writes its own outputs.
    Simplifications: a block reads all its inputs before it writes (an unconnected input therefore throws before anything
    is written, as in the run methods of the blocks of the library); the outputs of a block are numbered. *)
From Coq Require Import ZArith List Bool.
From Verif Require Import Prelude Num CtrlModel CtrlModel2 SafetyModel.
Import ListNotations.

Section Net.
  Context {St Sig : Type}.
  (** For every block the outputs its inputs are connected to (Input.hpp:42-60; [None]: not connected), and its run method:
      new state, new outputs and how it ends. *)
  Record net := {
    n_src : nat -> list (option (nat * nat));
    n_fun : nat -> St -> list Sig -> St * (nat -> Sig) * bres }.
  (** The states of all blocks and the signals of all outputs. *)
  Record world := { w_st : nat -> St; w_out : nat -> nat -> Sig }.

  (** Input.hpp:82-87 for all inputs in order. *)
  Fixpoint read_inputs (w : world) (src : list (option (nat * nat))) : option (list Sig) :=
    match src with
    | [] => Some []
    | None :: _ => None
    | Some (b, p) :: src => match read_inputs w src with Some l => Some (w_out w b p :: l) | None => None end
    end.
  (** The run method of block [b]. *)
  Definition block_run (n : net) (b : nat) (w : world) : world * bres :=
    match read_inputs w (n_src n b) with
    | None => (w, BNotConnected)
    | Some ins =>
      let '(s, o, e) := n_fun n b (w_st w b) ins in
      ({| w_st := upd (w_st w) b s; w_out := upd (w_out w) b o |}, e)
    end.
End Net.
Arguments net : clear implicits.
Arguments world : clear implicits.

(** ** Scalar blocks of the library *)
Section Kinds.
  Context (N : num).
  (** Constant.hpp, Sum.hpp, Gain.hpp, I.hpp, Saturation.hpp, LowPassFilter.hpp; the run methods are those of CtrlModel.v and
      CtrlModel2.v. *)
  Inductive kind := KConst (v : N) | KSum (s : sum N) | KGain (g : gain N) | KInt (i : integ N) | KSat (s : sat N) | KLow (l : lpf N).
  (** [now]: System::getTimeNs() (Constant.hpp:49).  A block whose number of inputs does not fit does not exist in C++
      (template parameters). *)
  Definition kind_run (now : Z) (k : kind) (ins : list (signal N)) : kind * signal N :=
    match k, ins with
    | KConst v, _ => (k, mksig v now)
    | KSum s, _ => let (s', o) := sum_run N s ins in (KSum s', o)
    | KGain g, i :: _ => let (g', o) := g_run N g i in (KGain g', o)
    | KInt s, i :: _ => let (s', o) := i_run N s None i in (KInt s', o)
    | KSat s, i :: _ => (k, sat_run N s i)
    | KLow s, i :: _ => let (s', o) := lp_run N s i in (KLow s', o)
    | _, [] => (k, mksig (nofZ N 0) 0%Z)
    end.
  Definition kind_net (now : Z) (src : nat -> list (option (nat * nat))) : net kind (signal N) :=
    {| n_src := src; n_fun := fun _ k ins => let (k', o) := kind_run now k ins in (k', fun _ => o, BNormal) |}.

  (** A control loop: 0 reference, 1 error, 2 controller, 3 integrator (the plant), fed back to the error. *)
  Definition loop_src (b : nat) : list (option (nat * nat)) :=
    match b with
    | 1 => [Some (0, 0); Some (3, 0)]
    | 2 => [Some (1, 0)]
    | 3 => [Some (2, 0)]
    | _ => []
    end%nat.
  (** The cycles of a time domain with these blocks at the given times. *)
  Fixpoint loop_cycles (w : world kind (signal N)) (ts : list Z) : world kind (signal N) :=
    match ts with
    | [] => w
    | t :: ts => loop_cycles (fst (td_run (block_run (kind_net t loop_src))
        {| tdrunning := true; tdblocks := [0; 1; 2; 3]%nat; tdsafety := true |} w)) ts
    end.
End Kinds.

(** ** Time domains and safety system *)
Section Whole.
  Context {W : Type} (h : heap) (brun : nat -> W -> W * bres).
  (** A time domain with the event it triggers (TimeDomain.hpp members; [None]: registerSafetyEvent was not called). *)
  Record tdsys := { ts_running : bool; ts_blocks : list nat; ts_event : option evid }.
  Record whole := { x_w : W; x_s : sys }.
  Inductive xop :=
  | XDomain (t : tdsys)                                  (* run of a time domain *)
  | XTrigger (e : evid) (priv : bool)                    (* any other trigger *)
  | XSafety (env : nat -> sval) (acts : list (evid * bool)). (* run of the safety system *)
  (** TimeDomain.cpp:25-40 with SafetySystem.cpp:49-71, called without context (public), and 81-123.  [Fault]: an exception
      leaves the run method of the time domain and ends its thread. *)
  Definition xstep (x : whole) (o : xop) : outcome (whole * list eff) :=
    match o with
    | XDomain t =>
      let r := td_run brun {| tdrunning := ts_running t; tdblocks := ts_blocks t; tdsafety := match ts_event t with Some _ => true | None => false end |} (x_w x) in
      match snd r, ts_event t with
      | TDone, _ => Ok ({| x_w := fst r; x_s := x_s x |}, [])
      | TEvent, Some e => bind (triggerEvent h (x_s x) e false) (fun s => Ok ({| x_w := fst r; x_s := s |}, [ETrig e false]))
      | _, _ => Fault
      end
    | XTrigger e p => bind (triggerEvent h (x_s x) e p) (fun s => Ok ({| x_w := x_w x; x_s := s |}, [ETrig e p]))
    | XSafety env acts => bind (run h (x_s x) env acts) (fun r => Ok ({| x_w := x_w x; x_s := fst r |}, snd r))
    end.
  Fixpoint xruns (x : whole) (os : list xop) : outcome (whole * list eff) :=
    match os with
    | [] => Ok (x, [])
    | o :: os => bind (xstep x o) (fun r => bind (xruns (fst r) os) (fun r' => Ok (fst r', snd r ++ snd r')))
    end.
End Whole.
