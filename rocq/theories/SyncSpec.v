(** Specification of the configuration and of the synchronised loops of the executor. *)
From Coq Require Import List ZArith Bool.
From Verif Require Import Prelude Num SyncModel.
Import ListNotations.
Open Scope Z_scope.

(** ** Configuration *)
(** The first choice of a main task: the periodic (None: made by the executor) and its period. *)
Fixpoint first_main {N : num} (os : list (cop N)) : option (option nat * N) :=
  match os with
  | [] => None
  | CSetMain id p :: _ => Some (Some id, p)
  | CSetSafety p :: _ | CSetPeriod p :: _ => Some (None, p)
  | _ :: os => first_main os
  end.
(** Periodics added, in order. *)
Fixpoint added {N : num} (os : list (cop N)) : list nat :=
  match os with [] => [] | CAdd id :: os => id :: added os | _ :: os => added os end.
(** Monitors the program gave to a periodic. *)
Fixpoint monitors {N : num} (os : list (cop N)) (id : nat) : list nat :=
  match os with
  | [] => []
  | CMonitor j m :: os => if Nat.eqb j id then m :: monitors os id else monitors os id
  | _ :: os => monitors os id
  end.

(** ** Loops *)
(** What the program asked for is what it gets; nothing asked for: the system clock. *)
Definition wanted (w : wish) (l : xloop) : Prop :=
  match l with
  | LEtherCat => w_stack w = true
  | LRosTime => w_time w = true
  | LRosTopic | LRos2Topic => w_topic w = true
  | LClock => w_stack w = false /\ w_time w = false /\ w_topic w = false
  | LNone => False
  end.
(** At most one source is asked for, and one the library was compiled for. *)
Definition sensible (b : build) (w : wish) : Prop :=
  (w_stack w = true -> b_ethercat b = true /\ w_time w = false /\ w_topic w = false) /\
  (w_time w = true -> (b_ros b = true \/ b_ros2 b = true) /\ w_topic w = false) /\
  (w_topic w = true -> b_ros b = true \/ b_ros2 b = true).
(** Steps of the executor at the given times. *)
Definition at_times (ts : list Z) : list rop := map RStep ts.
Definition no_stop (os : list rop) : Prop := ~ In RStop os.
(** Steps of the executor among the events of the topic loop. *)
Fixpoint steps (os : list qop) : nat := match os with [] => 0%nat | QStep :: os => S (steps os) | _ :: os => steps os end.
(** Messages received. *)
Fixpoint messages (os : list qop) : list nat := match os with [] => [] | QMsg m :: os => m :: messages os | _ :: os => messages os end.
Definition handled (log : list (Z * list nat * bool)) : list nat := concat (map (fun e => snd (fst e)) log).
(** A simulator which publishes the time and a message and then gives the executor [k] steps. *)
Definition simulator (k : nat) (l : list (Z * nat)) : list qop :=
  concat (map (fun x => [QNow (fst x); QMsg (snd x)] ++ repeat QStep k) l).
(** Each time differs from the one before. *)
Fixpoint moving (t : Z) (l : list (Z * nat)) : Prop := match l with [] => True | x :: l => fst x <> t /\ moving (fst x) l end.
