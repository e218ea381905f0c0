(** What is wanted of SystemTest2. *)
From Verif Require Import Prelude SafetyModel Sys2Model.
Local Open Scope Z_scope.

Definition reach (s : st) : Prop := exists s0 ls, initial s0 /\ steps ls s0 = Ok s.
Definition level_at (s : st) (l : lref) : Prop := cur (ss s) = Some l.
Definition next_is (s : st) (l : lref) : Prop := nxt (ss s) = Some l.
(** The counter of activations of a level. *)
Definition cycles (s : st) (l : lref) : Z := nact (ss s) l.

(** Number of steps of the safety system; a cycle has five. *)
Fixpoint nsafe (ls : list label) : nat :=
  match ls with [] => 0%nat | LSafe _ :: ls => S (nsafe ls) | _ :: ls => nsafe ls end.

(** Executions in which the sixth run of p1 finds the level initializing. *)
Inductive reach_g : st -> Prop :=
| g_start s : initial s -> reach_g s
| g_step l s s' : reach_g s -> (l = LP1 -> cnt s = 5 -> level_at s slInitializing) -> step l s = Ok s' -> reach_g s'.

(** Executions without interrupt, with "in" connected to "outTest" as by the device reflect of SystemTest2Config.json. *)
Inductive reach_r : st -> Prop :=
| r_start s : initial s -> reach_r s
| r_safe s s' : reach_r s -> step (LSafe (outT s)) s = Ok s' -> reach_r s'
| r_p1 s s' : reach_r s -> step LP1 s = Ok s' -> reach_r s'.

(** What has been written to "out" at the level running, newest first, and at the others. *)
Definition at_running (s : st) : list bool := map snd (filter (fun w => Nat.eqb (fst w) slRunning) (writes s)).
(** The newest first: each differs from the one before, the first one is off. *)
Fixpoint alternating (l : list bool) : Prop :=
  match l with
  | [] => True
  | x :: r => x = match r with [] => false | y :: _ => negb y end /\ alternating r
  end.
