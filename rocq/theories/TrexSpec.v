(** What C338-C342 say about TransitionBlockTest. *)
From Verif Require Import Prelude TrexModel.
Local Open Scope Z_scope.

Definition reach (N : nat) (s : st) : Prop := exists z ls, steps N ls (init z) = Ok s.

(** The next step of the fast thread computes with dVal and dTime, which were never written. *)
Definition reads_garbage (s : st) : Prop := fp s = F2 /\ dset s = false.

(** The slow thread has nothing to do. *)
Definition idle (s : st) : Prop := sp s = S0 /\ sem s = 0%nat.

(** Runs in which the slow thread is done when the fast thread records the last sample before the next start. *)
Inductive reach_g (N : nat) : st -> Prop :=
| g_init : forall z, reach_g N (init z)
| g_step : forall l s s', reach_g N s -> step N l s = Ok s' ->
    (l = LFast -> fp s = F3 -> (N <= S (hk s))%nat -> idle s) -> reach_g N s'.

(** A signal lies on the ramp which begins at [o]: the value in 1/N ns, the time stamp truncated. *)
Definition on_ramp (N : nat) (o : Z) (x : sample) : Prop :=
  match sval x with None => True | Some w => sts x = o + w / Z.of_nat N end.

(** Periods when the computer is fast enough: [N] runs of the fast domain, then the slow one, [d] later than the run before.  A run
    of the fast domain has 4 steps, and one more when there is a new signal. *)
Definition first_period (N d : nat) : list label := repeat LFast (4 * N) ++ LClk d :: repeat LSlow 5.
Definition next_period (N d : nat) : list label := LFast :: repeat LFast (4 * N) ++ LClk d :: repeat LSlow 5.

(** The time from the first run of the slow domain to the run with the number [k]. *)
Definition since (ds : list nat) (k : nat) : Z := Z.of_nat (list_sum (firstn k ds)).
