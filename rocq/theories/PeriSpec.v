(** What C343-C348 say about the threads of the executor. *)
From Verif Require Import Prelude PeriModel.
Local Open Scope nat_scope.

Definition reach (prog : nat -> list item) (s : st) : Prop := exists ls, s = steps prog ls init.

(** Thread [c] is triggered by thread [p] with the factor [k]; before or after the own task of [p]. *)
Definition at_ (prog : nat -> list item) (p i : nat) (x : item) : Prop := nth_error (prog p) i = Some x.
Definition edge (prog : nat -> list item) (p c k : nat) : Prop := exists i, at_ prog p i (Sub c k).
Definition after (prog : nat -> list item) (p c k : nat) : Prop :=
  exists o i, at_ prog p o Own /\ at_ prog p i (Sub c k) /\ o < i.
Definition before (prog : nat -> list item) (p c k : nat) : Prop :=
  exists o i, at_ prog p o Own /\ at_ prog p i (Sub c k) /\ i < o.

(** Each thread has one own task and is triggered from at most one place, with a positive factor. *)
Record wf (prog : nat -> list item) : Prop := {
  wf_own : forall p i j, at_ prog p i Own -> at_ prog p j Own -> i = j;
  wf_sub : forall p q i j c k k', at_ prog p i (Sub c k) -> at_ prog q j (Sub c k') -> p = q /\ i = j;
  wf_k : forall p i c k, at_ prog p i (Sub c k) -> 0 < k /\ c <> 0 }.

(** Threads which execute their own task. *)
Definition working (s : st) (n : nat) : Prop := exists i, pc s n = At i true.

(** All threads have done what they were asked for. *)
Definition quiet (s : st) : Prop := forall n, pc s n = Wait /\ (n <> 0 -> sem s n = 0).

(** The threads from the executor to thread [n], with the product of the factors. *)
Inductive path (prog : nat -> list item) : nat -> nat -> Prop :=
| path_0 : path prog 0 1
| path_s : forall p c k K, path prog p K -> edge prog p c k -> path prog c (K * k).

(** ** The configuration *)
(** Monitors the program has pushed to the task [id] since it was constructed. *)
Definition pushed (os : list conf_op) (id : nat) : nat :=
  fold_left (fun m o => match o with CNew i _ => if i =? id then 0 else m | CMon i => if i =? id then S m else m | _ => m end) os 0.
(** Calls before the first copy of a task, and calls which copy one. *)
Definition early (o : conf_op) : Prop := match o with CNew _ _ | CMon _ => True | _ => False end.
Definition copying (o : conf_op) : Prop := match o with CAfter _ _ | CAdd _ => True | _ => False end.
(** The tasks for which the executor creates threads. *)
Definition created (os : list conf_op) : list nat := map fst (flat_map monitored (config os)).
