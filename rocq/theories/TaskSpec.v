(** Specifications for core and task classes, independent of the model's helpers. *)
From Verif Require Import Prelude TaskModel.
From Coq Require Import Reals.

(** Bounded queue of capacity [N]. *)
Section Queue.
Context {T : Type}.
Definition q_step (N : nat) (q : list T) (o : @rbop T) : list T * @rbres T :=
  match o with
  | Push v => if Nat.ltb (length q) N then (q ++ [v], RPush true) else (q, RPush false)
  | Pop => match q with [] => ([], RPop None) | x :: q' => (q', RPop (Some x)) end
  end.
Fixpoint q_runs (N : nat) (q : list T) (os : list (@rbop T)) : list T * list (@rbres T) :=
  match os with
  | [] => (q, [])
  | o :: os' => let (q1, r) := q_step N q o in
                let (q2, rs) := q_runs N q1 os' in (q2, r :: rs)
  end.
End Queue.

(** Sum, mean, population variance of a list of reals. *)
Definition rsum (l : list R) : R := fold_right Rplus 0%R l.
Definition rmean (l : list R) : R := (rsum l / INR (length l))%R.
Definition rvariance (l : list R) : R :=
  (rsum (map (fun x => (x - rmean l) * (x - rmean l)) l) / INR (length l))%R.

(** Consecutive differences x1-x0, x2-x1, ... *)
Fixpoint diffs (x0 : R) (l : list R) : list R :=
  match l with
  | [] => []
  | x :: l' => (x - x0)%R :: diffs x l'
  end.

(** Number of [true] in a list. *)
Definition count_true (l : list bool) : nat := length (filter (fun b => b) l).

(** Product of a list of factors. *)
Definition zprod (l : list Z) : Z := fold_right Z.mul 1%Z l.

(** A thread tree realises a task tree below a parent with period [base]: same tasks at the
    same places, every factor k >= 1 with |period - k base| <= lim period. *)
Inductive realises (lim : R) : R -> ptask R -> thr -> Prop :=
| realises_intro : forall base id per rt before after k b a,
    (1 <= k)%Z -> (Rabs (per - IZR k * base) <= lim * per)%R ->
    Forall2 (realises lim per) before b ->
    Forall2 (realises lim per) after a ->
    realises lim base (PTask id per rt before after) (Thr k id b a).

(** All periods of a task tree are positive. *)
Inductive positive_periods : ptask R -> Prop :=
| positive_intro : forall id per rt before after,
    (0 < per)%R -> Forall positive_periods before -> Forall positive_periods after ->
    positive_periods (PTask id per rt before after).

(** Every period of the tree is an integer multiple of its parent's period. *)
Inductive exact_multiples : R -> ptask R -> Prop :=
| exact_intro : forall base id m rt before after,
    (1 <= m < 2 ^ 31)%Z ->
    Forall (exact_multiples (IZR m * base)%R) before ->
    Forall (exact_multiples (IZR m * base)%R) after ->
    exact_multiples base (PTask id (IZR m * base)%R rt before after).

(** C19: a task with the given id, period and realtime flag occurs in a list of task trees. *)
Inductive occurs {P : Type} : list (ptask P) -> nat -> P -> bool -> Prop :=
| occ_here ts id per rt b a : In (PTask id per rt b a) ts -> occurs ts id per rt
| occ_before ts i p r b a id per rt : In (PTask i p r b a) ts -> occurs b id per rt -> occurs ts id per rt
| occ_after ts i p r b a id per rt : In (PTask i p r b a) ts -> occurs a id per rt -> occurs ts id per rt.
