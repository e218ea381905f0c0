(** What the blocks of [CtrlModel2] are expected to compute. *)
From Coq Require Import Reals Sorting.Permutation.
From Flocq Require Import Core.Raux.
From Verif Require Import Prelude Num CtrlModel CtrlModel2.
Open Scope Z_scope.

(** The last n elements of a list. *)
Definition lastn {A : Type} (n : nat) (l : list A) : list A := skipn (length l - n) l.

(** Samples taken by a trace: inputs of the runs while enabled. *)
Fixpoint enabled_samples {T : Type} (en : bool) (os : list (tr_op T)) : list (signal T) :=
  match os with
  | [] => []
  | TrEnable b :: os' => enabled_samples b os'
  | TrRun i :: os' => if en then i :: enabled_samples en os' else enabled_samples en os'
  end.

(** Two reals differ by a multiple of the width. *)
Definition congruent (width x y : R) : Prop := exists k : Z, (y = x + IZR k * width)%R.

(** *** Signal checker *)
Section Checker.
  Context {V : Type}.
  (** The limits and the registration in force after the operations. *)
  Fixpoint limits_after (l : V * V) (os : list (ch_op V)) : V * V :=
    match os with
    | [] => l
    | ChLimits lo hi :: os' => limits_after (lo, hi) os'
    | _ :: os' => limits_after l os'
    end.
  Definition registers (o : ch_op V) : bool := match o with ChRegister => true | _ => false end.
  Definition resets (o : ch_op V) : bool := match o with ChReset => true | _ => false end.
  (** The run [o] after the operations [pre] sees a violation while the level condition holds. *)
  Definition violates (inside : V -> V -> V -> bool) (off : bool) (l : V * V) (pre : list (ch_op V)) (o : ch_op V) : Prop :=
    match o with
    | ChRun v lvl =>
      existsb registers pre = true /\ lvl = true /\
      let (lo, hi) := limits_after l pre in inside lo hi v = off
    | _ => False
    end.
End Checker.

(** Weighted sum over the reals. *)
Fixpoint dot (c x : list R) : R :=
  match c, x with
  | a :: c', b :: x' => (a * b + dot c' x')%R
  | _, _ => 0%R
  end.

(** [v] is the element of rank [r] (from 0) of [l]. *)
Definition count {A : Type} (f : A -> bool) (l : list A) : nat := length (filter f l).
Definition rank_elem (N : num) (l : list N) (r : nat) (v : N) : Prop :=
  In v l /\ (count (fun x => nltb N x v) l <= r)%nat /\ (r < count (fun x => negb (nltb N v x)) l)%nat.

(** Switches reachable from [k] along the combination relation. *)
Inductive below {N : num} (w : sworld N) : nat -> nat -> Prop :=
| BSelf k : below w k k
| BChild k c j : In c (sw_children (w k)) -> below w c j -> below w k j.

(** Exponential smoothing. *)
Fixpoint smooth (alpha p : R) (is : list (signal R)) : list (signal R) :=
  match is with
  | [] => []
  | i :: is' => let y := (alpha * sv i + (1 - alpha) * p)%R in mksig y (st i) :: smooth alpha y is'
  end.

(** The window of the last n inputs after [is], zeros before the first. *)
Definition window (N : num) (n : nat) (is : list (signal N)) : list N :=
  lastn n (repeat (nofZ N 0) n ++ map sv is).

(** Worlds that differ at most in the selected inputs. *)
Definition only_cur {N : num} (w w' : sworld N) : Prop := forall j, w' j = sw_set_cur N (w j) (sw_cur (w' j)).

(** Consecutive runs of the out block of a transition. *)
Fixpoint tn_outs {N : num} (s : transition N) (ts : list Z) : outcome (transition N * list (signal N)) :=
  match ts with
  | [] => Ok (s, [])
  | t :: ts' => bind (tn_out_run N s t) (fun p => omap (fun q => (fst q, snd p :: snd q)) (tn_outs (fst p) ts'))
  end.

(** Linear interpolation between two signals, c-th of [ratio] parts. *)
Open Scope R_scope.
Definition interp_time (p i : Z) (ratio c : R) : R := IZR p + c * (IZR (i - p) / ratio).
Definition interp (p i : signal R) (ratio : R) (c : Z) : signal R :=
  mksig (sv p + (sv i - sv p) / ratio * IZR c) (Ztrunc (interp_time (st p) (st i) ratio (IZR c))).
Open Scope Z_scope.

(** Outputs of consecutive runs of a median filter. *)
Fixpoint me_runs {N : num} (sort : list N -> list N) (s : med N) (is : list (signal N)) : list (signal N) :=
  match is with
  | [] => []
  | i :: is' => let (s', y) := me_run N sort s i in y :: me_runs sort s' is'
  end.
