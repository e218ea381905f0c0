(** The difference equation of a transfer function with numerator b and denominator a:
    y_k = (b_0 u_k + (b_1 u_(k-1) - a_1 y_(k-1)) + ... ) / a_0. *)
From Verif Require Import Prelude Num ZModel.
Open Scope nat_scope.
Section Spec.
Context (T : num).
(** Before the first cycle: pu 0, pu 1, ... are the inputs one, two, ... cycles earlier, py the outputs. *)
Definition push (x : T) (p : nat -> T) : nat -> T := fun i => match i with O => x | S i => p i end.
Definition eval (order : nat) (b a : nat -> T) (pu py : nat -> T) (u : T) : T :=
  ndiv T (fold_left (fun acc i => nadd T acc (nsub T (nmul T (pu i) (b (S i))) (nmul T (py i) (a (S i))))) (seq 0 order) (nmul T u (b 0))) (a 0).
Fixpoint response (order : nat) (b a : nat -> T) (pu py : nat -> T) (us : list T) : list T :=
  match us with
  | [] => []
  | u :: us => let y := eval order b a pu py u in y :: response order b a (push u pu) (push y py) us
  end.
(** The elements 1 ... order of the arrays contain these values. *)
Definition holds (order : nat) (s : state T) (pu py : nat -> T) : Prop := forall i, i < order -> z_in s (S i) = Some (pu i) /\ z_out s (S i) = Some (py i).
End Spec.
