(** What the properties of the binary64 arithmetic are stated with. *)
From Coq Require Import ZArith Reals List.
From Verif Require Import Prelude Num NumDbl NumDbl3 CtrlModel CtrlModel2.
Import ListNotations.
Open Scope R_scope.

(** The signal of real numbers a signal of machine numbers denotes. *)
Definition real_sig (i : signal Dnum) : signal Rnum := mksig (dval (sv i) : nT Rnum) (st i).
(** A machine signal and a real signal with the same time stamp whose values differ by at most [d]. *)
Definition near (d : R) (y : signal Dnum) (z : signal Rnum) : Prop :=
  st y = st z /\ dok (sv y) /\ Rabs (dval (sv y) - sv z) <= d.
(** Sum of the magnitudes of the coefficients. *)
Fixpoint weight (c : list Dnum) : R := match c with [] => 0 | x :: c => Rabs (dval x) + weight c end.
(** Time stamps that do not decrease, start after [t] and fit into 64 bits. *)
Fixpoint ascending (t : Z) (ts : list Z) : Prop :=
  match ts with [] => True | u :: ts => (0 <= t <= u)%Z /\ (u < 2 ^ 64)%Z /\ ascending u ts end.
(** The outputs of the integrator running with the inputs [l]. *)
Fixpoint outs (s : integ Dnum) (l : list (signal Dnum)) : list (signal Dnum) :=
  match l with [] => [] | i :: l => let (s', y) := i_run Dnum s None i in y :: outs s' l end.
(** The exact integral of a piecewise constant input, sampled at the time stamps in nanoseconds. *)
Fixpoint integral (y : R) (t : Z) (l : list (signal Dnum)) : list R :=
  match l with [] => [] | i :: l => let y' := y + dval (sv i) * ((IZR (st i) - IZR t) / 1000000000) in y' :: integral y' (st i) l end.
(** A machine number at most [d] away from a real number. *)
Definition close (d : R) (y : signal Dnum) (z : R) : Prop := dok (sv y) /\ Rabs (dval (sv y) - z) <= d.
