(** Specification of sums in binary64, and the control loop in binary64. *)
From Coq Require Import ZArith Reals List.
From Verif Require Import Prelude Num CtrlModel CtrlModel2 NetModel.
Import ListNotations.
Open Scope R_scope.

(** The sum of the numbers, and of their absolute values. *)
Fixpoint total (l : list R) : R := match l with [] => 0 | x :: l => x + total l end.
Fixpoint mass (l : list R) : R := match l with [] => 0 | x :: l => Rabs x + mass l end.
(** A number with the sign of its input. *)
Definition signed (p : bool * R) : R := if fst p then - snd p else snd p.
(** The sum of x_0 .. x_(n-1). *)
Fixpoint isum (x : nat -> R) (n : nat) : R := match n with O => 0 | S n => isum x n + x n end.

(** The loop at the start; compare [loop_start] in NetSpec.v. *)
Definition dloop_start (r K mn mx y0 lo hi : Dnum) (junk : nat -> nat -> signal Dnum) : world (kind Dnum) (signal Dnum) :=
  {| w_st := fun b => match b with
       | 0 => KConst Dnum r
       | 1 => KSum Dnum {| s_neg := [false; true]; s_first := true; s_init := [None; None] |}
       | 2 => KGain Dnum (g_new Dnum K mx mn)
       | _ => KInt Dnum {| i_first := true; i_en := true; i_prev := mksig (y0 : nT Dnum) 0%Z; i_hi := hi; i_lo := lo |}
       end%nat;
     w_out := junk |}.
(** Steps of at most 10 ms, at most 30 years after the start. *)
Fixpoint short (t : Z) (ts : list Z) : Prop :=
  match ts with [] => True | u :: ts => (t <= u <= t + 10 ^ 7)%Z /\ (u <= 10 ^ 18)%Z /\ short u ts end.
