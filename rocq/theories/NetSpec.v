(** What a block diagram means. *)
From Coq Require Import List.
From Verif Require Import Prelude Num CtrlModel CtrlModel2 CtrlSpec NetModel.
Import ListNotations.

(** Block [s] runs earlier than block [b]. *)
Definition before (l : list nat) (s b : nat) : Prop := exists l1 l2, l = l1 ++ b :: l2 /\ In s l1.

Section Diagram.
  Context {St Sig : Type}.
  (** The value [v] an input connected to output [p] of block [s] has for block [b]: the new one if [s] runs earlier, the one of
      the last cycle otherwise. *)
  Definition sees (l : list nat) (w w' : world St Sig) (b : nat) (src : option (nat * nat)) (v : Sig) : Prop :=
    exists s p, src = Some (s, p) /\ (before l s b -> v = w_out w' s p) /\ (~ before l s b -> v = w_out w s p).
  (** [w'] solves the equations of all blocks in [l]. *)
  Definition solves (n : net St Sig) (l : list nat) (w w' : world St Sig) : Prop :=
    (forall b, In b l -> exists ins, Forall2 (sees l w w' b) (n_src n b) ins /\
       n_fun n b (w_st w b) ins = (w_st w' b, w_out w' b, BNormal)) /\
    (forall b, ~ In b l -> w_st w' b = w_st w b /\ w_out w' b = w_out w b).
  Definition same_world (w w' : world St Sig) : Prop := forall b, w_st w b = w_st w' b /\ w_out w b = w_out w' b.
  (** Two orders of the same blocks which agree on all connected pairs. *)
  Definition same_order (n : net St Sig) (l l' : list nat) : Prop :=
    forall b s p, In b l -> In s l -> In (Some (s, p)) (n_src n b) -> (before l s b <-> before l' s b).
End Diagram.

From Coq Require Import ZArith Reals.
From Verif Require Import Num SafetyModel.

(** The control loop with reference [r], gain [K] and integrator at [y0]; the outputs have arbitrary values [junk] before the
    first cycle. *)
Definition loop_start (r K mn mx y0 lo hi : R) (junk : nat -> nat -> signal Rnum) : world (kind Rnum) (signal Rnum) :=
  {| w_st := fun b => match b with
       | 0 => KConst Rnum r
       | 1 => KSum Rnum {| s_neg := [false; true]; s_first := true; s_init := [None; None] |}
       | 2 => KGain Rnum (g_new Rnum K mx mn)
       | _ => KInt Rnum {| i_first := true; i_en := true; i_prev := mksig (y0 : nT Rnum) 0%Z; i_hi := hi; i_lo := lo |}
       end%nat;
     w_out := junk |}.
(** All steps of the time stamps shrink the error by [q] at least. *)
Fixpoint shrinking (K q : R) (t : Z) (ts : list Z) : Prop :=
  match ts with [] => True | u :: ts => (Rabs (1 - K * ((IZR u - IZR t) / 1000000000)) <= q)%R /\ shrinking K q u ts end.

(** Output [o] is set in the log. *)
Definition driven (log : list eff) (o : nat) : Prop := exists a, In (ESet a o) log.
(** Some block of the time domain throws a fault known to the time domain. *)
Definition faults {W : Type} (brun : nat -> W -> W * bres) (t : tdsys) (w : W) : Prop :=
  exists l1 b l2 w1 w2 e, ts_blocks t = l1 ++ b :: l2 /\ CtrlSpec.all_run brun l1 w w1 /\ brun b w1 = (w2, e) /\ (e = BNotConnected \/ e = BNaN).
(** No cycle of the safety system. *)
Definition quiet (os : list xop) : Prop := forall env acts, ~ In (XSafety env acts) os.
