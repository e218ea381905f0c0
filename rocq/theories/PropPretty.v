(** Properties C151 and C152: printing numbers with a unit prefix. *)
From Coq Require Import Reals Lra.
From Verif Require Import Prelude PrettyModel PrettyProofs.
Open Scope Z_scope.

(** C151: the text denotes the argument truncated at its third decimal. *)
Theorem C151_value : forall x, (/ 10 ^ 12 <= Rabs x)%R -> exists neg left right positive r, pretty x = PText neg left right positive r /\
  (1 <= left <= 1000) /\ (0 <= right <= 999) /\
  (Rabs (denotes (pretty x)) <= Rabs x < Rabs (denotes (pretty x)) + powerRZ 10 (if positive then r else - r) / 1000)%R /\
  (neg = true <-> (x < 0)%R).
Proof. exact pretty_value. Qed.
Print Assumptions C151_value.
Example C151_example : (/ 10 ^ 12 <= Rabs (/ 1000))%R /\ pretty (/ 1000)%R = PText false 1000 0 false 6.
Proof. split; [rewrite Rabs_pos_eq by lra; cbn; lra|exact pretty_milli]. Qed.

(** C152: the text has 9 characters, so that columns of numbers are aligned. *)
Theorem C152_refuted : exists x : R, (/ 10 ^ 12 < Rabs x < 10 ^ 15)%R /\ width (pretty x) <> 9.
Proof. exact pretty_wide. Qed.
Print Assumptions C152_refuted.
Theorem C152_partial : forall x, (/ 10 ^ 12 < Rabs x < 10 ^ 15)%R -> (forall k : nat, Rabs x <> / 10 ^ (3 * k) \/ k = 0%nat)%R -> width (pretty x) = 9.
Proof. exact pretty_width. Qed.
Print Assumptions C152_partial.
Example C152_example : exists x, (/ 10 ^ 12 < Rabs x < 10 ^ 15)%R /\ (forall k : nat, Rabs x <> / 10 ^ (3 * k) \/ k = 0%nat)%R.
Proof.
  exists 2%R. rewrite Rabs_pos_eq by lra. split; [cbn; lra|]. intros k. left.
  apply Rgt_not_eq. apply Rle_lt_trans with 1%R; [|lra]. rewrite <- Rinv_1. apply Rinv_le_contravar; [lra|]. apply pow_R1_Rle. lra.
Qed.
