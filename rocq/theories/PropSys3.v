(** Properties C322-C324: SystemTest3. *)
From Verif Require Import Prelude SafetyModel Sys3Model Sys3Spec Sys3Proofs.
Local Open Scope Z_scope.

(** Full statement of C322: forall s s', reach s -> level_at s slStart -> step LSafe s = Ok s' -> level_at s' slRamp ->
    iprev s' = Some 0. *)
Theorem C322_ramp_from_zero_refuted :
  exists s s', reach s /\ level_at s slStart /\ step LSafe s = Ok s' /\ level_at s' slRamp /\ iprev s' = None.
Proof. exact nan_ramp. Qed.
Theorem C322_ramp_from_zero_partial : forall s b t s', run_g s b t -> level_at s slStart -> step LSafe s = Ok s' -> level_at s' slRamp ->
  iprev s' = Some 0 /\ fired s' = false /\ match tp s' with TI2 v _ => v = Some 0 | TK1 | TK2 | TK3 => False | _ => True end.
Proof. exact from_zero. Qed.
Example C322_nonvacuous : exists s b s', run_g s b 0 /\ level_at s slStart /\ step LSafe s = Ok s' /\ level_at s' slRamp /\ tp s' = TC.
Proof. exact gramp. Qed.

(** Full statement of C323: forall s, reach s -> tp s = TK2 -> exists v, iout s = Some v /\ 10000000000 <= v. *)
Theorem C323_reset_at_five_refuted : exists s, reach s /\ tp s = TK2 /\ iout s = None.
Proof. exact nan_reset. Qed.
Theorem C323_reset_at_five_partial : forall s b t, run_g s b t -> tp s = TK2 ->
  exists v, iout s = Some v /\ 10000000000 <= v <= iprevt s - t.
Proof. exact ten_seconds. Qed.
Example C323_nonvacuous : exists s b, run_g s b 0 /\ tp s = TK2.
Proof. exact greset. Qed.

Theorem C324_armed : forall s, reach s -> level_at s slRamp -> next_is s slRamp -> fired s = false.
Proof. exact armed. Qed.
Theorem C324_caught : forall s s', reach s -> level_at s slRamp -> next_is s slRamp -> tp s = TK0 -> exceeded (iout s) = true ->
  steps [LTd; LTd; LTd] s = Ok s' -> next_is s' slStart.
Proof. exact caught. Qed.
Theorem C324_reported : forall s s', reach s -> tp s = TK2 -> step LTd s = Ok s' ->
  level_at s slRamp /\ level_at s' slRamp /\ next_is s' slStart.
Proof. exact fires. Qed.
Theorem C324_back : forall s s', reach s -> level_at s slRamp -> next_is s slStart -> step LSafe s = Ok s' ->
  level_at s' slStart /\ next_is s' slStart.
Proof. exact back. Qed.
Theorem C324_goes_on : forall s l, reach s -> exists s', step l s = Ok s'.
Proof. exact goes_on. Qed.
Example C324_caught_nonvacuous : exists s, reach s /\ level_at s slRamp /\ next_is s slRamp /\ tp s = TK0 /\ exceeded (iout s) = true.
Proof. exact caught_example. Qed.
Example C324_back_nonvacuous : exists s, reach s /\ level_at s slRamp /\ next_is s slStart.
Proof. exact back_example. Qed.

Print Assumptions C322_ramp_from_zero_refuted.
Print Assumptions C322_ramp_from_zero_partial.
Print Assumptions C323_reset_at_five_refuted.
Print Assumptions C323_reset_at_five_partial.
Print Assumptions C324_armed.
Print Assumptions C324_caught.
Print Assumptions C324_reported.
Print Assumptions C324_back.
Print Assumptions C324_goes_on.
