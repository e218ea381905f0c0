(** Properties C338-C342: TransitionBlockTest. *)
From Verif Require Import Prelude TrexModel TrexSpec TrexProofs TrexProofs2.
Local Open Scope Z_scope.

(** Full statement of C338: forall N s, reach N s -> ~ reads_garbage s. *)
Theorem C338_initialized_refuted : exists s, reach 100 s /\ reads_garbage s.
Proof. exact garbage. Qed.
Theorem C338_always_partial : forall N s, reach N s -> fp s = F2 -> nsig s = 0%nat -> reads_garbage s.
Proof. exact garbage_always. Qed.
Theorem C338_written_partial : forall N s, reach N s -> fp s = F0 -> (0 < nsig s)%nat ->
  (refresh s = true /\ fp (fast N s) = F1 /\ fp (fast N (fast N s)) = F2 /\ dset (fast N (fast N s)) = true) \/ dset s = true.
Proof. exact garbage_ends. Qed.
Theorem C338_stays_partial : forall N s ls s', dset s = true -> steps N ls s = Ok s' -> ~ reads_garbage s'.
Proof. exact garbage_never. Qed.
Example C338_nonvacuous : exists s, reach 2 s /\ fp s = F0 /\ (0 < nsig s)%nat /\ refresh s = true.
Proof. exact second_signal. Qed.

(** Full statement of C339: forall N s l, (0 < N)%nat -> reach N s -> step N l s <> UB. *)
Theorem C339_not_empty_refuted : exists s, reach 100 s /\ sp s = S4 /\ step 100 LSlow s = UB.
Proof. exact late. Qed.
Theorem C339_not_empty_partial : forall N s l, reach_g N s -> (l = LFast -> fp s = F3 -> (N <= S (hk s))%nat -> idle s) ->
  exists s', step N l s = Ok s'.
Proof. exact defined. Qed.
Example C339_nonvacuous : exists s, reach_g 2 s /\ sp s = S4.
Proof. exact guarded_example. Qed.

Theorem C340_slow : forall N s x, (0 < N)%nat -> reach N s -> In x (outs s) -> on_ramp N (torg s) x.
Proof. exact ramp. Qed.
Theorem C340_fast : forall N s, (0 < N)%nat -> reach N s -> on_ramp N (torg s) (osig s).
Proof. exact ramp_fast. Qed.
Example C340_nonvacuous : exists s x, reach 2 s /\ nth_error (outs s) 2 = Some x /\ sval x = Some 5 /\ torg s = 3 /\ sts x = 5.
Proof. exact ramp_example. Qed.

(** Full statement of C341: forall N s x, (0 < N)%nat -> reach N s -> In x (outs s) -> sval x <> None. *)
Theorem C341_number_refuted : exists s x, reach 100 s /\ outs s = [x] /\ sval x = None.
Proof. exact nan_output. Qed.
Theorem C341_number_partial : forall N s k x, reach N s -> nth_error (outs s) k = Some x -> (3 <= k)%nat -> sval x <> None.
Proof. exact numbers. Qed.
Example C341_nonvacuous : exists s x, reach 2 s /\ nth_error (outs s) 3 = Some x.
Proof. exact fourth_example. Qed.

Theorem C342_delayed : forall N z d0 ds, (0 < N)%nat -> (forall d, In d ds -> (0 < d)%nat) -> exists s,
  steps N (first_period N d0 ++ concat (map (next_period N) ds)) (init z) = Ok s /\ length (outs s) = S (length ds) /\
  forall k, (2 <= k <= length ds)%nat -> exists x, nth_error (outs s) k = Some x /\
    sval x = Some (Z.of_nat N * since ds (k - 2) + (since ds (k - 1) - since ds (k - 2)) * (Z.of_nat N - 1)) /\
    sts x = (Z.of_nat N * (Z.of_nat d0 + since ds (k - 2)) + (Z.of_nat N - 1) * (since ds (k - 1) - since ds (k - 2))) / Z.of_nat N.
Proof. exact delayed. Qed.
Example C342_nonvacuous : forall d, In d [5; 4; 6]%nat -> (0 < d)%nat.
Proof. intros d [<-|[<-|[<-|[]]]]; lia. Qed.

Print Assumptions C338_initialized_refuted.
Print Assumptions C338_always_partial.
Print Assumptions C338_written_partial.
Print Assumptions C338_stays_partial.
Print Assumptions C339_not_empty_refuted.
Print Assumptions C339_not_empty_partial.
Print Assumptions C340_slow.
Print Assumptions C340_fast.
Print Assumptions C341_number_refuted.
Print Assumptions C341_number_partial.
Print Assumptions C342_delayed.
