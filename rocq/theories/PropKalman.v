(** Properties C50, C51, C134: the Kalman filter. *)
From Verif Require Import Prelude Num MatModel ZProofs KalmanModel KalmanProofs.
From mathcomp Require Import all_ssreflect all_algebra.
From Verif Require Import MatRing MatMain KalmanMain.
Import GRing.Theory Num.Theory.
Local Open Scope ring_scope.
Local Notation mem := MatModel.mem.

(** C50: with 1, 3 or 2^j outputs, after every sequence of predictions and corrections the error covariance is symmetric and
    positive semidefinite, and no operation fails. [P] is the initial covariance, [Q] and [R] are the noises. *)
Theorem C50_history_partial : forall (F : realFieldType) ni no ns (g : mem (Unum F)) nr A B C D G Q R P x es,
  no = 1%N \/ good_order no -> symmetric (toM nr nr Q) -> psd (toM nr nr Q) -> symmetric (toM no no R) -> pd (toM no no R) -> symmetric (toM ns ns P) -> psd (toM ns ns P) ->
  exists f s0 s, construct (Unum F) ns nr g A B C D G Q R P x = Ok (f, s0) /\ run (Unum F) ni no ns g f es s0 = Ok s /\
    symmetric (toM ns ns (k_P s)) /\ psd (toM ns ns (k_P s)).
Proof. exact history_cov. Qed.
Print Assumptions C50_history_partial.
(** A single correction needs only that the innovation covariance is invertible. *)
Theorem C50_correction_partial : forall (F : realFieldType) ni no ns (g : mem (Unum F)) f y u s, no = 1%N \/ good_order no ->
  symmetric (toM no no (k_R f)) -> psd (toM no no (k_R f)) -> symmetric (toM ns ns (k_P s)) -> psd (toM ns ns (k_P s)) ->
  symmetric (toM ns ns (k_GQG f)) -> psd (toM ns ns (k_GQG f)) ->
  \det (toM no ns (k_C f) *m toM ns ns (k_P s) *m (toM no ns (k_C f))^T + toM no no (k_R f)) != 0 ->
  exists s', correction (Unum F) ni no ns g f y u s = Ok s' /\ symmetric (toM ns ns (k_P s')) /\ psd (toM ns ns (k_P s')).
Proof. exact correct_cov_plain. Qed.
Print Assumptions C50_correction_partial.
(** With five outputs, identity covariance and identity noises: one correction (after the one that starts the filter) leaves
    a covariance that is not symmetric. It depends on what an uninitialised array happens to hold. *)
Theorem C50_five_outputs_refuted : exists (g : mem Dnum) s,
  bind (construct Dnum 2 2 g (eyeD 2) zeroD cD zeroD (eyeD 2) (eyeD 2) (eyeD 5) (eyeD 2) zeroD) (fun p =>
    run Dnum 1 5 2 g (fst p) [:: Correct zeroD zeroD; Correct zeroD zeroD] (snd p)) = Ok s /\ k_P s 1%N <> k_P s 2%N.
Proof. exact not_symmetric_full. Qed.
Print Assumptions C50_five_outputs_refuted.
(** The constructors without initial values: zero state, identity covariance, no feed-through. *)
Theorem C50_default_start_partial : forall (F : fieldType) ni no ns (g : mem (Unum F)) nr A B C G Q R, exists f s,
  construct_default (Unum F) ni no ns nr g A B C G Q R = Ok (f, s) /\
  toM ns 1 (k_x s) = 0 /\ toM ns ns (k_P s) = 1%:M /\ toM no ni (k_D f) = 0 /\ k_first s = true /\
  k_A f = A /\ k_B f = B /\ k_C f = C /\ k_R f = R /\ toM ns ns (k_GQG f) = toM ns nr G *m toM nr nr Q *m (toM ns nr G)^T.
Proof. exact default_M. Qed.
Print Assumptions C50_default_start_partial.
Example C50_example : symmetric (@toM rat_realFieldType 2 2 (fun i => if (i == 1)%N || (i == 2)%N then 1 else 2%:R : rat)) /\ psd (1%:M : 'M[rat]_2) /\ pd (1%:M : 'M[rat]_2) /\ good_order 4.
Proof. exact kalman_example. Qed.

(** C51: [z] is the state of a noise-free system that is driven by the same inputs, every measurement is the one of that
    system. If the estimate starts equal, it is equal after the whole history, for any covariances, noises and gains. *)
Theorem C51_exact : forall (F : fieldType) ni no ns (g : mem (Unum F)) f es s (z : 'cV[F]_ns) s',
  run (Unum F) ni no ns g f es s = Ok s' -> exact_history ni no f z es -> toM ns 1 (k_x s) = z ->
  toM ns 1 (k_x s') = foldl (follows ni f) z es.
Proof. exact run_exact. Qed.
Print Assumptions C51_exact.
(** The error (estimate minus true state) of a noise-free system is multiplied by A in a prediction and by 1 - K C in a correction. *)
Theorem C51_prediction_error : forall (F : fieldType) ni ns (g : mem (Unum F)) f u s (z : 'cV[F]_ns), exists s',
  prediction (Unum F) ni ns g f u s = Ok s' /\ k_first s' = k_first s /\
  toM ns 1 (k_x s') - (toM ns ns (k_A f) *m z + toM ns ni (k_B f) *m toM ni 1 u) = toM ns ns (k_A f) *m (toM ns 1 (k_x s) - z).
Proof. exact predict_error. Qed.
Print Assumptions C51_prediction_error.
Theorem C51_correction_error : forall (F : fieldType) ni no ns (g : mem (Unum F)) f y u s s' (z : 'cV[F]_ns),
  correction (Unum F) ni no ns g f y u s = Ok s' -> toM no 1 y = toM no ns (k_C f) *m z + toM no ni (k_D f) *m toM ni 1 u ->
  k_first s' = false /\ exists K : 'M[F]_(ns, no), toM ns 1 (k_x s') - z = (1%:M - K *m toM no ns (k_C f)) *m (toM ns 1 (k_x s) - z).
Proof. exact correct_error. Qed.
Print Assumptions C51_correction_error.
Example C51_example : exists (f : KalmanModel.filter (Unum rat_realFieldType)) s s' (z : 'cV[rat]_2), exact_history 1 1 f z example_events /\ toM 2 1 (k_x s) = z /\
  run (Unum rat_realFieldType) 1 1 2 (fun _ => 0 : rat) f example_events s = Ok s'.
Proof. exact exact_example. Qed.

(** C134: a correction does not increase the error covariance in any direction; the correction uses the optimal gain. *)
Theorem C134_correction_decreases : forall (F : realFieldType) ni no ns (g : mem (Unum F)) f y u s, no = 1%N \/ good_order no ->
  symmetric (toM no no (k_R f)) -> psd (toM no no (k_R f)) -> symmetric (toM ns ns (k_P s)) -> psd (toM ns ns (k_P s)) ->
  symmetric (toM ns ns (k_GQG f)) -> psd (toM ns ns (k_GQG f)) ->
  \det (toM no ns (k_C f) *m toM ns ns (k_P s) *m (toM no ns (k_C f))^T + toM no no (k_R f)) != 0 ->
  exists s', correction (Unum F) ni no ns g f y u s = Ok s' /\ forall v : 'rV[F]_ns, (v *m toM ns ns (k_P s') *m v^T) 0 0 <= (v *m toM ns ns (k_P s) *m v^T) 0 0.
Proof. exact correct_decreases. Qed.
Print Assumptions C134_correction_decreases.
(** For every other gain [L] the error covariance (1 - L C) P (1 - L C)^T + L R L^T would be at least as large in every direction. *)
Theorem C134_optimal : forall (F : realFieldType) ni no ns (g : mem (Unum F)) f y u s, no = 1%N \/ good_order no -> k_first s = false ->
  symmetric (toM no no (k_R f)) -> psd (toM no no (k_R f)) -> symmetric (toM ns ns (k_P s)) -> psd (toM ns ns (k_P s)) ->
  \det (toM no ns (k_C f) *m toM ns ns (k_P s) *m (toM no ns (k_C f))^T + toM no no (k_R f)) != 0 ->
  exists s', correction (Unum F) ni no ns g f y u s = Ok s' /\ forall (L : 'M[F]_(ns, no)) (v : 'rV[F]_ns),
    (v *m toM ns ns (k_P s') *m v^T) 0 0 <= (v *m ((1%:M - L *m toM no ns (k_C f)) *m toM ns ns (k_P s) *m (1%:M - L *m toM no ns (k_C f))^T + L *m toM no no (k_R f) *m L^T) *m v^T) 0 0.
Proof. exact correct_optimal. Qed.
Print Assumptions C134_optimal.
(** The filter reports the first measurement cycle without using it: estimate and covariance are unchanged. *)
Theorem C134_first_ignored : forall (F : fieldType) ni no ns (g : mem (Unum F)) f y u s, k_first s = true ->
  exists s', correction (Unum F) ni no ns g f y u s = Ok s' /\ k_x s' = k_x s /\ k_P s' = k_P s /\ k_first s' = false.
Proof. exact first_ignored. Qed.
Print Assumptions C134_first_ignored.
Example C134_example : exists s', correction Dnum 1 1 2 (fun _ => dz 0) (KalmanModel.Build_filter Dnum (eyeD 2) zeroD (eyeD 2) zeroD zeroD (eyeD 1)) (fun _ => dz 4) zeroD (KalmanModel.Build_state Dnum zeroD (eyeD 2) false) = Ok s' /\ k_x s' 0%N = dz 2.
Proof. exact correct_example. Qed.
