(** Properties C73, C126, C127 of the logger. *)
From Coq Require Import Ascii.
From Verif Require Import Prelude ConfModel LogModel LogSpec LogProofs.
Open Scope nat_scope.

(** C73 *)
Theorem C73_messages : forall ops s w x, run sys0 ops = Ok s -> nth_error (s_writers s) w = Some x ->
  w_out x = expected_out (rev ops) w /\ w_file x = expected_file (rev ops) w.
Proof. exact log_exact. Qed.
Print Assumptions C73_messages.
(** The first message is not visible; the level is lowered after the second was created; the third is then suppressed. *)
Example C73_example : match run sys0 ex_ops with Ok s => map (fun w => (w_out w, w_file w)) (s_writers s) = [(ex_text, ex_text)] | _ => False end.
Proof. exact ex_log. Qed.

(** C126 *)
Theorem C126_file_order_refuted : exists ops s w, run sys0 ops = Ok s /\ nth_error (s_writers s) 0 = Some w /\ w_out w <> w_file w.
Proof. exact (ex_intro _ race_ops race). Qed.
Print Assumptions C126_file_order_refuted.
Theorem C126_one_thread_partial : forall ops s w x, one_thread (rev ops) -> run sys0 ops = Ok s -> nth_error (s_writers s) w = Some x -> w_file x = w_out x.
Proof. exact file_is_out. Qed.
Print Assumptions C126_one_thread_partial.
Example C126_example : one_thread (rev ex_ops).
Proof. cbn. repeat (apply ot_nil || apply ot_end || (apply ot_other; [|intros e; split; discriminate])). Qed.

(** C127 *)
Theorem C127_no_default_refuted : exists g l stamp, run sys0 [GetLogger 0; Create g l stamp] = UB.
Proof. exact (ex_intro _ 0 (ex_intro _ INFO (ex_intro _ [] eq_refl))). Qed.
Print Assumptions C127_no_default_refuted.
(** Once a default was set no use of the logger is undefined, as long as entries are used before they end. *)
Theorem C127_default_set_partial : forall ops, respects_entries ops 0 [] -> uses_loggers ops 0 ->
  exists s, run sys0 (SetDefault :: ops) = Ok s.
Proof. exact no_ub. Qed.
Print Assumptions C127_default_set_partial.
Example C127_example : uses_loggers (tl ex_ops) 0 /\ respects_entries (tl ex_ops) 0 [].
Proof. split; cbn; repeat split; try lia; try tauto; intuition congruence. Qed.
