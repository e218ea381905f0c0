(** Properties C332-C337: traces, the trace writer and TraceTest. *)
From Verif Require Import Prelude TracModel TracSpec TracProofs TracProofs2.

(** Full statement of C332: forall N s, 0 < N -> reach N s -> constructed s = true -> dead s = false -> step N LW s <> UB. *)
Theorem C332_copy_safe_refuted : exists s, reach 64 s /\ tp s = TRun /\ constructed s = true /\ dead s = false /\ step 64 LW s = UB.
Proof. exact over_read. Qed.
Theorem C332_write_refuted : exists s len ts, reach 64 s /\ constructed s = true /\ dead s = false /\ wp s = WTL (len, ts) /\
  length ts = len /\ step 64 LW s = UB.
Proof. exact over_write. Qed.
Theorem C332_wrapped_partial : forall N s ls, 0 < N -> reach N s -> cyc s = true -> constructed s = true -> gone s = false ->
  before_copy (wp s) -> ~ In LGone ls -> exists s', steps N ls s = Ok s'.
Proof. exact wrapped_safe. Qed.
Theorem C332_lines_partial : forall N s ls s' out, 0 < N -> reach N s -> cyc s = true -> constructed s = true -> gone s = false ->
  before_copy (wp s) -> ~ In LGone ls -> steps N ls s = Ok s' -> wp s' = WFin out -> length out = N.
Proof. exact wrapped_full. Qed.
Example C332_nonvacuous : exists s, reach 2 s /\ cyc s = true /\ constructed s = true /\ gone s = false /\ before_copy (wp s).
Proof. exact wrapped_example. Qed.

(** Full statement of C333: forall N s f, 0 < N -> reach N s -> In f (files s) -> matched f. *)
Theorem C333_lines_match_refuted : exists s f, reach 2 s /\ cyc s = true /\ dead s = false /\ files s = [f] /\ ~ matched f.
Proof. exact mismatch. Qed.
Theorem C333_half_refuted : exists s f, reach 2 s /\ tp s = TStamp /\ files s = [f] /\ In (Some 0, Some 2) f.
Proof. exact half_sample. Qed.
Theorem C333_quiet_partial : forall N s, 0 < N -> reach N s -> tp s = TRun -> gone s = false -> wp s = WT0 ->
  exists m s', steps N (repeat LW m) s = Ok s' /\ wp s' = WWait /\ files s' = files s ++ [newest N (cnt s)] /\ m <= 3 * N + 11.
Proof. exact quiet. Qed.
Theorem C333_newest_partial : forall N c, matched (newest N c).
Proof. exact newest_matched. Qed.
Theorem C333_early_partial : forall N s out, reach N s -> cnt s + 1 < N -> wp s = WFin out -> matched out.
Proof. exact early. Qed.
Example C333_quiet_nonvacuous : exists s, reach 64 s /\ tp s = TRun /\ gone s = false /\ wp s = WT0 /\ cnt s = 1.
Proof. exact quiet_example. Qed.
Example C333_newest_nonvacuous : newest 3 5 = [(Some 2, Some 2); (Some 3, Some 3); (Some 4, Some 4)].
Proof. reflexivity. Qed.
Example C333_early_nonvacuous : exists s, reach 64 s /\ cnt s = 1 /\ wp s = WFin [(Some 0, Some 0)].
Proof. exact early_example. Qed.

Theorem C334_not_lost : forall N s s1 ls s2, constructed s = true -> dead s = false -> step N LReq s = Ok s1 -> steps N ls s1 = Ok s2 ->
  begun s < begun s2 \/ go s2 = true \/ wp s2 = WLog \/ wp s2 = WT0.
Proof. exact not_lost. Qed.
Theorem C334_served : forall N s, wp s = WWait -> running s = true -> go s = true -> gone s = false -> constructed s = true ->
  exists s', steps N (repeat LW 5) s = Ok s' /\ begun s' = S (begun s) /\ go s' = false.
Proof. exact served. Qed.
Example C334_nonvacuous : exists s, reach 64 s /\ constructed s = true /\ dead s = false /\ wp s = WWait /\ running s = true.
Proof. exact idle_example. Qed.

(** Full statement of C335: forall N s, reach N s -> constructed s = true -> dead s = false -> wp s <> WEnd, and
    forall N s, reach N s -> gone s = true -> exists ls s', steps N ls s = Ok s' /\ wp s' = WEnd. *)
Theorem C335_base_run_refuted : exists s, reach 64 s /\ constructed s = true /\ dead s = false /\ wp s = WEnd.
Proof. exact base_run. Qed.
Theorem C335_flag_lost_refuted : exists s1 s2, reach 64 s1 /\ under_way (wp s1) /\ reach 64 s2 /\ constructed s2 = true /\
  dead s2 = false /\ wp s2 = WEnd.
Proof. exact flag_lost. Qed.
Theorem C335_join_refuted : exists s, reach 64 s /\ gone s = true /\ forall ls s', steps 64 ls s = Ok s' -> wp s' <> WEnd.
Proof. exact hangs. Qed.
Theorem C335_lives_partial : forall N ls s s', constructed s = true -> dead s = false -> gone s = false ->
  (wp s = WNew \/ wp s = WStart \/ running s = true) -> wp s <> WEnd -> ~ In LDead ls -> steps N ls s = Ok s' -> wp s' <> WEnd.
Proof. exact lives. Qed.
Theorem C335_stops_partial : forall N s s1 ls s2, constructed s = true -> dead s = false -> under_way (wp s) -> step N LDead s = Ok s1 ->
  steps N ls s1 = Ok s2 -> wp s2 = WWait -> exists s3, steps N [LW; LW] s2 = Ok s3 /\ wp s3 = WEnd.
Proof. exact stops. Qed.
Example C335_nonvacuous : exists s, reach 64 s /\ constructed s = true /\ dead s = false /\ gone s = false /\ wp s = WNew.
Proof. exact new_example. Qed.
Example C335_stops_nonvacuous : exists s, reach 64 s /\ constructed s = true /\ dead s = false /\ wp s = WWait /\ running s = true.
Proof. exact idle_example. Qed.

(** Full statement of C336: forall N s, reach N s -> wp s = WLog -> step N LW s <> UB. *)
Theorem C336_after_refuted : exists s, reach 64 s /\ gone s = true /\ wp s = WLog /\ step 64 LW s = UB.
Proof. exact after_life. Qed.
Theorem C336_before_refuted : exists s, reach 64 s /\ constructed s = false /\ wp s = WLog /\ step 64 LW s = UB.
Proof. exact before_life. Qed.
Theorem C336_idle_partial : forall N s s1 ls, 0 < N -> reach N s -> constructed s = true -> dead s = false -> wp s = WWait ->
  step N LDead s = Ok s1 -> exists s2, steps N ls s1 = Ok s2.
Proof. exact idle_safe. Qed.
Example C336_nonvacuous : exists s, reach 64 s /\ constructed s = true /\ dead s = false /\ wp s = WWait /\ running s = true.
Proof. exact idle_example. Qed.

(** Full statement of C337: forall N s, mreach s -> half s = false -> exists l, report N s = Ok l /\ forall a b, In (a, b) l -> a = b. *)
Theorem C337_two_traces_refuted : exists s, mreach s /\ half s = false /\ e1 s = true /\ e2 s = true /\ report 64 s = UB.
Proof. exact two_ub. Qed.
Theorem C337_shifted_refuted : exists s l, mreach s /\ half s = false /\ report 64 s = Ok l /\ In (1, 0) l.
Proof. exact two_shift. Qed.
Theorem C337_full_partial : forall N s, mreach s -> half s = false -> N <= length (c1 s) -> N <= length (c2 s) ->
  report N s = Ok (map (fun k => (k, k)) (seq (nrun s - N) N)).
Proof. exact aligned_full. Qed.
Theorem C337_together_partial : forall N s ls s', mreach s -> e1 s = false -> half s = false -> s' = msteps (MEn :: MEn :: ls) s ->
  half s' = false ->
  report N s' = Ok (map (fun k => (k, k)) (seq (nrun s' - Nat.min N (nrun s' - nrun s)) (Nat.min N (nrun s' - nrun s)))).
Proof. exact aligned_guard. Qed.
Example C337_full_nonvacuous : exists s, mreach s /\ half s = false /\ 2 <= length (c1 s) /\ 2 <= length (c2 s) /\
  length (c1 s) <> length (c2 s).
Proof. exact two_example. Qed.
Example C337_together_nonvacuous : exists s, mreach s /\ e1 s = false /\ half s = false /\
  half (msteps (MEn :: MEn :: [MTd; MTd]) s) = false.
Proof. exact two_guard_example. Qed.

Print Assumptions C332_copy_safe_refuted.
Print Assumptions C332_write_refuted.
Print Assumptions C332_wrapped_partial.
Print Assumptions C332_lines_partial.
Print Assumptions C333_lines_match_refuted.
Print Assumptions C333_half_refuted.
Print Assumptions C333_quiet_partial.
Print Assumptions C333_newest_partial.
Print Assumptions C333_early_partial.
Print Assumptions C334_not_lost.
Print Assumptions C334_served.
Print Assumptions C335_base_run_refuted.
Print Assumptions C335_flag_lost_refuted.
Print Assumptions C335_join_refuted.
Print Assumptions C335_lives_partial.
Print Assumptions C335_stops_partial.
Print Assumptions C336_after_refuted.
Print Assumptions C336_before_refuted.
Print Assumptions C336_idle_partial.
Print Assumptions C337_two_traces_refuted.
Print Assumptions C337_shifted_refuted.
Print Assumptions C337_full_partial.
Print Assumptions C337_together_partial.
