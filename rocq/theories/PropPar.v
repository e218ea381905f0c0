(** Properties C184 to C190: sequences with their own thread. *)
From Verif Require Import Prelude ParModel ParSpec ParProofs.
Open Scope nat_scope.

(** C184: Starting a non-blocking sequence returns at once. *)
Theorem C184_start_returns_refuted : exists w c i w', run world0 [OStart None 0; OBegin 0 0] = Some w /\
  step w (OStart c i) = Some w' /\ blocked w' c.
Proof.
  eexists. exists None, 0. eexists. split; [reflexivity|]. split; [reflexivity|]. exists 0, 1. left. reflexivity.
Qed.
Print Assumptions C184_start_returns_refuted.
Theorem C184_start_returns_partial : forall w c i w', step w (OStart c i) = Some w' ->
  (forall n, q_fut (w_seq w i) = Some n -> exists r, nth_error (q_runs (w_seq w i)) n = Some (Ended r)) ->
  ~ blocked w' c.
Proof. exact start_returns. Qed.
Print Assumptions C184_start_returns_partial.
Theorem C184_self_start_never_returns : forall os w i n w', run world0 os = Some w -> q_fut (w_seq w i) = Some n ->
  step w (OStart (Some (i, n)) i) = Some w' -> forall os' w'', run w' os' = Some w'' ->
  blocked w'' (Some (i, n)) /\ (forall r, nth_error (q_runs (w_seq w'' i)) n <> Some (Ended r)) /\
  (forall c, step w'' (OWait c i) = None).
Proof. exact self_start. Qed.
Print Assumptions C184_self_start_never_returns.
Example C184_ex_self : exists w w', run world0 [OStart None 0; OBegin 0 0] = Some w /\ q_fut (w_seq w 0) = Some 0 /\
  step w (OStart (Some (0, 0)) 0) = Some w'.
Proof. eexists. eexists. split; [reflexivity|]. split; reflexivity. Qed.
Example C184_ex_returns : exists w w', run world0 [OStart None 0; OBegin 0 0; OEnd 0 0 7] = Some w /\
  step w (OStart None 0) = Some w' /\ w_asg w' = [] /\ length (q_runs (w_seq w' 0)) = 2.
Proof. eexists. eexists. split; [reflexivity|]. split; [reflexivity|]. split; reflexivity. Qed.

(** C185: A sequence runs once for each start and never twice at the same time. *)
Theorem C185_one_active : forall os w i n m a b, run world0 os = Some w ->
  nth_error (q_runs (w_seq w i)) n = Some (Active a) -> nth_error (q_runs (w_seq w i)) m = Some (Active b) -> n = m.
Proof. exact one_active. Qed.
Print Assumptions C185_one_active.
Theorem C185_runs_count : forall os w i, run world0 os = Some w -> length (q_runs (w_seq w i)) = starts i os.
Proof. exact runs_count. Qed.
Print Assumptions C185_runs_count.
Example C185_ex : exists w, run world0 [OStart None 0; OBegin 0 0; OStart None 0; OEnd 0 0 1; OBegin 0 1] = Some w /\
  q_runs (w_seq w 0) = [Ended 1; Active false] /\ step w (OBegin 0 0) = None.
Proof. eexists. split; [reflexivity|]. split; reflexivity. Qed.

(** C186: The result of a run that has ended can be read. *)
Theorem C186_result_refuted : exists os w, run world0 os = Some w /\ quiet w /\ starts 0 os = 1 /\ q_ret (w_seq w 0) = None.
Proof.
  exists [OStart None 0; OBegin 0 0; OEnd 0 0 5]. eexists. split; [reflexivity|]. split; [|split; reflexivity].
  intros [|i] [|[|n]] s H; cbn in H; try discriminate. injection H as <-. exists 5%Z. reflexivity.
Qed.
Print Assumptions C186_result_refuted.
Theorem C186_result_partial : forall os w c i w', run world0 os = Some w -> w_race w = false -> step w (OWait c i) = Some w' ->
  q_fut (w_seq w i) <> None -> (forall c', ~ (exists n, In (c', i, n) (w_asg w))) ->
  exists r, q_ret (w_seq w' i) = Some r /\ nth_error (q_runs (w_seq w' i)) (starts i os - 1) = Some (Ended r) /\ 0 < starts i os.
Proof. exact wait_result. Qed.
Print Assumptions C186_result_partial.
Example C186_ex : exists w w', run world0 [OStart None 0; OBegin 0 0; OEnd 0 0 5] = Some w /\ w_race w = false /\
  step w (OWait None 0) = Some w' /\ q_fut (w_seq w 0) = Some 0 /\ w_asg w = [] /\ q_ret (w_seq w' 0) = Some 5%Z.
Proof. eexists. eexists. repeat (split; [reflexivity|]). reflexivity. Qed.

(** C187: An abort request ends the run. *)
Theorem C187_abort_noticed_refuted : exists os w w1 w2 w3, run world0 [OStart None 1; OBegin 1 0; OStart None 0; OBegin 0 0] = Some w /\
  step w (OAbort 0) = Some w1 /\ run w1 os = Some w2 /\ step w2 (OCheck 0 0) = Some w3 /\
  nth_error (q_runs (w_seq w3 0)) 0 = Some (Active false).
Proof.
  exists [OStart (Some (1, 0)) 0]. do 4 eexists. split; [reflexivity|]. split; [reflexivity|]. split; [reflexivity|]. split; reflexivity.
Qed.
Print Assumptions C187_abort_noticed_refuted.
Theorem C187_abort_noticed_partial : forall i n os w w1 w2 w3, step w (OAbort i) = Some w1 -> run w1 os = Some w2 -> starts i os = 0 ->
  step w2 (OCheck i n) = Some w3 -> nth_error (q_runs (w_seq w3 i)) n = Some (Active true).
Proof. exact abort_noticed. Qed.
Print Assumptions C187_abort_noticed_partial.
Theorem C187_not_stale_partial : forall c i n os w w1 w2 w3, step w (OStart c i) = Some w1 -> run w1 os = Some w2 -> ~ In (OAbort i) os ->
  nth_error (q_runs (w_seq w2 i)) n = Some (Active false) ->
  step w2 (OCheck i n) = Some w3 -> nth_error (q_runs (w_seq w3 i)) n = Some (Active false).
Proof. exact abort_not_stale. Qed.
Print Assumptions C187_not_stale_partial.
Example C187_ex2 : exists w w1 w2 w3, run world0 [OAbort 0] = Some w /\ step w (OStart None 0) = Some w1 /\
  run w1 [OBegin 0 0] = Some w2 /\ step w2 (OCheck 0 0) = Some w3 /\ q_runs (w_seq w3 0) = [Active false].
Proof. do 4 eexists. split; [reflexivity|]. split; [reflexivity|]. split; [reflexivity|]. split; reflexivity. Qed.
Example C187_ex : exists w w1 w3, run world0 [OStart None 0; OBegin 0 0] = Some w /\ step w (OAbort 0) = Some w1 /\
  step w1 (OCheck 0 0) = Some w3 /\ q_runs (w_seq w3 0) = [Active true].
Proof. do 3 eexists. split; [reflexivity|]. split; [reflexivity|]. split; reflexivity. Qed.

(** C188: When Sequencer::wait() returns, all sequences have ended. *)
Theorem C188_wait_all_refuted : exists os w, (forall l, In (OWaitAll l) os -> l = [0; 1]) /\
  run world0 (os ++ [OWaitNext]) = Some w /\ w_wait w = None /\ ~ quiet w.
Proof.
  exists [OStart None 1; OBegin 1 0; OWaitAll [0; 1]; OWaitNext; OStart (Some (1, 0)) 0; OEnd 1 0 0; OWaitNext]. eexists.
  split; [|split; [reflexivity|split; [reflexivity|]]].
  - intros l H. cbn in H. repeat (destruct H as [H|H]; [try discriminate; now injection H|]). contradiction.
  - intros Q. destruct (Q 0 0 Queued eq_refl) as [r H]. discriminate.
Qed.
Print Assumptions C188_wait_all_refuted.
Theorem C188_wait_all_partial : forall N os w, ordered N os -> run world0 (os ++ [OWaitNext]) = Some w -> w_wait w = None -> quiet w.
Proof. exact wait_all. Qed.
Print Assumptions C188_wait_all_partial.
Example C188_ex : exists w, ordered 2 [OStart None 0; OBegin 0 0; OWaitAll [0; 1]; OStart (Some (0, 0)) 1; OEnd 0 0 1; OWaitNext; OBegin 1 0; OEnd 1 0 2; OWaitNext] /\
  run world0 ([OStart None 0; OBegin 0 0; OWaitAll [0; 1]; OStart (Some (0, 0)) 1; OEnd 0 0 1; OWaitNext; OBegin 1 0; OEnd 1 0 2; OWaitNext] ++ [OWaitNext]) = Some w /\
  w_wait w = None.
Proof. eexists. split; [|split; reflexivity]. repeat constructor. Qed.

(** C189: Starting sequences is free of data races. *)
Theorem C189_no_race_refuted : exists os w, run world0 os = Some w /\ w_race w = true.
Proof.
  exists [OStart None 0; OBegin 0 0; OStart None 1; OBegin 1 0; OStart (Some (0, 0)) 2; OStart (Some (0, 0)) 2; OStart (Some (1, 0)) 2].
  eexists. split; reflexivity.
Qed.
Print Assumptions C189_no_race_refuted.
Theorem C189_no_race_partial : forall N st os w, ordered N os -> single st os -> run world0 os = Some w -> w_race w = false.
Proof. exact no_race. Qed.
Print Assumptions C189_no_race_partial.
Example C189_ex : let os := [OStart None 0; OBegin 0 0; OStart (Some (0, 0)) 1; OStart (Some (0, 0)) 1; OBegin 1 0] in
  exists w, ordered 2 os /\ single (fun i => if i =? 0 then None else Some 0) os /\ run world0 os = Some w /\ length (w_asg w) = 1.
Proof. intros os. eexists. split; [|split; [|split; reflexivity]]; repeat constructor. Qed.

(** C190: Destroyed sequences are not accessed. *)
Theorem C190_registry_refuted : exists os, reg_run reg0 os = UB.
Proof. exists [GNew 1; GDel 1; GUse]. reflexivity. Qed.
Print Assumptions C190_registry_refuted.
Theorem C190_registry_partial : forall os g, g_dead g = [] -> (forall s, ~ In (GDel s) os) -> reg_run g os <> UB.
Proof. exact reg_run_ok. Qed.
Print Assumptions C190_registry_partial.
Example C190_ex : exists g, reg_run reg0 [GNew 1; GNew 2; GUse] = Ok g /\ g_list g = [1; 2].
Proof. eexists. split; reflexivity. Qed.
