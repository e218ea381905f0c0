(** Property theorems of the sequencer (C21-C26, C90-C95). *)
From Coq Require Import String Reals Lra.
From Flocq Require Import Core.Raux.
From Verif Require Import Prelude Num SeqModel SeqSpec SeqProofs SeqProofs2 SeqProofs3 SeqProofs4 SeqProofs5 SeqExamples.
Open Scope Z_scope.
Open Scope list_scope.

(** C21.  Every log of any history of runs consists, for every step at every nesting level, of
    complete runs of the life-cycle automaton. *)
Theorem C21_every_run_is_a_life : forall defs mons orc w, wf_config defs mons -> reached defs mons orc w ->
  forall q, lives defs mons q [] (wlog w) /\ qphase (wq w q) = Idle /\ qbusy (wq w q) = false.
Proof. exact reached_lives. Qed.
Print Assumptions C21_every_run_is_a_life.

(** A false precondition: nothing follows but the end. *)
Theorem C21_false_precondition_ends : forall mons s l1 l2 r,
  life mons s (l1 ++ VPre s false :: l2) r -> filter (own_ev mons s) l2 = [VEnd s r].
Proof. exact life_false_pre. Qed.
Print Assumptions C21_false_precondition_ends.

(** The action runs only directly after a true precondition. *)
Theorem C21_action_needs_precondition : forall mons s l1 l2 r,
  life mons s (l1 ++ VAct s :: l2) r ->
  exists k1 k2, l1 = k1 ++ VPre s true :: k2 /\ filter (own_ev mons s) k2 = [].
Proof. exact life_act_pre. Qed.
Print Assumptions C21_action_needs_precondition.

(** The same on the log of any history of runs: an action directly follows a true precondition, and
    what follows a precondition is the action or the end. *)
Theorem C21_action_in_run : forall defs mons orc, wf_config defs mons ->
  forall w, reached defs mons orc w -> forall q l1 l2, wlog w = l1 ++ VAct q :: l2 ->
  exists k1 k2, l1 = k1 ++ VPre q true :: k2 /\ filter (own_ev mons q) k2 = [].
Proof. exact run_act_pre. Qed.
Print Assumptions C21_action_in_run.

Theorem C21_true_precondition_in_run : forall defs mons orc, wf_config defs mons ->
  forall w, reached defs mons orc w -> forall q l1 l2, wlog w = l1 ++ VPre q true :: l2 ->
  exists k1 k2, l2 = k1 ++ VAct q :: k2 /\ filter (own_ev mons q) k1 = [].
Proof. exact run_true_pre. Qed.
Print Assumptions C21_true_precondition_in_run.

Theorem C21_false_precondition_in_run : forall defs mons orc, wf_config defs mons ->
  forall w, reached defs mons orc w -> forall q l1 l2, wlog w = l1 ++ VPre q false :: l2 ->
  exists k1 r k2, l2 = k1 ++ VEnd q r :: k2 /\ filter (own_ev mons q) k1 = [].
Proof. exact run_false_pre. Qed.
Print Assumptions C21_false_precondition_in_run.

(** The result is that of the last run of the action, -1 without one. *)
Theorem C21_result : forall mons s l r, life mons s l r ->
  r = fold_left (fun r e => match e with VRet q x => if Nat.eqb q s then x else r | _ => r end) l (-1).
Proof. exact life_result. Qed.
Print Assumptions C21_result.

Example C21_example :
  run_log (exec ex_defs ex_mons (nth_orc [true; false; false; true]) 60 2 world_new)
  = Some ([VPre 2 true; VAct 2; VMon 1 false; VPre 1 false; VEnd 1 (-1); VRet 2 (-1); VExit 2 true;
           VEnd 2 (-1)], -1)
  /\ wf_config ex_defs ex_mons.
Proof. split; [reflexivity|exact ex_wf]. Qed.

(** C22 *)
Theorem C22_end_reason : forall defs mons orc w q l1 r l2, wf_config defs mons -> reached defs mons orc w ->
  wlog w = l1 ++ VEnd q r :: l2 ->
  exists pl b, l1 = pl ++ b /\ life mons q (b ++ [VEnd q r]) r /\
    ((exists k1 e k2, b = k1 ++ e :: k2 /\ (e = VPre q false \/ e = VExit q true) /\
        filter (own_ev mons q) k2 = []) \/
     fired_above mons (sstack (defs q)) l1).
Proof. exact end_reason. Qed.
Print Assumptions C22_end_reason.

(** Step 0 is ended by the abort monitor of its caller. *)
Example C22_example :
  run_log (exec nl_defs nl_mons (nth_orc [true; false; true; false; true; true; false; true; true]) 60 2 world_new)
  = Some ([VPre 2 true; VAct 2; VMon 1 false; VPre 1 true; VAct 1; VMon 1 false; VPre 0 true; VAct 0; VRet 0 7;
           VMon 1 true; VFire 1; VHandled 1; VExit 0 false; VEnd 0 7; VMon 1 true; VEnd 3 (-1);
           VRet 1 1; VEnd 1 1; VRet 2 2; VExit 2 true; VEnd 2 2], 2)
  /\ wf_config nl_defs nl_mons.
Proof. split; [reflexivity|exact nl_wf]. Qed.

(** C23 *)
Theorem C23_handled_restarts_happen : forall mons s l r, life mons s l r ->
  count_ev (is_restart_of mons s) l = count_ev (is_restart s) l.
Proof. exact life_restarts. Qed.
Print Assumptions C23_handled_restarts_happen.

Theorem C23_restart_checks_precondition : forall mons s l1 l2 r,
  life mons s (l1 ++ VRestart s :: l2) r ->
  exists k1 b k2, l2 = k1 ++ VPre s b :: k2 /\ filter (own_ev mons s) k1 = [].
Proof. exact life_restart_pre. Qed.
Print Assumptions C23_restart_checks_precondition.

(** After the start the precondition is evaluated exactly once per restart. *)
Theorem C23_once_per_restart : forall mons s l1 b l2 r, life mons s (l1 ++ VPre s b :: l2) r ->
  count_ev (is_pre s) l2 = count_ev (is_restart s) l2.
Proof. exact life_counts_started. Qed.
Print Assumptions C23_once_per_restart.

(** The action runs exactly as often as the precondition holds. *)
Theorem C23_action_count : forall mons s l r, life mons s l r ->
  (count_ev (is_restart s) l <= count_ev (is_pre s) l <= 1 + count_ev (is_restart s) l)%nat /\
  count_ev (is_act s) l = count_ev (is_pre_true s) l.
Proof. exact life_counts. Qed.
Print Assumptions C23_action_count.

(** In the log of any history of runs: when a restart monitor of the step has been handled, then at most
    the running action returns before the step restarts, and the restart evaluates the precondition. *)
Theorem C23_restart_in_run : forall defs mons orc, wf_config defs mons ->
  forall w, reached defs mons orc w -> forall q l1 m l2, wlog w = l1 ++ VHandled m :: l2 ->
  mowner (mons m) = q -> mbeh (mons m) = Restart ->
  exists k1 k2 b k3, l2 = k1 ++ VRestart q :: k2 ++ VPre q b :: k3 /\
    (filter (own_ev mons q) k1 = [] \/ exists x, filter (own_ev mons q) k1 = [VRet q x]) /\
    filter (own_ev mons q) k2 = [].
Proof. exact run_restart. Qed.
Print Assumptions C23_restart_in_run.

Example C23_example :
  run_log (exec ll_defs ll_mons (nth_orc [false; true; true; true; true; false]) 60 0 world_new)
  = Some ([VMon 0 false; VPre 0 true; VAct 0; VRet 0 0; VMon 0 true; VFire 0; VHandled 0; VRestart 0;
           VPre 0 true; VAct 0; VRet 0 0; VMon 0 true; VFire 0; VHandled 0; VRestart 0; VPre 0 false; VEnd 0 0], 0)
  /\ wf_config ll_defs ll_mons.
Proof. split; [reflexivity|exact ll_wf]. Qed.

(** C24 *)
Theorem C24_all_monitors_checked : forall defs mons orc n s w w', wf_config defs mons ->
  (forall q m, In q (sstack (defs s)) -> In m (smons (defs q)) -> mexc (mons m) = None) ->
  check defs mons orc n s w = Fin w' ->
  exists seg, wlog w' = wlog w ++ seg /\
    evaluated seg = flat_map (fun q => if qinexc (wq w q) then [] else smons (defs q)) (sstack (defs s)).
Proof. exact check_eval. Qed.
Print Assumptions C24_all_monitors_checked.

Theorem C24_stack_of_callers : forall self caller,
  stack_new self (Some caller) true = self :: caller /\
  stack_new self (Some caller) false = [self] /\ (forall b, stack_new self None b = [self]).
Proof. repeat split; destruct b; reflexivity. Qed.
Print Assumptions C24_stack_of_callers.

Example C24_example :
  match check mk_defs mk_mons (fun _ => false) 20 0 world_new with
  | Fin w' => Some (evaluated (wlog w')) | _ => None
  end = Some [1; 2]%nat.
Proof. reflexivity. Qed.

(** C25 (times in nanoseconds, timeout T in seconds, exact arithmetic) *)
Theorem C25_first_evaluation_starts : forall (T : R) t0 ts, T <> 0%R ->
  snd (ct_runs {| ctimeout_s := T : Rnum; cstarted := false; cstart_ns := 0 |} (map CTEval (t0 :: ts))) =
  false :: map (fun t => Rlt_bool (T * 1000) (IZR (Z.quot (t - t0) 1000000))) ts.
Proof. exact ct_first_eval. Qed.
Print Assumptions C25_first_evaluation_starts.

Theorem C25_reset_restarts : forall (T : R) (c : ctimeout Rnum) t0 ts, T <> 0%R -> ctimeout_s c = T ->
  snd (ct_runs c (CTReset t0 :: map CTEval ts)) =
  map (fun t => Rlt_bool (T * 1000) (IZR (Z.quot (t - t0) 1000000))) ts.
Proof. exact ct_after_reset. Qed.
Print Assumptions C25_reset_restarts.

Theorem C25_fires_only_after_timeout : forall (T : R) t0 t, t0 <= t ->
  Rlt_bool (T * 1000) (IZR (Z.quot (t - t0) 1000000)) = true -> (T * 1000000000 < IZR (t - t0))%R.
Proof. exact ct_fire_elapsed. Qed.
Print Assumptions C25_fires_only_after_timeout.

Theorem C25_fires_within_a_millisecond : forall (T : R) t0 t, t0 <= t ->
  (T * 1000000000 + 1000000 <= IZR (t - t0))%R ->
  Rlt_bool (T * 1000) (IZR (Z.quot (t - t0) 1000000)) = true.
Proof. exact ct_elapsed_fire. Qed.
Print Assumptions C25_fires_within_a_millisecond.

Theorem C25_stays_true : forall (T : R) t0 t t', t0 <= t <= t' ->
  Rlt_bool (T * 1000) (IZR (Z.quot (t - t0) 1000000)) = true ->
  Rlt_bool (T * 1000) (IZR (Z.quot (t' - t0) 1000000)) = true.
Proof. exact ct_stays. Qed.
Print Assumptions C25_stays_true.

Theorem C25_zero_never_fires : forall (c : ctimeout Rnum) os, ctimeout_s c = 0%R ->
  Forall (fun b => b = false) (snd (ct_runs c os)).
Proof. exact ct_zero. Qed.
Print Assumptions C25_zero_never_fires.

(** The double-precision instance, timeout 2 s. *)
Example C25_example :
  snd (ct_runs (ct_set (ct_new Dnum) (dofZ 2)) [CTEval 5; CTEval 2000999999; CTEval 2001000005;
       CTReset 2001000005; CTEval 2001000006]) = [false; false; true; false].
Proof. reflexivity. Qed.

(** C26 *)
Theorem C26_ids_and_names : forall os, let r := reg_runs os in
  NoDup (map snd (rlist r)) /\ (forall x, In x (rlist r) -> snd x <> EmptyString) /\
  (forall i, reg_by_id r i =
     if 0 <=? i then option_map (fun x => fst (fst x)) (nth_error (rlist r) (Z.to_nat i)) else None) /\
  (forall x, In x (rlist r) -> reg_by_name r (snd x) = Some (fst (fst x)) /\
                               reg_by_id r (snd (fst x)) = Some (fst (fst x))) /\
  (forall n, ~ In n (map snd (rlist r)) -> reg_by_name r n = None).
Proof. exact reg_unique. Qed.
Print Assumptions C26_ids_and_names.

Theorem C26_registration_accepted_iff_new : forall os o n,
  (exists r', reg_add (reg_runs os) o n = Ok r') <->
  n <> EmptyString /\ ~ In n (map snd (rlist (reg_runs os))).
Proof. exact reg_rejects. Qed.
Print Assumptions C26_registration_accepted_iff_new.

Example C26_example : let r := reg_runs [RAdd 7 "a"; RAdd 8 "b"; RAdd 9 "a"; RAdd 5 ""; RAdd 4 "c"]%string in
  rlist r = [(7%nat, 0, "a"%string); (8%nat, 1, "b"%string); (4%nat, 2, "c"%string)] /\
  reg_by_id r 1 = Some 8%nat /\ reg_by_name r "c" = Some 4%nat /\ reg_by_id r 3 = None.
Proof. repeat split. Qed.

(** C90, full statement (false of the code): a step whose exit condition is true from some poll
    on ends. *)
Theorem C90_restart_livelock_refuted : exists defs mons orc, wf_config defs mons /\
  (forall i, orc i = true) /\ forall n, exec defs mons orc n 0 world_new = OutOfFuel.
Proof. exists ll_defs, ll_mons, ll_orc. split; [exact ll_wf|]. split; [reflexivity|exact ll_never_ends]. Qed.
Print Assumptions C90_restart_livelock_refuted.

(** While no monitor is true, it ends in the first poll in which the exit condition is true. *)
Theorem C90_quiet_step_ends_partial : forall defs mons orc s r k j w,
  k = length (flat_map (fun q => smons (defs q)) (sstack (defs s))) ->
  In s (sstack (defs s)) -> sbody (defs s) = Ret r ->
  qbusy (wq w s) = false -> qphase (wq w s) = Idle ->
  (forall q, In q (sstack (defs s)) -> qinexc (wq w q) = false) ->
  (forall i, (i < k)%nat -> orc (wpos w + i)%nat = false) -> orc (wpos w + k)%nat = true ->
  (forall p i, (p <= j)%nat -> (i < k)%nat -> orc (wpos w + S k + p * S k + i)%nat = false) ->
  (forall p, (p <= j)%nat -> orc (wpos w + S k + p * S k + k)%nat = Nat.eqb p j) ->
  exists n w', exec defs mons orc n s w = Fin (w', r).
Proof. exact quiet_step_ends. Qed.
Print Assumptions C90_quiet_step_ends_partial.

Example C90_example :
  run_log (exec ll_defs ll_mons (nth_orc [false; true; false; false; false; false; false; true]) 60 0 world_new)
  = Some ([VMon 0 false; VPre 0 true; VAct 0; VRet 0 0; VMon 0 false; VExit 0 false; VMon 0 false; VExit 0 false;
           VMon 0 false; VExit 0 true; VEnd 0 0], 0).
Proof. reflexivity. Qed.

(** C91, full statement (false of the code): when in a poll of a step an abort monitor of a
    caller is true, the step is ended without polling or acting again. *)
Theorem C91_abort_masked_by_outer_resume_refuted : exists defs mons orc l r,
  wf_config defs mons /\ In (mowner (mons 1%nat)) (sstack (defs 0%nat)) /\ mbeh (mons 1%nat) = Abort /\
  run_log (exec defs mons orc 60 2 world_new) = Some (l, r) /\
  filter (fun e => match e with VMon 1 true => true | _ => own_ev mons 0 e end) l =
    [VPre 0 true; VAct 0; VRet 0 7; VMon 1 true; VExit 0 false; VMon 1 true; VExit 0 false;
     VMon 1 true; VExit 0 true; VEnd 0 7].
Proof.
  exists mk_defs, mk_mons, mk_orc,
    [VMon 2 false; VPre 2 true; VAct 2; VMon 1 false; VMon 2 false; VPre 1 true; VAct 1; VMon 1 false;
     VMon 2 false; VPre 0 true; VAct 0; VRet 0 7; VMon 1 true; VFire 1; VHandled 1; VMon 2 true;
     VFire 2; VHandled 2; VExit 0 false; VMon 1 true; VMon 2 true; VFire 2; VHandled 2; VExit 0 false;
     VMon 1 true; VMon 2 true; VFire 2; VHandled 2; VExit 0 true; VEnd 0 7; VRet 1 1; VEnd 1 1;
     VRet 2 2; VMon 2 false; VExit 2 true; VEnd 2 2], 2.
  split; [exact mk_wf|]. split; [right; left; reflexivity|]. repeat split.
Qed.
Print Assumptions C91_abort_masked_by_outer_resume_refuted.

Theorem C91_own_restart_wins_refuted : exists defs mons orc l r,
  wf_config defs mons /\ In (mowner (mons 1%nat)) (sstack (defs 0%nat)) /\ mbeh (mons 1%nat) = Abort /\
  run_log (exec defs mons orc 60 2 world_new) = Some (l, r) /\
  filter (fun e => match e with VMon 1 true => true | _ => own_ev mons 0 e end) l =
    [VPre 0 true; VAct 0; VRet 0 7; VHandled 0; VMon 1 true; VRestart 0; VPre 0 true; VAct 0; VRet 0 7;
     VExit 0 true; VEnd 0 7].
Proof.
  exists rs_defs, rs_mons, rs_orc,
    [VPre 2 true; VAct 2; VMon 1 false; VPre 1 true; VAct 1; VMon 0 false; VMon 1 false; VPre 0 true;
     VAct 0; VRet 0 7; VMon 0 true; VFire 0; VHandled 0; VMon 1 true; VFire 1; VHandled 1;
     VRestart 0; VPre 0 true; VAct 0; VRet 0 7; VMon 0 false; VMon 1 false; VExit 0 true;
     VEnd 0 7; VRet 1 1; VEnd 1 1; VRet 2 2; VExit 2 true; VEnd 2 2], 2.
  split; [exact rs_wf|]. split; [right; left; reflexivity|]. repeat split.
Qed.
Print Assumptions C91_own_restart_wins_refuted.

(** When it is the only true monitor in the poll, all steps below the owner are put into
    aborting and the owner into aborting or restarting. *)
Theorem C91_single_monitor_partial : forall defs mons orc n s w w' pre o suf m1 m m2,
  wf_config defs mons ->
  check defs mons orc n s w = Fin w' ->
  sstack (defs s) = pre ++ o :: suf -> ~ In o pre ->
  smons (defs o) = m1 ++ m :: m2 -> mexc (mons m) = None -> mbeh (mons m) <> Resume ->
  (forall q, In q (sstack (defs s)) -> qinexc (wq w q) = false) ->
  (forall q, In q pre -> qfired (wq w q) = false) ->
  (qfired (wq w o) = true -> exists m', qactive (wq w o) = Some m' /\ mbeh (mons m') <> Resume) ->
  (forall i, (i < length (flat_map (fun q => smons (defs q)) (sstack (defs s))))%nat ->
     orc (wpos w + i)%nat = Nat.eqb i (length (flat_map (fun q => smons (defs q)) pre) + length m1)) ->
  (forall q, In q pre -> qphase (wq w' q) = Aborting) /\
  qphase (wq w' o) = (if qfired (wq w o) then qphase (wq w o)
                      else match mbeh (mons m) with Restart => Restarting | _ => Aborting end) /\
  (forall q, In q suf -> ~ In q pre -> q <> o -> qphase (wq w' q) = qphase (wq w q)).
Proof. exact single_monitor. Qed.
Print Assumptions C91_single_monitor_partial.

Example C91_example :
  match check mk_defs mk_mons (nth_orc [true; false]) 20 0 world_new with
  | Fin w' => Some (map (fun q => qphase (wq w' q)) [0; 1; 2]%nat) | _ => None
  end = Some [Aborting; Aborting; Idle].
Proof. reflexivity. Qed.

(** C92, full statement (false of the code): after an abort monitor of a sequence fired, no
    further step of the sequence runs its action. *)
Theorem C92_abort_not_latched_refuted : exists defs mons orc l1 l2 r,
  wf_config defs mons /\ mbeh (mons 1%nat) = Abort /\ In (mowner (mons 1%nat)) (sstack (defs 3%nat)) /\
  run_log (exec defs mons orc 60 2 world_new) = Some (l1 ++ VFire 1 :: l2, r) /\ In (VAct 3) l2.
Proof.
  exists nl_defs, nl_mons, nl_orc,
    [VPre 2 true; VAct 2; VMon 1 false; VPre 1 true; VAct 1; VMon 1 false; VPre 0 true; VAct 0; VRet 0 7; VMon 1 true],
    [VHandled 1; VExit 0 false; VEnd 0 7; VMon 1 false; VPre 3 true; VAct 3; VRet 3 3; VMon 1 false;
     VExit 3 true; VEnd 3 3; VRet 1 1; VEnd 1 1; VRet 2 2; VExit 2 true; VEnd 2 2], 2.
  split; [exact nl_wf|]. split; [reflexivity|]. split; [right; left; reflexivity|]. split; [reflexivity|]. cbn. auto 10.
Qed.
Print Assumptions C92_abort_not_latched_refuted.

(** A step started while the abort condition of a caller is (alone) true ends with -1 without
    evaluating its precondition or running its action. *)
Theorem C92_start_while_aborting_partial : forall defs mons orc n s w w' r pre o suf m1 m m2,
  wf_config defs mons ->
  exec defs mons orc n s w = Fin (w', r) ->
  sstack (defs s) = s :: pre ++ o :: suf -> ~ In o (s :: pre) -> qphase (wq w s) = Idle ->
  smons (defs o) = m1 ++ m :: m2 -> mexc (mons m) = None -> mbeh (mons m) <> Resume ->
  (forall q, In q (sstack (defs s)) -> qinexc (wq w q) = false) ->
  (forall q, In q pre -> qfired (wq w q) = false) ->
  (qfired (wq w o) = true -> exists m', qactive (wq w o) = Some m' /\ mbeh (mons m') <> Resume) ->
  (forall i, (i < length (flat_map (fun q => smons (defs q)) (sstack (defs s))))%nat ->
     orc (wpos w + i)%nat = Nat.eqb i (length (flat_map (fun q => smons (defs q)) (s :: pre)) + length m1)) ->
  r = -1 /\ exists seg, wlog w' = wlog w ++ seg ++ [VEnd s (-1)] /\
    forall b, ~ In (VAct s) seg /\ ~ In (VPre s b) seg.
Proof. exact start_aborted. Qed.
Print Assumptions C92_start_while_aborting_partial.

Example C92_example : run_log (exec mk_defs mk_mons (nth_orc [true; false]) 20 0 world_new)
  = Some ([VMon 1 true; VFire 1; VHandled 1; VMon 2 false; VEnd 0 (-1)], -1).
Proof. reflexivity. Qed.

(** C93, full statement (false of the code): after single stepping is switched on, the number of
    steps that start never exceeds the number of step commands given since. *)
Theorem C93_leftover_step_refuted : exists s os, 
  s = k_runs stepper_new [KRestart] /\ os = [KStepping; KGate] /\
  kpassed (k_runs s os) - kpassed s = 1 /\ count_step os = 0.
Proof. exists (k_runs stepper_new [KRestart]), [KStepping; KGate]. repeat split. Qed.
Print Assumptions C93_leftover_step_refuted.

Theorem C93_step_bound_partial : forall os s, kstepping s = true -> krunning s = true ->
  (forall o, In o os -> o <> KRestart /\ o <> KStop) ->
  kpassed (k_runs s os) - kpassed s <= count_step os + (if knext s then 1 else 0).
Proof. exact stepping_bound. Qed.
Print Assumptions C93_step_bound_partial.

Theorem C93_step_command_passes_one_partial : forall s, knext (k_step s KStep) = true /\
  (kstepping s = true -> kpassed (k_runs s [KStep; KGate]) = kpassed s + 1).
Proof. exact stepping_progress. Qed.
Print Assumptions C93_step_command_passes_one_partial.

Example C93_example : kpassed (k_runs stepper_new [KGate; KStepping; KGate; KGate; KStep; KGate; KGate; KGate]) = 2.
Proof. reflexivity. Qed.

(** C94, full statement (false of the code): after Sequencer::abort() the abort condition of every
    registered sequence stays set. *)
Theorem C94_start_after_abort_refuted : exists os1 os2 s, ab_runs (os1 ++ ABAbortAll :: os2) s = false.
Proof. exists [], [ABStart 0], 0%nat. reflexivity. Qed.
Print Assumptions C94_start_after_abort_refuted.

Theorem C94_abort_all_partial : forall os1 os2 s, (forall x, In x os2 -> x <> ABStart s) ->
  ab_runs (os1 ++ ABAbortAll :: os2) s = true.
Proof. exact ab_after. Qed.
Print Assumptions C94_abort_all_partial.

Example C94_example : map (ab_runs [ABStart 1; ABAbortAll; ABStart 0]) [0; 1; 2]%nat = [false; true; true].
Proof. reflexivity. Qed.

(** C95 *)
Theorem C95_outcome_determined : forall defs mons orc n k s w x y,
  exec defs mons orc n s w = Fin x -> exec defs mons orc k s w = Fin y -> x = y.
Proof. exact exec_deterministic. Qed.
Print Assumptions C95_outcome_determined.

Theorem C95_more_fuel : forall defs mons orc n k s w x,
  exec defs mons orc n s w = Fin x -> exec defs mons orc (k + n)%nat s w = Fin x.
Proof. exact exec_fuel. Qed.
Print Assumptions C95_more_fuel.

Example C95_example : forall r, r = Some ([VPre 2 true; VAct 2; VMon 1 false; VPre 1 true; VAct 1; VMon 1 false;
    VPre 0 true; VAct 0; VRet 0 7; VMon 1 true; VFire 1; VPre 4 true; VAct 4; VRet 4 40; VExit 4 true;
    VEnd 4 40; VHandled 1; VExit 0 true; VEnd 0 7; VRet 1 7; VMon 1 false; VExit 1 true; VEnd 1 7; VRet 2 7;
    VExit 2 true; VEnd 2 7], 7) ->
  run_log (exec ex_defs ex_mons ex_orc 60 2 world_new) = r /\
  run_log (exec ex_defs ex_mons ex_orc 90 2 world_new) = r.
Proof. intros r ->. split; reflexivity. Qed.
