(** Property theorems of the safety system (C01-C12, C76-C78). *)
From Verif Require Import Prelude SafetyModel SafetySpec SafetyActionModel SafetyRaceModel
  SafetyProofs SafetyProofs2 SafetyProofs3 SafetyExamples.
From Coq Require Import Permutation Reals Floats.SpecFloat.
From Flocq Require Import IEEE754.BinarySingleNaN.
Import List ListNotations.
Open Scope Z_scope.

(** C01 (and C02, C03, C08 through the clauses of [allowed]). *)
Theorem C01_safety_transitions : forall p n0 s os,
  setProperties p n0 = Ok (Some s) ->
  exists e s' log, pentry p = Some e /\ sruns (pheap p) s os = Ok (s', log) /\
    allowed (pheap p) e 0 [] log.
Proof. exact safety_log_allowed. Qed.
Print Assumptions C01_safety_transitions.

Theorem C01_unregistered_event_ignored : forall h s c e p,
  cur s = Some c -> leads_nowhere h c e p -> triggerEvent h s e p = Ok s.
Proof. exact trigger_nowhere. Qed.
Print Assumptions C01_unregistered_event_ignored.

Example C01_example :
  exists s s' log, setProperties ex_p (fun _ => 0) = Ok (Some s) /\
    sruns (pheap ex_p) s ex_ops = Ok (s', log) /\
    filter (fun x => match x with EExec _ => true | EAct _ _ => true | _ => false end) log =
    [EExec 0; EAct 0 1; EExec 1; EAct 1 1; EExec 1; EAct 1 2; EExec 2; EAct 2 1; EExec 2; EAct 2 2;
     EExec 2; EAct 2 3; EExec 0; EAct 0 1]%nat.
Proof. eexists _, _, _. split; [reflexivity|]. split; [vm_compute; reflexivity|]. reflexivity. Qed.

(** C02 *)
Theorem C02_private_event_from_outside : forall h s c e d,
  cur s = Some c -> tfind e (ltrans (h c)) = Some (d, true) ->
  triggerEvent h s e false = Ok s.
Proof. exact trigger_private_outside. Qed.
Print Assumptions C02_private_event_from_outside.

Theorem C02_private_event_from_inside : forall h s c e d priv,
  cur s = Some c -> nxt s = Some c -> tfind e (ltrans (h c)) = Some (d, priv) ->
  exists s', triggerEvent h s e true = Ok s' /\ cur s' = Some c /\ nxt s' = Some d.
Proof. exact trigger_private_inside. Qed.
Print Assumptions C02_private_event_from_inside.

Example C02_example : exists s d, cur s = Some 1%nat /\
  tfind 2 (ltrans (pheap ex_p 1%nat)) = Some (d, true).
Proof. exists {| cur := Some 1%nat; nxt := Some 1%nat; nact := fun _ => 0 |}, 2%nat. split; reflexivity. Qed.

(** C03, full statement (false of the code because of self-transitions):
    forall h s c ts, cur s = Some c -> nxt s = Some c -> (exists d, dest_of_some h c ts d) ->
    the pending level after ts is the destination with the lowest number. *)
Theorem C03_lowest_destination_wins_partial : forall h s c ts,
  cur s = Some c -> nxt s = Some c ->
  exists s' log n, triggers h s ts = Ok (s', log) /\ cur s' = Some c /\ nxt s' = Some n /\
    ((forall d, ~ dest_of_some h c ts d) -> n = c) /\
    (~ dest_of_some h c ts c -> (exists d, dest_of_some h c ts d) ->
       dest_of_some h c ts n /\
       forall d, dest_of_some h c ts d -> lid (h n) <= lid (h d)).
Proof. exact triggers_lowest. Qed.
Print Assumptions C03_lowest_destination_wins_partial.

Theorem C03_trigger_order_irrelevant_partial : forall h s c ts1 ts2 s1 l1 s2 l2,
  cur s = Some c -> nxt s = Some c ->
  ~ dest_of_some h c ts1 c ->
  (forall d d', dest_of_some h c ts1 d -> dest_of_some h c ts1 d' ->
     lid (h d) = lid (h d') -> d = d') ->
  Permutation ts1 ts2 ->
  triggers h s ts1 = Ok (s1, l1) -> triggers h s ts2 = Ok (s2, l2) ->
  nxt s1 = nxt s2.
Proof. exact triggers_order_irrelevant. Qed.
Print Assumptions C03_trigger_order_irrelevant_partial.

Theorem C03_lowest_destination_wins_refuted :
  exists h s c ts s' log n d,
    cur s = Some c /\ nxt s = Some c /\ triggers h s ts = Ok (s', log) /\ nxt s' = Some n /\
    dest_of_some h c ts d /\ lid (h d) < lid (h n).
Proof.
  exists ex_self, ex_self_s, 5%nat, [(1, false); (2, false); (3, false)].
  eexists _, _, 9%nat, 7%nat. split; [reflexivity|]. split; [reflexivity|].
  split; [reflexivity|]. split; [reflexivity|].
  split; [|vm_compute; reflexivity].
  exists 1, false. split; [left; reflexivity|]. exists false. split; [reflexivity|left; reflexivity].
Qed.
Print Assumptions C03_lowest_destination_wins_refuted.

Example C03_example : exists s' log,
  triggers ex_self ex_self_s [(3, false); (1, false)] = Ok (s', log) /\ nxt s' = Some 7%nat.
Proof. eexists _, _; split; reflexivity. Qed.

(** C04 *)
Theorem C04_cycle_effects : forall h s l env acts s' log,
  nxt s = Some l -> run h s env acts = Ok (s', log) ->
  exists n,
  filter (fun x => negb (is_trig x)) log =
    [EExec l] ++ map (fun a => ECheck (ia_input a)) (non_null (lin (h l)))
    ++ (if lact (h l) then [EAct l n] else [])
    ++ map (fun a => ESet (oa_id a) (oa_output a)) (non_null (lout (h l))) ++ [EEnd].
Proof. exact run_sequence. Qed.
Print Assumptions C04_cycle_effects.

Theorem C04_level_change_after_cycle : forall h s l env acts s' log,
  nxt s = Some l -> run h s env acts = Ok (s', log) -> cur s' = nxt s'.
Proof. exact run_next. Qed.
Print Assumptions C04_level_change_after_cycle.

Example C04_example : exists s' log,
  run (pheap ex_p) {| cur := Some 1%nat; nxt := Some 1%nat; nact := fun _ => 0 |} ex_estop [] = Ok (s', log)
  /\ cur s' = Some 0%nat /\
  log = [EExec 1; ECheck 0; ETrig 9 true; EAct 1 1; ESet 1 0; EEnd].
Proof. eexists _, _; repeat split. Qed.

(** C05 *)
Theorem C05_accepted_iff_covered : forall p,
  verify p = Ok true <->
  (exists e, pentry p = Some e) /\
  forall l, In l (plevels p) -> no_null_actions p l /\ covers p l.
Proof. exact verify_accepts. Qed.
Print Assumptions C05_accepted_iff_covered.

Theorem C05_cycle_covers_critical : forall p s l env acts s' log,
  covers p l -> nxt s = Some l -> run (pheap p) s env acts = Ok (s', log) ->
  (forall o, In o (pcritOut p) -> exists a, In (ESet a o) log) /\
  (forall i, In i (pcritIn p) -> In (ECheck i) log).
Proof. exact cycle_covers. Qed.
Print Assumptions C05_cycle_covers_critical.

Example C05_example : verify ex_p = Ok true /\ pcritOut ex_p <> [] /\
  verify {| pheap := fun _ => blank; plevels := [0%nat]; pcount := 1; pentry := Some 0%nat;
            pcritIn := []; pcritOut := [0%nat] |} = Fault.
Proof. split; [reflexivity|split; [discriminate|reflexivity]]. Qed.

(** C06 *)
Theorem C06_event_to_level_and_above : forall p lo e d pr,
  event_added (pheap p) (pheap (addEventToLevelAndAbove p lo e d pr))
    (fun l => In l (plevels p) /\ lid (pheap p lo) <= lid (pheap p l)) e d pr.
Proof. exact addEvent_above. Qed.
Print Assumptions C06_event_to_level_and_above.
Theorem C06_event_to_level_and_below : forall p hi e d pr,
  event_added (pheap p) (pheap (addEventToLevelAndBelow p hi e d pr))
    (fun l => In l (plevels p) /\ lid (pheap p l) <= lid (pheap p hi)) e d pr.
Proof. exact addEvent_below. Qed.
Print Assumptions C06_event_to_level_and_below.
Theorem C06_event_to_levels_between : forall p lo hi e d pr,
  event_added (pheap p) (pheap (addEventToAllLevelsBetween p lo hi e d pr))
    (fun l => In l (plevels p) /\ lid (pheap p lo) <= lid (pheap p l) <= lid (pheap p hi)) e d pr.
Proof. exact addEvent_between. Qed.
Print Assumptions C06_event_to_levels_between.

Example C06_example :
  let h := pheap (addEventToAllLevelsBetween ex_p1 0 1 4 2%nat false) in
  map (fun l => tfind 4 (ltrans (h l))) [0;1;2;3]%nat =
  [Some (2%nat, false); Some (2%nat, false); None; None].
Proof. reflexivity. Qed.

(** C07: [event_added] leaves a registered event alone ([tfind e' <> None] clause); stated
    directly for the single-level registration. *)
Theorem C07_first_registration_wins : forall p l e d1 p1 d2 p2,
  tfind e (ltrans (pheap p l)) = None ->
  tfind e (ltrans (pheap (addEventToLevel (addEventToLevel p l e d1 p1) l e d2 p2) l)) = Some (d1, p1).
Proof.
  intros p l e d1 p1 d2 p2 H.
  destruct (addEvent_one (addEventToLevel p l e d1 p1) l e d2 p2 l) as [_ A].
  destruct (addEvent_one p l e d1 p1 l) as [B _]. destruct (B H) as [B1 _].
  rewrite A; [apply B1; reflexivity|]. right. rewrite B1 by reflexivity. discriminate.
Qed.
Print Assumptions C07_first_registration_wins.
Theorem C07_single_registration : forall p l0 e d pr,
  event_added (pheap p) (pheap (addEventToLevel p l0 e d pr)) (fun l => l = l0) e d pr.
Proof. exact addEvent_one. Qed.
Print Assumptions C07_single_registration.

Example C07_example : tfind 1 (ltrans (pheap ex_p1 0%nat)) = None.
Proof. reflexivity. Qed.

(** C08: with C01_safety_transitions ([al_act] clause); in quiet phases: *)
Theorem C08_activation_counter : forall h c log1 n l m log2,
  allowed h c n [] (log1 ++ EAct l m :: log2) -> filter is_trig log1 = [] ->
  l = c /\ m = u32 (n + cycles_in log1).
Proof. exact allowed_quiet. Qed.
Print Assumptions C08_activation_counter.

(** On the runs of the safety system: before the first event the entry level is executed and its action sees the number of
    cycles since the start; after an event that leads somewhere the action sees the number of cycles since that event. *)
Theorem C08_counts_from_start : forall p n0 s os s' log1 l m log2,
  setProperties p n0 = Ok (Some s) -> sruns (pheap p) s os = Ok (s', log1 ++ EAct l m :: log2) ->
  filter is_trig log1 = [] -> pentry p = Some l /\ m = u32 (cycles_in log1).
Proof. exact counts_from_start. Qed.
Print Assumptions C08_counts_from_start.
Theorem C08_counts_from_entry : forall p n0 s os s1 log0 c e pr d os2 s2 log1 l m log2,
  setProperties p n0 = Ok (Some s) -> sruns (pheap p) s os = Ok (s1, log0) ->
  cur s1 = Some c -> leads (pheap p) c e pr d ->
  sruns (pheap p) s1 (Trigger e pr :: os2) = Ok (s2, ETrig e pr :: log1 ++ EAct l m :: log2) ->
  filter is_trig log1 = [] -> m = u32 (cycles_in log1).
Proof. exact counts_from_entry. Qed.
Print Assumptions C08_counts_from_entry.

Example C08_example : exists s s' log,
  setProperties ex_p (fun _ => 0) = Ok (Some s) /\
  sruns (pheap ex_p) s [Cycle ex_ok []; Cycle ex_ok []; Cycle ex_ok []] = Ok (s', log) /\
  filter (fun x => match x with EAct _ _ => true | _ => false end) log = [EAct 0 1; EAct 0 2; EAct 0 3].
Proof. eexists _, _, _. split; [reflexivity|]. split; [vm_compute; reflexivity|reflexivity]. Qed.

Example C08_entry_example : exists s s1 log0 s2,
  setProperties ex_p (fun _ => 0) = Ok (Some s) /\ sruns (pheap ex_p) s [Cycle ex_ok []] = Ok (s1, log0) /\ cur s1 = Some 0%nat /\
  leads (pheap ex_p) 0%nat 1 false 1%nat /\
  sruns (pheap ex_p) s1 [Trigger 1 false; Cycle ex_ok []; Cycle ex_ok []] =
    Ok (s2, [ETrig 1 false; EExec 1; ECheck 0; EAct 1 1; ESet 1 0; EEnd; EExec 1; ECheck 0; EAct 1 2; ESet 1 0; EEnd]).
Proof.
  eexists _, _, _, _. split; [reflexivity|]. split; [vm_compute; reflexivity|]. split; [reflexivity|].
  split; [exists false; split; [reflexivity|left; reflexivity]|vm_compute; reflexivity].
Qed.

(** C09 *)
Theorem C09_logic_check_fires : forall i v e x,
  ia_fire (check_action i (VBool v) e) (VBool x) = (if Bool.bool_dec x v then None else Some e).
Proof. exact check_fires_bool. Qed.
Print Assumptions C09_logic_check_fires.
Theorem C09_range_check_fires_int : forall i mn mx e x,
  (ia_fire (range_action i (VInt mn) (VInt mx) e false) (VInt x) = Some e <-> ~ (mn <= x <= mx)) /\
  (ia_fire (range_action i (VInt mn) (VInt mx) e true) (VInt x) = Some e <-> mn < x < mx).
Proof. exact range_fires_int. Qed.
Print Assumptions C09_range_check_fires_int.
Theorem C09_range_check_fires_double : forall i e (mn mx x : binary_float 53 1024),
  is_finite mn = true -> is_finite mx = true -> is_finite x = true ->
  (ia_fire (range_action i (VDouble (B2SF mn)) (VDouble (B2SF mx)) e false) (VDouble (B2SF x)) = Some e
     <-> ~ (B2R mn <= B2R x <= B2R mx)%R) /\
  (ia_fire (range_action i (VDouble (B2SF mn)) (VDouble (B2SF mx)) e true) (VDouble (B2SF x)) = Some e
     <-> (B2R mn < B2R x < B2R mx)%R).
Proof. exact range_fires_double. Qed.
Print Assumptions C09_range_check_fires_double.
Theorem C09_events_of_a_cycle : forall h s l env acts s' log,
  nxt s = Some l -> run h s env acts = Ok (s', log) ->
  filter is_trig log =
    map (fun e => ETrig e true) (fired_events env (lin (h l))) ++
    (if lact (h l) then map (fun ep => ETrig (fst ep) (snd ep)) acts else []).
Proof. exact run_events. Qed.
Print Assumptions C09_events_of_a_cycle.

Example C09_example :
  ia_fire (range_action 0 (VInt 1) (VInt 5) 7 false) (VInt 6) = Some 7 /\
  ia_fire (range_action 0 (VInt 1) (VInt 5) 7 false) (VInt 5) = None /\
  fired_events ex_estop (lin ex_level) = [9].
Proof. repeat split. Qed.

(** C10, full statement: forall x, x not in [mn,mx] (NaN included) -> the action fires. *)
Theorem C10_nan_never_fires_refuted : exists i mn mx e,
  ia_fire (range_action i (VDouble mn) (VDouble mx) e false) (VDouble S754_nan) = None.
Proof. exists 0%nat, (S754_zero false), (S754_zero false), 1. reflexivity. Qed.
Print Assumptions C10_nan_never_fires_refuted.
Theorem C10_nan_is_silent_for_every_range : forall i mn mx e off,
  ia_fire (range_action i (VDouble mn) (VDouble mx) e off) (VDouble S754_nan) = None.
Proof. exact range_nan_silent. Qed.
Print Assumptions C10_nan_is_silent_for_every_range.
Theorem C10_infinite_reading_fires_partial : forall i e (mn mx : binary_float 53 1024) s,
  is_finite mn = true -> is_finite mx = true ->
  ia_fire (range_action i (VDouble (B2SF mn)) (VDouble (B2SF mx)) e false)
          (VDouble (S754_infinity s)) = Some e.
Proof. exact range_fires_infinity. Qed.
Print Assumptions C10_infinite_reading_fires_partial.

(** C11 *)
Theorem C11_levels_numbered_in_order : forall ls p i l,
  NoDup ls -> nth_error ls i = Some l ->
  lid (pheap (addLevels p ls) l) = pcount p + Z.of_nat i.
Proof. exact addLevels_ids. Qed.
Print Assumptions C11_levels_numbered_in_order.
Theorem C11_numbers_never_change : forall p l l1 l2 e d pr x,
  lid (pheap (addEventToLevel p l e d pr) x) = lid (pheap p x) /\
  lid (pheap (addEventToLevelAndAbove p l e d pr) x) = lid (pheap p x) /\
  lid (pheap (addEventToLevelAndBelow p l e d pr) x) = lid (pheap p x) /\
  lid (pheap (addEventToAllLevelsBetween p l1 l2 e d pr) x) = lid (pheap p x).
Proof. exact addEvents_keep_ids. Qed.
Print Assumptions C11_numbers_never_change.
Example C11_example : map (fun l => lid (pheap ex_p l)) [0;1;2]%nat = [0;1;2].
Proof. reflexivity. Qed.

(** C12, full statement: at most one system is alive after any history, and whenever none is
    alive a construction with accepted properties succeeds. *)
Theorem C12_failed_construction_blocks_refuted : exists os,
  snd (iruns istart os) = O /\ snd (istep (iruns istart os) (Construct true)) = Some false.
Proof. exists [Construct false]. split; reflexivity. Qed.
Print Assumptions C12_failed_construction_blocks_refuted.
Theorem C12_two_live_systems_refuted : exists os, snd (iruns istart os) = 2%nat.
Proof. exists (repeat (Construct true) 256). vm_compute. reflexivity. Qed.
Print Assumptions C12_two_live_systems_refuted.
Theorem C12_at_most_one_partial : forall os,
  (constructs os < 256)%nat -> (snd (iruns istart os) <= 1)%nat.
Proof. exact iruns_at_most_one. Qed.
Print Assumptions C12_at_most_one_partial.
Theorem C12_reconstruction_partial : forall os,
  all_constructed os -> snd (iruns istart os) = O ->
  snd (istep (iruns istart os) (Construct true)) = Some true.
Proof. exact iruns_reconstruct. Qed.
Print Assumptions C12_reconstruction_partial.
Example C12_example : iruns istart [Construct true; Destruct; Construct true] = (1, 1%nat).
Proof. reflexivity. Qed.

(** C76, full statement: at every level change from [c] to [d], [d] is the registered
    destination in [c] of some triggered event, for every interleaving of threads. *)
Theorem C76_stale_destination_refuted : exists h s,
  rruns h (rinit 5%nat) ex_race_ops = Some s /\ rseen s = [7; 2; 5]%nat /\
  forall e p, leads_nowhere h 2%nat e p.
Proof.
  exists ex_race, {| rcur := 7; rnxt := 7; rcalls := []; rseen := [7; 2; 5] |}%nat. split; [reflexivity|]. split; [reflexivity|].
  intros e p d (priv & H & _). discriminate.
Qed.
Print Assumptions C76_stale_destination_refuted.
Theorem C76_interleaved_transitions_partial : forall h entry os s,
  rruns h (rinit entry) os = Some s ->
  forall d, In d (rseen s) -> d = entry \/ exists c e p, In c (rseen s) /\ leads h c e p d.
Proof. exact race_seen_justified. Qed.
Print Assumptions C76_interleaved_transitions_partial.

(** Triggers of any number of threads between two cycles, in any interleaving: when all calls have returned and none led
    to the current level, the pending level is a lowest of the destinations. *)
Theorem C76_concurrent_lowest_partial : forall h c seen os s', ~ In RAdopt os ->
  rruns h {| rcur := c; rnxt := c; rcalls := []; rseen := seen |} os = Some s' -> rcalls s' = [] ->
  (forall e p d, In (RRead e p) os -> leads h c e p d -> d <> c) ->
  (rnxt s' = c \/ exists e p, In (RRead e p) os /\ leads h c e p (rnxt s')) /\
  (forall e p d, In (RRead e p) os -> leads h c e p d -> rnxt s' <> c /\ lid (h (rnxt s')) <= lid (h d)).
Proof. exact race_lowest. Qed.
Print Assumptions C76_concurrent_lowest_partial.

(** Two threads: both read, the higher destination is written first. *)
Example C76_concurrent_example :
  rruns ex_race (rinit 5%nat) [RRead 1 false; RRead 2 false; RTest 0; RWrite 0; RTest 0; RWrite 0]
  = Some {| rcur := 5; rnxt := 2; rcalls := []; rseen := [5] |}%nat
  /\ leads ex_race 5%nat 1 false 7%nat /\ leads ex_race 5%nat 2 false 2%nat /\ lid (ex_race 2%nat) < lid (ex_race 7%nat).
Proof. split; [reflexivity|]. split; [|split; [|reflexivity]]; apply getDest_leads; reflexivity. Qed.

(** C77, full statement: in an accepted configuration every executed level covers the
    critical signals. *)
Theorem C77_unregistered_level_refuted : exists p s s' log,
  setProperties p (fun _ => 0) = Ok (Some s) /\
  run (pheap p) s (fun _ => VBool false) [] = Ok (s', log) /\
  pcritOut p = [0%nat] /\ log = [EExec 3%nat; EEnd].
Proof. exists ex_unreg. eexists _, _, _. repeat split. Qed.
Print Assumptions C77_unregistered_level_refuted.

Theorem C77_executed_levels_covered_partial : forall p n0 s os,
  setProperties p n0 = Ok (Some s) ->
  (forall e, pentry p = Some e -> In e (plevels p)) ->
  (forall l e pr d, In l (plevels p) -> leads (pheap p) l e pr d -> In d (plevels p)) ->
  exists s' log, sruns (pheap p) s os = Ok (s', log) /\
    forall l, In (EExec l) log -> covers p l.
Proof. exact executed_levels_covered. Qed.
Print Assumptions C77_executed_levels_covered_partial.
Example C77_example : setProperties ex_p (fun _ => 0) <> Ok None /\ In 0%nat (plevels ex_p).
Proof. split; [discriminate|left; reflexivity]. Qed.

(** C78 *)
Theorem C78_toggle_alternates : forall lo hi n,
  sv_eq lo lo = true -> sv_eq hi lo = false ->
  osets (OToggle lo lo hi) n = map (fun k => Some (if Nat.even k then lo else hi)) (seq 0 n).
Proof. exact toggle_alternates. Qed.
Print Assumptions C78_toggle_alternates.
Theorem C78_set_constant : forall v n, osets (OSetTo v) n = repeat (Some v) n.
Proof. exact set_constant. Qed.
Print Assumptions C78_set_constant.
Theorem C78_leave_silent : forall n, osets OLeave n = repeat None n.
Proof. exact leave_silent. Qed.
Print Assumptions C78_leave_silent.
Example C78_example : osets (OToggle (VBool false) (VBool false) (VBool true)) 3 =
  [Some (VBool false); Some (VBool true); Some (VBool false)].
Proof. reflexivity. Qed.
