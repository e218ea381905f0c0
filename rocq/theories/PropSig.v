(** Properties C319-C321: exitHandler called from a signal handler. *)
From Verif Require Import Prelude SafetyModel SigModel SigSpec SigProofs SigProofs2.
Local Open Scope nat_scope.

(** C319, wanted: whenever the signal comes, no step is undefined. *)
Theorem C319_mutex_refuted : exists s, reach demo 0%Z s /\ own s = Some 0 /\ hnd (th s 0) = Some (PLock 0) /\
  step demo 0%Z (LStep 0) s = Some UB.
Proof. exact self_lock. Qed.
Print Assumptions C319_mutex_refuted.

Theorem C319_library_refuted : exists s, reach demo 0%Z s /\ own s = None /\ body (th s 0) = Some PIn /\
  step demo 0%Z (LStep 0) s = Some UB.
Proof. exact in_library. Qed.
Print Assumptions C319_library_refuted.

(** There are no other cases. *)
Theorem C319_only_partial : forall h x l s, reach h x s -> step h x l s = Some UB ->
  exists t, l = LStep t /\
  ((exists d, hnd (th s t) = Some (PLock d) /\ locked (body (th s t)) = true) \/
   (hnd (th s t) = Some PLogB /\ inside (body (th s t)) = true)).
Proof. exact undefined_only. Qed.
Print Assumptions C319_only_partial.

(** They all are. *)
Theorem C319_indeed_partial : forall h x s t, reach h x s ->
  (exists d, hnd (th s t) = Some (PLock d) /\ locked (body (th s t)) = true) \/
  (hnd (th s t) = Some PLogB /\ inside (body (th s t)) = true) ->
  step h x (LStep t) s = Some UB.
Proof. exact undefined_indeed. Qed.
Print Assumptions C319_indeed_partial.

(** Signals that find their thread outside of the critical section and of the library do no harm. *)
Theorem C319_elsewhere_partial : forall h x l s, reach_good h x s -> step h x l s <> Some UB.
Proof. exact never_undefined. Qed.
Print Assumptions C319_elsewhere_partial.

Example C319_nonvacuous : exists s, reach_good demo 0%Z s /\ hnd (th s 1) <> None /\ body (th s 1) <> None.
Proof.
  eexists. split.
  - refine (goods_reach demo 0%Z [LCall 1 1%Z false; LStep 1; LSig 1] (start 1) _ (rg_start _ _ 1) _). cbn. reflexivity.
  - split; discriminate.
Qed.

(** C320, wanted: the handler returns and the safety system goes on. *)
Theorem C320_hangs_refuted : exists s, reach demo 0%Z s /\ hnd (th s 0) = Some (PLock 0) /\
  forall ls s', steps demo 0%Z ls s = Some (Ok s') -> hnd (th s' 0) = Some (PLock 0) /\ cur s' = cur s /\ own s' = Some 0.
Proof. exact hangs. Qed.
Print Assumptions C320_hangs_refuted.

Theorem C320_returns_partial : forall h x s t, reach_good h x s -> hnd (th s t) <> None ->
  exists ls s', length ls <= 11 /\ Forall (fun l => l = LStep t \/ exists o, own s = Some o /\ l = LStep o) ls /\
  steps h x ls s = Some (Ok s') /\ hnd (th s' t) = None.
Proof. exact handler_ends. Qed.
Print Assumptions C320_returns_partial.

(* a handler that has to wait for another thread *)
Example C320_nonvacuous : exists s, reach_good demo 0%Z s /\ hnd (th s 0) <> None /\ step demo 0%Z (LStep 0) s = None.
Proof.
  eexists. split.
  - refine (goods_reach demo 0%Z [LCall 1 1%Z false; LStep 1; LStep 1; LSig 0; LStep 0] (start 1) _ (rg_start _ _ 1) _). cbn. reflexivity.
  - split; [discriminate|reflexivity].
Qed.

(** C321, wanted: the level changes as registered for the event of the handler. *)
Theorem C321_stale_refuted : exists s s', reach_good demo 0%Z s /\ cur s = 0 /\ (forall d, ~ registered demo 0 d) /\
  step demo 0%Z LCycle s = Some (Ok s') /\ cur s' = 1.
Proof. exact stale. Qed.
Print Assumptions C321_stale_refuted.

(** In the thread of the safety system: the next cycle is at the destination or at a lower level. *)
Theorem C321_taken_partial : forall h x s s1 ls s' s'' d, reach h x s -> step h x (LSig 0) s = Some (Ok s1) ->
  getDestLevelForEvent (h (cur s)) x true = Some d -> (lid (h d) < lid (h (cur s)))%Z ->
  steps h x ls s1 = Some (Ok s') -> ~ In LCycle ls -> step h x LCycle s' = Some (Ok s'') ->
  (lid (h (cur s'')) <= lid (h d))%Z.
Proof. exact taken. Qed.
Print Assumptions C321_taken_partial.

Example C321_nonvacuous : exists s' s'', getDestLevelForEvent (demo (cur (start 1))) 0%Z true = Some 0 /\
  steps demo 0%Z [LSig 0; LStep 0; LStep 0; LStep 0; LStep 0; LStep 0; LStep 0; LStep 0] (start 1) = Some (Ok s') /\
  step demo 0%Z LCycle s' = Some (Ok s'') /\ cur s'' = 0.
Proof. eexists. eexists. split; [reflexivity|]. split; [cbn; reflexivity|]. split; reflexivity. Qed.
