(** Specification of the safety system's observable behaviour, as a small nondeterministic
    automaton over the log of observable events.  Independent of SafetySystem::run and
    SafetySystem::triggerEvent. *)
From Verif Require Import Prelude SafetyModel.
Open Scope Z_scope.

(** Event [e], triggered from the private context iff [p], leads from level [c] to [d]. *)
Definition leads (h : heap) (c : lref) (e : evid) (p : bool) (d : lref) : Prop :=
  exists priv, tfind e (ltrans (h c)) = Some (d, priv) /\ (priv = false \/ p = true).
Definition leads_nowhere (h : heap) (c : lref) (e : evid) (p : bool) : Prop :=
  forall d, ~ leads h c e p d.

(** [allowed h c n cand log]: with current level [c], which has been executed [n] times since
    it was last chosen as a destination, and [cand] the destinations of the events triggered
    since the last level change point, the log may continue with [log].
    - A trigger adds its destination (if any) to the candidates.
    - At the begin (EExec) and at the end (EEnd) of a cycle the level changes to one of the
      candidates, or stays when there is none; unless a self-transition was triggered, the
      candidate has the lowest level number.
    - The level action of the current level observes the number of executions (mod 2^32), or 0
      when a self-transition has just been triggered in this cycle. *)
Inductive allowed (h : heap) : lref -> Z -> list lref -> list eff -> Prop :=
| al_nil : forall c n cand, allowed h c n cand []
| al_trig : forall c n cand e p d log,
    leads h c e p d -> allowed h c n (d :: cand) log ->
    allowed h c n cand (ETrig e p :: log)
| al_trig_none : forall c n cand e p log,
    leads_nowhere h c e p -> allowed h c n cand log ->
    allowed h c n cand (ETrig e p :: log)
| al_exec_keep : forall c n log,
    allowed h c (n + 1) [] log -> allowed h c n [] (EExec c :: log)
| al_exec_move : forall c n cand d log,
    In d cand -> (~ In c cand -> forall d', In d' cand -> lid (h d) <= lid (h d')) ->
    allowed h d 1 [] log -> allowed h c n cand (EExec d :: log)
| al_end_keep : forall c n log,
    allowed h c n [] log -> allowed h c n [] (EEnd :: log)
| al_end_move : forall c n cand d log,
    In d cand -> (~ In c cand -> forall d', In d' cand -> lid (h d) <= lid (h d')) ->
    allowed h d 0 [] log -> allowed h c n cand (EEnd :: log)
| al_act : forall c n cand m log,
    (m = u32 n \/ (In c cand /\ m = 0)) -> allowed h c n cand log ->
    allowed h c n cand (EAct c m :: log)
| al_check : forall c n cand i log,
    allowed h c n cand log -> allowed h c n cand (ECheck i :: log)
| al_set : forall c n cand a o log,
    allowed h c n cand log -> allowed h c n cand (ESet a o :: log).

(** The destinations a list of triggers can lead to from level [c]. *)
Definition dest_of_some (h : heap) (c : lref) (ts : list (evid * bool)) (d : lref) : Prop :=
  exists e p, In (e, p) ts /\ leads h c e p d.

(** All critical signals of a configuration are covered by the (non-null) actions of a level. *)
Definition covers (p : props) (l : lref) : Prop :=
  (forall o, In o (pcritOut p) -> exists a, In (Some a) (lout (pheap p l)) /\ oa_output a = o) /\
  (forall i, In i (pcritIn p) -> exists a, In (Some a) (lin (pheap p l)) /\ ia_input a = i).
Definition no_null_actions (p : props) (l : lref) : Prop :=
  ~ In None (lout (pheap p l)) /\ ~ In None (lin (pheap p l)).

(** Triggers are not part of the fixed sequence of a cycle. *)
Definition is_trig (x : eff) : bool := match x with ETrig _ _ => true | _ => false end.
Definition non_null {A : Type} (l : list (option A)) : list A :=
  flat_map (fun x => match x with Some a => [a] | None => [] end) l.

(** Effect of registering event [e] with destination [d] and visibility [pr] in exactly the
    levels in [reach]: unregistered events become registered there, nothing else changes. *)
Definition event_added (old new : heap) (reach : lref -> Prop) (e : evid) (d : lref) (pr : bool) : Prop :=
  forall l,
    (tfind e (ltrans (old l)) = None ->
       (reach l -> tfind e (ltrans (new l)) = Some (d, pr)) /\
       (~ reach l -> tfind e (ltrans (new l)) = None)) /\
    (forall e', e' <> e \/ tfind e' (ltrans (old l)) <> None ->
       tfind e' (ltrans (new l)) = tfind e' (ltrans (old l))).

(** Number of cycles begun in a log. *)
Definition cycles_in (log : list eff) : Z :=
  Z.of_nat (length (filter (fun x => match x with EExec _ => true | _ => false end) log)).
