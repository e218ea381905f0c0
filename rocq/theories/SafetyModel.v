(** Model of the safety system: src/safety/*.cpp, includes/eeros/safety/*.hpp.

    Pointers to levels, inputs, outputs and actions are natural numbers.  A level's
    memory is a record in a total heap [nat -> level]. *)
From Verif Require Import Prelude.
From Coq Require Import Floats.SpecFloat.
Open Scope Z_scope.

(** Values read from a hardware input (hal::Input<T>, T = bool, int or double).  A double is
    the IEEE 754 datum of the standard library's [spec_float]. *)
Inductive sval := VBool (b : bool) | VInt (z : Z) | VDouble (x : spec_float).

(** A reference (C++ pointer or reference) to a SafetyLevel object. *)
Definition lref := nat.
Bind Scope nat_scope with lref.
(** Event ids.  SafetyLevel.cpp:6-9 gives every constructed event a fresh id; copies of an
    event share the id.  Simplification: unbounded [Z] instead of uint32_t. *)
Definition evid := Z.

(** includes/eeros/safety/InputAction.hpp:14-22.  An input action reads one input and, from
    [check], fires at most one event.  [ia_fire v] is the event triggered when the value
    read from the input is [v] (None: check returned false).  The three concrete classes
    (lines 24-75) are instances of this, see [ignore_action], [check_action] and
    [range_action] in SafetyActionModel.v. *)
Record iaction := { ia_input : nat; ia_fire : sval -> option evid }.

(** includes/eeros/safety/OutputAction.hpp:12-20: an output action drives one output. *)
Record oaction := { oa_output : nat; oa_id : nat }.

(** includes/eeros/safety/SafetyLevel.hpp:209-216.  [ltrans] is the std::map from event id to
    (destination, is-private); [lin]/[lout] are vectors of possibly null action pointers
    (None = nullptr); [lact] tells whether a level action is set. *)
Record level := {
  lid : Z;
  ltrans : list (evid * (lref * bool));
  lin : list (option iaction);
  lout : list (option oaction);
  lact : bool }.

Definition heap := lref -> level.

(** std::map<uint32_t,...>::find. *)
Fixpoint tfind (k : evid) (m : list (evid * (lref * bool))) : option (lref * bool) :=
  match m with
  | [] => None
  | (k', v) :: m' => if Z.eqb k k' then Some v else tfind k m'
  end.

(** std::map::insert: does nothing when the key is already present. *)
Definition tinsert (k : evid) (v : lref * bool) (m : list (evid * (lref * bool))) :=
  match tfind k m with
  | Some _ => m
  | None => m ++ [(k, v)]
  end.

(** SafetyLevel.cpp:64-66 addEvent. *)
Definition addEvent (l : level) (e : evid) (dest : lref) (priv : bool) : level :=
  {| lid := lid l; ltrans := tinsert e (dest, priv) (ltrans l);
     lin := lin l; lout := lout l; lact := lact l |}.

(** SafetyLevel.cpp:55-62 getDestLevelForEvent. *)
Definition getDestLevelForEvent (l : level) (e : evid) (privateEventOk : bool) : option lref :=
  match tfind e (ltrans l) with
  | Some (d, priv) => if negb priv || privateEventOk then Some d else None
  | None => None
  end.

(** ** SafetyProperties (src/safety/SafetyProperties.cpp) *)

(** SafetyProperties.hpp:30-39 together with the heap of level objects. *)
Record props := {
  pheap : heap;
  plevels : list lref;
  pcount : Z;
  pentry : option lref;
  pcritIn : list nat;
  pcritOut : list nat }.

Definition with_heap (p : props) (h : heap) : props :=
  {| pheap := h; plevels := plevels p; pcount := pcount p; pentry := pentry p;
     pcritIn := pcritIn p; pcritOut := pcritOut p |}.

(** SafetyProperties.cpp:63-66 addLevel.  Simplification: ids are unbounded (the code uses
    int32_t, so needs more than 2^31 levels to differ). *)
Definition addLevel (p : props) (l : lref) : props :=
  let old := pheap p l in
  {| pheap := upd (pheap p) l {| lid := pcount p; ltrans := ltrans old; lin := lin old;
                                 lout := lout old; lact := lact old |};
     plevels := plevels p ++ [l];
     pcount := pcount p + 1;
     pentry := pentry p; pcritIn := pcritIn p; pcritOut := pcritOut p |}.

(** SafetyProperties.cpp:68-70 addEventToLevel. *)
Definition addEventToLevel (p : props) (l : lref) (e : evid) (dest : lref) (priv : bool) : props :=
  with_heap p (upd (pheap p) l (addEvent (pheap p l) e dest priv)).

(** The loop shared by lines 72-88: visit the registered levels in order and add the event
    to those whose id satisfies [sel].  The ids themselves are not changed by addEvent. *)
Fixpoint addEventWhere (h : heap) (ls : list lref) (sel : Z -> bool)
         (e : evid) (dest : lref) (priv : bool) : heap :=
  match ls with
  | [] => h
  | l :: ls' =>
    let h' := if sel (lid (h l)) then upd h l (addEvent (h l) e dest priv) else h in
    addEventWhere h' ls' sel e dest priv
  end.

(** SafetyProperties.cpp:72-76. *)
Definition addEventToLevelAndAbove (p : props) (l : lref) e dest priv : props :=
  let lo := lid (pheap p l) in
  with_heap p (addEventWhere (pheap p) (plevels p) (fun i => i >=? lo) e dest priv).
(** SafetyProperties.cpp:78-82. *)
Definition addEventToLevelAndBelow (p : props) (l : lref) e dest priv : props :=
  let hi := lid (pheap p l) in
  with_heap p (addEventWhere (pheap p) (plevels p) (fun i => i <=? hi) e dest priv).
(** SafetyProperties.cpp:84-88. *)
Definition addEventToAllLevelsBetween (p : props) (l1 l2 : lref) e dest priv : props :=
  let lo := lid (pheap p l1) in
  let hi := lid (pheap p l2) in
  with_heap p (addEventWhere (pheap p) (plevels p)
                 (fun i => (i >=? lo) && (i <=? hi)) e dest priv).

(** The erase loops of SafetyProperties.cpp:32-39 and 45-52: for each action remove all
    occurrences of its signal from the copy of the critical list.  A null action pointer is
    dereferenced: undefined behaviour. *)
Fixpoint eraseCovered {A : Type} (sig : A -> nat) (acts : list (option A)) (crit : list nat)
  : outcome (list nat) :=
  match acts with
  | [] => Ok crit
  | None :: _ => UB
  | Some a :: acts' =>
    eraseCovered sig acts' (filter (fun c => negb (Nat.eqb c (sig a))) crit)
  end.

(** SafetyProperties.cpp:29-55, one level. *)
Definition verifyLevel (p : props) (l : lref) : outcome unit :=
  bind (eraseCovered oa_output (lout (pheap p l)) (pcritOut p)) (fun c1 =>
  match c1 with
  | _ :: _ => Fault
  | [] =>
    bind (eraseCovered ia_input (lin (pheap p l)) (pcritIn p)) (fun c2 =>
    match c2 with
    | _ :: _ => Fault
    | [] => Ok tt
    end)
  end).

Fixpoint verifyLevels (p : props) (ls : list lref) : outcome unit :=
  match ls with
  | [] => Ok tt
  | l :: ls' => bind (verifyLevel p l) (fun _ => verifyLevels p ls')
  end.

(** SafetyProperties.cpp:25-61 verify. *)
Definition verify (p : props) : outcome bool :=
  bind (verifyLevels p (plevels p)) (fun _ =>
  Ok (match pentry p with Some _ => true | None => false end)).

(** ** SafetySystem (src/safety/SafetySystem.cpp) *)

(** currentLevel, nextLevel and the per-level activation counters (uint32_t). *)
Record sys := { cur : option lref; nxt : option lref; nact : lref -> Z }.

Definition u32 (z : Z) : Z := z mod 2 ^ 32.

(** Observable events: [EExec l] the cycle executes level [l]; [ECheck i] an input is read by
    an input action; [ETrig e p] triggerEvent(e) was called, p = from the private context;
    [EAct l n] the level action of [l] runs and would read nofActivations = n; [ESet a o] output
    action [a] drives output [o]; [EEnd] the cycle is finished. *)
Inductive eff :=
| EExec (l : lref)
| ECheck (i : nat)
| ETrig (e : evid) (p : bool)
| EAct (l : lref) (n : Z)
| ESet (a : nat) (o : nat)
| EEnd.

(** SafetySystem.cpp:37-47 setProperties: [None] when verify() returned false. *)
Definition setProperties (p : props) (n0 : lref -> Z) : outcome (option sys) :=
  bind (verify p) (fun b =>
  if b then
    match pentry p with
    | Some e => Ok (Some {| cur := Some e; nxt := Some e; nact := upd n0 e 0 |})
    | None => UB
    end
  else Ok None).

(** SafetySystem.cpp:49-71 triggerEvent; [priv] is [context == &privateContext].  Whole call
    as one atomic step (see SafetyRaceModel.v for the interleaved version). *)
Definition triggerEvent (h : heap) (s : sys) (e : evid) (priv : bool) : outcome sys :=
  match cur s with
  | None => Fault
  | Some c =>
    match getDestLevelForEvent (h c) e priv with
    | None => Ok s
    | Some d =>
      match nxt s with
      | None => UB (* nextLevel->id with nextLevel null and currentLevel non-null *)
      | Some n =>
        if Nat.eqb n c then Ok {| cur := cur s; nxt := Some d; nact := upd (nact s) d 0 |}
        else if lid (h d) <? lid (h n)
             then Ok {| cur := cur s; nxt := Some d; nact := upd (nact s) d 0 |}
             else Ok s
      end
    end
  end.

(** A list of trigger calls, logging each. *)
Fixpoint triggers (h : heap) (s : sys) (ts : list (evid * bool)) : outcome (sys * list eff) :=
  match ts with
  | [] => Ok (s, [])
  | (e, p) :: ts' =>
    bind (triggerEvent h s e p) (fun s1 =>
    bind (triggers h s1 ts') (fun r => Ok (fst r, ETrig e p :: snd r)))
  end.

(** SafetySystem.cpp:91-105: check every non-null input action with the private context.
    [env] gives the values read in this cycle. *)
Fixpoint checkInputs (h : heap) (s : sys) (env : nat -> sval) (ias : list (option iaction))
  : outcome (sys * list eff) :=
  match ias with
  | [] => Ok (s, [])
  | None :: ias' => checkInputs h s env ias'
  | Some ia :: ias' =>
    match ia_fire ia (env (ia_input ia)) with
    | None =>
      bind (checkInputs h s env ias') (fun r => Ok (fst r, ECheck (ia_input ia) :: snd r))
    | Some e =>
      bind (triggerEvent h s e true) (fun s1 =>
      bind (checkInputs h s1 env ias') (fun r =>
        Ok (fst r, ECheck (ia_input ia) :: ETrig e true :: snd r)))
    end
  end.

(** SafetySystem.cpp:113-117: drive all non-null output actions. *)
Fixpoint setOutputs (oas : list (option oaction)) : list eff :=
  match oas with
  | [] => []
  | None :: oas' => setOutputs oas'
  | Some oa :: oas' => ESet (oa_id oa) (oa_output oa) :: setOutputs oas'
  end.

(** [if(nextLevel != nullptr) currentLevel = nextLevel;] (lines 83 and 118). *)
Definition adopt (s : sys) : sys :=
  match nxt s with
  | Some n => {| cur := Some n; nxt := nxt s; nact := nact s |}
  | None => s
  end.

(** SafetySystem.cpp:81-123 run.  [acts]: the triggerEvent calls made by the level action
    (arbitrary user code, lines 108-110), with the context used. *)
Definition run (h : heap) (s0 : sys) (env : nat -> sval) (acts : list (evid * bool))
  : outcome (sys * list eff) :=
  let s := adopt s0 in
  match cur s with
  | None => Ok (s, [])
  | Some l =>
    let s1 := {| cur := cur s; nxt := nxt s; nact := upd (nact s) l (u32 (nact s l + 1)) |} in
    bind (checkInputs h s1 env (lin (h l))) (fun r1 =>
    bind (if lact (h l)
          then bind (triggers h (fst r1) acts)
                    (fun r => Ok (fst r, EAct l (nact (fst r1) l) :: snd r))
          else Ok (fst r1, [])) (fun r2 =>
    Ok (adopt (fst r2),
        EExec l :: snd r1 ++ snd r2 ++ setOutputs (lout (h l)) ++ [EEnd])))
  end.

(** Operations a program performs on the safety system: trigger an event from outside (or
    keep a pointer to the private context), or run one cycle. *)
Inductive sop :=
| Trigger (e : evid) (priv : bool)
| Cycle (env : nat -> sval) (acts : list (evid * bool)).

Definition sstep (h : heap) (s : sys) (o : sop) : outcome (sys * list eff) :=
  match o with
  | Trigger e p => bind (triggerEvent h s e p) (fun s1 => Ok (s1, [ETrig e p]))
  | Cycle env acts => run h s env acts
  end.

Fixpoint sruns (h : heap) (s : sys) (os : list sop) : outcome (sys * list eff) :=
  match os with
  | [] => Ok (s, [])
  | o :: os' =>
    bind (sstep h s o) (fun r1 =>
    bind (sruns h (fst r1) os') (fun r2 => Ok (fst r2, snd r1 ++ snd r2)))
  end.

(** ** Singleton bookkeeping (SafetySystem.cpp:7, 10-26).  instCount is uint8_t.
    [good]: whether setProperties succeeds. *)
Inductive iop := Construct (good : bool) | Destruct.
(** State: instCount and number of live systems (ghost).  A throwing constructor runs no
    destructor.  [Destruct] with no live object is ignored (impossible in C++). *)
Definition istep (s : Z * nat) (o : iop) : (Z * nat) * option bool :=
  let (c, live) := s in
  match o with
  | Construct good =>
    let c' := (c + 1) mod 256 in
    if c' >? 1 then ((c', live), Some false)
    else if good then ((c', S live), Some true)
    else ((c', live), Some false)
  | Destruct =>
    match live with
    | O => (s, None)
    | S n => (((c - 1) mod 256, n), None)
    end
  end.
Fixpoint iruns (s : Z * nat) (os : list iop) : Z * nat :=
  match os with
  | [] => s
  | o :: os' => iruns (fst (istep s o)) os'
  end.
(** SafetySystem.cpp:7: no instance yet. *)
Definition istart : Z * nat := (0, O).
