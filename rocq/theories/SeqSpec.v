(** Specification of a step's life cycle, independent of the interpreter in SeqModel. *)
From Verif Require Import Prelude SeqModel.
Open Scope Z_scope.

(** What a step may do next.  [AFirst]: not started; [AReady]: restarted; [AMustAct]: the
    precondition held; [AInAct]: the action runs; [ARun]: the action returned, the exit
    condition is polled; [ADone]: nothing more to do; [AEnded]. *)
Inductive aphase := AFirst | AReady | AMustAct | AInAct | ARun | ADone | AEnded.
(** [apend]: behaviour of an own monitor that fired and still has to take effect;
    [aret]: the value to be returned. *)
Record astate := { aph : aphase; aret : Z; apend : option behaviour }.
Definition ainit : astate := {| aph := AFirst; aret := -1; apend := None |}.

Definition is_pend (a : astate) (b : behaviour) : bool :=
  match apend a, b with
  | Some Abort, Abort | Some Restart, Restart => true
  | _, _ => false
  end.
Definition no_pend (a : astate) : bool := match apend a with None => true | _ => false end.

(** One event of the log as seen by step [s] ([None]: not permitted). *)
Definition astep (mons : nat -> mondef) (s : nat) (a : astate) (e : ev) : option astate :=
  match e with
  | VPre q b =>
    if Nat.eqb q s then
      match aph a with
      | AFirst | AReady =>
        if no_pend a then Some {| aph := if b then AMustAct else ADone; aret := aret a; apend := None |}
        else None
      | _ => None
      end
    else Some a
  | VAct q =>
    if Nat.eqb q s then
      match aph a with
      | AMustAct => Some {| aph := AInAct; aret := aret a; apend := apend a |}
      | _ => None
      end
    else Some a
  | VRet q r =>
    if Nat.eqb q s then
      match aph a with
      | AInAct => Some {| aph := ARun; aret := r; apend := apend a |}
      | _ => None
      end
    else Some a
  | VExit q b =>
    if Nat.eqb q s then
      match aph a with
      | ARun => if is_pend a Restart then None
                else Some {| aph := if b then ADone else ARun; aret := aret a; apend := apend a |}
      | _ => None
      end
    else Some a
  | VHandled m =>
    if Nat.eqb (mowner (mons m)) s then
      match aph a with
      | AFirst | AInAct | ARun =>
        if no_pend a then
          Some {| aph := aph a; aret := aret a;
                  apend := match mbeh (mons m) with Resume => None | b => Some b end |}
        else None
      | _ => None
      end
    else Some a
  | VRestart q =>
    if Nat.eqb q s then
      match aph a with
      | AFirst | ARun =>
        if is_pend a Restart then Some {| aph := AReady; aret := aret a; apend := None |} else None
      | _ => None
      end
    else Some a
  | VEnd q r =>
    if Nat.eqb q s then
      match aph a with
      | AFirst | ARun | ADone =>
        if is_pend a Restart then None
        else if r =? aret a then Some {| aph := AEnded; aret := r; apend := None |} else None
      | _ => None
      end
    else Some a
  | VMon _ _ | VFire _ => Some a
  end.

Fixpoint aruns (mons : nat -> mondef) (s : nat) (a : astate) (l : list ev) : option astate :=
  match l with
  | [] => Some a
  | e :: l' => match astep mons s a e with Some a' => aruns mons s a' l' | None => None end
  end.

(** A log is the life of step [s] returning [r]. *)
Definition life (mons : nat -> mondef) (s : nat) (l : list ev) (r : Z) : Prop :=
  aruns mons s ainit l = Some {| aph := AEnded; aret := r; apend := None |}.

(** A user action only calls steps that were constructed as its blocking callees. *)
Inductive calls_ok (defs : nat -> seqdef) (s : nat) : script -> Prop :=
| calls_ret : forall r, calls_ok defs s (Ret r)
| calls_ask : forall k, (forall b, calls_ok defs s (k b)) -> calls_ok defs s (Ask k)
| calls_call : forall q k, sstack (defs q) = q :: sstack (defs s) ->
    (forall r, calls_ok defs s (k r)) -> calls_ok defs s (Call q k).

(** Well-formed configurations: monitors belong to the sequence they were added to, exception
    sequences are top-level or blocking callees of the owner of the monitor. *)
Definition wf_config (defs : nat -> seqdef) (mons : nat -> mondef) : Prop :=
  (forall s, exists st, sstack (defs s) = s :: st) /\
  (forall q pre s suf, sstack (defs q) = pre ++ s :: suf -> sstack (defs s) = s :: suf) /\
  (forall s m, In m (smons (defs s)) -> mowner (mons m) = s) /\
  (forall s, calls_ok defs s (sbody (defs s))) /\
  (forall m e, mexc (mons m) = Some e ->
     sstack (defs e) = [e] \/ sstack (defs e) = e :: sstack (defs (mowner (mons m)))).

(** A monitor of a sequence of the list [st], with abort or restart behaviour, fired. *)
Definition fired_above (mons : nat -> mondef) (st : list nat) (l : list ev) : Prop :=
  exists m, In (VFire m) l /\ In (mowner (mons m)) st /\ mbeh (mons m) <> Resume.

Definition count_ev (f : ev -> bool) (l : list ev) : nat := length (filter f l).
Definition is_act (s : nat) (e : ev) : bool := match e with VAct q => Nat.eqb q s | _ => false end.
Definition is_pre (s : nat) (e : ev) : bool := match e with VPre q _ => Nat.eqb q s | _ => false end.
Definition is_restart_of (mons : nat -> mondef) (s : nat) (e : ev) : bool :=
  match e with
  | VHandled m => Nat.eqb (mowner (mons m)) s && match mbeh (mons m) with Restart => true | _ => false end
  | _ => false
  end.

(** The events that concern the life of step [q] itself. *)
Definition own_ev (mons : nat -> mondef) (q : nat) (e : ev) : bool :=
  match e with
  | VPre s _ | VAct s | VRet s _ | VExit s _ | VRestart s | VEnd s _ => Nat.eqb s q
  | VHandled m => Nat.eqb (mowner (mons m)) q
  | VMon _ _ | VFire _ => false
  end.

(** [lives defs mons q pre l]: the part [l] of a log, following [pre], consists of complete lives of
    step [q] and events of others.  Each life ends because nothing was left to do ([ADone]: the
    precondition was false or the exit condition true) or because a monitor with abort or restart
    behaviour of the step or of one of its callers fired. *)
Inductive lives (defs : nat -> seqdef) (mons : nat -> mondef) (q : nat) : list ev -> list ev -> Prop :=
| lives_nil : forall pre, lives defs mons q pre []
| lives_other : forall pre e l, own_ev mons q e = false -> lives defs mons q (pre ++ [e]) l ->
    lives defs mons q pre (e :: l)
| lives_life : forall pre b a r l,
    aruns mons q ainit b = Some a ->
    life mons q (b ++ [VEnd q r]) r ->
    (aph a = ADone \/ fired_above mons (sstack (defs q)) (pre ++ b)) ->
    lives defs mons q (pre ++ b ++ [VEnd q r]) l ->
    lives defs mons q pre (b ++ VEnd q r :: l).

Definition is_restart (s : nat) (e : ev) : bool := match e with VRestart q => Nat.eqb q s | _ => false end.
Definition is_pre_true (s : nat) (e : ev) : bool := match e with VPre q b => Nat.eqb q s && b | _ => false end.
(** The monitors evaluated, in order. *)
Definition evaluated (l : list ev) : list nat :=
  flat_map (fun e => match e with VMon m _ => [m] | _ => [] end) l.

(** Worlds reached by running top-level sequences one after the other. *)
Inductive reached (defs : nat -> seqdef) (mons : nat -> mondef) (orc : nat -> bool) : world -> Prop :=
| reached_new : reached defs mons orc world_new
| reached_exec : forall n s w w' r, reached defs mons orc w -> sstack (defs s) = [s] ->
    exec defs mons orc n s w = Fin (w', r) -> reached defs mons orc w'.
