(** What the control blocks are expected to compute, independent of the model's state machines. *)
From Coq Require Import Reals.
From Verif Require Import Prelude Num CtrlModel.
Open Scope Z_scope.

(** ** Connections *)
(** The operation connects input [i] to [r]. *)
Definition connects (i : nat) (r : outref) (o : conn_op) : Prop :=
  o = CConnect i r \/ o = CConnectPtr i (Some r).
Definition disconnects (i : nat) (o : conn_op) : Prop := o = CDisconnect i.

(** [o] is the first connecting operation on [i] since the last disconnect before it, and no
    disconnect follows. *)
Definition first_since_disconnect (i : nat) (r : outref) (os : list conn_op) : Prop :=
  exists a b o c, os = a ++ b ++ o :: c /\
    (a = [] \/ exists a', a = a' ++ [CDisconnect i]) /\
    (forall x r', In x b -> ~ connects i r' x) /\
    connects i r o /\
    (forall x, In x c -> ~ disconnects i x).

(** The chain of subsystem inputs that starts at [i] ends at the signal [s] / at the
    unconnected input [k]. *)
Inductive leads_to (c : conns) : nat -> rdres -> Prop :=
| LSig i s : c i = Some (OSig s) -> leads_to c i (RSignal s)
| LNone i : c i = None -> leads_to c i (RNotConnected i)
| LSub i j r : c i = Some (OSub j) -> leads_to c j r -> leads_to c i r.

(** ** Time domain *)
(** All blocks of the list run one after the other and end normally. *)
Inductive all_run {W : Type} (brun : nat -> W -> W * bres) : list nat -> W -> W -> Prop :=
| ARnil w : all_run brun [] w w
| ARcons b bs w w1 w2 : brun b w = (w1, BNormal) -> all_run brun bs w1 w2 -> all_run brun (b :: bs) w w2.

(** The block of an addition that no later operation removes, in order. *)
Fixpoint still_added (os : list td_op) : list nat :=
  match os with
  | [] => []
  | TDAdd b :: os' =>
    if existsb (fun o => match o with TDRemove c => Nat.eqb c b | _ => false end) os'
    then still_added os' else b :: still_added os'
  | _ :: os' => still_added os'
  end.

(** ** Histories of blocks *)
(** Outputs of consecutive runs of a rate limiter. *)
Fixpoint rl_outs {N : num} (s : rlim N) (is : list (signal N)) : list (signal N) :=
  match is with
  | [] => []
  | i :: is' => let (s', y) := rl_run N s i in y :: rl_outs s' is'
  end.

Section Int.
  Context {N : num}.
  (** The value of an integrator is within its limits. *)
  Definition i_inside (s : integ N) : Prop :=
    nleb N (i_lo s) (sv (i_prev s)) = true /\ nleb N (sv (i_prev s)) (i_hi s) = true.
  (** Initial conditions are within the limits, limits are ordered. *)
  Definition i_allowed (s : integ N) (o : i_op N) : Prop :=
    match o with
    | IInit v => nleb N (i_lo s) v = true /\ nleb N v (i_hi s) = true
    | ILimit hi lo => nleb N lo hi = true
    | _ => True
    end.
  (** [P] holds at every operation of the history. *)
  Fixpoint i_hist (s : integ N) (os : list (i_op N)) (P : integ N -> i_op N -> Prop) : Prop :=
    match os with
    | [] => True
    | o :: os' => P s o /\ i_hist (fst (i_step N s o)) os' P
    end.
End Int.
(** Value of an integrator after the given runs (enabled or not). *)
Fixpoint i_runs (s : integ Rnum) (l : list (bool * signal R)) : R :=
  match l with
  | [] => sv (i_prev s)
  | (en, i) :: l' => i_runs (fst (i_run Rnum s (Some en) i)) l'
  end.
(** A gain block after n runs. *)
Fixpoint g_iter (n : nat) (s : gain Rnum) (i : signal R) : gain Rnum :=
  match n with O => s | S n' => g_iter n' (fst (g_run Rnum s i)) i end.

(** ** Blocks over the reals; time stamps in nanoseconds *)
Open Scope R_scope.
Definition seconds (t : Z) : R := IZR t / 1000000000.

(** Value of the integral of the inputs over the enabled runs, rectangles of width t_k - t_(k-1). *)
Fixpoint integral (t0 : Z) (l : list (bool * signal R)) : R :=
  match l with
  | [] => 0
  | (en, i) :: l' => (if en then sv i * seconds (st i - t0) else 0) + integral (st i) l'
  end.

(** Difference quotients; an unchanged time stamp repeats the previous value. *)
Fixpoint quotients (p : signal R) (v : R) (l : list (signal R)) : list R :=
  match l with
  | [] => []
  | i :: l' =>
    let o := if Z.eqb (st i) (st p) then v else (sv i - sv p) / seconds (st i - st p) in
    o :: quotients i o l'
  end.

(** Signed sum. *)
Fixpoint signed_sum (neg : list bool) (vs : list R) : R :=
  match neg, vs with
  | n :: neg', v :: vs' => (if n : bool then - v else v) + signed_sum neg' vs'
  | _, _ => 0
  end.
