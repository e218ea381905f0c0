(** Model of PathPlannerCubic (includes/eeros/control/PathPlannerCubic.hpp).

    The five parallel vectors are one list of rows.  Reading the path file (init, lines 55-90),
    time stamps and the mutex are left out.  The members t and prevJerk, which the constructor
    leaves uninitialised, are arguments of the initial state. *)
From Verif Require Import Prelude Num PlanModel.
Open Scope Z_scope.

(** std::round: to the nearest integer, halfway cases away from zero. *)
Definition nround (N : num) (x : N) : N :=
  match ntrunc N x with
  | Some z =>
      let h := lit N 1 2 in
      if nleb N h (nabs N (nsub N x (nofZ N z)))
      then nofZ N (if nltb N x (nofZ N 0) then z - 1 else z + 1) else nofZ N z
  | None => x
  end.

Section Cubic.
  Context (N : num).
  (** One row of the path: duration, jerk, and acceleration, velocity, position at its begin. *)
  Record row := { r_t : N; r_j : N; r_a : N; r_v : N; r_p : N }.
  (** Output values. *)
  Record cout := { o_p : N; o_v : N; o_a : N; o_j : N }.
  (** [cu_prev] are prevPos .. prevJerk (lines 312), [cu_out] the output signals. *)
  Record cubic := { cu_dt : N; cu_fin : bool; cu_t : N; cu_int : N; cu_idx : nat; cu_first : bool;
    cu_prev : cout; cu_out : option cout; cu_raw : list row; cu_seg : list row }.
  Definition nul : row := {| r_t := nofZ N 0; r_j := nofZ N 0; r_a := nofZ N 0; r_v := nofZ N 0; r_p := nofZ N 0 |}.
  Definition at_row (l : list row) (i : nat) : row := nth i l nul.

  (** Lines 37-43, 307-314 *)
  Definition cu_new (dt : N) (t0 j0 : N) : cubic :=
    {| cu_dt := dt; cu_fin := true; cu_t := t0; cu_int := nopp N dt; cu_idx := 0; cu_first := true;
       cu_prev := {| o_p := nofZ N 0; o_v := nofZ N 0; o_a := nofZ N 0; o_j := j0 |}; cu_out := None;
       cu_raw := []; cu_seg := [] |}.
  (** Lines 55-90, with the rows read from the file. *)
  Definition cu_init (s : cubic) (rows : list row) : cubic :=
    {| cu_dt := cu_dt s; cu_fin := cu_fin s; cu_t := cu_t s; cu_int := cu_int s; cu_idx := cu_idx s; cu_first := cu_first s;
       cu_prev := cu_prev s; cu_out := cu_out s; cu_raw := rows; cu_seg := [] |}.
  Definition cu_put (s : cubic) (int : N) (i : nat) (f : bool) (t : N) (o : cout) : cubic :=
    {| cu_dt := cu_dt s; cu_fin := cu_fin s; cu_t := nadd N t (cu_dt s); cu_int := int; cu_idx := i; cu_first := f;
       cu_prev := o; cu_out := Some o; cu_raw := cu_raw s; cu_seg := cu_seg s |}.
  Definition cu_load (r : row) : cout := {| o_p := r_p r; o_v := r_v r; o_a := r_a r; o_j := r_j r |}.
  (** Lines 101-104 *)
  Definition cu_step (dt : N) (j : N) (q : cout) : cout :=
    {| o_j := j;
       o_a := nadd N (o_a q) (nmul N j dt);
       o_v := nadd N (nadd N (o_v q) (nmul N (o_a q) dt)) (nmul N (nmul N (ndiv N j (nofZ N 2)) dt) dt);
       o_p := nadd N (nadd N (nadd N (o_p q) (nmul N (o_v q) dt)) (nmul N (nmul N (ndiv N (o_a q) (nofZ N 2)) dt) dt))
                (nmul N (nmul N (nmul N (ndiv N j (nofZ N 6)) dt) dt) dt) |}.
  (** Lines 95-146 *)
  Definition cu_run (s : cubic) : cubic :=
    let n := length (cu_seg s) in
    if negb (cu_fin s) && Nat.ltb 0 n && Nat.ltb (cu_idx s) n then
      if nleb N (cu_t s) (nadd N (cu_int s) (ndiv N (cu_dt s) (nofZ N 2))) then
        cu_put s (cu_int s) (cu_idx s) (cu_first s) (cu_t s) (cu_step (cu_dt s) (r_j (at_row (cu_seg s) (cu_idx s))) (cu_prev s))
      else if cu_first s then
        cu_put s (r_t (at_row (cu_seg s) 0)) 0 false (cu_t s) (cu_load (at_row (cu_seg s) 0))
      else
        let i := S (cu_idx s) in
        if Nat.eqb i n then
          {| cu_dt := cu_dt s; cu_fin := true; cu_t := cu_t s; cu_int := cu_int s; cu_idx := i; cu_first := cu_first s;
             cu_prev := cu_prev s; cu_out := cu_out s; cu_raw := cu_raw s; cu_seg := cu_seg s |}
        else cu_put s (nadd N (cu_int s) (r_t (at_row (cu_seg s) i))) i (cu_first s) (cu_t s) (cu_load (at_row (cu_seg s) i))
    else cu_put s (nopp N (cu_dt s)) 0 true (nofZ N 0) (cu_prev s).

  Definition nsum (l : list N) : N := fold_left (nadd N) l (nofZ N 0).
  (** Lines 265-278: rounded durations and scaled jerks. *)
  Definition cu_times (dt time : N) (raw : list row) : list N :=
    let scale := ndiv N time (nsum (map r_t raw)) in
    map (fun r => nmul N (nround N (ndiv N (nmul N (r_t r) scale) dt)) dt) raw.
  Definition cu_jerks (dt time deltaPos : N) (raw : list row) : list N :=
    let scale := ndiv N (nsum (cu_times dt time raw)) (nsum (map r_t raw)) in
    let posScale := ndiv N deltaPos (r_p (at_row raw (length raw - 1))) in
    map (fun r => ndiv N (nmul N (r_j r) posScale) (nmul N (nmul N scale scale) scale)) raw.
  (** Lines 285-297: acceleration, velocity and position at the begin of each row. *)
  Fixpoint cu_chain (ts js : list N) (a v p : N) : list row :=
    match ts, js with
    | t :: ts, j :: js =>
        {| r_t := t; r_j := j; r_a := a; r_v := v; r_p := p |} ::
        cu_chain ts js
          (nadd N a (nmul N j t))
          (nadd N (nadd N v (nmul N a t)) (ndiv N (nmul N (nmul N j t) t) (nofZ N 2)))
          (nadd N (nadd N (nadd N p (nmul N v t)) (ndiv N (nmul N (nmul N a t) t) (nofZ N 2)))
             (ndiv N (nmul N (nmul N (nmul N j t) t) t) (nofZ N 6)))
    | _, _ => []
    end.
  Definition cu_scaled (dt time deltaPos : N) (raw : list row) : list row :=
    cu_chain (cu_times dt time raw) (cu_jerks dt time deltaPos raw) (nofZ N 0) (nofZ N 0) (nofZ N 0).
  Definition shift (startPos : N) (r : row) : row :=
    {| r_t := r_t r; r_j := r_j r; r_a := r_a r; r_v := r_v r; r_p := nadd N (r_p r) startPos |}.
  Definition cu_begin (s : cubic) (seg : list row) : cubic :=
    {| cu_dt := cu_dt s; cu_fin := false; cu_t := cu_t s; cu_int := cu_int s; cu_idx := cu_idx s; cu_first := cu_first s;
       cu_prev := cu_prev s; cu_out := cu_out s; cu_raw := cu_raw s; cu_seg := seg |}.
  (** Lines 160-169 *)
  Definition cu_move (s : cubic) (time startPos deltaPos : N) : outcome (cubic * bool) :=
    if negb (cu_fin s) then Ok (s, false) else
    match cu_raw s with
    | [] => Fault
    | raw => Ok (cu_begin s (map (shift startPos) (cu_scaled (cu_dt s) time deltaPos raw)), true)
    end.
  (** Lines 181-198 *)
  Definition cu_move_raw (s : cubic) (startPos : N) : outcome (cubic * bool) :=
    if negb (cu_fin s) then Ok (s, false) else
    match cu_raw s with
    | [] => Fault
    | raw => Ok (cu_begin s (map (shift startPos) raw), true)
    end.
  (** Lines 211-213 *)
  Definition cu_reset (s : cubic) : cubic :=
    {| cu_dt := cu_dt s; cu_fin := true; cu_t := cu_t s; cu_int := cu_int s; cu_idx := cu_idx s; cu_first := cu_first s;
       cu_prev := cu_prev s; cu_out := cu_out s; cu_raw := cu_raw s; cu_seg := cu_seg s |}.
End Cubic.
Arguments r_t {N}. Arguments r_j {N}. Arguments r_a {N}. Arguments r_v {N}. Arguments r_p {N}.
Arguments o_p {N}. Arguments o_v {N}. Arguments o_a {N}. Arguments o_j {N}.
Arguments cu_dt {N}. Arguments cu_fin {N}. Arguments cu_t {N}. Arguments cu_int {N}. Arguments cu_idx {N}.
Arguments cu_first {N}. Arguments cu_prev {N}. Arguments cu_out {N}. Arguments cu_raw {N}. Arguments cu_seg {N}.
Arguments Build_row {N}. Arguments Build_cout {N}. Arguments Build_cubic {N}.
Arguments at_row {N}. Arguments cu_load {N}.
