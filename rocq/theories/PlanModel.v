(** Model of the path planners: PathPlannerConstAcc.hpp, PathPlannerConstJerk.hpp,
    PathPlannerCubic.hpp and TrajectoryGenerator.hpp.

    Vectors (T = Matrix<d,1,double>) are functions from the component index, of which the
    first d matter.  Simplifications: std::pow(t,2) and pow(t,3) are t*t and t*t*t; unary minus
    is 0-x (which differs only in the sign of zero); output time stamps are left out; sqrt and
    cbrt are parameters.  Members that the constructors leave uninitialised (t, range) are
    arguments of the initial state. *)
From Verif Require Import Prelude Num.
Open Scope Z_scope.

Definition lit (N : num) (n d : Z) : N := ndiv N (nofZ N n) (nofZ N d).
Definition nopp (N : num) (x : N) : N := nsub N (nofZ N 0) x.
(** std::ceil *)
Definition nceil (N : num) (x : N) : N :=
  match ntrunc N x with
  | Some z => nofZ N (if nltb N (nofZ N z) x then z + 1 else z)
  | None => x
  end.

(** ** The loop of run() common to both planners
    (PathPlannerConstAcc.hpp:73-136, PathPlannerConstJerk.hpp:75-169) *)
Section Phases.
  Context (N : num) {O : Type}.
  (** Number of components; number of phases; duration of a phase; the values the phase writes
      to component i at time t; the values written to component i at the end; whether the
      phase is left when its duration is zero (phase 2 of PathPlannerConstAcc). *)
  Record phases := {
    ph_dim : nat; ph_n : Z; ph_dur : Z -> N; ph_val : Z -> N -> nat -> O; ph_end : nat -> O; ph_early : Z -> bool
  }.
  (** Members finished, range, t and last (per component: position, velocity, ...). *)
  Record dyn := { dy_fin : bool; dy_range : Z; dy_t : N; dy_last : nat -> O }.
  Definition eps : N := lit N 1 (10 ^ 12).
  (** One iteration of the loop over the components (cases 1.. of the switch; a value of
      range outside 1..n+1 matches no case). *)
  Definition ph_elem (p : phases) (s : dyn) (i : nat) : dyn :=
    let r := dy_range s in
    if (1 <=? r) && (r <=? ph_n p) then
      let y := if nleb N (dy_t s) (ph_dur p r) then ph_val p r (dy_t s) i else dy_last s i in
      let adv := (ph_early p r && nltb N (ph_dur p r) eps)
                 || (nltb N (nabs N (nsub N (dy_t s) (ph_dur p r))) eps && Nat.eqb i (ph_dim p - 1)) in
      {| dy_fin := dy_fin s; dy_range := if adv then r + 1 else r; dy_t := if adv then nofZ N 0 else dy_t s;
         dy_last := upd (dy_last s) i y |}
    else if r =? ph_n p + 1 then
      {| dy_fin := true; dy_range := r; dy_t := dy_t s; dy_last := upd (dy_last s) i (ph_end p i) |}
    else s.
  (** run(): advance t, then the loop if not finished; the outputs are [dy_last]. *)
  Definition ph_run (p : phases) (dt : N) (s : dyn) : dyn :=
    let s1 := {| dy_fin := dy_fin s; dy_range := dy_range s; dy_t := nadd N (dy_t s) dt; dy_last := dy_last s |} in
    if dy_fin s then s1 else fold_left (ph_elem p) (seq 0 (ph_dim p)) s1.
End Phases.
Arguments phases : clear implicits.
Arguments dyn : clear implicits.
Arguments ph_dim {N O}. Arguments ph_n {N O}. Arguments ph_dur {N O}. Arguments ph_val {N O}.
Arguments ph_end {N O}. Arguments ph_early {N O}.
Arguments dy_fin {N O}. Arguments dy_range {N O}. Arguments dy_t {N O}. Arguments dy_last {N O}.
Arguments Build_dyn {N O}.

(** Element-wise minimum as computed by the loops "find minimum"
    (PathPlannerConstAcc.hpp:173-178, PathPlannerConstJerk.hpp:205-209). *)
Definition vmin (N : num) (d : nat) (v : nat -> N) : N :=
  fold_left (fun m i => if nltb N (v i) m then v i else m) (seq 0 d) (v 0%nat).
Definition vzero (N : num) (d : nat) (v : nat -> N) : bool := forallb (fun i => neqb N (v i) (nofZ N 0)) (seq 0 d).

(** ** PathPlannerConstAcc *)
Section ConstAcc.
  Context (N : num) (nsqrt : N -> N).
  Definition out3 : Type := (N * N * N)%type.
  (** dT1, dT2, dT3 and the coefficients computed by move(), lines 184-217. *)
  Record pa_plan := {
    pa_dT1 : N; pa_dT2 : N; pa_dT3 : N;
    pa_a1p : nat -> N; pa_c1p : nat -> N; pa_b1v : nat -> N; pa_c1a : nat -> N;
    pa_b2p : nat -> N; pa_c2p : nat -> N; pa_c2v : nat -> N; pa_c2a : nat -> N;
    pa_a3p : nat -> N; pa_b3p : nat -> N; pa_c3p : nat -> N; pa_b3v : nat -> N; pa_c3v : nat -> N; pa_c3a : nat -> N;
    pa_endp : nat -> N
  }.
  Record pa := { pa_d : nat; pa_dt : N; pa_vmax : nat -> N; pa_acc : nat -> N; pa_dec : nat -> N;
    pa_pl : pa_plan; pa_dy : dyn N out3 }.
  (** Lines 79-108: the switch of run(). *)
  Definition pa_val (p : pa_plan) (r : Z) (t : N) (i : nat) : out3 :=
    if r =? 1 then (nadd N (nmul N (pa_a1p p i) (nmul N t t)) (pa_c1p p i), nmul N (pa_b1v p i) t, pa_c1a p i)
    else if r =? 2 then (nadd N (nmul N (pa_b2p p i) t) (pa_c2p p i), pa_c2v p i, pa_c2a p i)
    else (nadd N (nadd N (nmul N (pa_a3p p i) (nmul N t t)) (nmul N (pa_b3p p i) t)) (pa_c3p p i),
          nadd N (nmul N (pa_b3v p i) t) (pa_c3v p i), pa_c3a p i).
  Definition pa_phases (d : nat) (p : pa_plan) : phases N out3 :=
    {| ph_dim := d; ph_n := 3;
       ph_dur := fun r => if r =? 1 then pa_dT1 p else if r =? 2 then pa_dT2 p else pa_dT3 p;
       ph_val := pa_val p;
       ph_end := fun i => (pa_endp p i, nofZ N 0, nofZ N 0);
       ph_early := fun r => r =? 2 |}.
  (** Lines 73-136 *)
  Definition pa_run (s : pa) : pa :=
    {| pa_d := pa_d s; pa_dt := pa_dt s; pa_vmax := pa_vmax s; pa_acc := pa_acc s; pa_dec := pa_dec s;
       pa_pl := pa_pl s; pa_dy := ph_run N (pa_phases (pa_d s) (pa_pl s)) (pa_dt s) (pa_dy s) |}.
  (** Lines 180-192: from the normalised limits to the durations of the phases. *)
  Definition pa_times (dt velNorm0 accNorm decNorm : N) : N * N * N :=
    let two := nofZ N 2 in
    let half := lit N 1 2 in
    let velNormMax := nsqrt (ndiv N (nmul N two (nmul N accNorm decNorm)) (nadd N accNorm decNorm)) in
    let velNorm1 := if nltb N velNormMax velNorm0 then velNormMax else velNorm0 in
    let T1 := ndiv N velNorm1 accNorm in
    let T3 := ndiv N velNorm1 decNorm in
    let T2 := nsub N (ndiv N (nofZ N 1) velNorm1) (nmul N (nadd N T1 T3) half) in
    let T2 := if nltb N T2 (nofZ N 0) then nofZ N 0 else T2 in
    (nmul N (nceil N (ndiv N T1 dt)) dt, nmul N (nceil N (ndiv N T2 dt)) dt, nmul N (nceil N (ndiv N T3 dt)) dt).
  (** Lines 196-215: the coefficients. *)
  Definition pa_coefs (dT1 dT2 dT3 : N) (start dist endp : nat -> N) : pa_plan :=
    let two := nofZ N 2 in
    let half := lit N 1 2 in
    let velNorm := ndiv N (nofZ N 1) (nadd N dT2 (ndiv N (nadd N dT1 dT3) two)) in
    let vel := fun i => nmul N velNorm (dist i) in
    let c1a := fun i => ndiv N (vel i) dT1 in
    let a1p := fun i => nmul N half (c1a i) in
    let c2p := fun i => nadd N (nmul N (a1p i) (nmul N dT1 dT1)) (start i) in
    let c3a := fun i => ndiv N (nopp N (vel i)) dT3 in
    {| pa_dT1 := dT1; pa_dT2 := dT2; pa_dT3 := dT3;
       pa_c1a := c1a; pa_b1v := c1a; pa_a1p := a1p; pa_c1p := start;
       pa_c2a := fun _ => nofZ N 0; pa_c2v := vel; pa_b2p := vel; pa_c2p := c2p;
       pa_c3a := c3a; pa_b3v := c3a; pa_c3v := vel; pa_a3p := fun i => nmul N half (c3a i); pa_b3p := vel;
       pa_c3p := fun i => nadd N (nmul N (vel i) dT2) (c2p i);
       pa_endp := endp |}.
  Definition pa_make (dt : N) (start dist endp : nat -> N) (velNorm0 accNorm decNorm : N) : pa_plan :=
    let '(dT1, dT2, dT3) := pa_times dt velNorm0 accNorm decNorm in pa_coefs dT1 dT2 dT3 start dist endp.
  (** endPos is assigned before
 the distance is tested (line 159). *)
  Definition pa_set_end (p : pa_plan) (e : nat -> N) : pa_plan :=
    {| pa_dT1 := pa_dT1 p; pa_dT2 := pa_dT2 p; pa_dT3 := pa_dT3 p;
       pa_c1a := pa_c1a p; pa_b1v := pa_b1v p; pa_a1p := pa_a1p p; pa_c1p := pa_c1p p;
       pa_c2a := pa_c2a p; pa_c2v := pa_c2v p; pa_b2p := pa_b2p p; pa_c2p := pa_c2p p;
       pa_c3a := pa_c3a p; pa_b3v := pa_b3v p; pa_c3v := pa_c3v p; pa_a3p := pa_a3p p; pa_b3p := pa_b3p p;
       pa_c3p := pa_c3p p; pa_endp := e |}.
  Definition pa_with (s : pa) (p : pa_plan) (y : dyn N out3) : pa :=
    {| pa_d := pa_d s; pa_dt := pa_dt s; pa_vmax := pa_vmax s; pa_acc := pa_acc s; pa_dec := pa_dec s;
       pa_pl := p; pa_dy := y |}.
  (** Lines 154-222; of start and end only the positions are used. *)
  Definition pa_move (s : pa) (start endp : nat -> N) : pa * bool :=
    if negb (dy_fin (pa_dy s)) then (s, false) else
    let dist := fun i => nsub N (endp i) (start i) in
    if vzero N (pa_d s) dist then (pa_with s (pa_set_end (pa_pl s) endp) (pa_dy s), false) else
    let norm := fun lim => vmin N (pa_d s) (fun i => nabs N (ndiv N (lim i) (dist i))) in
    let p := pa_make (pa_dt s) start dist endp (norm (pa_vmax s)) (norm (pa_acc s)) (norm (pa_dec s)) in
    (pa_with s p {| dy_fin := false; dy_range := 1; dy_t := nofZ N 0; dy_last := dy_last (pa_dy s) |}, true).
  (** TrajectoryGenerator.hpp:60-65, move(T end): from the last position. *)
  Definition pa_move_to (s : pa) (endp : nat -> N) : pa * bool :=
    pa_move s (fun i => fst (fst (dy_last (pa_dy s) i))) endp.
  (** Lines 231-235 *)
  Definition pa_set_start (s : pa) (l : nat -> out3) : pa :=
    pa_with s (pa_pl s) {| dy_fin := true; dy_range := dy_range (pa_dy s); dy_t := dy_t (pa_dy s); dy_last := l |}.
  (** Lines 46-51 and TrajectoryGenerator.hpp:31-33: finished, last = 0. *)
  Definition pa_new (d : nat) (vmax acc dec : nat -> N) (dt : N) (p0 : pa_plan) (r0 : Z) (t0 : N) : pa :=
    {| pa_d := d; pa_dt := dt; pa_vmax := vmax; pa_acc := acc; pa_dec := dec; pa_pl := p0;
       pa_dy := {| dy_fin := true; dy_range := r0; dy_t := t0; dy_last := fun _ => (nofZ N 0, nofZ N 0, nofZ N 0) |} |}.
End ConstAcc.
Arguments pa_dT1 {N}. Arguments pa_dT2 {N}. Arguments pa_dT3 {N}. Arguments pa_endp {N}.
Arguments pa_d {N}. Arguments pa_dt {N}. Arguments pa_vmax {N}. Arguments pa_acc {N}. Arguments pa_dec {N}.
Arguments pa_pl {N}. Arguments pa_dy {N}.

(** ** PathPlannerConstJerk *)
Section ConstJerk.
  Context (N : num) (nsqrt ncbrt : N -> N).
  Definition out4 : Type := (N * N * N * N)%type.
  (** dT1, dT2 and the coefficients computed by move(), lines 214-266; all coefficients are
      computed from d1j, d1p, dT1 and dT2. *)
  Record pj_plan := {
    pj_dT1 : N; pj_dT2 : N;
    pj_a1p : nat -> N; pj_d1p : nat -> N; pj_b1v : nat -> N; pj_c1a : nat -> N; pj_d1j : nat -> N;
    pj_a2p : nat -> N; pj_b2p : nat -> N; pj_c2p : nat -> N; pj_d2p : nat -> N; pj_b2v : nat -> N; pj_c2v : nat -> N;
    pj_d2v : nat -> N; pj_c2a : nat -> N; pj_d2a : nat -> N; pj_d2j : nat -> N;
    pj_c3p : nat -> N; pj_d3p : nat -> N; pj_d3v : nat -> N;
    pj_a4p : nat -> N; pj_c4p : nat -> N; pj_d4p : nat -> N; pj_b4v : nat -> N; pj_d4v : nat -> N; pj_c4a : nat -> N; pj_d4j : nat -> N;
    pj_a5p : nat -> N; pj_b5p : nat -> N; pj_c5p : nat -> N; pj_d5p : nat -> N; pj_b5v : nat -> N; pj_c5v : nat -> N;
    pj_d5v : nat -> N; pj_c5a : nat -> N; pj_d5a : nat -> N; pj_d5j : nat -> N;
    pj_endp : nat -> N
  }.
  Record pj := { pj_d : nat; pj_dt : N; pj_vmax : nat -> N; pj_jerk : nat -> N; pj_pl : pj_plan; pj_dy : dyn N out4 }.
  Definition p2 (t : N) : N := nmul N t t.
  Definition p3 (t : N) : N := nmul N (nmul N t t) t.
  (** Lines 81-143 *)
  Definition pj_val (p : pj_plan) (r : Z) (t : N) (i : nat) : out4 :=
    if r =? 1 then
      (nadd N (nmul N (pj_a1p p i) (p3 t)) (pj_d1p p i), nmul N (pj_b1v p i) (p2 t), nmul N (pj_c1a p i) t, pj_d1j p i)
    else if r =? 2 then
      (nadd N (nadd N (nadd N (nmul N (pj_a2p p i) (p3 t)) (nmul N (pj_b2p p i) (p2 t))) (nmul N (pj_c2p p i) t)) (pj_d2p p i),
       nadd N (nadd N (nmul N (pj_b2v p i) (p2 t)) (nmul N (pj_c2v p i) t)) (pj_d2v p i),
       nadd N (nmul N (pj_c2a p i) t) (pj_d2a p i), pj_d2j p i)
    else if r =? 3 then
      (nadd N (nmul N (pj_c3p p i) t) (pj_d3p p i), pj_d3v p i, nofZ N 0, nofZ N 0)
    else if r =? 4 then
      (nadd N (nadd N (nmul N (pj_a4p p i) (p3 t)) (nmul N (pj_c4p p i) t)) (pj_d4p p i),
       nadd N (nmul N (pj_b4v p i) (p2 t)) (pj_d4v p i), nmul N (pj_c4a p i) t, pj_d4j p i)
    else
      (nadd N (nadd N (nadd N (nmul N (pj_a5p p i) (p3 t)) (nmul N (pj_b5p p i) (p2 t))) (nmul N (pj_c5p p i) t)) (pj_d5p p i),
       nadd N (nadd N (nmul N (pj_b5v p i) (p2 t)) (nmul N (pj_c5v p i) t)) (pj_d5v p i),
       nadd N (nmul N (pj_c5a p i) t) (pj_d5a p i), pj_d5j p i).
  Definition pj_phases (d : nat) (p : pj_plan) : phases N out4 :=
    {| ph_dim := d; ph_n := 5;
       ph_dur := fun r => if r =? 3 then pj_dT2 p else pj_dT1 p;
       ph_val := pj_val p;
       ph_end := fun i => (pj_endp p i, nofZ N 0, nofZ N 0, nofZ N 0);
       ph_early := fun _ => false |}.
  Definition pj_run (s : pj) : pj :=
    {| pj_d := pj_d s; pj_dt := pj_dt s; pj_vmax := pj_vmax s; pj_jerk := pj_jerk s;
       pj_pl := pj_pl s; pj_dy := ph_run N (pj_phases (pj_d s) (pj_pl s)) (pj_dt s) (pj_dy s) |}.
  (** Lines 211-222: the phase durations dT1 and dT2. *)
  Definition pj_times (dt velNorm0 jerkNorm : N) : N * N :=
    let Z2 := nofZ N 2 in
    let one := nofZ N 1 in
    let half := lit N 1 2 in
    let velNormMax := ndiv N one (nmul N Z2 (ncbrt (ndiv N one (nmul N Z2 jerkNorm)))) in
    let velNorm1 := if nltb N velNormMax velNorm0 then velNormMax else velNorm0 in
    let T1 := nsqrt (ndiv N velNorm1 jerkNorm) in
    let T2 := nsub N (ndiv N one velNorm1) (nmul N (nmul N (nofZ N 4) T1) half) in
    let T2 := if nltb N T2 (nofZ N 0) then nofZ N 0 else T2 in
    (nmul N (nceil N (ndiv N T1 dt)) dt, nmul N (nceil N (ndiv N T2 dt)) dt).
  (** Lines 225-266: the coefficients. *)
  Definition pj_coefs (dT1 dT2 : N) (start dist endp : nat -> N) : pj_plan :=
    let Z2 := nofZ N 2 in
    let one := nofZ N 1 in
    let half := lit N 1 2 in
    let velNorm := ndiv N one (nadd N dT2 (nmul N (nmul N (nofZ N 4) dT1) half)) in
    let d1j := fun i => ndiv N (nmul N velNorm (dist i)) (p2 dT1) in
    let d1p := start in
    let j2 := fun i => ndiv N (d1j i) Z2 in
    let nj2 := fun i => ndiv N (nopp N (d1j i)) Z2 in
    let j6 := fun i => ndiv N (d1j i) (nofZ N 6) in
    let nj6 := fun i => ndiv N (nopp N (d1j i)) (nofZ N 6) in
    {| pj_dT1 := dT1; pj_dT2 := dT2;
       pj_d1j := d1j; pj_c1a := d1j; pj_b1v := j2; pj_a1p := j6; pj_d1p := d1p;
       pj_d2j := fun i => nopp N (d1j i); pj_c2a := fun i => nopp N (d1j i); pj_d2a := fun i => nmul N (d1j i) dT1;
       pj_b2v := nj2; pj_c2v := fun i => nmul N (d1j i) dT1; pj_d2v := fun i => nmul N (j2 i) (p2 dT1);
       pj_a2p := nj6; pj_b2p := fun i => nmul N (j2 i) dT1; pj_c2p := fun i => nmul N (j2 i) (p2 dT1);
       pj_d2p := fun i => nadd N (nmul N (j6 i) (p3 dT1)) (d1p i);
       pj_d3v := fun i => nmul N (d1j i) (p2 dT1); pj_c3p := fun i => nmul N (d1j i) (p2 dT1);
       pj_d3p := fun i => nadd N (nmul N (d1j i) (p3 dT1)) (d1p i);
       pj_d4j := fun i => nopp N (d1j i); pj_c4a := fun i => nopp N (d1j i); pj_b4v := nj2;
       pj_d4v := fun i => nmul N (d1j i) (p2 dT1); pj_a4p := nj6; pj_c4p := fun i => nmul N (d1j i) (p2 dT1);
       pj_d4p := fun i => nadd N (nmul N (d1j i) (nadd N (nmul N (p2 dT1) dT2) (p3 dT1))) (d1p i);
       pj_d5j := d1j; pj_c5a := d1j; pj_d5a := fun i => nmul N (nopp N (d1j i)) dT1;
       pj_b5v := j2; pj_c5v := fun i => nmul N (nopp N (d1j i)) dT1; pj_d5v := fun i => nmul N (j2 i) (p2 dT1);
       pj_a5p := j6; pj_b5p := fun i => nmul N (nj2 i) dT1; pj_c5p := fun i => nmul N (j2 i) (p2 dT1);
       pj_d5p := fun i => nadd N (nmul N (d1j i) (nadd N (nmul N (p2 dT1) dT2) (nmul N (lit N 11 6) (p3 dT1)))) (d1p i);
       pj_endp := endp |}.
  Definition pj_make (dt : N) (start dist endp : nat -> N) (velNorm0 jerkNorm : N) : pj_plan :=
    let '(dT1, dT2) := pj_times dt velNorm0 jerkNorm in pj_coefs dT1 dT2 start dist endp.
  Definition pj_with
 (s : pj) (p : pj_plan) (y : dyn N out4) : pj :=
    {| pj_d := pj_d s; pj_dt := pj_dt s; pj_vmax := pj_vmax s; pj_jerk := pj_jerk s; pj_pl := p; pj_dy := y |}.
  (** Lines 187-272.  When the distance is zero only endPos has changed, which run() uses
      only while a motion is in progress; that assignment is left out. *)
  Definition pj_move (s : pj) (start endp : nat -> N) : pj * bool :=
    if negb (dy_fin (pj_dy s)) then (s, false) else
    let dist := fun i => nsub N (endp i) (start i) in
    if vzero N (pj_d s) dist then (s, false) else
    let norm := fun lim => vmin N (pj_d s) (fun i => nabs N (ndiv N (lim i) (dist i))) in
    let p := pj_make (pj_dt s) start dist endp (norm (pj_vmax s)) (norm (pj_jerk s)) in
    (pj_with s p {| dy_fin := false; dy_range := 1; dy_t := nofZ N 0; dy_last := dy_last (pj_dy s) |}, true).
  Definition pj_new (d : nat) (vmax jerk : nat -> N) (dt : N) (p0 : pj_plan) (r0 : Z) (t0 : N) : pj :=
    {| pj_d := d; pj_dt := dt; pj_vmax := vmax; pj_jerk := jerk; pj_pl := p0;
       pj_dy := {| dy_fin := true; dy_range := r0; dy_t := t0;
                   dy_last := fun _ => (nofZ N 0, nofZ N 0, nofZ N 0, nofZ N 0) |} |}.
End ConstJerk.
Arguments pj_dT1 {N}. Arguments pj_dT2 {N}. Arguments pj_endp {N}.
Arguments pj_d {N}. Arguments pj_dt {N}. Arguments pj_vmax {N}. Arguments pj_jerk {N}.
Arguments pj_pl {N}. Arguments pj_dy {N}.
