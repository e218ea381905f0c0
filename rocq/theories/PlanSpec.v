(** Specification of point-to-point motions sampled once per cycle. *)
From Coq Require Import Reals Lia ZArith List.
From Verif Require Import Prelude.
Import ListNotations.
Open Scope R_scope.

(** A motion along a straight line: position, velocity, acceleration of component i when the
    normalised path parameter has value s, first derivative w and second derivative a. *)
Definition along (start dist : nat -> R) (q : R * R * R) (i : nat) : R * R * R :=
  let '(s, w, a) := q in (start i + dist i * s, dist i * w, dist i * a).

(** Trapezoidal velocity profile of unit area with durations T1, T2, T3: path parameter and
    its derivatives at time t of phase r. *)
Definition trapezoid (T1 T2 T3 : R) (r : Z) (t : R) : R * R * R :=
  let V := 1 / (T2 + (T1 + T3) / 2) in
  if Z.eqb r 1 then (V / T1 * (t * t) / 2, V / T1 * t, V / T1)
  else if Z.eqb r 2 then (V * T1 / 2 + V * t, V, 0)
  else (V * T1 / 2 + V * T2 + V * t - V / T3 * (t * t) / 2, V - V / T3 * t, - (V / T3)).

(** Planned outputs of the k-th cycle (k >= 1) of a motion with n1, n2, n3 cycles of
    acceleration, constant velocity and deceleration.  Without a constant velocity phase there
    is one additional cycle in which the position does not advance. *)
Definition acc_cycles (n1 n2 n3 : nat) : nat := n1 + Nat.max 1 n2 + n3.
Definition acc_cycle (dt : R) (start dist : nat -> R) (n1 n2 n3 k i : nat) : R * R * R :=
  let T1 := INR n1 * dt in let T2 := INR n2 * dt in let T3 := INR n3 * dt in
  let tr := trapezoid T1 T2 T3 in
  if (k <=? n1)%nat then along start dist (tr 1%Z (INR k * dt)) i
  else if (k <=? n1 + n2)%nat then along start dist (tr 2%Z (INR (k - n1) * dt)) i
  else if ((n2 =? 0) && (k =? n1 + 1))%nat then
    if (i =? 0)%nat then along start dist (tr 1%Z T1) i else along start dist (tr 3%Z 0) i
  else if (k <=? acc_cycles n1 n2 n3)%nat then along start dist (tr 3%Z (INR (k - n1 - Nat.max 1 n2) * dt)) i
  else (start i + dist i, 0, 0).

(** Profile of unit length with piecewise constant jerk +j, -j, 0, -j, +j in five phases of
    durations T1, T1, T2, T1, T1 (path parameter and three derivatives). *)
Definition along4 (start dist : nat -> R) (q : R * R * R * R) (i : nat) : R * R * R * R :=
  let '(s, w, a, j) := q in (start i + dist i * s, dist i * w, dist i * a, dist i * j).
Definition integrate (j T : R) (q : R * R * R) : R * R * R :=
  let '(s, w, a) := q in (s + w * T + a * (T * T) / 2 + j * (T * T * T) / 6, w + a * T + j * (T * T) / 2, a + j * T).
Definition jerk_profile (T1 T2 : R) (r : Z) (t : R) : R * R * R * R :=
  let J := 1 / (T2 + 2 * T1) / (T1 * T1) in
  let q0 := (0, 0, 0) in
  let q1 := integrate J T1 q0 in
  let q2 := integrate (- J) T1 q1 in
  let q3 := integrate 0 T2 q2 in
  let q4 := integrate (- J) T1 q3 in
  if Z.eqb r 1 then (integrate J t q0, J)
  else if Z.eqb r 2 then (integrate (- J) t q1, - J)
  else if Z.eqb r 3 then (integrate 0 t q2, 0)
  else if Z.eqb r 4 then (integrate (- J) t q3, - J)
  else (integrate J t q4, J).
Definition jerk_cycle (dt : R) (start dist : nat -> R) (n1 n2 k i : nat) : R * R * R * R :=
  let T1 := INR n1 * dt in let T2 := INR n2 * dt in
  let tr := jerk_profile T1 T2 in
  let at_ r j := along4 start dist (tr r (INR j * dt)) i in
  if (k <=? n1)%nat then at_ 1%Z k
  else if (k <=? 2 * n1)%nat then at_ 2%Z (k - n1)%nat
  else if (k <=? 2 * n1 + n2)%nat then at_ 3%Z (k - 2 * n1)%nat
  else if (k <=? 3 * n1 + n2)%nat then at_ 4%Z (k - 2 * n1 - n2)%nat
  else if (k <=? 4 * n1 + n2)%nat then at_ 5%Z (k - 3 * n1 - n2)%nat
  else (start i + dist i, 0, 0, 0).

(** A path given as a list of segments (number of cycles, constant jerk): the jerk active
    after k cycles and the exact integral of the piecewise constant jerk. *)
Fixpoint active (segs : list (nat * R)) (k : nat) : R :=
  match segs with
  | [] => 0
  | (n, j) :: rest => if Nat.ltb k n then j else active rest (k - n)
  end.
Fixpoint sample (dt : R) (segs : list (nat * R)) (q0 : R * R * R) (k : nat) : R * R * R :=
  match k with
  | O => q0
  | S k => integrate (active segs k) dt (sample dt segs q0 k)
  end.
Definition total (segs : list (nat * R)) : nat := fold_right (fun s m => fst s + m)%nat 0%nat segs.
(** A final segment without duration is still visited for one cycle. *)
Fixpoint visit (ns : list nat) : list nat :=
  match ns with [] => [] | [n] => [Nat.max 1 n] | n :: rest => n :: visit rest end.
