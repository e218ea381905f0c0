(** Model of the Kalman filter, /repo/includes/eeros/control/filter/KalmanFilter.hpp 85-256.
    The numbers of inputs, outputs, states and random variables are [ni no ns nr]; matrices are arrays as in MatModel. Memory
    that the matrix operators declare without initialising it has arbitrary contents [g]. The input signals are arguments,
    the output is the estimate. With one state the class cannot be instantiated (Matrix<1,1> has no transpose), with one
    output the inverse is that of the specialisation Matrix<1,1>. *)
From Verif Require Import Prelude Num MatModel.
Open Scope nat_scope.

Section Kalman.
Context (T : num).
Notation mem := (mem T).
Record filter := {
  k_A : mem; k_B : mem; k_C : mem; k_D : mem;   (* Ad, Bd, C, D *)
  k_GQG : mem;                                  (* GdQGdT *)
  k_R : mem
}.
Record state := { k_x : mem; k_P : mem; k_first : bool }.
Section Dim.
Context (ni no ns nr : nat) (g : mem).
(** 156-168: the third constructor *)
Definition construct (A B C D G Q R P x : mem) : outcome (filter * state) :=
  bind (m_mul T ns nr nr G Q g) (fun GQ => bind (m_transpose T ns nr G g) (fun Gt => bind (m_mul T ns nr ns GQ Gt g) (fun GQG =>
    Ok ({| k_A := A; k_B := B; k_C := C; k_D := D; k_GQG := GQG; k_R := R |}, {| k_x := x; k_P := P; k_first := true |})))).
(** 102-114 and 129-141: zero state, identity covariance (the documentation says 0), and D = 0 *)
Definition construct_default (A B C G Q R : mem) : outcome (filter * state) :=
  bind (m_zero T no ni g) (fun D => bind (m_zero T ns 1 g) (fun x => bind (m_eye T ns ns g) (fun P => construct A B C D G Q R P x))).
(** 212-224 *)
Definition prediction (f : filter) (u : mem) (s : state) : outcome state :=
  bind (m_mul T ns ns 1 (k_A f) (k_x s) g) (fun Ax => bind (m_mul T ns ni 1 (k_B f) u g) (fun Bu => bind (m_add T ns 1 Ax Bu g) (fun x =>
    bind (m_mul T ns ns ns (k_A f) (k_P s) g) (fun AP => bind (m_transpose T ns ns (k_A f) g) (fun At => bind (m_mul T ns ns ns AP At g) (fun APA =>
      bind (m_add T ns ns APA (k_GQG f) g) (fun P => Ok {| k_x := x; k_P := P; k_first := k_first s |}))))))).
Definition inverse (S : mem) : outcome mem := if no =? 1 then Ok (fun i => one_inv T (S i)) else m_inv T no S g.
(** 246-248: K, and P C^T + ... *)
Definition gain (f : filter) (P : mem) : outcome mem :=
  bind (m_mul T no ns ns (k_C f) P g) (fun CP => bind (m_transpose T no ns (k_C f) g) (fun Ct => bind (m_mul T no ns no CP Ct g) (fun CPC =>
    bind (m_add T no no CPC (k_R f) g) (fun S => bind (m_mul T ns ns no P Ct g) (fun PCt => bind (inverse S) (fun Si => m_mul T ns no no PCt Si g)))))).
(** 229-256 *)
Definition correction (f : filter) (y u : mem) (s : state) : outcome state :=
  if k_first s then Ok {| k_x := k_x s; k_P := k_P s; k_first := false |}
  else bind (gain f (k_P s)) (fun K =>
    bind (m_mul T no ns 1 (k_C f) (k_x s) g) (fun Cx => bind (m_sub T no 1 y Cx g) (fun d => bind (m_mul T no ni 1 (k_D f) u g) (fun Du => bind (m_sub T no 1 d Du g) (fun dy =>
      bind (m_mul T ns no 1 K dy g) (fun Kd => bind (m_add T ns 1 (k_x s) Kd g) (fun x =>
        bind (m_eye T ns ns g) (fun E => bind (m_mul T ns no ns K (k_C f) g) (fun KC => bind (m_sub T ns ns E KC g) (fun I =>
          bind (m_mul T ns ns ns I (k_P s) g) (fun P => Ok {| k_x := x; k_P := P; k_first := false |}))))))))))).
Inductive event := Predict (u : mem) | Correct (y u : mem).
Definition step (f : filter) (e : event) (s : state) : outcome state :=
  match e with Predict u => prediction f u s | Correct y u => correction f y u s end.
Fixpoint run (f : filter) (es : list event) (s : state) : outcome state :=
  match es with [] => Ok s | e :: es => bind (step f e s) (run f es) end.
End Dim.
End Kalman.
Arguments k_A {T}. Arguments k_B {T}. Arguments k_C {T}. Arguments k_D {T}. Arguments k_GQG {T}. Arguments k_R {T}.
Arguments k_x {T}. Arguments k_P {T}. Arguments k_first {T}. Arguments Predict {T}. Arguments Correct {T}.
