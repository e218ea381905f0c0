(** The ROS2 publisher of odometry messages: includes/eeros/control/ros2/RosPublisherOdometry.hpp *)
From Coq Require Import Reals List String ZArith.
Import ListNotations.
Local Open Scope list_scope.
Local Open Scope R_scope.

(** A connected input sees a signal: its value and its time stamp (Signal.hpp). *)
Definition sig (A : Type) : Type := (A * Z)%type.

(** Input.hpp 27-34 and 82-87: the owner decides the name in the message of the fault; None: owner is nullptr.
    [inr m]: the thrown NotConnectedFault with text m. *)
Record input (A : Type) := { owner : option string; conn : option (sig A) }.
Arguments owner {A}. Arguments conn {A}.
Definition getSignal {A} (i : input A) : sig A + string :=
  match conn i with
  | Some s => inl s
  | None => inr (append "Read from an unconnected input in block '"
                   (append (match owner i with Some n => n | None => EmptyString end) "'"))
  end.

(** A Vector3 (Matrix.hpp). *)
Definition v3 : Type := (R * R * R)%type.

(** tf2::Quaternion after setRPY(roll, pitch, yaw): the ROS library (tf2/LinearMath/Quaternion.h), real numbers for double. *)
Record quat := { qx : R; qy : R; qz : R; qw : R }.
Definition setRPY (roll pitch yaw : R) : quat :=
  let hy := yaw * / 2 in let hp := pitch * / 2 in let hr := roll * / 2 in
  let cy := cos hy in let sy := sin hy in
  let cp := cos hp in let sp := sin hp in
  let cr := cos hr in let sr := sin hr in
  {| qx := sr * cp * cy - cr * sp * sy;
     qy := cr * sp * cy + sr * cp * sy;
     qz := cr * cp * sy - sr * sp * cy;
     qw := cr * cp * cy + sr * sp * sy |}.

(** nav_msgs/Odometry: header, child frame, pose and twist with covariances. *)
Record odometry := {
  frame_id : string; stamp : Z; child_frame_id : string;
  position : v3; orientation : quat; linear : v3; angular : v3;
  pose_cov : list R; twist_cov : list R }.

(** RosPublisherOdometry.hpp 47-49 and 107-111 with RosPublisher.hpp 34-42 and 59-64: the block.  [ins] are the four inputs
    of Blockio; [cp], [ct] the two inputs declared in lines 107-108, default constructed. *)
Record block := {
  running : bool; msg : odometry;
  ins : nat -> input v3; cp : input (list R); ct : input (list R);
  robotBaseFrame : string; odomFrame : string }.

(** Blockio.hpp: the constructor makes the block the owner of [ins]; lines 107-108 use Input(), Input.hpp 27. *)
Definition owned (name : string) (b : block) : Prop :=
  (forall k, owner (ins b k) = Some name) /\ owner (cp b) = None /\ owner (ct b) = None.

Definition with_head f t c m := {| frame_id := f; stamp := t; child_frame_id := c;
  position := position m; orientation := orientation m; linear := linear m; angular := angular m;
  pose_cov := pose_cov m; twist_cov := twist_cov m |}.
Definition with_position p m := {| frame_id := frame_id m; stamp := stamp m; child_frame_id := child_frame_id m;
  position := p; orientation := orientation m; linear := linear m; angular := angular m;
  pose_cov := pose_cov m; twist_cov := twist_cov m |}.
Definition with_orientation q m := {| frame_id := frame_id m; stamp := stamp m; child_frame_id := child_frame_id m;
  position := position m; orientation := q; linear := linear m; angular := angular m;
  pose_cov := pose_cov m; twist_cov := twist_cov m |}.
Definition with_linear p m := {| frame_id := frame_id m; stamp := stamp m; child_frame_id := child_frame_id m;
  position := position m; orientation := orientation m; linear := p; angular := angular m;
  pose_cov := pose_cov m; twist_cov := twist_cov m |}.
Definition with_angular p m := {| frame_id := frame_id m; stamp := stamp m; child_frame_id := child_frame_id m;
  position := position m; orientation := orientation m; linear := linear m; angular := p;
  pose_cov := pose_cov m; twist_cov := twist_cov m |}.
Definition with_pose_cov l m := {| frame_id := frame_id m; stamp := stamp m; child_frame_id := child_frame_id m;
  position := position m; orientation := orientation m; linear := linear m; angular := angular m;
  pose_cov := l; twist_cov := twist_cov m |}.
Definition with_twist_cov l m := {| frame_id := frame_id m; stamp := stamp m; child_frame_id := child_frame_id m;
  position := position m; orientation := orientation m; linear := linear m; angular := angular m;
  pose_cov := pose_cov m; twist_cov := l |}.

(** One assignment that reads an input: a fault leaves the message as it is at this point. *)
Definition assign {A} (i : input A) (f : A -> odometry -> odometry) (k : odometry -> odometry * option string)
  (m : odometry) : odometry * option string :=
  match getSignal i with inl s => k (f (fst s) m) | inr e => (m, Some e) end.

(** Lines 61-89 setRosMsg; [now] is clock->now().  Some e: left by the fault e. *)
Definition setRosMsg (b : block) (now : Z) (m : odometry) : odometry * option string :=
  assign (ins b 0) with_position
    (assign (ins b 1) (fun t => with_orientation (setRPY (fst (fst t)) (snd (fst t)) (snd t)))
      (assign (ins b 2) with_linear
        (assign (ins b 3) with_angular
          (assign (cp b) with_pose_cov
            (assign (ct b) with_twist_cov (fun m => (m, None)))))))
    (with_head (odomFrame b) now (robotBaseFrame b) m).

(** RosPublisher.hpp 59-64 run: the block afterwards, the published messages and the fault. *)
Definition run (b : block) (now : Z) : block * list odometry * option string :=
  if running b then
    let '(m, e) := setRosMsg b now (msg b) in
    let b' := {| running := running b; msg := m; ins := ins b; cp := cp b; ct := ct b;
                 robotBaseFrame := robotBaseFrame b; odomFrame := odomFrame b |} in
    match e with
    | None => (b', [m], None)
    | Some x => (b', [], Some x)
    end
  else (b, [], None).
