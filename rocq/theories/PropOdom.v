(** Properties C296-C297: the publisher of odometry messages. *)
From Coq Require Import Reals List String ZArith.
From Verif Require Import OdomModel OdomSpec OdomProofs.
Import ListNotations.
Local Open Scope list_scope.
Local Open Scope R_scope.

(** C296: one run publishes one message that says what the inputs say; the orientation is a unit quaternion that
    turns every vector as roll about x, then pitch about y, then yaw about z. *)
Theorem C296_message : forall b now p a l w c d, running b = true -> connected b p a l w c d ->
  exists m b', run b now = (b', [m], None) /\
    frame_id m = odomFrame b /\ child_frame_id m = robotBaseFrame b /\
    position m = fst p /\ linear m = fst l /\ angular m = fst w /\
    pose_cov m = fst c /\ twist_cov m = fst d /\
    (let q := orientation m in qx q * qx q + qy q * qy q + qz q * qz q + qw q * qw q = 1) /\
    (forall v, let '(roll, pitch, yaw) := fst a in
       qturn (orientation m) v = rotz yaw (roty pitch (rotx roll v))).
Proof. exact run_all. Qed.
Print Assumptions C296_message.

Theorem C296_fresh : forall b b' now, running b = running b' -> ins b = ins b' -> cp b = cp b' -> ct b = ct b' ->
  robotBaseFrame b = robotBaseFrame b' -> odomFrame b = odomFrame b' ->
  snd (fst (run b now)) = snd (fst (run b' now)) /\ snd (run b now) = snd (run b' now).
Proof. exact run_fresh. Qed.
Print Assumptions C296_fresh.

Theorem C296_stamp : forall b now m b', run b now = (b', [m], None) -> stamp m = now.
Proof. exact stamp_now. Qed.
Print Assumptions C296_stamp.

Example C296_nonvacuous : exists b now p a l w c d, running b = true /\ connected b p a l w c d /\
  fst p = (1, 0, 0) /\ now = 7%Z.
Proof.
  exists (demo "odo" (1, 0, 0) 5 (Some ([1], 5%Z))), 7%Z, ((1,0,0),5%Z), ((1,0,0),5%Z), ((1,0,0),5%Z), ((1,0,0),5%Z),
    ([1],5%Z), ([1],5%Z). repeat split.
Qed.

(** C297, wanted: with an unconnected input nothing is published and the fault names the block. *)
Theorem C297_names_refuted : exists name b now b' e, owned name b /\ running b = true /\ some_unconnected b /\
  run b now = (b', [], Some e) /\ e <> fault_in name.
Proof. exact named_refuted. Qed.
Print Assumptions C297_names_refuted.

Theorem C297_unconnected_partial : forall name b now, owned name b -> running b = true -> some_unconnected b ->
  exists b' e, run b now = (b', [], Some e) /\
    ((conn (ins b 0) = None \/ conn (ins b 1) = None \/ conn (ins b 2) = None \/ conn (ins b 3) = None) ->
     e = fault_in name).
Proof. exact run_unconnected. Qed.
Print Assumptions C297_unconnected_partial.

Theorem C297_covariance_partial : forall name b now p a l w, owned name b -> running b = true ->
  conn (ins b 0) = Some p -> conn (ins b 1) = Some a -> conn (ins b 2) = Some l -> conn (ins b 3) = Some w ->
  conn (cp b) = None \/ conn (ct b) = None ->
  exists b', run b now = (b', [], Some (fault_in "")).
Proof. exact cov_unnamed. Qed.
Print Assumptions C297_covariance_partial.

Theorem C297_not_running_partial : forall b now, running b = false -> run b now = (b, [], None).
Proof. exact off_quiet. Qed.
Print Assumptions C297_not_running_partial.

Example C297_nonvacuous : exists b, owned "odo" b /\ running b = true /\ some_unconnected b /\ conn (cp b) = None.
Proof.
  exists (demo "odo" (0, 0, 0) 5 None). split; [split; [|split]; reflexivity|].
  split; [reflexivity|]. split; [unfold some_unconnected; simpl; tauto|reflexivity].
Qed.
