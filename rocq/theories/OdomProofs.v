From Coq Require Import Reals List String ZArith Lra Bool.
From Verif Require Import OdomModel OdomSpec.
Import ListNotations.
Local Open Scope list_scope.
Local Open Scope R_scope.

Lemma dbl_c : forall h, cos (2 * h) = cos h * cos h - sin h * sin h.
Proof. exact cos_2a. Qed.
Lemma dbl_s : forall h, sin (2 * h) = 2 * sin h * cos h.
Proof. exact sin_2a. Qed.
Lemma sc1 : forall h, sin h * sin h + cos h * cos h = 1.
Proof. intro h. exact (sin2_cos2 h). Qed.

Lemma rpy_unit : forall r p y, let q := setRPY r p y in
  qx q * qx q + qy q * qy q + qz q * qz q + qw q * qw q = 1.
Proof.
  intros. subst q. unfold setRPY; simpl.
  pose proof (sc1 (y * / 2)) as A. pose proof (sc1 (p * / 2)) as B. pose proof (sc1 (r * / 2)) as C.
  set (cy := cos (y * / 2)) in *. set (sy := sin (y * / 2)) in *.
  set (cp := cos (p * / 2)) in *. set (sp := sin (p * / 2)) in *.
  set (cr := cos (r * / 2)) in *. set (sr := sin (r * / 2)) in *.
  transitivity ((sy * sy + cy * cy) * (sp * sp + cp * cp) * (sr * sr + cr * cr)); [ring|].
  rewrite A, B, C. ring.
Qed.

Definition qx1 (h : R) : quat := {| qw := cos h; qx := sin h; qy := 0; qz := 0 |}.
Definition qy1 (h : R) : quat := {| qw := cos h; qx := 0; qy := sin h; qz := 0 |}.
Definition qz1 (h : R) : quat := {| qw := cos h; qx := 0; qy := 0; qz := sin h |}.

Lemma quat_eq : forall p q, qw p = qw q -> qx p = qx q -> qy p = qy q -> qz p = qz q -> p = q.
Proof. intros [] [] ; simpl; intros; subst; reflexivity. Qed.

Lemma rpy_prod : forall r p y, setRPY r p y = qmul (qmul (qz1 (y * / 2)) (qy1 (p * / 2))) (qx1 (r * / 2)).
Proof. intros. apply quat_eq; unfold setRPY, qmul, qx1, qy1, qz1; simpl; ring. Qed.

Lemma turn_mul : forall p q v, qturn (qmul p q) v = qturn p (qturn q v).
Proof.
  intros [] [] [[x y] z]. unfold qturn, qmul, qconj; simpl.
  apply f_equal2; [apply f_equal2|]; ring.
Qed.

Lemma v3_eq : forall a b c x y z : R, a = x -> b = y -> c = z -> (a, b, c) = (x, y, z).
Proof. intros; subst; reflexivity. Qed.

Lemma turn_x : forall h v, qturn (qx1 h) v = rotx (2 * h) v.
Proof.
  intros h [[x y] z]. pose proof (sc1 h) as H.
  unfold qturn, qmul, qconj, qx1, rotx; simpl. rewrite dbl_c, dbl_s.
  apply v3_eq; try ring.
  transitivity ((sin h * sin h + cos h * cos h) * x); [ring|rewrite H; ring].
Qed.
Lemma turn_y : forall h v, qturn (qy1 h) v = roty (2 * h) v.
Proof.
  intros h [[x y] z]. pose proof (sc1 h) as H.
  unfold qturn, qmul, qconj, qy1, roty; simpl. rewrite dbl_c, dbl_s.
  apply v3_eq; try ring.
  transitivity ((sin h * sin h + cos h * cos h) * y); [ring|rewrite H; ring].
Qed.
Lemma turn_z : forall h v, qturn (qz1 h) v = rotz (2 * h) v.
Proof.
  intros h [[x y] z]. pose proof (sc1 h) as H.
  unfold qturn, qmul, qconj, qz1, rotz; simpl. rewrite dbl_c, dbl_s.
  apply v3_eq; try ring.
  transitivity ((sin h * sin h + cos h * cos h) * z); [ring|rewrite H; ring].
Qed.

Lemma rpy_turn : forall r p y v, qturn (setRPY r p y) v = rotz y (roty p (rotx r v)).
Proof.
  intros. rewrite rpy_prod, !turn_mul, turn_x, turn_y, turn_z.
  replace (2 * (y * / 2)) with y by field. replace (2 * (p * / 2)) with p by field.
  replace (2 * (r * / 2)) with r by field. reflexivity.
Qed.

Lemma run_all : forall b now p a l w c d, running b = true -> connected b p a l w c d ->
  exists m b', run b now = (b', [m], None) /\
    frame_id m = odomFrame b /\ child_frame_id m = robotBaseFrame b /\
    position m = fst p /\ linear m = fst l /\ angular m = fst w /\
    pose_cov m = fst c /\ twist_cov m = fst d /\
    (let q := orientation m in qx q * qx q + qy q * qy q + qz q * qz q + qw q * qw q = 1) /\
    (forall v, let '(roll, pitch, yaw) := fst a in
       qturn (orientation m) v = rotz yaw (roty pitch (rotx roll v))).
Proof.
  intros b now p a l w c d Hr (H0 & H1 & H2 & H3 & H4 & H5).
  unfold run, setRosMsg, assign, getSignal. rewrite Hr, H0, H1, H2, H3, H4, H5.
  do 2 eexists. split; [reflexivity|].
  cbv [frame_id child_frame_id position linear angular pose_cov twist_cov orientation with_head with_position
       with_orientation with_linear with_angular with_pose_cov with_twist_cov].
  repeat (split; [reflexivity|]). split.
  - exact (rpy_unit _ _ _).
  - intro v. destruct (fst a) as [[ro pi] ya]. exact (rpy_turn ro pi ya v).
Qed.

(** The message kept from the run before has no influence. *)
Lemma run_fresh : forall b b' now, running b = running b' -> ins b = ins b' -> cp b = cp b' -> ct b = ct b' ->
  robotBaseFrame b = robotBaseFrame b' -> odomFrame b = odomFrame b' ->
  snd (fst (run b now)) = snd (fst (run b' now)) /\ snd (run b now) = snd (run b' now).
Proof.
  intros b b' now E1 E2 E3 E4 E5 E6. unfold run, setRosMsg, assign. rewrite <- E1, <- E2, <- E3, <- E4, <- E5, <- E6.
  destruct (running b); [|split; reflexivity].
  destruct (getSignal (ins b 0)); [|split; reflexivity].
  destruct (getSignal (ins b 1)); [|split; reflexivity].
  destruct (getSignal (ins b 2)); [|split; reflexivity].
  destruct (getSignal (ins b 3)); [|split; reflexivity].
  destruct (getSignal (cp b)); [|split; reflexivity].
  destruct (getSignal (ct b)); [|split; reflexivity].
  split; reflexivity.
Qed.

Lemma off_quiet : forall b now, running b = false -> run b now = (b, [], None).
Proof. intros b now H. unfold run. rewrite H. reflexivity. Qed.

Lemma run_unconnected : forall name b now, owned name b -> running b = true -> some_unconnected b ->
  exists b' e, run b now = (b', [], Some e) /\
    ((conn (ins b 0) = None \/ conn (ins b 1) = None \/ conn (ins b 2) = None \/ conn (ins b 3) = None) ->
     e = fault_in name).
Proof.
  intros name b now (O1 & O2 & O3) Hr U. unfold run, setRosMsg, assign, getSignal. rewrite Hr.
  rewrite !O1.
  destruct (conn (ins b 0)) eqn:E0; [|do 2 eexists; split; [reflexivity|intro; reflexivity]].
  destruct (conn (ins b 1)) eqn:E1; [|do 2 eexists; split; [reflexivity|intro; reflexivity]].
  destruct (conn (ins b 2)) eqn:E2; [|do 2 eexists; split; [reflexivity|intro; reflexivity]].
  destruct (conn (ins b 3)) eqn:E3; [|do 2 eexists; split; [reflexivity|intro; reflexivity]].
  assert (X : ~ (Some s = None \/ Some s0 = None \/ Some s1 = None \/ Some s2 = None))
    by (intros [H|[H|[H|H]]]; discriminate H).
  destruct (conn (cp b)) eqn:E4; [|do 2 eexists; split; [reflexivity|intro Y; destruct (X Y)]].
  destruct (conn (ct b)) eqn:E5; [|do 2 eexists; split; [reflexivity|intro Y; destruct (X Y)]].
  destruct U as [U|[U|[U|[U|[U|U]]]]]; congruence.
Qed.

Lemma cov_unnamed : forall name b now p a l w, owned name b -> running b = true ->
  conn (ins b 0) = Some p -> conn (ins b 1) = Some a -> conn (ins b 2) = Some l -> conn (ins b 3) = Some w ->
  conn (cp b) = None \/ conn (ct b) = None ->
  exists b', run b now = (b', [], Some (fault_in "")).
Proof.
  intros name b now p a l w (O1 & O2 & O3) Hr E0 E1 E2 E3 U. unfold run, setRosMsg, assign, getSignal.
  rewrite Hr, E0, E1, E2, E3, O2, O3.
  destruct (conn (cp b)) eqn:E4; [|eexists; reflexivity].
  destruct (conn (ct b)) eqn:E5; [|eexists; reflexivity].
  destruct U as [U|U]; discriminate U.
Qed.

(** Witnesses. *)
Definition q0 : quat := {| qx := 0; qy := 0; qz := 0; qw := 0 |}.
Definition m0 : odometry := {| frame_id := ""; stamp := 0%Z; child_frame_id := "";
  position := (0, 0, 0); orientation := q0; linear := (0, 0, 0); angular := (0, 0, 0); pose_cov := []; twist_cov := [] |}.
Definition demo (name : string) (v : v3) (ts : Z) (c : option (sig (list R))) : block :=
  {| running := true; msg := m0; ins := fun _ => {| owner := Some name; conn := Some (v, ts) |};
     cp := {| owner := None; conn := c |}; ct := {| owner := None; conn := c |};
     robotBaseFrame := "base"; odomFrame := "odom" |}.

Lemma named_refuted : exists name b now b' e, owned name b /\ running b = true /\ some_unconnected b /\
  run b now = (b', [], Some e) /\ e <> fault_in name.
Proof.
  exists "odo"%string, (demo "odo" (0, 0, 0) 5 None), 7%Z.
  destruct (cov_unnamed "odo" (demo "odo" (0, 0, 0) 5 None) 7 ((0,0,0),5%Z) ((0,0,0),5%Z) ((0,0,0),5%Z) ((0,0,0),5%Z))
    as [b' E]; try reflexivity.
  - split; [|split]; reflexivity.
  - left; reflexivity.
  - exists b', (fault_in ""). split; [split; [|split]; reflexivity|].
    split; [reflexivity|]. split; [unfold some_unconnected; simpl; tauto|]. split; [exact E|discriminate].
Qed.

Lemma stamp_now : forall b now m b', run b now = (b', [m], None) -> stamp m = now.
Proof.
  intros b now m b'. unfold run, setRosMsg, assign. destruct (running b); [|discriminate].
  destruct (getSignal (ins b 0)); [|discriminate].
  destruct (getSignal (ins b 1)); [|discriminate].
  destruct (getSignal (ins b 2)); [|discriminate].
  destruct (getSignal (ins b 3)); [|discriminate].
  destruct (getSignal (cp b)); [|discriminate].
  destruct (getSignal (ct b)); [|discriminate].
  intro H. injection H as <- <-. reflexivity.
Qed.
