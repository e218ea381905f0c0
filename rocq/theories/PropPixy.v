(** Property theorems: camera driver (C171 to C174). *)
From Coq Require Import Floats.SpecFloat Reals Lra.
From Verif Require Import Prelude Num PixyModel PixySpec PixyProofs.
Open Scope Z_scope.

(** C171: the data are valid exactly when all four dots are inside the window and the height is below the limit. *)
Theorem C171_valid_iff : forall (N : num) sqrt ds, valid N sqrt ds = true <->
  (forall i, (i < 4)%nat -> inside (ds i)) /\ nltb N (height N sqrt ds) (ndiv N (nofZ N 12) (nofZ N 10)) = true.
Proof. exact valid_ok. Qed.
Print Assumptions C171_valid_iff.
Example C171_example : let ds := fun i => nth i [(108, 104); (208, 104); (158, 54); (158, 154)] (0, 0) in
  valid Dnum dsqrt ds = true /\ valid Dnum dsqrt (fun i => if Nat.eqb i 2 then (158, 9) else ds i) = false.
Proof. vm_compute. split; reflexivity. Qed.

(** C172: data are valid only when the camera has detected the four markers. *)
Theorem C172_no_marker_refuted : exists prev atan2 mem,
  fst (fst (pixy_round Dnum dsqrt atan2 prev 0 mem)) = true.
Proof.
  exists None, (fun _ _ => dofZ 0), (fun i => nth i [(108, 104); (208, 104); (158, 54); (158, 154)] (0, 0)).
  vm_compute. reflexivity.
Qed.
Print Assumptions C172_no_marker_refuted.

(** C173: the filtered position recovers from a picture which could not be evaluated. *)
Theorem C173_infinite_for_ever_refuted : exists ds, forall atan2 rs,
  exists q, smooth_run Dnum None (raw_pose Dnum dsqrt atan2 ds :: rs) = Some q /\ nonfinite (p_x q).
Proof.
  exists (fun _ => (0, 0)). intros atan2 rs.
  change (smooth_run Dnum None (raw_pose Dnum dsqrt atan2 (fun _ => (0, 0)) :: rs))
    with (smooth_run Dnum (Some (raw_pose Dnum dsqrt atan2 (fun _ => (0, 0)))) rs).
  apply bad_run. unfold raw_pose. cbn [p_x]. vm_compute. exact I.
Qed.
Print Assumptions C173_infinite_for_ever_refuted.
(** Over the reals the filtered position stays in the range of the raw positions. *)
Theorem C173_range_partial : forall (lx hx ly hy lp hp : R) (rs : list (pose Rnum)) (q : pose Rnum),
  (forall r, In r rs -> within lx hx (p_x r) /\ within ly hy (p_y r) /\ within lp hp (p_phi r)) ->
  smooth_run Rnum None rs = Some q ->
  within lx hx (p_x q) /\ within ly hy (p_y q) /\ within lp hp (p_phi q).
Proof. exact smooth_range. Qed.
Print Assumptions C173_range_partial.
Example C173_example : exists q : pose Rnum,
  smooth_run Rnum None [Build_pose Rnum 0%R 0%R 0%R; Build_pose Rnum 1%R 0%R 0%R] = Some q.
Proof. eexists. reflexivity. Qed.

(** C174: while camera and markers do not move, the filtered position is the raw position. *)
Theorem C174_axes_refuted : exists (r q : pose Rnum), (forall n, smooth_run Rnum None (repeat r (S n)) = Some q) /\ p_x (out_pose Rnum q) <> p_x r.
Proof.
  exists (Build_pose Rnum 0%R 1%R 0%R), (Build_pose Rnum 0%R 1%R 0%R). split; [intros n; apply smooth_const|].
  cbn. match goal with |- ?a <> ?b => change (~ @eq R a b) end. lra.
Qed.
Print Assumptions C174_axes_refuted.
(** It is the raw position with x and y exchanged. *)
Theorem C174_constant_partial : forall (r : pose Rnum) n, exists q, smooth_run Rnum None (repeat r (S n)) = Some q /\
  p_x (out_pose Rnum q) = p_y r /\ p_y (out_pose Rnum q) = p_x r /\ p_phi (out_pose Rnum q) = p_phi r.
Proof. exact (fun r n => ex_intro _ r (conj (smooth_const r n) (conj eq_refl (conj eq_refl eq_refl)))). Qed.
Print Assumptions C174_constant_partial.
Example C174_example : smooth_run Rnum None (repeat (Build_pose Rnum 1%R 2%R 3%R) 3) = Some (Build_pose Rnum 1%R 2%R 3%R).
Proof. apply smooth_const. Qed.
