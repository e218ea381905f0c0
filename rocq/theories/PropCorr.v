(** Properties C149 and C150: correction of points by a mesh of triangles. *)
From Coq Require Import Reals Lra.
From Verif Require Import Prelude Num CorrModel CorrSpec CorrProofs.
Open Scope R_scope.

(** C149: get() never accesses memory outside its buffer. *)
Theorem C149_refuted : exists ts p, snd (load Rnum (file ts) (corr0 Rnum)) = true /\
  get Rnum (fst (load Rnum (file ts) (corr0 Rnum))) p = UB.
Proof. exact get_ub_witness. Qed.
Print Assumptions C149_refuted.
(** Every point of every triangle is affected. *)
Theorem C149_every_point_partial : forall ts p t u v w, In t ts -> proper t -> inside t p u v w ->
  get Rnum (fst (load Rnum (file ts) (corr0 Rnum))) p = UB.
Proof. exact get_ub. Qed.
Print Assumptions C149_every_point_partial.
Theorem C149_outside_partial : forall ts p, (forall t u v w, In t ts -> proper t -> ~ inside t p u v w) ->
  get Rnum (fst (load Rnum (file ts) (corr0 Rnum))) p = Ok p.
Proof. exact get_outside_code. Qed.
Print Assumptions C149_outside_partial.
Example C149_example : exists t p u v w, proper t /\ inside t p u v w.
Proof. exists unit_tri, (1 / 2, 1 / 4), (1 / 4), (1 / 2), (1 / 4). exact (conj unit_proper unit_inside). Qed.

(** C150: with a buffer which has an element for every triangle, a point is mapped as the corners of the triangle around it
    are mapped; points outside are unchanged. *)
Theorem C150_inside : forall ts size p q, (length ts <= size)%nat ->
  (exists t, In t ts /\ proper t /\ image t p q) -> (forall t q', In t ts -> proper t -> image t p q' -> q' = q) ->
  get Rnum {| co_maps := load_maps Rnum (file ts); co_size := size |} p = Ok q.
Proof. exact get_consistent. Qed.
Print Assumptions C150_inside.
Theorem C150_outside : forall ts size p, (forall t u v w, In t ts -> proper t -> ~ inside t p u v w) ->
  get Rnum {| co_maps := load_maps Rnum (file ts); co_size := size |} p = Ok p.
Proof. exact get_outside. Qed.
Print Assumptions C150_outside.
(** The corners are points with an image, and a triangle without area is not loaded. *)
Theorem C150_corners : forall t, image t (t_p0 t) (t_q0 t) /\ image t (t_p1 t) (t_q1 t) /\ image t (t_p2 t) (t_q2 t).
Proof. exact corner_image. Qed.
Print Assumptions C150_corners.
Example C150_example : exists q, image unit_tri (1 / 2, 1 / 4) q /\ q = (3 / 2, 3 / 2).
Proof.
  exists (weigh (1 / 4) (1 / 2) (1 / 4) (t_q0 unit_tri) (t_q1 unit_tri) (t_q2 unit_tri)). split.
  - exists (1 / 4), (1 / 2), (1 / 4). split; [exact unit_inside|reflexivity].
  - unfold weigh. cbn. apply f_equal2; lra.
Qed.
