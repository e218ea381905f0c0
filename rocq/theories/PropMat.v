(** Properties C56, C61, C114-C116: matrix access, rotations, parts, initialiser, comparison. *)
From Coq Require Import Reals.
From Verif Require Import Prelude Num NumOrd MatModel MatProofs MatProofs4 MatRot.
Open Scope nat_scope.

(** C56 *)
Theorem C56_write_read : forall (T : num) M N (a : mem T) m n v, m < M -> n < N ->
  exists a', wr T M N a m n v = Ok a' /\ rd T M N a' m n = Ok v /\
    forall m' n', (m', n') <> (m, n) -> rd T M N a' m' n' = rd T M N a m' n'.
Proof.
  exact (fun T M N a m n v Hm Hn => ex_intro _ (upd a (M * n + m) v) (conj (wr_ok T M N a m n v Hm Hn)
    (conj (rd_wr_same T M N a _ m n v (wr_ok T M N a m n v Hm Hn))
          (fun m' n' => rd_wr_other T M N a _ m n v m' n' (wr_ok T M N a m n v Hm Hn))))).
Qed.
Print Assumptions C56_write_read.
Theorem C56_out_of_range : forall (T : num) M N (a : mem T) m n v, M <= m \/ N <= n -> rd T M N a m n = Fault /\ wr T M N a m n v = Fault.
Proof. exact (fun T M N a m n v H => conj (rd_out T M N a m n H) (wr_out T M N a m n v H)). Qed.
Print Assumptions C56_out_of_range.
Theorem C56_linear_out_of_range : forall (T : num) M N (a : mem T) i v, M * N <= i -> rd1 T M N a i = Fault /\ wr1 T M N a i v = Fault.
Proof. exact linear_out. Qed.
Print Assumptions C56_linear_out_of_range.
Theorem C56_column_major : forall (T : num) M N (a : mem T) i v, i < M * N ->
  rd1 T M N a i = rd T M N a (i mod M) (i / M) /\ wr1 T M N a i v = wr T M N a (i mod M) (i / M) v.
Proof. exact (fun T M N a i v H => conj (linear_rd T M N a i H) (linear_wr T M N a i v H)). Qed.
Print Assumptions C56_column_major.
(** The 1 x 1 specialisation takes its indices as uint8_t: index 256 is accepted. *)
Theorem C56_one_by_one_refuted : exists m n, 1 <= m /\ forall (T : num) (v : T), one_rd T v m n = Ok v.
Proof. exact (ex_intro _ 256 (ex_intro _ 0 (conj (proj1 (Nat.leb_le 1 256) eq_refl) one_wraps))). Qed.
Print Assumptions C56_one_by_one_refuted.
Example C56_example : rd Dnum 2 3 (fun i => dofZ (Z.of_nat i)) 1 2 = Ok (dofZ 5) /\ rd Dnum 2 3 (fun i => dofZ (Z.of_nat i)) 2 0 = Fault.
Proof. split; reflexivity. Qed.

(** C61 *)
Theorem C61_entries : forall axis al g, axis < 3 -> exists r, m_rot axis al g = Ok r /\ holds r (rot axis al).
Proof. exact rot_ok. Qed.
Print Assumptions C61_entries.
Theorem C61_orthogonal : forall axis al (r g : mem Rnum), axis < 3 -> holds r (rot axis al) ->
  m_orthogonal Rnum 3 r g = Ok true /\ m_det Rnum 3 r g = Ok 1%R.
Proof. exact (fun axis al r g Ha H => conj (rot_orthogonal axis al r g Ha H) (rot_det axis al r g Ha H)). Qed.
Print Assumptions C61_orthogonal.
Theorem C61_angles_add : forall axis al be (r s g : mem Rnum), axis < 3 -> holds r (rot axis al) -> holds s (rot axis be) ->
  exists p, m_mul Rnum 3 3 3 r s g = Ok p /\ holds p (rot axis (al + be)).
Proof. exact rot_mul. Qed.
Print Assumptions C61_angles_add.
Theorem C61_inverse : forall axis al (r g : mem Rnum), axis < 3 -> holds r (rot axis al) ->
  exists t, m_inv Rnum 3 r g = Ok t /\ holds t (rot axis (- al)).
Proof. exact rot_inv. Qed.
Print Assumptions C61_inverse.
Theorem C61_other_sizes : forall M N axis c s g, ~ (M = 3 /\ N = 3) ->
  (match axis with 0 => m_rotx Rnum M N c s g | 1 => m_roty Rnum M N c s g | _ => m_rotz Rnum M N c s g end) = Fault.
Proof. exact rot_other. Qed.
Print Assumptions C61_other_sizes.
(** Non-vacuity: the rotation about x by pi/2 takes the y axis to the z axis. *)
Example C61_example : rot 0 (PI / 2) 2 1 = 1%R /\ rot 0 (PI / 2) 1 1 = 0%R.
Proof. cbn [rot]. split; [apply sin_PI2|apply cos_PI2]. Qed.

(** C114 *)
Theorem C114_get : forall (T : num) M N (a g : mem T) k,
  (k < N -> exists r, m_getcol T M N a k g = Ok r /\ forall m, m < M -> r m = a (M * k + m)) /\
  (k < M -> exists r, m_getrow T M N a k g = Ok r /\ forall n, n < N -> r n = a (M * n + k)) /\
  (0 < M -> N <= k -> m_getcol T M N a k g = Fault) /\ (0 < N -> M <= k -> m_getrow T M N a k g = Fault).
Proof. exact (fun T M N a g k => conj (getcol_ok T M N a g k) (conj (getrow_ok T M N a g k) (conj (getcol_out T M N a g k) (getrow_out T M N a g k)))). Qed.
Print Assumptions C114_get.
Theorem C114_set : forall (T : num) M N (a : mem T) k v,
  (k < N -> exists r, m_setcol T M N a k v = Ok r /\ forall m n', m < M -> n' < N -> r (M * n' + m) = if n' =? k then v m else a (M * n' + m)) /\
  (k < M -> exists r, m_setrow T M N a k v = Ok r /\ forall m' n, m' < M -> n < N -> r (M * n + m') = if m' =? k then v n else a (M * n + m')).
Proof. exact (fun T M N a k v => conj (setcol_ok T M N a k v) (setrow_ok T M N a k v)). Qed.
Print Assumptions C114_set.
Theorem C114_sub_matrix : forall (T : num) M N U V (a g : mem T) m n, (Z.of_nat M < 2147483648)%Z -> (Z.of_nat N < 2147483648)%Z -> m + U <= M -> n + V <= N ->
  exists r, m_sub_matrix T M N U V a m n g = Ok r /\ forall u v, u < U -> v < V -> r (U * v + u) = a (M * (n + v) + (m + u)).
Proof. exact sub_in. Qed.
Print Assumptions C114_sub_matrix.
Theorem C114_sub_matrix_out : forall (T : num) M N U V (a g : mem T) m n, 0 < U -> 0 < V -> U <= M -> V <= N ->
  (Z.of_nat M < 2147483648)%Z -> (Z.of_nat N < 2147483648)%Z -> (Z.of_nat m < 4294967296)%Z -> (Z.of_nat n < 4294967296)%Z ->
  M < m + U \/ N < n + V -> m_sub_matrix T M N U V a m n g = Fault.
Proof. exact sub_out. Qed.
Print Assumptions C114_sub_matrix_out.
(** setCol with a std::vector: a vector that is too short is read past its end. *)
Theorem C114_set_vector_partial : forall (T : num) M N (a : mem T) n col, n < N -> M <= length col -> exists r, m_setcol_vec T M N a n col = Ok r /\
  forall m n', m < M -> n' < N -> Some (r (M * n' + m)) = if n' =? n then nth_error col m else Some (a (M * n' + m)).
Proof. exact setcol_vec_ok. Qed.
Print Assumptions C114_set_vector_partial.
Theorem C114_set_vector_refuted : exists M N n (col : list R), n < N /\ length col <> M /\ forall a, m_setcol_vec Rnum M N a n col = UB.
Proof.
  exact (ex_intro _ 1 (ex_intro _ 1 (ex_intro _ 0 (ex_intro _ nil (conj (le_n 1) (conj (O_S 0) (fun a => setcol_vec_ub Rnum 1 1 a 0 nil (le_n 1) (le_n 1)))))))).
Qed.
Print Assumptions C114_set_vector_refuted.
Example C114_example : exists r, m_sub_matrix Dnum 3 3 2 2 (fun i => dofZ (Z.of_nat i)) 1 1 (fun _ => dnan) = Ok r /\ r 0 = dofZ 4 /\ r 3 = dofZ 8.
Proof. destruct (C114_sub_matrix Dnum 3 3 2 2 (fun i => dofZ (Z.of_nat i)) (fun _ => dnan) 1 1 eq_refl eq_refl (le_n 3) (le_n 3)) as (r & E & H). exists r. split; [exact E|]. split; [apply (H 0 0); lia|apply (H 1 1); lia]. Qed.

(** C115 *)
Theorem C115_init : forall (T : num) M N (a : mem T) vs, length vs <= M * N -> exists r, m_init T M N a vs = Ok r /\
  forall m n, m < M -> n < N -> r (M * n + m) = nth (m * N + n) vs (a (M * n + m)).
Proof. exact init_ok. Qed.
Print Assumptions C115_init.
Theorem C115_too_many : forall (T : num) M N (a : mem T) vs, 0 < N -> M * N < length vs -> m_init T M N a vs = Fault.
Proof. exact init_long. Qed.
Print Assumptions C115_too_many.
Example C115_example : m_init Dnum 1 1 (fun _ => dnan) [dofZ 1; dofZ 2] = Fault.
Proof. reflexivity. Qed.

(** C116 *)
Theorem C116_less_partial : forall (T : num) (ok : T -> Prop), ord_laws T ok -> forall M N (a b : mem T), (forall i, i < M * N -> ok (a i) /\ ok (b i)) ->
  exists r, m_lt T M N a b = Ok r /\ (r = true <-> forall m n, m < M -> n < N -> nltb T (a (M * n + m)) (b (M * n + m)) = true).
Proof. exact rel_lt. Qed.
Print Assumptions C116_less_partial.
Theorem C116_less_equal_partial : forall (T : num) (ok : T -> Prop), ord_laws T ok -> forall M N (a b : mem T), (forall i, i < M * N -> ok (a i) /\ ok (b i)) ->
  exists r, m_le T M N a b = Ok r /\ (r = true <-> forall m n, m < M -> n < N -> nleb T (a (M * n + m)) (b (M * n + m)) = true).
Proof. exact rel_le. Qed.
Print Assumptions C116_less_equal_partial.
(** With doubles a matrix of NaN is both less and greater than itself. *)
Theorem C116_less_refuted : exists a : mem Dnum, m_lt Dnum 2 1 a a = Ok true /\ m_gt Dnum 2 1 a a = Ok true /\ m_eq Dnum 2 1 a a = Ok false.
Proof. exact (ex_intro _ (fun _ => dnan) (conj eq_refl (conj eq_refl eq_refl))). Qed.
Print Assumptions C116_less_refuted.
Example C116_example : m_lt Dnum 2 1 (fun i => dofZ (Z.of_nat i)) (fun i => dofZ (Z.of_nat i + 1)) = Ok true /\
  m_lt Dnum 2 1 (fun i => dofZ (Z.of_nat i)) (fun i => dofZ 1) = Ok false.
Proof. split; vm_compute; reflexivity. Qed.

(** C117 (isDiagonal, isLowerTriangular, isUpperTriangular; the others are in PropMat2) *)
Theorem C117_diagonal : forall (T : num) M N (a : mem T), exists r, m_diagonal T M N a = Ok r /\
  (r = true <-> forall m n, m < M -> n < N -> m <> n -> neqb T (a (M * n + m)) (nofZ T 0) = true).
Proof. exact diagonal_ok. Qed.
Print Assumptions C117_diagonal.
Theorem C117_lower_triangular : forall (T : num) M N (a : mem T), exists r, m_lower T M N a = Ok r /\
  (r = true <-> forall m n, m < M -> n < N -> m < n -> neqb T (a (M * n + m)) (nofZ T 0) = true).
Proof. exact lower_ok. Qed.
Print Assumptions C117_lower_triangular.
Theorem C117_upper_triangular : forall (T : num) M N (a : mem T), exists r, m_upper T M N a = Ok r /\
  (r = true <-> forall m n, m < M -> n < N -> n < m -> neqb T (a (M * n + m)) (nofZ T 0) = true).
Proof. exact upper_ok. Qed.
Print Assumptions C117_upper_triangular.
Example C117_pattern_example : m_diagonal Dnum 2 2 (fun i => if Nat.eqb i 1 then dofZ 1 else dofZ 0) = Ok false /\
  m_lower Dnum 2 2 (fun i => if Nat.eqb i 1 then dofZ 1 else dofZ 0) = Ok true /\ m_upper Dnum 2 2 (fun i => if Nat.eqb i 1 then dofZ 1 else dofZ 0) = Ok false.
Proof. split; [|split]; reflexivity. Qed.
