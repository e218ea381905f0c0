(** Properties C57-C60, C62, C117: matrix algebra over rings and fields. *)
From Verif Require Import Prelude Num MatModel MatProofs3.
From mathcomp Require Import all_ssreflect all_algebra.
From Verif Require Import MatRing MatInv MatRank MatCross MatMain.
Import GRing.Theory.
Local Open Scope ring_scope.
Local Notation mem := MatModel.mem.

(** C57: [toM M N a] is the mathcomp matrix whose element (m,n) is a[M*n+m]. *)
Theorem C57_product : forall (R : comUnitRingType) M N K (a b g : mem (Unum R)),
  exists r, m_mul (Unum R) M N K a b g = Ok r /\ toM M K r = toM M N a *m toM N K b.
Proof. exact mul_M. Qed.
Print Assumptions C57_product.
Theorem C57_sum : forall (R : comUnitRingType) M N (a b g : mem (Unum R)),
  (exists r, m_add (Unum R) M N a b g = Ok r /\ toM M N r = toM M N a + toM M N b) /\
  (exists r, m_sub (Unum R) M N a b g = Ok r /\ toM M N r = toM M N a - toM M N b) /\
  (exists r, m_neg (Unum R) M N a g = Ok r /\ toM M N r = - toM M N a).
Proof. exact (fun R M N a b g => conj (add_M M N a b g) (conj (sub_M M N a b g) (neg_M M N a g))). Qed.
Print Assumptions C57_sum.
Theorem C57_scalar : forall (R : comUnitRingType) M N (a g : mem (Unum R)) (c : R),
  (exists r, m_scale (Unum R) M N a c g = Ok r /\ toM M N r = c *: toM M N a) /\
  (exists r, m_lscale (Unum R) M N c a g = Ok r /\ toM M N r = c *: toM M N a) /\
  (exists r, m_div (Unum R) M N a c g = Ok r /\ toM M N r = c^-1 *: toM M N a).
Proof. exact (fun R M N a g c => conj (scale_M M N a c g) (conj (lscale_M M N c a g) (div_M M N a c g))). Qed.
Print Assumptions C57_scalar.
Theorem C57_transpose : forall (R : comUnitRingType) M N (a g : mem (Unum R)),
  exists r, m_transpose (Unum R) M N a g = Ok r /\ toM N M r = (toM M N a)^T.
Proof. exact transpose_M. Qed.
Print Assumptions C57_transpose.
Theorem C57_eye_zero : forall (R : comUnitRingType) M N (g : mem (Unum R)),
  (exists r, m_eye (Unum R) M M g = Ok r /\ toM M M r = 1%:M) /\ (exists r, m_zero (Unum R) M N g = Ok r /\ toM M N r = 0).
Proof. exact (fun R M N g => conj (@eye_M R M g) (@zero_M R M N g)). Qed.
Print Assumptions C57_eye_zero.
Theorem C57_associative : forall (R : comUnitRingType) M N K L (a b c g : mem (Unum R)), exists ab bc l r,
  m_mul (Unum R) M N K a b g = Ok ab /\ m_mul (Unum R) N K L b c g = Ok bc /\
  m_mul (Unum R) M K L ab c g = Ok l /\ m_mul (Unum R) M N L a bc g = Ok r /\ toM M L l = toM M L r.
Proof. exact law_assoc. Qed.
Print Assumptions C57_associative.
Theorem C57_distributive : forall (R : comUnitRingType) M N K (a b c g : mem (Unum R)), exists s l ac bc r,
  m_add (Unum R) M N a b g = Ok s /\ m_mul (Unum R) M N K s c g = Ok l /\
  m_mul (Unum R) M N K a c g = Ok ac /\ m_mul (Unum R) M N K b c g = Ok bc /\ m_add (Unum R) M K ac bc g = Ok r /\ toM M K l = toM M K r.
Proof. exact law_distr. Qed.
Print Assumptions C57_distributive.
Theorem C57_identity : forall (R : comUnitRingType) M N (a g : mem (Unum R)), exists e e' l r,
  m_eye (Unum R) M M g = Ok e /\ m_eye (Unum R) N N g = Ok e' /\
  m_mul (Unum R) M M N e a g = Ok l /\ m_mul (Unum R) M N N a e' g = Ok r /\ toM M N l = toM M N a /\ toM M N r = toM M N a.
Proof. exact law_eye. Qed.
Print Assumptions C57_identity.
Theorem C57_transpose_product : forall (R : comUnitRingType) M N K (a b g : mem (Unum R)), exists ab l ta tb r,
  m_mul (Unum R) M N K a b g = Ok ab /\ m_transpose (Unum R) M K ab g = Ok l /\
  m_transpose (Unum R) M N a g = Ok ta /\ m_transpose (Unum R) N K b g = Ok tb /\ m_mul (Unum R) K N M tb ta g = Ok r /\ toM K M l = toM K M r.
Proof. exact law_transpose. Qed.
Print Assumptions C57_transpose_product.
(** Every matrix is stored in some array, so the theorems speak about all matrices. *)
Example C57_example : forall (A : 'M[rat]_(2, 3)), exists a : mem Q, toM 2 3 a = A.
Proof. exact (@toM_surj _ 2 3). Qed.

(** C58 *)
Theorem C58_determinant : forall (R : comUnitRingType) M (a g : mem (Unum R)), (0 < M)%N -> m_det (Unum R) M a g = Ok (\det (toM M M a)).
Proof. exact det_M. Qed.
Print Assumptions C58_determinant.
Theorem C58_non_square : forall (T : num) M N (a g : mem T), PeanoNat.Nat.eqb M N = false -> m_det_any T M N a g = Fault.
Proof. exact (fun T M N a g E => @eq_ind_r bool false (fun b => (if b then m_det T M a g else Fault) = Fault) erefl _ E). Qed.
Print Assumptions C58_non_square.
Theorem C58_multiplicative : forall (R : comUnitRingType) M (a b g : mem (Unum R)), (0 < M)%N -> exists ab d e,
  m_mul (Unum R) M M M a b g = Ok ab /\ m_det (Unum R) M a g = Ok d /\ m_det (Unum R) M b g = Ok e /\ m_det (Unum R) M ab g = Ok (nmul (Unum R) d e).
Proof. exact law_det_mul. Qed.
Print Assumptions C58_multiplicative.
Example C58_example : m_det Q 4 eye4 (arr [::]) = Ok (1 : rat).
Proof. by vm_compute. Qed.

(** C59.  [good_order M]: M = 3 or M is a power of two (at least 2). *)
Theorem C59_inverse_partial : forall (F : fieldType) M (x g : mem (Unum F)), good_order M -> \det (toM M M x) != 0 ->
  exists r, m_inv (Unum F) M x g = Ok r /\ toM M M x *m toM M M r = 1%:M /\ toM M M r *m toM M M x = 1%:M.
Proof. exact inv_good. Qed.
Print Assumptions C59_inverse_partial.
Theorem C59_orthogonal_partial : forall (F : fieldType) M (x g : mem (Unum F)), (0 < M)%N -> toM M M x *m (toM M M x)^T = 1%:M ->
  exists r, m_inv (Unum F) M x g = Ok r /\ toM M M x *m toM M M r = 1%:M /\ toM M M r *m toM M M x = 1%:M.
Proof. exact inv_orth. Qed.
Print Assumptions C59_orthogonal_partial.
Theorem C59_singular : forall (F : fieldType) M (x g : mem (Unum F)), (0 < M)%N -> \det (toM M M x) = 0 -> m_inv (Unum F) M x g = Fault.
Proof. exact inv_singular. Qed.
Print Assumptions C59_singular.
Theorem C59_inverse_refuted : exists (M : nat) (x : mem Q), \det (toM M M x) != 0 /\
  forall g, exists r, m_inv Q M x g = Ok r /\ toM M M x *m toM M M r <> 1%:M.
Proof. exact (ex_intro _ 5%N (ex_intro _ diag5 (conj diag5_det diag5_wrong))). Qed.
Print Assumptions C59_inverse_refuted.
(** For every other order the result is never an inverse, unless the matrix is orthogonal. *)
Theorem C59_other_orders : forall (F : fieldType) M (x g : mem (Unum F)), (3 < M)%N -> (forall j, M <> PeanoNat.Nat.pow 2 j) ->
  \det (toM M M x) != 0 -> toM M M x *m (toM M M x)^T != 1%:M ->
  exists r, m_inv (Unum F) M x g = Ok r /\ toM M M x *m toM M M r <> 1%:M /\ toM M M r *m toM M M x <> 1%:M.
Proof. exact inv_other_wrong. Qed.
Print Assumptions C59_other_orders.
(** The 1 x 1 specialisation divides by zero instead of raising an exception. *)
Theorem C59_one_by_one_refuted : exists v : dbl, neqb Dnum v (dofZ 0) = true /\ one_inv Dnum v = SpecFloat.S754_infinity false.
Proof. exact (ex_intro _ (dofZ 0) (conj (erefl true) (erefl (SpecFloat.S754_infinity false)))). Qed.
Print Assumptions C59_one_by_one_refuted.
Example C59_example : \det (toM 4 4 eye4) != 0.
Proof. have : m_det Q 4 eye4 (arr [::]) = Ok (1 : rat) by vm_compute. rewrite det_M // => -[->]. by []. Qed.

(** C60.  [part M k k s] is the upper left k x k part of the sorted matrix. *)
Theorem C60_rank_partial : forall (F : fieldType) M N r (x : mem (Unum F)), (r <= M)%N -> (r <= N)%N -> \rank (toM M N x) = r ->
  exists s, sort_gauss (Unum F) M N x = Ok s /\ rows_permuted (Unum F) M N x s /\
    ((forall k, (k <= r)%N -> \det (part M k k s) != 0) -> m_rank (Unum F) M N x = Ok r).
Proof. exact rank_good. Qed.
Print Assumptions C60_rank_partial.
Theorem C60_rank_too_small_refuted : exists (M N : nat) (x : mem Q), m_rank Q M N x = Ok 3%N /\ \rank (toM M N x) = 4%N.
Proof. exact (ex_intro _ 4%N (ex_intro _ 4%N (ex_intro _ eye4 eye4_rank))). Qed.
Print Assumptions C60_rank_too_small_refuted.
Theorem C60_rank_too_large_refuted : exists (M N : nat) (x : mem Q), m_rank Q M N x = Ok 2%N /\ \rank (toM M N x) = 1%N.
Proof. exact (ex_intro _ 2%N (ex_intro _ 2%N (ex_intro _ two_equal two_equal_rank))). Qed.
Print Assumptions C60_rank_too_large_refuted.
Theorem C60_one_by_one_refuted : exists v : rat, v != 0 /\ one_rank Q v = 0%N /\ one_rank Q (0 : rat) = 1%N.
Proof. exact (ex_intro _ (1 : rat) (conj (oner_neq0 _) (conj (erefl 0%N) (erefl 1%N)))). Qed.
Print Assumptions C60_one_by_one_refuted.
Example C60_example : m_rank Q 3 3 ex_rank = Ok 2%N.
Proof. exact ex_rank_ok. Qed.

(** C62 *)
Theorem C62_cross_product : forall (R : comUnitRingType) (a b g : mem (Unum R)), exists r, m_cross (Unum R) a b g = Ok r /\ is_cross a b r.
Proof. exact cross_ok. Qed.
Print Assumptions C62_cross_product.
Theorem C62_perpendicular : forall (R : comUnitRingType) (a b r : mem (Unum R)), is_cross a b r -> dot a r = 0 /\ dot b r = 0.
Proof. exact cross_perp. Qed.
Print Assumptions C62_perpendicular.
Theorem C62_anticommutative : forall (R : comUnitRingType) (a b r s : mem (Unum R)), is_cross a b r -> is_cross b a s -> forall i, (i < 3)%N -> comp r i = - comp s i.
Proof. exact cross_anti. Qed.
Print Assumptions C62_anticommutative.
Theorem C62_skew : forall (R : comUnitRingType) (a b g : mem (Unum R)), exists s r c,
  m_skew (Unum R) a g = Ok s /\ m_mul (Unum R) 3 3 1 s b g = Ok r /\ m_cross (Unum R) a b g = Ok c /\
  (toM 3 3 s)^T = - toM 3 3 s /\ forall i, (i < 3)%N -> comp r i = comp c i.
Proof. exact skew_cross. Qed.
Print Assumptions C62_skew.
Example C62_example : exists r, m_cross Q (arr [:: 1;0;0]%N) (arr [:: 0;1;0]%N) (arr [::]) = Ok r /\ r 2%N = (1 : rat).
Proof. have [r [E [_ [_ H]]]] := cross_ok (arr [:: 1;0;0]%N) (arr [:: 0;1;0]%N) (arr [::]). exists r. split; [exact E|exact H]. Qed.

(** C117 *)
Theorem C117_trace : forall (R : comUnitRingType) M (a : mem (Unum R)), m_trace (Unum R) M M a = Ok (\tr (toM M M a)).
Proof. exact trace_M. Qed.
Print Assumptions C117_trace.
Theorem C117_predicates : forall (R : comUnitRingType) M (a b g : mem (Unum R)),
  m_eq (Unum R) M M a b = Ok (toM M M a == toM M M b) /\ m_symmetric (Unum R) M a g = Ok (toM M M a == (toM M M a)^T) /\
  m_orthogonal (Unum R) M a g = Ok (toM M M a *m (toM M M a)^T == 1%:M).
Proof. exact (fun R M a b g => conj (eq_M M M a b) (conj (symmetric_M M a g) (orthogonal_M M a g))). Qed.
Print Assumptions C117_predicates.
(** The 1 x 1 specialisation does not know that -1 is orthogonal. *)
Theorem C117_orthogonal_refuted : exists v : rat, v * v = 1 /\ one_orthogonal Q v = false.
Proof. exact (ex_intro _ (-1 : rat) (conj (mulrNN 1 1) (erefl false))). Qed.
Print Assumptions C117_orthogonal_refuted.
Example C117_example : m_trace Q 4 4 eye4 = Ok (4 : rat) /\ m_symmetric Q 4 eye4 (arr [::]) = Ok false.
Proof. by split; vm_compute. Qed.
