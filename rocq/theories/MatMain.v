(** Consequences of the ring view, and witnesses, stated for the property files. *)
From Verif Require Import Prelude Num MatModel MatProofs MatProofs2 MatProofs3.
From mathcomp Require Import all_ssreflect all_algebra.
From Verif Require Import MatRing MatInv MatRank MatCross.
Set Implicit Arguments. Unset Strict Implicit. Unset Printing Implicit Defensive.
Import GRing.Theory.
Local Open Scope ring_scope.
Local Notation mem := MatModel.mem.

Section Laws.
  Context (R : comUnitRingType).
  Notation T := (Unum R).
  Lemma law_assoc M N K L (a b c : mem T) g : exists ab bc l r, m_mul T M N K a b g = Ok ab /\ m_mul T N K L b c g = Ok bc /\
    m_mul T M K L ab c g = Ok l /\ m_mul T M N L a bc g = Ok r /\ toM M L l = toM M L r.
  Proof.
    have [ab [E1 H1]] := mul_M M N K a b g. have [bc [E2 H2]] := mul_M N K L b c g.
    have [l [E3 H3]] := mul_M M K L ab c g. have [r [E4 H4]] := mul_M M N L a bc g.
    exists ab, bc, l, r. do 4 split=> //. by rewrite H3 H4 H1 H2 mulmxA.
  Qed.
  Lemma law_distr M N K (a b : mem T) c g : exists s l ac bc r, m_add T M N a b g = Ok s /\ m_mul T M N K s c g = Ok l /\
    m_mul T M N K a c g = Ok ac /\ m_mul T M N K b c g = Ok bc /\ m_add T M K ac bc g = Ok r /\ toM M K l = toM M K r.
  Proof.
    have [s [E1 H1]] := add_M M N a b g. have [l [E2 H2]] := mul_M M N K s c g.
    have [ac [E3 H3]] := mul_M M N K a c g. have [bc [E4 H4]] := mul_M M N K b c g. have [r [E5 H5]] := add_M M K ac bc g.
    exists s, l, ac, bc, r. do 5 split=> //. by rewrite H2 H5 H1 H3 H4 mulmxDl.
  Qed.
  Lemma law_eye M N (a : mem T) g : exists e e' l r, m_eye T M M g = Ok e /\ m_eye T N N g = Ok e' /\
    m_mul T M M N e a g = Ok l /\ m_mul T M N N a e' g = Ok r /\ toM M N l = toM M N a /\ toM M N r = toM M N a.
  Proof.
    have [e [E1 H1]] := @eye_M R M g. have [e' [E2 H2]] := @eye_M R N g. have [l [E3 H3]] := mul_M M M N e a g. have [r [E4 H4]] := mul_M M N N a e' g.
    exists e, e', l, r. do 4 split=> //. by rewrite H3 H4 H1 H2 mul1mx mulmx1.
  Qed.
  Lemma law_transpose M N K (a b : mem T) g : exists ab l ta tb r, m_mul T M N K a b g = Ok ab /\ m_transpose T M K ab g = Ok l /\
    m_transpose T M N a g = Ok ta /\ m_transpose T N K b g = Ok tb /\ m_mul T K N M tb ta g = Ok r /\ toM K M l = toM K M r.
  Proof.
    have [ab [E1 H1]] := mul_M M N K a b g. have [l [E2 H2]] := transpose_M M K ab g. have [ta [E3 H3]] := transpose_M M N a g.
    have [tb [E4 H4]] := transpose_M N K b g. have [r [E5 H5]] := mul_M K N M tb ta g.
    exists ab, l, ta, tb, r. do 5 split=> //. by rewrite H2 H5 H1 H3 H4 trmx_mul.
  Qed.
  Lemma law_det_mul M (a b : mem T) g : (0 < M)%N -> exists ab d e, m_mul T M M M a b g = Ok ab /\ m_det T M a g = Ok d /\ m_det T M b g = Ok e /\
    m_det T M ab g = Ok (nmul T d e).
  Proof.
    move=> H. have [ab [E1 H1]] := mul_M M M M a b g. exists ab, (\det (toM M M a)), (\det (toM M M b)). rewrite !det_M // H1 det_mulmx. by [].
  Qed.
End Laws.

Section Field.
  Context (F : fieldType).
  Notation T := (Unum F).
  (** The orders for which the inverse works *)
  Definition good_order (M : nat) : Prop := M = 3%N \/ exists j, (0 < j)%N /\ M = PeanoNat.Nat.pow 2 j.
  Lemma inv_good M x g : good_order M -> \det (toM M M x) != 0 -> exists r, m_inv T M x g = Ok r /\ toM M M x *m toM M M r = 1%:M /\ toM M M r *m toM M M x = 1%:M.
  Proof.
    move=> HM Hd. have U : toM M M x \in unitmx by rewrite unitmxE unitfE.
    suff [r [E H]] : exists r, m_inv T M x g = Ok r /\ toM M M r = invmx (toM M M x). { exists r. by rewrite H mulmxV // mulVmx. }
    case: HM => [EM|[[|[|j]] [Hj EM]]]; subst M=> //; [exact: inv_3|exact: inv_2|exact: inv_pow2].
  Qed.
  Lemma inv_orth M x g : (0 < M)%N -> toM M M x *m (toM M M x)^T = 1%:M -> exists r, m_inv T M x g = Ok r /\ toM M M x *m toM M M r = 1%:M /\ toM M M r *m toM M M x = 1%:M.
  Proof.
    move=> HM O. have [U _] := mulmx1_unit O. have Hd : \det (toM M M x) != 0 by rewrite -unitfE -unitmxE.
    have [r [E H]] := inv_orthogonal g HM Hd O. exists r. rewrite H. do 2 split=> //. exact: mulmx1C.
  Qed.
  Lemma rank_good M N r x : (r <= M)%N -> (r <= N)%N -> \rank (toM M N x) = r ->
    exists s, sort_gauss T M N x = Ok s /\ rows_permuted T M N x s /\
      ((forall k, (k <= r)%N -> \det (part M k k s) != 0) -> m_rank T M N x = Ok r).
  Proof.
    move=> H1 H2 Hr. have [s [E P]] := sort_ok T M N x. exists s. split=> //. split=> // Hm.
    apply: (rank_from_sorted H1 H2 Hm _ E). by rewrite (permuted_rank P).
  Qed.
End Field.

(** ** Witnesses over the rationals *)
Notation Q := (Unum rat_fieldType).
(** The array with the given contents (column by column) *)
Definition arr (l : seq nat) : mem Q := fun i => (nth 0%N l i)%:R.

Definition diag5 : mem Q := arr [:: 2;0;0;0;0; 0;1;0;0;0; 0;0;1;0;0; 0;0;0;1;0; 0;0;0;0;1]%N.
Lemma diag5_det : \det (toM 5 5 diag5) != 0.
Proof.
  have : m_det Q 5 diag5 (arr [::]) = Ok (2 : rat) by vm_compute.
  rewrite det_M // => -[->]. by [].
Qed.
Lemma diag5_orth : toM 5 5 diag5 *m (toM 5 5 diag5)^T != 1%:M.
Proof.
  have : m_orthogonal Q 5 diag5 (arr [::]) = Ok false by vm_compute.
  rewrite orthogonal_M // => -[->]. by [].
Qed.
Lemma diag5_wrong g : exists r, m_inv Q 5 diag5 g = Ok r /\ toM 5 5 diag5 *m toM 5 5 r <> 1%:M.
Proof.
  have [//|j|r [E [H _]]] := @inv_other_wrong rat_fieldType 5 diag5 g _ _ diag5_det diag5_orth.
  - case: j => [|[|[|j]]] //= E. move: (PeanoNat.Nat.pow_nonzero 2 j). lia.
  - exact (ex_intro _ r (conj E H)).
Qed.

Definition eye4 : mem Q := arr [:: 1;0;0;0; 0;1;0;0; 0;1;1;0; 0;0;0;1]%N.
Lemma eye4_rank : m_rank Q 4 4 eye4 = Ok 3%N /\ \rank (toM 4 4 eye4) = 4%N.
Proof.
  split; first by vm_compute. apply/eqP. rewrite -[_ == 4%N]/(row_free (toM 4 4 eye4)) row_free_unit unitmxE unitfE.
  have : m_det Q 4 eye4 (arr [::]) = Ok (1 : rat) by vm_compute. rewrite det_M // => -[->]. by [].
Qed.
Definition two_equal : mem Q := arr [:: 0;0; 1;1]%N.
Lemma two_equal_rank : m_rank Q 2 2 two_equal = Ok 2%N /\ \rank (toM 2 2 two_equal) = 1%N.
Proof.
  split; first by vm_compute. apply/eqP. rewrite eqn_leq. apply/andP; split.
  - rewrite leqNgt. apply/negP=> H. have : row_free (toM 2 2 two_equal) by rewrite -row_leq_rank.
    rewrite row_free_unit unitmxE unitfE. have : m_det Q 2 two_equal (arr [::]) = Ok (0 : rat) by vm_compute. rewrite det_M // => -[->]. by [].
  - rewrite lt0n mxrank_eq0. apply/eqP=> /matrixP/(_ ord0 (inord 1)). rewrite !mxE inordK //.
Qed.
(** A matrix of rank 2 with a row of zeros and a first column entry of zero for which the condition holds *)
Definition ex_rank : mem Q := arr [:: 0;1;2; 3;1;2; 3;1;2]%N.
Lemma ex_rank_ok : m_rank Q 3 3 ex_rank = Ok 2%N.
Proof. by vm_compute. Qed.
