(** Over a commutative ring the matrix operations are the mathematical ones (mathcomp matrices). *)
From Verif Require Import Prelude Num MatModel MatProofs MatProofs2 RingId.
From mathcomp Require Import all_ssreflect all_algebra.
Set Implicit Arguments. Unset Strict Implicit. Unset Printing Implicit Defensive.
Import GRing.Theory.
Local Open Scope ring_scope.
Local Notation mem := MatModel.mem.

Definition int_of_Z (z : Z) : int :=
  match z with Z0 => 0%:Z | Zpos p => (Pos.to_nat p)%:Z | Zneg p => - (Pos.to_nat p)%:Z end.

(** Exact arithmetic in a ring; the order relations are not used by the operations proved here. *)
Definition Unum (R : comUnitRingType) : num :=
  {| nT := R; nadd := fun x y => x + y; nsub := fun x y => x - y; nmul := fun x y => x * y;
     ndiv := fun x y => x / y; nltb := fun _ _ => false; nleb := fun _ _ => false;
     neqb := fun x y => x == y; nabs := fun x => x; nofZ := fun z => (int_of_Z z)%:~R; ntrunc := fun _ => None |}.

Section Ring.
  Context (R : comUnitRingType).
  Notation T := (Unum R).
  (** The matrix stored in an array *)
  Definition toM (M N : nat) (a : mem T) : 'M[R]_(M, N) := \matrix_(i, j) (a (M * j + i)%coq_nat : R).

  Lemma of0 : nofZ T 0 = 0 :> R. Proof. by []. Qed.
  Lemma of1 : nofZ T 1 = 1 :> R. Proof. by []. Qed.
  Lemma mopp_opp (x : R) : mopp T x = - x.
  Proof. by rewrite /mopp /= sub0r. Qed.
  Lemma toM_ext M N (a b : mem T) : (forall m n, (m < M)%coq_nat -> (n < N)%coq_nat -> a (M * n + m)%coq_nat = b (M * n + m)%coq_nat) -> toM M N a = toM M N b.
  Proof. by move=> H; apply/matrixP=> i j; rewrite !mxE H //; apply/ltP. Qed.
  Lemma toM_surj M N (A : 'M[R]_(M, N)) : exists a : mem T, toM M N a = A.
  Proof.
    exists (fun k => match insub (k %% M)%N, insub (k %/ M)%N with Some i, Some j => A i j | _, _ => 0 end).
    apply/matrixP=> i j; rewrite !mxE.
    have -> : (M * j + i)%coq_nat = (j * M + i)%N by rewrite mulnC.
    rewrite modnMDl modn_small // divnMDl ?(leq_ltn_trans _ (ltn_ord i)) // divn_small // addn0 !insubT //= => ? ?.
    by congr (A _ _); apply: val_inj.
  Qed.

  Lemma accum_sum (x : nat -> R) n : accum T x n = \sum_(i < n) x i.
  Proof. elim: n => [|n IH]; first by rewrite big_ord0. by rewrite big_ord_recr /= -IH. Qed.

  Lemma mul_M M N K a b g : exists r, m_mul T M N K a b g = Ok r /\ toM M K r = toM M N a *m toM N K b.
  Proof.
    have [r [E H]] := mul_ok T M N K a b g. exists r; split=> //. apply/matrixP=> i k. rewrite !mxE H; try by apply/ltP.
    rewrite accum_sum. by apply: eq_bigr=> j _; rewrite !mxE.
  Qed.
  Lemma add_M M N a b g : exists r, m_add T M N a b g = Ok r /\ toM M N r = toM M N a + toM M N b.
  Proof.
    have [r [E H]] := zip_ok T (nadd T) M N a b g. exists r; split=> //. apply/matrixP=> i k. by rewrite !mxE H; try by apply/ltP.
  Qed.
  Lemma sub_M M N a b g : exists r, m_sub T M N a b g = Ok r /\ toM M N r = toM M N a - toM M N b.
  Proof.
    have [r [E H]] := zip_ok T (nsub T) M N a b g. exists r; split=> //. apply/matrixP=> i k. by rewrite !mxE H; try by apply/ltP.
  Qed.
  Lemma scale_M M N a c g : exists r, m_scale T M N a c g = Ok r /\ toM M N r = c *: toM M N a.
  Proof.
    have [r [E H]] := map_ok T (fun x => nmul T x c) M N a g. exists r; split=> //. apply/matrixP=> i k. by rewrite !mxE H /= 1?mulrC; try by apply/ltP.
  Qed.
  Lemma lscale_M M N c a g : exists r, m_lscale T M N c a g = Ok r /\ toM M N r = c *: toM M N a.
  Proof.
    have [r [E H]] := map_ok T (fun x => nmul T c x) M N a g. exists r; split=> //. apply/matrixP=> i k. by rewrite !mxE H; try by apply/ltP.
  Qed.
  Lemma neg_M M N a g : exists r, m_neg T M N a g = Ok r /\ toM M N r = - toM M N a.
  Proof.
    have [r [E H]] := map_ok T (fun x => mopp T x) M N a g. exists r; split=> //. apply/matrixP=> i k. by rewrite !mxE H ?mopp_opp; try by apply/ltP.
  Qed.
  Lemma div_M M N a c g : exists r, m_div T M N a c g = Ok r /\ toM M N r = c^-1 *: toM M N a.
  Proof.
    have [r [E H]] := map_ok T (fun x => ndiv T x c) M N a g. exists r; split=> //. apply/matrixP=> i k. by rewrite !mxE H /= 1?mulrC; try by apply/ltP.
  Qed.
  Lemma transpose_M M N a g : exists r, m_transpose T M N a g = Ok r /\ toM N M r = (toM M N a)^T.
  Proof.
    have [r [E H]] := transpose_ok T M N a g. exists r; split=> //. apply/matrixP=> i k. by rewrite !mxE H; try by apply/ltP.
  Qed.
  Lemma eye_M M g : exists r, m_eye T M M g = Ok r /\ toM M M r = 1%:M.
  Proof.
    have [r [E H]] := eye_ok T M M g. exists r; split=> //. apply/matrixP=> i k. rewrite !mxE H; try by apply/ltP.
    rewrite -val_eqE /=. case: Nat.eqb_spec => [->|/eqP/negbTE ->]; by rewrite ?eqxx.
  Qed.
  Lemma zero_M M N g : exists r, m_zero T M N g = Ok r /\ toM M N r = 0.
  Proof.
    have [r [E H]] := zero_ok T M N g. exists r; split=> //. apply/matrixP=> i k. rewrite !mxE H //. apply: cell_lt; by apply/ltP.
  Qed.
  Lemma trace_M M a : m_trace T M M a = Ok (\tr (toM M M a)).
  Proof. rewrite trace_ok PeanoNat.Nat.min_id accum_sum. congr Ok. by apply: eq_bigr=> j _; rewrite !mxE. Qed.
  Lemma eq_M M N a b : m_eq T M N a b = Ok (toM M N a == toM M N b).
  Proof.
    have [r [-> H]] := eq_ok T M N a b. congr Ok. apply/idP/eqP.
    - move=> /H Q. apply: toM_ext=> m n Hm Hn. by apply/eqP/Q.
    - move=> /matrixP Q. apply/H=> m n /ltP Hm /ltP Hn. move: (Q (Ordinal Hm) (Ordinal Hn)). rewrite !mxE /= => ->. exact: eqxx.
  Qed.
  Lemma orthogonal_M M a g : m_orthogonal T M a g = Ok (toM M M a *m (toM M M a)^T == 1%:M).
  Proof.
    rewrite /m_orthogonal. have [e [-> He]] := eye_M M g. have [t [Et Ht]] := transpose_M M M a g. rewrite /= Et /=.
    have [r [-> Hr]] := mul_M M M M a t g. by rewrite /= eq_M Hr Ht He.
  Qed.
  Lemma symmetric_M M a g : m_symmetric T M a g = Ok (toM M M a == (toM M M a)^T).
  Proof. rewrite /m_symmetric. have [t [-> Ht]] := transpose_M M M a g. by rewrite /= eq_M Ht. Qed.

  (** ** Determinant *)
  Lemma skip_bump i y : skip i y = bump i y.
  Proof. rewrite /skip /bump. by case: (PeanoNat.Nat.ltb_spec y i) => [/ssrnat.ltP|/ssrnat.leP]; case: leqP. Qed.
  Lemma det_sub_M k a g (i : 'I_k.+1) : exists s, det_sub T k.+1 a i g = Ok s /\ toM k k s = row' i (col' ord0 (toM k.+1 k.+1 a)).
  Proof.
    have [s [E H]] := @det_sub_ok T k a g i (elimT ssrnat.leP (ltn_ord i : (i <= k)%N)). exists s. split=> //.
    apply/matrixP=> y x. rewrite !mxE H; try by apply/ltP. by rewrite skip_bump.
  Qed.

  Lemma ring_R : ring_theory (0 : R) 1 +%R *%R (fun x y => x - y) -%R eq.
  Proof.
    split; [exact: add0r|exact: addrC|exact: addrA|exact: mul1r|exact: mulrC|exact: mulrA|exact: mulrDl|by []|exact: subrr].
  Qed.
  Lemma bind_ok {A B} (x : A) (f : A -> outcome B) : bind (Ok x) f = f x. Proof. by []. Qed.

  Lemma det_M M a g : (0 < M)%N -> m_det T M a g = Ok (\det (toM M M a)).
  Proof.
    elim: M a => [//|k IH] a _. rewrite (expand_det_col _ ord0).
    case: k IH => [|[|[|k]]] IH.
    - rewrite big_ord1 /= !mxE /cofactor det_mx00 /= expr0 !mulr1. by [].
    - congr Ok. rewrite !big_ord_recl big_ord0 /cofactor /= !mxE /= !det_mx11 !mxE /= /bump /=.
      rewrite !addr0 !expr0 !mul1r !expr1 !mulN1r mulrN. by rewrite [X in _ = _ - X]mulrC.
    - congr Ok.
      rewrite !big_ord_recl big_ord0 /cofactor /=.
      rewrite !(expand_det_col _ ord0) !big_ord_recl !big_ord0 /cofactor /= !det_mx11 !mxE /= /bump /=.
      rewrite !addr0 /= !expr0 !mul1r ?addn0 ?add0n ?addn1 /=.
      rewrite !expr1 sqrrN expr1n mul1r !mulN1r. exact: (id_det3 ring_R).
    - set M := k.+4. set A := toM M M a.
      pose F (m : nat) : R := if insub m is Some i then A i ord0 * cofactor A i ord0 else 0.
      pose body := fun (m : nat) (det : T) =>
          bind (det_sub T M a m g) (fun s => bind (m_det T k.+3 s g) (fun d => bind (rd T M M a m 0) (fun x =>
            Ok (if PeanoNat.Nat.even m then nadd T det (nmul T x d) else nsub T det (nmul T x d))))).
      have -> : m_det T M a g = loop M body (nofZ T 0) by [].
      have [||d [E H]] := @loop_inv T (fun m (d : R) => d = \sum_(0 <= i < m) F i) body M (nofZ T 0); last first.
      + rewrite E H. congr Ok. rewrite big_mkord. apply: eq_bigr=> i _. by rewrite /F valK.
      + move=> m d /ssrnat.ltP Hm ->. rewrite /body. have [s [Es Hs]] := det_sub_M a g (Ordinal Hm).
        rewrite Es bind_ok IH // bind_ok rd_ok; [|by apply/ssrnat.ltP..]. rewrite bind_ok.
        eexists. split; first by [].
        have FE : F m = A (Ordinal Hm) ord0 * cofactor A (Ordinal Hm) ord0 by rewrite /F insubT.
        rewrite big_nat_recr //= FE /cofactor addn0 -Hs /=.
        have -> : (-1 : R) ^+ m = if PeanoNat.Nat.even m then 1 else -1.
        { clear. have : ((-1 : R) ^+ m = if PeanoNat.Nat.even m then 1 else -1) /\ ((-1 : R) ^+ m.+1 = if PeanoNat.Nat.even m.+1 then 1 else -1);
            last by case. elim: m => [|m [IH1 IH2]]; first by []. split; first exact: IH2. by rewrite exprS exprS mulrA mulrNN mulr1 mul1r IH1. }
        rewrite !mxE /=. case: PeanoNat.Nat.even; by rewrite ?mul1r // mulN1r mulrN.
      + by rewrite big_geq.
  Qed.
End Ring.
