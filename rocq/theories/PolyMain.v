(** Polynomials over a commutative ring, fractions over a field. *)
From Verif Require Import Prelude Num MatModel PolyModel PolyProofs.
From mathcomp Require Import all_ssreflect all_algebra.
From Verif Require Import MatRing.
Set Implicit Arguments. Unset Strict Implicit. Unset Printing Implicit Defensive.
Import GRing.Theory.
Local Open Scope ring_scope.
Local Notation mem := MatModel.mem.

(** The value of the polynomial with coefficients a 0 ... a o at x *)
Definition pval (R : comUnitRingType) (o : nat) (a : mem (Unum R)) (x : R) : R := \sum_(i < o.+1) (a i : R) * x ^+ i.
Section Ring.
  Context (R : comUnitRingType).
  Notation T := (Unum R).
  Notation pval := (@pval R).
  Definition toP (o : nat) (a : mem T) : {poly R} := \poly_(i < o.+1) (a i : R).
  Lemma toP_val o a x : pval o a x = (toP o a).[x].
  Proof. by rewrite horner_poly. Qed.
  Lemma conv_sum (r n k : nat) (a b : mem T) : conv T r a b n k = \sum_(i < n) (if (i <= k)%N && (k - i <= r)%N then (a i : R) * b (k - i)%N else 0).
  Proof.
    elim: n => [|n IH] /=; first by rewrite big_ord0.
    rewrite big_ord_recr /= -IH. change (k - n)%coq_nat with (k - n)%N.
    have -> : (Nat.leb n k) = (n <= k)%N by apply/PeanoNat.Nat.leb_spec0/leP.
    have -> : (Nat.leb (k - n)%N r) = (k - n <= r)%N by apply/PeanoNat.Nat.leb_spec0/leP.
    by case: ifP; rewrite ?addr0.
  Qed.
  Lemma toP_coef o a i : (toP o a)`_i = if (i <= o)%N then a i : R else 0.
  Proof. by rewrite coef_poly ltnS. Qed.
  Lemma mul_P o r a b g : exists c, p_mul T o r a b g = Ok c /\ toP (o + r) c = toP o a * toP r b.
  Proof.
    have [c [E H]] := mul_ok T o r a b g. exists c; split=> //. apply/polyP=> k. rewrite coefM toP_coef.
    have F : \sum_(j < k.+1) (toP o a)`_j * (toP r b)`_(k - j) = \sum_(i < o.+1) (if (i <= k)%N && (k - i <= r)%N then (a i : R) * b (k - i)%N else 0).
    { transitivity (\sum_(i < k.+1 + o.+1 | (i < k.+1)%N) ((toP o a)`_i * (toP r b)`_(k - i))).
      { by rewrite -(big_ord_widen _ (fun i => (toP o a)`_i * (toP r b)`_(k - i))) // leq_addr. }
      rewrite (big_ord_widen (k.+1 + o.+1) (fun i => if (i <= k)%N && (k - i <= r)%N then (a i : R) * b (k - i)%N else 0)) ?leq_addl //.
      rewrite big_mkcond [RHS]big_mkcond /=. apply: eq_bigr=> i _. rewrite !toP_coef !ltnS.
      by case: (i <= k)%N; case: (i <= o)%N=> //=; case: (k - i <= r)%N; rewrite ?mulr0 ?mul0r. }
    rewrite F. case: ifP=> Hk.
    - rewrite H; last by apply/leP. rewrite conv_sum. have -> : (o + 1)%coq_nat = o.+1 by rewrite plusE addn1. by [].
    - rewrite big1 // => i _. case: ifP=> // /andP[Hi Hr]. move/negbT: Hk. rewrite -ltnNge => Hk.
      have Hio : (i <= o)%N by rewrite -ltnS. have : (k <= o + r)%N by rewrite -(subnK Hi) addnC leq_add. by rewrite leqNgt Hk.
  Qed.
  Lemma zero_P o g : exists c, p_zero T o g = Ok c /\ toP o c = 0.
  Proof. have [c [E H]] := zero_ok T o g. exists c; split=> //. apply/polyP=> i. rewrite toP_coef coef0. case: ifP=> // Hi. by rewrite H //; apply/leP. Qed.
  Lemma scale_P o a k g : exists c, p_scale T o a k g = Ok c /\ toP o c = k *: toP o a.
  Proof.
    have [c [E H]] := scale_ok T o a k g. exists c; split=> //. apply/polyP=> i. rewrite coefZ !toP_coef. case: ifP=> Hi; last by rewrite mulr0.
    rewrite H; last by apply/leP. by rewrite /= add0r mulrC.
  Qed.
  Lemma coef_opt o (a : mem T) i : PolyProofs.coef T o a i = if (i <= o)%N then Some (a i) else None.
  Proof. rewrite /PolyProofs.coef. have -> : (Nat.leb i o) = (i <= o)%N by apply/PeanoNat.Nat.leb_spec0/leP. by []. Qed.
  Lemma max_max o r : Nat.max o r = maxn o r.
  Proof. apply/eqP. rewrite eqn_leq. apply/andP; split; [rewrite leq_max|rewrite geq_max]. { case: (PeanoNat.Nat.max_spec o r)=> [[_ ->]|[_ ->]]; by rewrite leqnn ?orbT. } by apply/andP; split; apply/leP; [apply: PeanoNat.Nat.le_max_l|apply: PeanoNat.Nat.le_max_r]. Qed.
  Lemma add_P o r a b g : exists c, p_add T o r a b g = Ok c /\ toP (maxn o r) c = toP o a + toP r b.
  Proof.
    have [c [E H]] := add_ok T o r a b g. exists c; split=> //. apply/polyP=> i. rewrite coefD !toP_coef leq_max. case: (boolP (i <= o)%N)=> Ho; case: (boolP (i <= r)%N)=> Hr /=; rewrite ?addr0 ?add0r //.
    all: rewrite H; last by (apply/leP; rewrite max_max leq_max ?Ho ?Hr ?orbT).
    all: by rewrite !coef_opt ?Ho ?Hr ?(negbTE Ho) ?(negbTE Hr).
  Qed.
  Lemma adds_P o a (k : R) : exists c, p_adds T o a k = Ok c /\ toP o c = toP o a + k%:P.
  Proof.
    have [c [E [H0 H]]] := adds_ok T o a k. exists c; split=> //. apply/polyP=> i. rewrite coefD !toP_coef coefC. case: i => [|i] /=; first by rewrite H0.
    by rewrite addr0 H.
  Qed.
  Lemma vector_P o (v : seq R) g : exists c, p_vector T o v g = Ok c /\ toP o c = \poly_(i < o.+1) v`_i.
  Proof.
    have [c [E H]] := vector_ok T o v g. exists c; split=> //. apply/polyP=> i. rewrite toP_coef coef_poly ltnS. case: ifP=> // Hi. rewrite H; last by apply/leP.
    by elim: v i {Hi E H} => [|x v IH] [|i] //=.
  Qed.
  Lemma vector_whole o (v : seq R) : (size v <= o.+1)%N -> \poly_(i < o.+1) v`_i = Poly v.
  Proof. move=> H. apply/polyP=> i. rewrite coef_poly coef_Poly. case: ltnP=> // Hi. by rewrite nth_default // (leq_trans H). Qed.
  Lemma convert_P o r a g : (r <= o)%N -> exists c, p_convert T o r a g = Ok c /\ toP o c = toP r a.
  Proof.
    move=> Hro. have [c [E H]] := convert_ok T o r a g. exists c; split=> //. apply/polyP=> i. rewrite !toP_coef. case: ifP=> Hi.
    - rewrite H; last by apply/leP. have -> : (Nat.leb i r) = (i <= r)%N by apply/PeanoNat.Nat.leb_spec0/leP. by [].
    - case: ifP=> // Hr. by rewrite (leq_trans Hr Hro) in Hi.
  Qed.
  (** Values *)
  Lemma val_mul o r a b g x : exists c, p_mul T o r a b g = Ok c /\ pval (o + r) c x = pval o a x * pval r b x.
  Proof. have [c [E H]] := mul_P o r a b g. exists c; split=> //. by rewrite !toP_val H hornerM. Qed.
  Lemma val_add o r a b g x : exists c, p_add T o r a b g = Ok c /\ pval (maxn o r) c x = pval o a x + pval r b x.
  Proof. have [c [E H]] := add_P o r a b g. exists c; split=> //. by rewrite !toP_val H hornerD. Qed.
  Lemma val_scale o a k g x : exists c, p_scale T o a k g = Ok c /\ pval o c x = pval o a x * k.
  Proof. have [c [E H]] := scale_P o a k g. exists c; split=> //. by rewrite !toP_val H hornerZ mulrC. Qed.
  Lemma val_adds o a (k : R) x : exists c, p_adds T o a k = Ok c /\ pval o c x = pval o a x + k.
  Proof. have [c [E H]] := adds_P o a k. exists c; split=> //. by rewrite !toP_val H hornerD hornerC. Qed.
  Lemma val_vector o (v : seq R) g x : (size v <= o.+1)%N -> exists c, p_vector T o v g = Ok c /\ pval o c x = \sum_(i < size v) v`_i * x ^+ i.
  Proof.
    move=> Hs. have [c [E H]] := vector_P o v g. exists c; split=> //. rewrite toP_val H horner_poly [RHS](big_ord_widen o.+1 (fun i => v`_i * x ^+ i)) // [RHS]big_mkcond /=.
    apply: eq_bigr=> i _. case: ltnP=> // Hi. by rewrite nth_default // mul0r.
  Qed.
  Lemma val_dropped o (v : seq R) g x : exists c, p_vector T o v g = Ok c /\ pval o c x = \sum_(i < o.+1) v`_i * x ^+ i.
  Proof. have [c [E H]] := vector_P o v g. exists c; split=> //. by rewrite toP_val H horner_poly. Qed.
End Ring.

Section Field.
  Context (F : fieldType).
  Notation T := (Unum F).
  Definition fval (o : nat) (f : PolyModel.frac T) (x : F) : F := pval o f.1 x / pval o f.2 x.
  Lemma fval_mul o r (a b : PolyModel.frac T) g x : pval o a.2 x != 0 -> pval r b.2 x != 0 ->
    exists c, f_mul T o r a b g = Ok c /\ fval (o + r) c x = fval o a x * fval r b x /\ pval (o + r) c.2 x != 0.
  Proof.
    move=> Ha Hb. have [n [E1 H1]] := mul_P o r a.1 b.1 g. have [d [E2 H2]] := mul_P o r a.2 b.2 g.
    exists (n, d). rewrite /f_mul E1 /= E2 /=. split=> //. rewrite /fval /= !toP_val H1 H2 !hornerM -!toP_val. split; last by rewrite mulf_neq0. by rewrite mulf_div.
  Qed.
  Lemma fval_add o r (a b : PolyModel.frac T) g x : pval o a.2 x != 0 -> pval r b.2 x != 0 ->
    exists c, f_add T o r a b g = Ok c /\ fval (o + r) c x = fval o a x + fval r b x /\ pval (o + r) c.2 x != 0.
  Proof.
    move=> Ha Hb. have [u [E1 H1]] := mul_P o r a.1 b.2 g. have [v [E2 H2]] := mul_P o r a.2 b.1 g. have [n [E3 H3]] := add_P (o + r)%N (o + r)%N u v g. have [d [E4 H4]] := mul_P o r a.2 b.2 g.
    exists (n, d). rewrite /f_add E1 /= E2 /=. rewrite maxnn in H3. rewrite [p_add _ _ _ _ _ _]E3 /= E4 /=. split=> //. rewrite /fval /= !toP_val H3 H4 H1 H2 hornerD !hornerM -!toP_val. split; last by rewrite mulf_neq0.
    rewrite addf_div //. by rewrite [pval o a.2 x * pval r b.1 x]mulrC.
  Qed.
  Lemma fval_scale o (a : PolyModel.frac T) (k : F) g x : exists c, f_scale T o a k g = Ok c /\ fval o c x = fval o a x * k /\ pval o c.2 x = pval o a.2 x.
  Proof.
    have [n [E1 H1]] := val_scale o a.1 k g x. exists (n, a.2). rewrite /f_scale E1 /=. split=> //. by rewrite /fval /= H1 mulrAC.
  Qed.
  Lemma fval_adds o (a : PolyModel.frac T) (k : F) g x : pval o a.2 x != 0 -> exists c, f_adds T o a k g = Ok c /\ fval o c x = fval o a x + k /\ pval o c.2 x = pval o a.2 x.
  Proof.
    move=> Ha. have [u [E1 H1]] := val_scale o a.2 k g x. have [n [E2 H2]] := val_add o o a.1 u g x. exists (n, a.2). rewrite /f_adds E1 /= E2 /=. split=> //. rewrite /fval /=. rewrite maxnn in H2. rewrite H2 H1 mulrDl.
    by rewrite -[X in _ + X]mulrA [k / _]mulrC mulrA divff // mul1r.
  Qed.
  Lemma fval_div o r (a b : mem T) g x : exists c, p_div T o r a b g = Ok c /\ fval (maxn o r) c x = pval o a x / pval r b x.
  Proof.
    rewrite /p_div. have -> : max o r = maxn o r by rewrite max_spec max_max.
    have [n [E1 H1]] := convert_P a g (leq_maxl o r). have [d [E2 H2]] := convert_P b g (leq_maxr o r). exists (n, d). rewrite E1 /= E2 /=. split=> //. by rewrite /fval /= !toP_val H1 H2.
  Qed.
  (** A fraction given by its numerator only has the denominator 0. *)
  Lemma fval_vector o (v : seq F) g : exists c, f_vector T o v g = Ok c /\ forall x, pval o c.2 x = 0.
  Proof. have [n [E1 _]] := vector_P o v g. have [d [E2 H2]] := @zero_P F o g. exists (n, d). rewrite /f_vector E1 /= E2 /=. split=> // x. by rewrite toP_val H2 horner0. Qed.
  Lemma fval_vectors o (n d : seq F) g x : (size n <= o.+1)%N -> (size d <= o.+1)%N ->
    exists c, f_vectors T o n d g = Ok c /\ fval o c x = (\sum_(i < size n) n`_i * x ^+ i) / (\sum_(i < size d) d`_i * x ^+ i).
  Proof. move=> Hn Hd. have [u [E1 H1]] := val_vector g x Hn. have [v [E2 H2]] := val_vector g x Hd. exists (u, v). rewrite /f_vectors E1 /= E2 /=. split=> //. by rewrite /fval /= H1 H2. Qed.
End Field.
Lemma truncated : exists o, forall (F : fieldType) g, exists (v : seq F) c x, p_vector (Unum F) o v g = Ok c /\ pval o c x != \sum_(i < size v) v`_i * x ^+ i.
Proof.
  exists 0%N => F g. have [c [E H]] := val_dropped 0 [:: 0; 1 : F] g 1. exists [:: 0; 1], c, 1. split=> //. rewrite H big_ord_recl big_ord0 /= !big_ord_recl big_ord0 /= expr1n mul0r !add0r addr0 mul1r expr1n. by rewrite eq_sym oner_neq0.
Qed.
Lemma no_denominator : exists o, forall (F : fieldType) (v : seq F) g, exists c, f_vector (Unum F) o v g = Ok c /\ forall x, pval o c.2 x = 0.
Proof. exists 1%N => F v g. exact: fval_vector. Qed.
