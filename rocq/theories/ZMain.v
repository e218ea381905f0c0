(** Over a field the block satisfies its difference equation, and products and sums of fractions are series and parallel connections. *)
From Verif Require Import Prelude Num MatModel PolyModel ZModel ZSpec ZProofs.
From mathcomp Require Import all_ssreflect all_algebra.
From Verif Require Import MatRing PolyMain.
Set Implicit Arguments. Unset Strict Implicit. Unset Printing Implicit Defensive.
Import GRing.Theory.
Local Open Scope ring_scope.
Local Notation mem := MatModel.mem.

Section Z.
  Context (F : fieldType).
  Notation T := (Unum F).
  (** Element i cycles before cycle k; p: what happened before the first cycle *)
  Definition back (p : nat -> F) (l : seq F) (k i : nat) : F := if (i <= k)%N then l`_(k - i) else p (i - k.+1)%N.
  Definition rest : nat -> F := fun _ => 0.
  Lemma fold_sum n : forall m (f : nat -> F) y, fold_left (fun acc i => acc + f i) (List.seq m n) y = y + \sum_(i < n) f (m + i)%N.
  Proof.
    elim: n => [|n IH] m f y /=; first by rewrite big_ord0 addr0. rewrite IH big_ord_recl addn0 addrA. congr (_ + _). by apply: eq_bigr=> i _; rewrite /= addSnnS.
  Qed.
  Lemma eval_eq o (b a : nat -> F) pu py (u : F) : a 0%N != 0 ->
    a 0%N * eval T o b a pu py u = u * b 0%N + \sum_(i < o) (pu i * b i.+1 - py i * a i.+1).
  Proof.
    move=> H. rewrite /eval. change (a 0%N * ((fold_left (fun acc i => acc + (pu i * b i.+1 - py i * a i.+1)) (List.seq 0 o) (u * b 0%N)) / a 0%N) = u * b 0%N + \sum_(i < o) (pu i * b i.+1 - py i * a i.+1)).
    rewrite fold_sum mulrC divfK //.
  Qed.
  Lemma size_response o b a us : forall pu py, size (response T o b a pu py us) = size us.
  Proof. by elim: us => [|u us IH] pu py //=; rewrite IH. Qed.
  Lemma back_push (p : nat -> F) (u : F) l k i : back (push T u p) l k i = back p (u :: l) k.+1 i.
  Proof.
    rewrite /back. case: (ltngtP i k.+1) => H.
    - have Hk : (i <= k)%N by rewrite -ltnS. by rewrite Hk subSn.
    - rewrite leqNgt (ltn_trans (ltnSn k) H) /=. have -> : (i - k.+1 = (i - k.+2).+1)%N by rewrite [(i - k.+2)%N]subnS prednK // subn_gt0. by [].
    - by rewrite H ltnn ?leqnn !subnn.
  Qed.
  Lemma response_eq o (b a : nat -> F) us : a 0%N != 0 -> forall pu py k, (k < size us)%N ->
    \sum_(i < o.+1) a i * back py (response T o b a pu py us) k i = \sum_(i < o.+1) b i * back pu us k i.
  Proof.
    move=> Ha. elim: us => [|u us IH] pu py k //= Hk. case: k Hk => [|k] Hk.
    - rewrite !big_ord_recl {1}/back {2}/back /= eval_eq // -addrA [b 0%N * u]mulrC. congr (_ + _). rewrite -big_split /=. apply: eq_bigr=> i _.
      rewrite /back /= /bump /= add1n subn1 /=. by rewrite [a _ * _]mulrC subrK mulrC.
    - transitivity (\sum_(i < o.+1) a i * back (push T (eval T o b a pu py u) py) (response T o b a (push T u pu) (push T (eval T o b a pu py u) py) us) k i); first by apply: eq_bigr=> i _; rewrite back_push.
      rewrite IH //. by apply: eq_bigr=> i _; rewrite back_push.
  Qed.
  (** From rest the equation is an equation of polynomials up to the number of cycles. *)
  Lemma coef_back o (c : nat -> F) (l : seq F) k : (k < size l)%N -> (toP o c * Poly l)`_k = \sum_(i < o.+1) c i * back rest l k i.
  Proof.
    move=> Hk. rewrite coefM (big_ord_widen (k.+1 + o.+1) (fun j => (toP o c)`_j * (Poly l)`_(k - j))) ?leq_addr //.
    rewrite (big_ord_widen (k.+1 + o.+1) (fun i => c i * back rest l k i)) ?leq_addl // big_mkcond [RHS]big_mkcond /=.
    apply: eq_bigr=> i _. rewrite toP_coef coef_Poly /back /rest !ltnS. case: (i <= k)%N; case: (i <= o)%N; by rewrite ?mul0r ?mulr0.
  Qed.
  Lemma unique (A D : {poly F}) n : A`_0 != 0 -> (forall k, (k < n)%N -> (A * D)`_k = 0) -> forall k, (k < n)%N -> D`_k = 0.
  Proof.
    move=> HA H k. elim: k {-2}k (leqnn k) => [|m IH] k Hm Hk.
    - move: Hm. rewrite leqn0 => /eqP E. move: (H 0%N). rewrite E in Hk *. rewrite coefM big_ord_recl big_ord0 /= addr0 => /(_ Hk) /eqP. by rewrite mulf_eq0 (negbTE HA) => /eqP.
    - move: (H k Hk). rewrite coefM big_ord_recl /= subn0 big1 ?addr0.
      + move=> /eqP. by rewrite mulf_eq0 (negbTE HA) => /eqP.
      + move=> i _. rewrite IH ?mulr0 // /bump /= add1n.
        * rewrite leq_subLR. apply: (leq_trans Hm). by rewrite addSn ltnS leq_addl.
        * apply: leq_ltn_trans Hk. exact: leq_subr.
  Qed.
  Definition resp (o : nat) (f : PolyModel.frac T) (us : seq F) : seq F := response T o f.1 f.2 rest rest us.
  Lemma resp_poly o (f : PolyModel.frac T) us k : (f.2 0%N : F) != 0 -> (k < size us)%N -> (toP o f.2 * Poly (resp o f us))`_k = (toP o f.1 * Poly us)`_k.
  Proof. move=> H Hk. rewrite !coef_back ?size_response //. exact: response_eq. Qed.
  Lemma resp_unique o (f : PolyModel.frac T) us ys : (f.2 0%N : F) != 0 -> size ys = size us -> (forall k, (k < size us)%N -> (toP o f.2 * Poly ys)`_k = (toP o f.1 * Poly us)`_k) -> resp o f us = ys.
  Proof.
    move=> H Hs E. apply: (@eq_from_nth _ 0); rewrite /resp size_response // => k Hk.
    have D : (Poly (resp o f us) - Poly ys)`_k = 0.
    { apply: (@unique (toP o f.2) _ (size us)) => //; first by rewrite toP_coef. move=> j Hj. by rewrite mulrBr coefB resp_poly // E // subrr. }
    move: D. rewrite coefB !coef_Poly => /eqP. by rewrite subr_eq0 => /eqP.
  Qed.
  (** Only the coefficients below n matter. *)
  Lemma mul_trunc (A P Q : {poly F}) n : (forall k, (k < n)%N -> P`_k = Q`_k) -> forall k, (k < n)%N -> (A * P)`_k = (A * Q)`_k.
  Proof. move=> H k Hk. rewrite !coefM. apply: eq_bigr=> i _. rewrite H //. apply: leq_ltn_trans Hk. exact: leq_subr. Qed.
  Lemma mul_coef0 (P Q : {poly F}) : (P * Q)`_0 = P`_0 * Q`_0.
  Proof. by rewrite coefM big_ord_recl big_ord0 /= addr0. Qed.
  Lemma series o r (f h : PolyModel.frac T) g us : (f.2 0%N : F) != 0 -> (h.2 0%N : F) != 0 ->
    exists c, f_mul T o r f h g = Ok c /\ resp (o + r) c us = resp r h (resp o f us).
  Proof.
    move=> Hf Hh. have [n [E1 H1]] := mul_P o r f.1 h.1 g. have [d [E2 H2]] := mul_P o r f.2 h.2 g. exists (n, d). rewrite /f_mul E1 /= E2 /=. split=> //.
    apply: resp_unique; rewrite /= ?size_response //.
    - have : (toP (o + r) d)`_0 = (toP o f.2)`_0 * (toP r h.2)`_0 by rewrite H2 mul_coef0. rewrite !toP_coef /= => ->. by rewrite mulf_neq0.
    - move=> k Hk. rewrite H1 H2 -!mulrA. rewrite (@mul_trunc (toP o f.2) _ (toP r h.1 * Poly (resp o f us)) (size us)) //.
      + rewrite mulrCA [toP o f.1 * (_ * _)]mulrCA. apply: (@mul_trunc _ _ _ (size us)) => // j Hj. by rewrite resp_poly.
      + move=> j Hj. by rewrite resp_poly // size_response.
  Qed.
  Lemma Poly_zip (xs ys : seq F) : size xs = size ys -> Poly (map (fun p => p.1 + p.2) (zip xs ys)) = Poly xs + Poly ys.
  Proof.
    move=> H. apply/polyP=> k. rewrite coefD !coef_Poly. case: (ltnP k (size xs)) => Hk.
    - rewrite (nth_map (0, 0)); last by rewrite size_zip -H minnn. by rewrite nth_zip.
    - rewrite !nth_default ?addr0 // ?size_map ?size_zip -?H ?minnn //.
  Qed.
  Lemma parallel o r (f h : PolyModel.frac T) g us : (f.2 0%N : F) != 0 -> (h.2 0%N : F) != 0 ->
    exists c, f_add T o r f h g = Ok c /\ resp (o + r) c us = map (fun p => p.1 + p.2) (zip (resp o f us) (resp r h us)).
  Proof.
    move=> Hf Hh. have [u [E1 H1]] := mul_P o r f.1 h.2 g. have [v [E2 H2]] := mul_P o r f.2 h.1 g. have [n [E3 H3]] := add_P (o + r)%N (o + r)%N u v g. have [d [E4 H4]] := mul_P o r f.2 h.2 g.
    exists (n, d). rewrite /f_add E1 /= E2 /=. rewrite maxnn in H3. rewrite [p_add _ _ _ _ _ _]E3 /= E4 /=. split=> //.
    apply: resp_unique; rewrite /= ?size_map ?size_zip ?size_response ?minnn //.
    - have : (toP (o + r) d)`_0 = (toP o f.2)`_0 * (toP r h.2)`_0 by rewrite H4 mul_coef0. rewrite !toP_coef /= => ->. by rewrite mulf_neq0.
    - move=> k Hk. rewrite H3 H4 H1 H2 Poly_zip ?size_response // mulrDr mulrDl !coefD. congr (_ + _).
      + rewrite [toP o f.2 * toP r h.2]mulrC [toP o f.1 * toP r h.2]mulrC -!mulrA. apply: (@mul_trunc _ _ _ (size us)) => // j Hj. by rewrite resp_poly.
      + rewrite -!mulrA. apply: (@mul_trunc _ _ _ (size us)) => // j Hj. by rewrite resp_poly.
  Qed.
  Lemma scaled o (f : PolyModel.frac T) (k : F) g us : (f.2 0%N : F) != 0 ->
    exists c, f_scale T o f k g = Ok c /\ resp o c us = map (fun y => y * k) (resp o f us).
  Proof.
    move=> Hf. have [n [E H]] := scale_P o f.1 k g. exists (n, f.2). rewrite /f_scale E /=. split=> //. apply: resp_unique; rewrite /= ?size_map ?size_response // => j Hj.
    have -> : Poly [seq y * k | y <- resp o f us] = k *: Poly (resp o f us).
    { apply/polyP=> i. rewrite coefZ !coef_Poly. case: (ltnP i (size (resp o f us))) => Hi; first by rewrite (nth_map 0) // mulrC. by rewrite !nth_default ?mulr0 // size_map. }
    by rewrite H -scalerAl -scalerAr !coefZ resp_poly.
  Qed.
  Lemma raised o (f : PolyModel.frac T) (k : F) g us : (f.2 0%N : F) != 0 ->
    exists c, f_adds T o f k g = Ok c /\ resp o c us = map (fun p => p.1 + p.2 * k) (zip (resp o f us) us).
  Proof.
    move=> Hf. have [u [E1 H1]] := scale_P o f.2 k g. have [n [E2 H2]] := add_P o o f.1 u g. exists (n, f.2). rewrite /f_adds E1 /= E2 /=. split=> //. rewrite maxnn in H2.
    apply: resp_unique; rewrite /= ?size_map ?size_zip ?size_response ?minnn // => j Hj.
    have -> : Poly [seq p.1 + p.2 * k | p <- zip (resp o f us) us] = Poly (resp o f us) + k *: Poly us.
    { apply/polyP=> i. have Hs : size (resp o f us) = size us by rewrite size_response. rewrite coefD coefZ !coef_Poly. case: (ltnP i (size us)) => Hi.
      - rewrite (nth_map (0, 0)); last by rewrite size_zip Hs minnn. by rewrite nth_zip //= [k * _]mulrC.
      - rewrite !nth_default ?mulr0 ?addr0 // ?size_map ?size_zip ?Hs ?minnn //. }
    by rewrite H2 H1 mulrDr mulrDl !coefD resp_poly // -scalerAl -scalerAr.
  Qed.
End Z.
(** The block itself: started from rest and not stopped by the undefined accesses *)
Lemma block_eq (F : fieldType) o (num den : nat -> F) s us : den 0%N != 0 -> holds (Unum F) o s (rest F) (rest F) ->
  Forall (fun p => fst (snd p) <> None /\ snd (snd p) <> None) us ->
  exists ys, runs (Unum F) (o + 1)%coq_nat num den s us = Ok ys /\ size ys = size us /\
    forall k, (k < size us)%N -> \sum_(i < o.+1) den i * (if (i <= k)%N then ys`_(k - i) else 0) = \sum_(i < o.+1) num i * (if (i <= k)%N then (List.map fst us)`_(k - i) else 0).
Proof.
  move=> Hd Hs Hj. exists (response (Unum F) o num den (rest F) (rest F) (List.map fst us)). have Sz : size (List.map (fst (A := F) (B := option F * option F)) us) = size us by elim: us {Hs Hj} => //= x us ->. split; first by apply: runs_ok. split; first by rewrite size_response Sz.
  move=> k Hk. apply: (@response_eq F o num den (List.map fst us)) => //. by rewrite Sz.
Qed.
