(** rank(): correct when, after the rows have been sorted, the leading minors up to the rank do not vanish. *)
From Verif Require Import Prelude Num MatModel MatProofs MatProofs2 MatProofs3.
From mathcomp Require Import all_ssreflect all_algebra.
From Verif Require Import MatRing.
Set Implicit Arguments. Unset Strict Implicit. Unset Printing Implicit Defensive.
Import GRing.Theory.
Local Open Scope ring_scope.
Local Notation mem := MatModel.mem.

Section Rank.
  Context (F : fieldType) (M N : nat).
  Notation T := (Unum F).
  Implicit Types (x s : mem T).
  (** The upper left part of the matrix stored in x *)
  Definition part p q x : 'M[F]_(p, q) := \matrix_(i, j) (x (M * j + i)%coq_nat : F).

  Lemma permuted_rank x s : rows_permuted T M N x s -> \rank (toM M N s) = \rank (toM M N x).
  Proof.
    suff W y z : rows_permuted T M N y z -> (\rank (toM M N z) <= \rank (toM M N y))%N.
    { move=> H. apply/eqP. rewrite eqn_leq (W _ _ H) /=. apply: W. case: H => p [q [P H]]. exists q, p. split.
      - move=> m Hm. have [A [B [C D]]] := P m Hm. by [].
      - move=> m n Hm Hn. have [A [B [C D]]] := P m Hm. by rewrite H // C. }
    case=> p [q [P H]]. pose Q : 'M[F]_M := \matrix_(i, j) ((p i == j)%:R).
    have -> : toM M N z = Q *m toM M N y; last exact: mxrankM_maxr.
    apply/matrixP=> i j. move/ssrnat.ltP: (ltn_ord i) => Li. move/ssrnat.ltP: (ltn_ord j) => Lj. have [/ssrnat.ltP A _] := P i Li.
    rewrite !mxE H // (bigD1 (Ordinal A)) //= big1 => [|k Hk]; rewrite !mxE /=.
    - by rewrite eqxx mul1r addr0.
    - have -> : (p i == k) = false; last by rewrite mul0r. apply/negbTE. move: Hk. by rewrite -val_eqE eq_sym.
  Qed.

  Section RowOp.
    Context (x x' : mem T) (f : F) (i0 c : nat) (Hc : (c < i0)%N) (Hi : (i0 < M)%N).
    Hypothesis HX : forall m n, (m < M)%N -> (n < N)%N ->
      x' (M * n + m)%coq_nat = (x (M * n + m)%coq_nat : F) - (if m == i0 then f * (x (M * n + c)%coq_nat : F) else 0).
    Definition Emx p (Hp : (i0 < p)%N) : 'M[F]_p := 1%:M - f *: delta_mx (Ordinal Hp) (Ordinal (ltn_trans Hc Hp)).
    Lemma det_E p (Hp : (i0 < p)%N) : \det (Emx Hp) = 1.
    Proof.
      rewrite det_trig.
      - apply: big1=> i _. rewrite !mxE eqxx.
        have -> : (i == Ordinal Hp) && (i == Ordinal (ltn_trans Hc Hp)) = false; last by rewrite mulr0 subr0.
        apply/negbTE/andP=> -[/eqP -> /eqP E]. have := congr1 val E => /= E'. by move: (Hc); rewrite E' ltnn.
      - apply/is_trig_mxP=> i j Lij. rewrite !mxE.
        have -> : (i == j) = false by apply/negbTE; rewrite neq_ltn Lij.
        have -> : (i == Ordinal Hp) && (j == Ordinal (ltn_trans Hc Hp)) = false; last by rewrite mulr0 subr0.
        apply/negbTE/andP=> -[/eqP Ei /eqP Ej]. rewrite Ei Ej /= in Lij. have := ltn_trans Lij Hc. by rewrite ltnn.
    Qed.
    Lemma part_E p q (Hp : (i0 < p)%N) : (p <= M)%N -> (q <= N)%N -> part p q x' = Emx Hp *m part p q x.
    Proof.
      move=> HpM HqN. rewrite mulmxBl mul1mx -scalemxAl. apply/matrixP=> i j.
      rewrite !mxE HX; [|exact: leq_trans HpM|exact: leq_trans HqN]. congr (_ - _).
      rewrite (bigD1 (Ordinal (ltn_trans Hc Hp))) //= big1 => [|k Hk]; rewrite !mxE /=.
      - rewrite eqxx andbT addr0 -val_eqE /=. by case: (val i == i0); rewrite ?mul1r // mul0r mulr0.
      - by rewrite (negbTE Hk) andbF mul0r.
    Qed.
    Lemma rowop_det k : (k <= M)%N -> (k <= N)%N -> \det (part k k x') = \det (part k k x).
    Proof.
      move=> H1 H2. case: (ltnP i0 k) => Hk; first by rewrite (part_E Hk) // det_mulmx det_E mul1r.
      congr (\det _). apply/matrixP=> i j. rewrite !mxE HX; [|exact: leq_trans H1|exact: leq_trans H2].
      have -> : (val i == i0) = false; last by rewrite subr0. apply/negbTE. by rewrite neq_ltn (leq_trans (ltn_ord i) Hk).
    Qed.
    Lemma rowop_rank : \rank (toM M N x') = \rank (toM M N x).
    Proof.
      have -> : toM M N x' = Emx Hi *m toM M N x by exact: part_E. have H : row_full (Emx Hi) by rewrite row_full_unit unitmxE det_E unitr1.
      by rewrite (eqmxMfull _ H).
    Qed.
  End RowOp.

  Context (r : nat) (HrM : (r <= M)%N) (HrN : (r <= N)%N) (s : mem T).
  Hypothesis minors : forall k, (k <= r)%N -> \det (part k k s) != 0.
  Hypothesis rank_s : \rank (toM M N s) = r.

  Definition Inv c x : Prop :=
    (forall i n, (i < M)%N -> (n < N)%N -> (n < c)%N -> (n < i)%N -> x (M * n + i)%coq_nat = (0 : F)) /\
    (forall k, (k <= r)%N -> \det (part k k x) = \det (part k k s)) /\ \rank (toM M N x) = r.

  Lemma pivot_gen c x : (c < r)%N -> 
    (forall i n, (i < M)%N -> (n < N)%N -> (n < c)%N -> (n < i)%N -> x (M * n + i)%coq_nat = (0 : F)) ->
    \det (part c.+1 c.+1 x) != 0 -> (x (M * c + c)%coq_nat : F) != 0.
  Proof.
    move=> Hc A. rewrite -det_tr det_trig.
    - move/prodf_neq0/(_ ord_max isT). by rewrite !mxE.
    - apply/is_trig_mxP=> i j Lij. rewrite !mxE. apply: A=> //.
      + apply: leq_trans (leq_trans (ltn_ord j) Hc) HrM.
      + apply: leq_trans (leq_trans (ltn_ord i) Hc) HrN.
      + apply: leq_trans Lij _. by rewrite -ltnS.
  Qed.
  Lemma pivot c x : (c < r)%N -> Inv c x -> (x (M * c + c)%coq_nat : F) != 0.
  Proof. move=> Hc [A [B C]]. apply: (pivot_gen Hc A). rewrite B //. exact: minors. Qed.

  (** The rows from r on are zero when the first r columns have been eliminated. *)
  Lemma rest_zero x : Inv r x -> forall i n, (i < M)%N -> (n < N)%N -> (r <= i)%N -> x (M * n + i)%coq_nat = (0 : F).
  Proof.
    move=> [A [B C]] i n Hi Hn Hri. pose R1 := part r N x. pose U := part r r x.
    have HU : U \in unitmx by rewrite unitmxE unitfE B // minors.
    pose P : 'M[F]_(r, M) := \matrix_(a, b) ((val a == val b)%:R). pose Q : 'M[F]_(N, r) := \matrix_(a, b) ((val a == val b)%:R).
    have E1 : R1 = P *m toM M N x.
    { apply/matrixP=> a b. rewrite !mxE (bigD1 (widen_ord HrM a)) //= big1 => [|k Hk]; rewrite !mxE /=.
      - by rewrite eqxx mul1r addr0.
      - have -> : (val a == val k) = false; last by rewrite mul0r. apply/negbTE. move: Hk. by rewrite -val_eqE eq_sym. }
    have E2 p (X : mem T) (Y := part p N X) : Y *m Q = part p r X.
    { apply/matrixP=> a b. rewrite !mxE (bigD1 (widen_ord HrN b)) //= big1 => [|k Hk]; rewrite !mxE /=.
      - by rewrite eqxx mulr1 addr0.
      - have -> : (val k == val b) = false; last by rewrite mulr0. apply/negbTE. by move: Hk; rewrite -val_eqE. }
    have L1 : (r <= \rank R1)%N.
    { apply: (@mulmx1_min_rank F r r N R1 (invmx U) Q). by rewrite -mulmxA E2 mulVmx. }
    have S1 : (R1 <= toM M N x)%MS by rewrite E1 submxMl.
    have S2 : (toM M N x <= R1)%MS.
    { rewrite -(mxrank_leqif_sup S1). have L2 := mxrankS S1. rewrite eqn_leq L2 /=. by rewrite {1}C. }
    have := submx_trans (row_sub (Ordinal Hi) (toM M N x)) S2. move/submxP=> [w Ew].
    have W : w *m U = 0.
    { rewrite -[U](E2 r x) mulmxA -Ew. apply/matrixP=> a b. rewrite -row_mul. have -> : toM M N x *m Q = part M r x by exact: E2. 
      rewrite !mxE. apply: A=> //=; [exact: leq_trans HrN|exact: leq_trans Hri]. }
    have w0 : w = 0 by rewrite -[w](mulmxK HU) W mul0mx.
    have := congr1 (fun Z : 'M_(1, N) => Z ord0 (Ordinal Hn)) Ew. rewrite w0 mul0mx !mxE. by [].
  Qed.

  Lemma step_pivot c x : (c < r)%N -> Inv c x -> exists x', loop_from c.+1 (M - c.+1)%coq_nat (elim1 T M N c) x = Ok x' /\ Inv c.+1 x'.
  Proof.
    move=> Hc HI. have Hp := pivot Hc HI. have cM := leq_trans Hc HrM. have cN := leq_trans Hc HrN.
    have [||x' [E [[A [B C]] [D Z]]]] := @loop_from_inv (mem T) (fun i y => Inv c y /\ y (M * c + c)%coq_nat = x (M * c + c)%coq_nat /\
        forall i', (i' < M)%N -> (c < i')%N -> (i' < i)%N -> y (M * c + i')%coq_nat = (0 : F)) (elim1 T M N c) (M - c.+1)%coq_nat c.+1 x.
    - split=> //. split=> // i' _ L1 L2. by move: (leq_trans L1 L2); rewrite ltnn.
    - move=> i y [Hi1 Hi2] [[A [B C]] [D Z]]. have ci : (c < i)%coq_nat by lia. have iM : (i < M)%coq_nat by lia.
      have [y' [Ey [Y1 Y2]]] := @elim1_ok T M N c i y ci iM (elimT ssrnat.ltP cN). exists y'. split=> //.
      move/ssrnat.ltP: ci => ci. move/ssrnat.ltP: iM => iM.
      have P1 : neqb T (y (M * c + c)%coq_nat) (nofZ T 0) = false by rewrite D; exact: negbTE.
      case E : (neqb T (y (M * c + i)%coq_nat) (nofZ T 0)).
      + rewrite (Y1 (or_intror E)). split=> //. split=> // i' L0 L1. rewrite ltnS leq_eqVlt => /orP[/eqP ->|]; [exact/eqP|exact: Z].
      + have Y := Y2 P1 E. set f : F := ndiv T (y (M * c + i)%coq_nat) (y (M * c + c)%coq_nat) in Y.
        have RO m n : (m < M)%N -> (n < N)%N -> y' (M * n + m)%coq_nat = (y (M * n + m)%coq_nat : F) - (if m == i then f * (y (M * n + c)%coq_nat : F) else 0).
        { move=> Hm Hn. rewrite Y; try by apply/ssrnat.ltP. case: PeanoNat.Nat.eqb_spec => [->|/eqP/negbTE ->]; last by rewrite subr0.
          rewrite eqxx. case: PeanoNat.Nat.leb_spec => [//|/ssrnat.ltP Ln]. by rewrite (A c n) // mulr0 subr0. }
        split; last split.
        * split; last split.
          -- move=> i' n Hi' Hn Lc Li. rewrite RO // A // A //. by rewrite mulr0 if_same subr0.
          -- move=> k Hk. rewrite -B //. apply: (rowop_det ci RO); [exact: leq_trans HrM|exact: leq_trans HrN].
          -- rewrite -C. exact: (rowop_rank ci iM RO).
        * rewrite RO //. have -> : (c == i) = false by apply/negbTE; rewrite neq_ltn ci. by rewrite subr0.
        * move=> i' L0 L1. rewrite ltnS leq_eqVlt RO // => /orP[/eqP ->|L2].
          -- rewrite eqxx /f /= divfK ?subrr //. by rewrite D.
          -- have -> : (i' == i) = false by apply/negbTE; rewrite neq_ltn L2. by rewrite subr0 Z.
    - exists x'. split=> //. split=> //. move=> i n Hi Hn. rewrite ltnS leq_eqVlt => /orP[/eqP ->|L1] L2; last exact: A.
      apply: Z=> //. apply/ssrnat.ltP. move/ssrnat.ltP: Hi. move/ssrnat.ltP: L2. lia.
  Qed.
  Lemma step_done c x : (r <= c)%N -> (c < N)%N -> Inv r x -> loop_from c.+1 (M - c.+1)%coq_nat (elim1 T M N c) x = Ok x.
  Proof.
    move=> Hc cN HI. have [||x' [E H]] := @loop_from_inv (mem T) (fun i y => y = x) (elim1 T M N c) (M - c.+1)%coq_nat c.+1 x.
    - by [].
    - move=> i y [Hi1 Hi2] ->. have ci : (c < i)%coq_nat by lia. have iM : (i < M)%coq_nat by lia.
      have [y' [Ey [Y1 _]]] := @elim1_ok T M N c i x ci iM (elimT ssrnat.ltP cN). exists y'. split=> //. apply: Y1. left.
      have cM : (c < M)%N by apply/ssrnat.ltP; lia. apply/eqP. exact: rest_zero.
    - by rewrite E H.
  Qed.

  Theorem rank_from_sorted x : sort_gauss T M N x = Ok s -> m_rank T M N x = Ok r.
  Proof.
    move=> Es. rewrite /m_rank gauss_eq Es bind_ok.
    have [||t [E HI]] := @loop_inv (mem T) (fun c y => if (c <= r)%N then Inv c y else Inv r y) (fun c => loop_from c.+1 (M - c.+1)%coq_nat (elim1 T M N c)) N s.
    - split; last by []. by [].
    - move=> c y /ssrnat.ltP cN. case: (leqP c r) => [Lc|Lc] HI.
      + move: Lc. rewrite leq_eqVlt => /orP[/eqP Q|Lc].
        * subst c. exists y. split; first by apply: step_done. by rewrite ltnn.
        * have [y' [E H]] := step_pivot Lc HI. exists y'. split=> //. by rewrite Lc.
      + exists y. split; first by apply: step_done=> //; exact: ltnW. by rewrite ltnNge (ltnW Lc).
    have {}HI : Inv r t. { move: HI. case: leqP => // L. have Q : N = r by apply/eqP; rewrite eqn_leq L HrN. by rewrite Q. }
    rewrite E bind_ok. rewrite (@count_ok T M N t (fun m => (m < r)%N)).
    - congr Ok. clear -HrM. rewrite -[RHS](List.seq_length r 0).
      have EM : M = Nat.add r (Nat.sub M r) by move/ssrnat.leP: (HrM) => ?; lia.
      rewrite EM.
      rewrite List.seq_app List.filter_app List.app_length.
      have -> : forall l, List.filter (fun m => (m < r)%N) (List.seq (0 + r)%coq_nat l) = [::].
      { move=> l. have : (r <= (0 + r)%coq_nat)%N by []. move: (0 + r)%coq_nat. elim: l => [//|l IH] b Hb /=. rewrite ltnNge Hb /=. apply: IH. exact: leqW. }
      rewrite /= PeanoNat.Nat.add_0_r. congr (length _).
      have : forall l b, (b + l <= r)%N -> List.filter (fun m => (m < r)%N) (List.seq b l) = List.seq b l.
      { elim=> [//|l IH] b Hb /=. rewrite addnS in Hb. rewrite (leq_ltn_trans _ Hb) ?leq_addr //. by rewrite IH. }
      by apply.
    - move=> m /ssrnat.ltP Hm. split.
      + move/negbT. rewrite -leqNgt => Hr n /ssrnat.ltP Hn. apply/eqP. exact: rest_zero.
      + move=> H. apply/negbTE/negP=> Lm. have mN : (m < N)%N := leq_trans Lm HrN.
        have := H m (elimT ssrnat.ltP mN). have [A [B C]] := HI.
        have : (t (M * m + m)%coq_nat : F) != 0.
        { apply: (@pivot_gen m t Lm).
          - move=> i n H1 H2 H3. apply: A=> //. exact: ltn_trans Lm.
          - rewrite B //. exact: minors. }
        by move/negbTE => /= ->.
  Qed.
End Rank.
