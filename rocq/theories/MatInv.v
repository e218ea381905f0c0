(** The inverse over a field. *)
From Verif Require Import Prelude Num MatModel MatProofs MatProofs2 RingId.
From mathcomp Require Import all_ssreflect all_algebra.
From Verif Require Import MatRing.
Set Implicit Arguments. Unset Strict Implicit. Unset Printing Implicit Defensive.
Import GRing.Theory.
Local Open Scope ring_scope.
Local Notation mem := MatModel.mem.

Section Inv.
  Context (F : fieldType).
  Notation T := (Unum F).
  Implicit Types (x g s : mem T).

  Definition sign (m n : nat) : F := if Bool.eqb (PeanoNat.Nat.even m) (PeanoNat.Nat.even n) then 1 else -1.
  Lemma even_sign m : (-1 : F) ^+ m = if PeanoNat.Nat.even m then 1 else -1.
  Proof.
    have : ((-1 : F) ^+ m = if PeanoNat.Nat.even m then 1 else -1) /\ ((-1 : F) ^+ m.+1 = if PeanoNat.Nat.even m.+1 then 1 else -1);
      last by case.
    elim: m => [|m [IH1 IH2]]; first by []. split; first exact: IH2. by rewrite exprS exprS mulrA mulrNN mulr1 mul1r IH1.
  Qed.
  Lemma signE m n : sign m n = (-1) ^+ (m + n).
  Proof.
    rewrite exprD !even_sign /sign. by case: PeanoNat.Nat.even; case: PeanoNat.Nat.even; rewrite /= ?mulr1 ?mul1r ?mulrNN ?mulr1.
  Qed.

  Lemma inv_singular M x g : (0 < M)%N -> \det (toM M M x) = 0 -> m_inv T M x g = Fault.
  Proof. move=> HM H. by rewrite /m_inv det_M // H /= eqxx. Qed.
  Lemma inv_orthogonal M x g : (0 < M)%N -> \det (toM M M x) != 0 -> toM M M x *m (toM M M x)^T = 1%:M ->
    exists r, m_inv T M x g = Ok r /\ toM M M r = (toM M M x)^T.
  Proof.
    move=> HM H O. have [r [E Hr]] := transpose_M M M x g. exists r. rewrite /m_inv det_M // bind_ok.
    have -> : neqb T (\det (toM M M x)) (nofZ T 0) = false by exact: negbTE. by rewrite orthogonal_M bind_ok O eqxx E.
  Qed.

  (** Orders from 4 on, for a matrix that is not orthogonal *)
  Lemma inv_general k x g (Q : mem T -> Prop) (D : nat -> nat -> F) : (2 < k)%N ->
    \det (toM k.+1 k.+1 x) != 0 -> toM k.+1 k.+1 x *m (toM k.+1 k.+1 x)^T != 1%:M ->
    Q g -> (forall m n s, (m < k.+1)%N -> (n < k.+1)%N -> Q s -> exists s', inv_sub T k.+1 x m n s = Ok s' /\ Q s' /\ m_det T k s' g = Ok (D m n)) ->
    exists r, m_inv T k.+1 x g = Ok r /\ forall i j : 'I_k.+1, toM k.+1 k.+1 r i j = sign i j * D j i / \det (toM k.+1 k.+1 x).
  Proof.
    move=> Hk Hd Ho HQ Hs. set M := k.+1. set det := \det (toM M M x).
    pose step := fun m n (p : mem T * mem T) => let '(r, s) := p in
          bind (inv_sub T M x m n s) (fun s => bind (m_det T (M - 1)%coq_nat s g) (fun d =>
          bind (wr T M M r m n (if Bool.eqb (PeanoNat.Nat.even m) (PeanoNat.Nat.even n) then d else mopp T d)) (fun r =>
          bind (rd T M M r m n) (fun v => bind (wr T M M r m n (ndiv T v (det : T))) (fun r => Ok (r, s)))))).
    have STEP m n r s : (m < M)%coq_nat -> (n < M)%coq_nat -> Q s -> exists r' s', step m n (r, s) = Ok (r', s') /\ Q s' /\
        r' (M * n + m)%coq_nat = sign m n * D m n / det /\
        forall m' n', (m' < M)%coq_nat -> (m', n') <> (m, n) -> r' (M * n' + m')%coq_nat = r (M * n' + m')%coq_nat.
    { move=> Hm Hn Hq. have [s' [Es [Hq' Ed]]] := Hs m n s (introT ssrnat.ltP Hm) (introT ssrnat.ltP Hn) Hq.
      rewrite /step Es bind_ok. have -> : (M - 1)%coq_nat = k by rewrite /M; lia. rewrite Ed bind_ok.
      rewrite (wr_ok T M M) // bind_ok rd_ok // bind_ok (wr_ok T M M) // bind_ok.
      eexists _, s'. split; first by []. split=> //. split.
      - rewrite !upd_same /= /sign. case: Bool.eqb; by rewrite ?sub0r ?mul1r ?mulN1r.
      - move=> m' n' Hm' Hne. rewrite !(upd_cell T) //. case: PeanoNat.Nat.eqb_spec => [Q1|//]; case: PeanoNat.Nat.eqb_spec => [Q2|//]; by subst. }
    have [||[r s] [E [HQs H]]] := @loop_inv (mem T * mem T) (fun m p => Q (snd p) /\ forall m' n', (m' < m)%coq_nat -> (m' < M)%coq_nat -> (n' < M)%coq_nat ->
        fst p (M * n' + m')%coq_nat = sign m' n' * D m' n' / det :> F) (fun m p => let '(r, s) := p in loop M (step m) (r, s)) M (g, g).
    - split=> //. by lia.
    - move=> m [r s] Hm [Hq Hr].
      have [||[r' s'] [E [Hq' [H1 H2]]]] := @loop_inv (mem T * mem T) (fun n p => Q (snd p) /\
          (forall m' n', (m' < m)%coq_nat -> (n' < M)%coq_nat -> fst p (M * n' + m')%coq_nat = sign m' n' * D m' n' / det :> F) /\
          forall n', (n' < n)%coq_nat -> (n' < M)%coq_nat -> fst p (M * n' + m)%coq_nat = sign m n' * D m n' / det :> F) (step m) M (r, s).
      + split=> //. split; last by lia. move=> m' n' L1 L2 /=. by apply: Hr; lia.
      + move=> n [r1 s1] Hn [Hq1 [A B]]. have [r2 [s2 [E2 [Hq2 [V O]]]]] := STEP m n r1 s1 Hm Hn Hq1. exists (r2, s2).
        split=> //. split=> //. split.
        * move=> m' n' L1 L2 /=. rewrite O; [by apply: A|by lia|move=> [Q1 Q2]; lia].
        * move=> n' L1 L2 /=. have [->|Hne] := PeanoNat.Nat.eq_dec n' n; first exact: V.
          rewrite O; [apply: B; lia|by []|congruence].
      + exists (r', s'). split=> //. split=> //. move=> m' n' L1 L2 L3.
        have [->|Hne] := PeanoNat.Nat.eq_dec m' m; first exact: H2. by apply: H1=> //; lia.
    have [t [Et Ht]] := transpose_M M M r g. exists t. split.
    - rewrite /m_inv det_M // bind_ok -/M -/det.
      have -> : neqb T det (nofZ T 0) = false by exact: negbTE. rewrite orthogonal_M bind_ok (negbTE Ho).
      have -> : PeanoNat.Nat.eqb M 2 = false by apply/PeanoNat.Nat.eqb_neq; rewrite /M; move/ssrnat.ltP: Hk; lia.
      have -> : PeanoNat.Nat.eqb M 3 = false by apply/PeanoNat.Nat.eqb_neq; rewrite /M; move/ssrnat.ltP: Hk; lia.
      suff: bind (loop M (fun m p => let '(r, s) := p in loop M (step m) (r, s)) (g, g)) (fun p => let '(r, _) := p in m_transpose T M M r g) = Ok t by [].
      by rewrite E bind_ok.
    - move=> i j. rewrite Ht !mxE. rewrite /= in H. rewrite H; try by apply/ssrnat.ltP. rewrite /sign. by case: PeanoNat.Nat.even; case: PeanoNat.Nat.even.
  Qed.

  Lemma invmx_adj n (A : 'M[F]_n) : \det A != 0 -> invmx A = (\det A)^-1 *: \adj A.
  Proof. move=> H. rewrite /invmx. by have -> : A \in unitmx by rewrite unitmxE unitfE. Qed.
  Lemma orth_invmx n (A : 'M[F]_n) : \det A != 0 -> A *m A^T = 1%:M -> invmx A = A^T.
  Proof. move=> H O. have U : A \in unitmx by rewrite unitmxE unitfE. by rewrite -[RHS](mulKmx U) O mulmx1. Qed.

  Lemma inv_pow2 j x g (M := PeanoNat.Nat.pow 2 j.+2) : \det (toM M M x) != 0 -> exists r, m_inv T M x g = Ok r /\ toM M M r = invmx (toM M M x).
  Proof.
    have H4 : (3 < M)%coq_nat by rewrite /M /=; move: (PeanoNat.Nat.pow_nonzero 2 j); lia.
    have EM : M = (M.-1).+1 by lia. have Hpos : forall i, (i < M)%coq_nat -> pos M i = i by move=> i; exact: pos_pow2.
    move: H4 EM Hpos. move: M.-1 => k. clearbody M. move=> H4 EM. subst M. move=> Hpos Hd.
    have [O|O] := eqVneq (toM k.+1 k.+1 x *m (toM k.+1 k.+1 x)^T) 1%:M.
    - have [//|r [E H]] := @inv_orthogonal k.+1 x g _ Hd O. exists r. split=> //. by rewrite H orth_invmx.
    - have [||//|r [E H]] := @inv_general k x g (fun _ => True) (fun m n => \det (\matrix_(i < k, c < k) (x (k.+1 * skip n c + skip m i)%coq_nat : F))) _ Hd O.
      + by apply/ssrnat.ltP; lia.
      + by [].
      + move=> m n s Hm Hn _. have [||| s' [Es [A _]]] := @inv_sub_ok T k x s m n.
        * by lia.
        * by move/ssrnat.ltP: Hm; lia.
        * by move/ssrnat.ltP: Hn; lia.
        exists s'. split=> //. split=> //. rewrite det_M; last by apply/ssrnat.ltP; lia. congr (Ok (\det _)). apply/matrixP=> i c. rewrite !mxE.
        move/ssrnat.ltP: (ltn_ord i) => Li. move/ssrnat.ltP: (ltn_ord c) => Lc.
        rewrite -{1}(Hpos i); last by lia. apply: A=> // i' Hi'. rewrite !Hpos; lia.
      + exists r. split=> //. rewrite invmx_adj //. apply/matrixP=> i c. rewrite H !mxE /cofactor signE addnC mulrC. congr (_ * (_ * \det _)).
        apply/matrixP=> u v. rewrite !mxE !skip_bump. by [].
  Qed.

  Lemma inv_2 x g : \det (toM 2 2 x) != 0 -> exists r, m_inv T 2 x g = Ok r /\ toM 2 2 r = invmx (toM 2 2 x).
  Proof.
    move=> Hd. have [O|O] := eqVneq (toM 2 2 x *m (toM 2 2 x)^T) 1%:M.
    - have [//|r [E H]] := @inv_orthogonal 2 x g _ Hd O. exists r. split=> //. by rewrite H orth_invmx.
    - rewrite /m_inv det_M // bind_ok. set det := \det (toM 2 2 x).
      have -> : neqb T det (nofZ T 0) = false by exact: negbTE. rewrite orthogonal_M bind_ok (negbTE O).
      rewrite [PeanoNat.Nat.eqb 2 2]/=.
      pose r0 := upd (upd (upd (upd g 0 (x 3%N)) 1 (mopp T (x 1%N))) 2 (mopp T (x 2%N))) 3 (x 0%N).
      have [r [E H]] := div_M 2 2 r0 (det : F) g. exists r. split; first exact: E. rewrite H invmx_adj //. congr (_ *: _).
      apply/matrixP=> i j. rewrite !mxE /cofactor det_mx11 !mxE.
      case: i => [[|[|i]] Hi] //; case: j => [[|[|j]] Hj] //; rewrite /= /bump /= ?addn0 /= ?addn1 ?expr0 ?expr1 ?sqrrN ?expr1n ?mul1r ?mulN1r // -?mopp_opp //.
  Qed.

  Lemma inv_3 x g : \det (toM 3 3 x) != 0 -> exists r, m_inv T 3 x g = Ok r /\ toM 3 3 r = invmx (toM 3 3 x).
  Proof.
    move=> Hd. have [O|O] := eqVneq (toM 3 3 x *m (toM 3 3 x)^T) 1%:M.
    - have [//|r [E H]] := @inv_orthogonal 3 x g _ Hd O. exists r. split=> //. by rewrite H orth_invmx.
    - rewrite /m_inv det_M // bind_ok. set det := \det (toM 3 3 x).
      have -> : neqb T det (nofZ T 0) = false by exact: negbTE. rewrite orthogonal_M bind_ok (negbTE O).
      rewrite [PeanoNat.Nat.eqb 3 2]/= [PeanoNat.Nat.eqb 3 3]/=.
      pose c (i1 j1 i2 j2 i3 j3 i4 j4 : nat) : F := x (3 * j1 + i1)%N * x (3 * j2 + i2)%N - x (3 * j3 + i3)%N * x (3 * j4 + i4)%N.
      pose r0 := upd (upd (upd (upd (upd (upd (upd (upd (upd g 0 (c 1%N 1%N 2%N 2%N 1%N 2%N 2%N 1%N : F)) 1 (c 1%N 2%N 2%N 0%N 1%N 0%N 2%N 2%N : F)) 2 (c 1%N 0%N 2%N 1%N 1%N 1%N 2%N 0%N : F))
        3 (c 0%N 2%N 2%N 1%N 0%N 1%N 2%N 2%N : F)) 4 (c 0%N 0%N 2%N 2%N 0%N 2%N 2%N 0%N : F)) 5 (c 0%N 1%N 2%N 0%N 0%N 0%N 2%N 1%N : F))
        6 (c 0%N 1%N 1%N 2%N 0%N 2%N 1%N 1%N : F)) 7 (c 0%N 2%N 1%N 0%N 0%N 0%N 1%N 2%N : F)) 8 (c 0%N 0%N 1%N 1%N 0%N 1%N 1%N 0%N : F).
      have [r [E H]] := div_M 3 3 (r0 : mem T) (det : F) g. exists r. split; first exact: E. rewrite H invmx_adj //. congr (_ *: _).
      apply/matrixP=> i j. rewrite !mxE /cofactor. rewrite !(expand_det_col _ ord0) !big_ord_recl !big_ord0 /cofactor /= !det_mx11 !mxE /=.
      case: i => [[|[|[|i]]] Hi] //; case: j => [[|[|[|j]]] Hj] //; rewrite /= /bump /= ?expr0 ?expr1 ?sqrrN ?expr1n ?mul1r ?mulN1r ?addr0 //.
      all: rewrite ?[((1 + 2)%N)]/= ?exprS ?expr0 ?mulr1 ?mulN1r ?opprK ?mul1r.
      all: rewrite /r0 /upd /= /c /= ?addn0.
      all: rewrite ?mulN1r.
      all: match goal with
        | |- _ = ?a * ?d + ?c * - ?b => exact (proj1 (id_minor (ring_R F) a b c d))
        | |- _ = - (?a * ?d + ?c * - ?b) => exact (proj1 (id_minorN (ring_R F) a b c d))
        end.
  Qed.

  (** Every other order: rows 2^j .. of the sub-matrix are never written, and the sub-matrices for
      (0,n) and (1,n) come out equal. *)
  Lemma inv_other k x g : (2 < k)%N -> (forall j, k.+1 <> PeanoNat.Nat.pow 2 j) -> 
    \det (toM k.+1 k.+1 x) != 0 -> toM k.+1 k.+1 x *m (toM k.+1 k.+1 x)^T != 1%:M ->
    exists r, m_inv T k.+1 x g = Ok r /\ forall i : 'I_k.+1, toM k.+1 k.+1 r i ord0 = - toM k.+1 k.+1 r i (inord 1).
  Proof.
    move=> Hk2 Hn Hd O. move/ssrnat.ltP: (Hk2) => Hk.
    have [w [L [[W1 W2] [HL HS]]]] := inv_sub_other T k Hk Hn.
    pose B (m n : nat) : 'M[F]_k := \matrix_(r, c) if PeanoNat.Nat.ltb r w then (x (k.+1 * skip n c + skip m (L r))%coq_nat : F) else (g (k * c + r)%coq_nat : F).
    have [||r [E H]] := @inv_general k x g (fun s => forall r c, (r < k)%coq_nat -> (c < k)%coq_nat -> (w <= r)%coq_nat -> s (k * c + r)%coq_nat = g (k * c + r)%coq_nat)
      (fun m n => \det (B m n)) Hk2 Hd O.
    - by [].
    - move=> m n s /ssrnat.ltP Lm /ssrnat.ltP Ln HQ. have [||s' [Es Hs]] := HS x s m n; try lia. exists s'. split=> //. split.
      + move=> r c Lr Lc Lw. rewrite Hs //. case: PeanoNat.Nat.ltb_spec => [|_]; first by lia. exact: HQ.
      + rewrite det_M; last by apply/ssrnat.ltP; lia. congr (Ok (\det _)). apply/matrixP=> r c. rewrite !mxE.
        move/ssrnat.ltP: (ltn_ord r) => Lr. move/ssrnat.ltP: (ltn_ord c) => Lc. rewrite Hs //. case: PeanoNat.Nat.ltb_spec => // Lw. exact: HQ.
    - exists r. split=> // i. rewrite !H inordK; last by apply/ssrnat.ltP; lia.
      have -> : B 1%N i = B (@ord0 k) i.
      { apply/matrixP=> u v. rewrite !mxE. case: PeanoNat.Nat.ltb_spec => // Hu. have [L1 L2] := HL u Hu. rewrite !skip_bump /bump leq0n.
        by move/ssrnat.ltP: L1 => ->. }
      rewrite !signE addn0 addn1 exprS !mulN1r !mulNr opprK. by [].
  Qed.
  Theorem inv_other_wrong M x g : (3 < M)%N -> (forall j, M <> PeanoNat.Nat.pow 2 j) -> 
    \det (toM M M x) != 0 -> toM M M x *m (toM M M x)^T != 1%:M ->
    exists r, m_inv T M x g = Ok r /\ toM M M x *m toM M M r <> 1%:M /\ toM M M r *m toM M M x <> 1%:M.
  Proof.
    case: M => [//|k] Hk Hn Hd O. have [r [E H]] := inv_other g Hk Hn Hd O. exists r. split=> //.
    suff W : toM k.+1 k.+1 x *m toM k.+1 k.+1 r <> 1%:M by split=> // /mulmx1C.
    move=> W. pose v : 'cV[F]_k.+1 := \col_i ((i == ord0)%:R + (i == inord 1)%:R).
    have Z : toM k.+1 k.+1 r *m v = 0.
    { apply/matrixP=> i c. rewrite [c]ord1 mxE. under eq_bigr do rewrite [v _ _]mxE mulrDr. rewrite big_split /=.
      rewrite (bigD1 ord0) //= big1 ?addr0; last by move=> u /negbTE ->; rewrite mulr0.
      rewrite (bigD1 (inord 1)) //= big1 ?addr0; last by move=> u /negbTE ->; rewrite mulr0.
      by rewrite !eqxx !mulr1 H addrC subrr mxE. }
    have : v = 0 by rewrite -[v]mul1mx -W -mulmxA Z mulmx0.
    move/matrixP/(_ ord0 ord0). rewrite !mxE eqxx.
    have -> : (ord0 == inord 1 :> 'I_k.+1) = false. { apply/eqP=> /(congr1 val) /=. rewrite inordK //. by case: k Hk {Hn Hd O E H W v Z}. }
    rewrite addr0 => /eqP. by rewrite oner_eq0.
  Qed.
End Inv.
