(** Associativity of the composition of frames over a commutative ring. *)
From Verif Require Import Prelude Num MatModel ConfModel FrameModel FrameProofs.
From mathcomp Require Import all_ssreflect all_algebra.
From Verif Require Import MatRing MatMain.
Local Notation mem := MatModel.mem.
Section Assoc.
  Context (R : comUnitRingType).
  Notation T := (Unum R).
  Lemma assoc ops s rs p q f1 f2 f3 x y z g : run T (state0 T) ops = Ok (s, rs) -> fr s p = None -> fr s q = None -> p <> q ->
    fr s f1 = Some x -> fr s f2 = Some y -> fr s f3 = Some z -> f_b x = f_a y -> f_b y = f_a z -> f_a x <> f_b x -> f_b y <> f_b z ->
    (forall f u, fr s f = Some u -> ~ (f_a u = f_a x /\ f_b u = f_b y) /\ ~ (f_a u = f_a y /\ f_b u = f_b z) /\ ~ (f_a u = f_a x /\ f_b u = f_b z)) ->
    exists sl sr rl rr u v, run T s [:: Mul p f1 f2 true g; Mul q p f3 true g] = Ok (sl, rl) /\ run T s [:: Mul p f2 f3 true g; Mul q f1 p true g] = Ok (sr, rr) /\
      fr sl q = Some u /\ fr sr q = Some v /\ f_a u = f_a x /\ f_b u = f_b z /\ f_a v = f_a x /\ f_b v = f_b z /\ toM 4 4 (f_T u) = toM 4 4 (f_T v).
  Proof.
    intros H1 H2 H3 H4 H5 H6 H7 H8 H9 H10 H11 H12. destruct (compose3 T ops s rs p q f1 f2 f3 x y z g H1 H2 H3 H4 H5 H6 H7 H8 H9 H10 H11 H12) as (sl & sr & rl & rr & xy & yz & l & r & A & B & C & D & E1 & E2 & E3 & E4).
    destruct (@law_assoc R 4 4 4 4 (f_T x) (f_T y) (f_T z) g) as (ab & bc & l' & r' & F1 & F2 & F3 & F4 & Q).
    assert (inj : forall (a b : mem T), Ok a = Ok b -> a = b) by (intros a b W; exact (f_equal (fun o => match o with Ok v => v | _ => a end) W)).
    assert (X1 := inj _ _ (etrans (esym E1) F1)). subst ab. assert (X2 := inj _ _ (etrans (esym E2) F2)). subst bc.
    assert (X3 := inj _ _ (etrans (esym E3) F3)). subst l'. assert (X4 := inj _ _ (etrans (esym E4) F4)). subst r'.
    exists sl, sr, rl, rr, (Build_frame (f_a x) (f_b z) l), (Build_frame (f_a x) (f_b z) r).
    exact (conj A (conj B (conj C (conj D (conj erefl (conj erefl (conj erefl (conj erefl Q)))))))).
  Qed.
End Assoc.
