(** Cross product and skew symmetric matrix over a commutative ring. *)
From Verif Require Import Prelude Num MatModel MatProofs MatProofs2 RingId.
From mathcomp Require Import all_ssreflect all_algebra.
From Verif Require Import MatRing.
Set Implicit Arguments. Unset Strict Implicit. Unset Printing Implicit Defensive.
Import GRing.Theory.
Local Open Scope ring_scope.
Local Notation mem := MatModel.mem.

Section Cross.
  Context (R : comUnitRingType).
  Notation T := (Unum R).
  Implicit Types (a b g : mem T).
  (** The components of a vector *)
  Definition comp a (i : nat) : R := a i.
  Definition dot a b : R := comp a 0%N * comp b 0%N + comp a 1%N * comp b 1%N + comp a 2%N * comp b 2%N.
  (** The textbook cross product *)
  Definition is_cross a b (r : mem T) : Prop :=
    comp r 0%N = comp a 1%N * comp b 2%N - comp a 2%N * comp b 1%N /\
    comp r 1%N = comp a 2%N * comp b 0%N - comp a 0%N * comp b 2%N /\
    comp r 2%N = comp a 0%N * comp b 1%N - comp a 1%N * comp b 0%N.

  Lemma cross_ok a b g : exists r, m_cross T a b g = Ok r /\ is_cross a b r.
  Proof. eexists; split; first reflexivity. by []. Qed.
  Lemma cross_perp a b r : is_cross a b r -> dot a r = 0 /\ dot b r = 0.
  Proof.
    move=> [H0 [H1 H2]]. rewrite /dot H0 H1 H2.
    have [I1 [I2 _]] := id_cross (ring_R R) (comp a 0%N) (comp a 1%N) (comp a 2%N) (comp b 0%N) (comp b 1%N) (comp b 2%N). by split.
  Qed.
  Lemma cross_anti a b r s : is_cross a b r -> is_cross b a s -> forall i, (i < 3)%N -> comp r i = - comp s i.
  Proof.
    move=> [H0 [H1 H2]] [H0' [H1' H2']].
    have [_ [_ [I0 [I1 [I2 _]]]]] := id_cross (ring_R R) (comp a 0%N) (comp a 1%N) (comp a 2%N) (comp b 0%N) (comp b 1%N) (comp b 2%N).
    move=> [|[|[|//]]] _; rewrite ?H0 ?H1 ?H2 ?H0' ?H1' ?H2'; [exact: I0|exact: I1|exact: I2].
  Qed.
  Lemma skew_cross a b g : exists s r c, m_skew T a g = Ok s /\ m_mul T 3 3 1 s b g = Ok r /\ m_cross T a b g = Ok c /\
    (toM 3 3 s)^T = - toM 3 3 s /\ forall i, (i < 3)%N -> comp r i = comp c i.
  Proof.
    pose s : mem T := upd (upd (upd (upd (upd (upd (upd (upd (upd g 0 (nofZ T 0)) 3 (mopp T (a 2%N))) 6 (a 1%N))
      1 (a 2%N)) 4 (nofZ T 0)) 7 (mopp T (a 0%N))) 2 (mopp T (a 1%N))) 5 (a 0%N)) 8 (nofZ T 0).
    exists s. have [r [Er Hr]] := mul_ok T 3 3 1 s b g. have [c [Ec [H0 [H1 H2]]]] := cross_ok a b g. exists r, c.
    split; first by []. split=> //. split=> //. split.
    - apply/matrixP=> i j. rewrite !mxE. case: i => [[|[|[|i]]] Hi] //; case: j => [[|[|[|j]]] Hj] //; rewrite /s /upd /=; by rewrite ?sub0r ?oppr0 ?opprK.
    - have [_ [_ [_ [_ [_ [I0 [I1 I2]]]]]]] := id_cross (ring_R R) (comp a 0%N) (comp a 1%N) (comp a 2%N) (comp b 0%N) (comp b 1%N) (comp b 2%N).
      move=> [|[|[|//]]] _.
      + rewrite H0 -I0. apply: (Hr 0%N 0%N); lia.
      + rewrite H1 -I1. apply: (Hr 1%N 0%N); lia.
      + rewrite H2 -I2. apply: (Hr 2%N 0%N); lia.
  Qed.
End Cross.
