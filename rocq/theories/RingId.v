(** Polynomial identities over any commutative ring, for use with other presentations of rings. *)
From Coq Require Import Ring.
Set Implicit Arguments.
Section Ids.
  Context (A : Type) (o i : A) (add mul sub : A -> A -> A) (opp : A -> A).
  Context (rt : ring_theory o i add mul sub opp (@eq A)).
  Add Ring A_ring : rt.
  Local Infix "+" := add. Local Infix "*" := mul. Local Infix "-" := sub. Local Notation "- x" := (opp x).

  Lemma id_det3 (a0 a1 a2 a3 a4 a5 a6 a7 a8 : A) :
    a0 * a4 * a8 + a3 * a7 * a2 + a6 * a1 * a5 - a6 * a4 * a2 - a0 * a7 * a5 - a3 * a1 * a8 =
    a0 * (a4 * a8 + a5 * - a7) + (a1 * - (a3 * a8 + a5 * - a6) + a2 * (a3 * a7 + a4 * - a6)).
  Proof. ring. Qed.
  Lemma id_minor (a b c d : A) : a * d - b * c = a * d + c * - b /\ a * d - c * b = a * d + c * - b /\
    d * a - b * c = a * d + c * - b /\ d * a - c * b = a * d + c * - b.
  Proof. repeat split; ring. Qed.
  Lemma id_minorN (a b c d : A) : b * c - a * d = - (a * d + c * - b) /\ c * b - a * d = - (a * d + c * - b) /\
    b * c - d * a = - (a * d + c * - b) /\ c * b - d * a = - (a * d + c * - b).
  Proof. repeat split; ring. Qed.
  Lemma id_cross (x y z a b c : A) :
    x * (y * c - z * b) + y * (z * a - x * c) + z * (x * b - y * a) = o /\
    a * (y * c - z * b) + b * (z * a - x * c) + c * (x * b - y * a) = o /\
    y * c - z * b = - (b * z - c * y) /\ z * a - x * c = - (c * x - a * z) /\ x * b - y * a = - (a * y - b * x) /\
    o + o * a + (o - z) * b + y * c = y * c - z * b /\ o + z * a + o * b + (o - x) * c = z * a - x * c /\
    o + (o - y) * a + x * b + o * c = x * b - y * a.
  Proof. repeat split; ring. Qed.
End Ids.
