(** Property C65 over commutative rings: composing three frames does not depend on the order. *)
From Verif Require Import Prelude Num MatModel ConfModel FrameModel.
From mathcomp Require Import all_ssreflect all_algebra.
From Verif Require Import MatRing FrameMain.
Local Notation mem := MatModel.mem.

Theorem C65_associative : forall (R : comUnitRingType) ops s rs p q f1 f2 f3 x y z g, run (Unum R) (state0 (Unum R)) ops = Ok (s, rs) -> fr s p = None -> fr s q = None -> p <> q ->
  fr s f1 = Some x -> fr s f2 = Some y -> fr s f3 = Some z -> f_b x = f_a y -> f_b y = f_a z -> f_a x <> f_b x -> f_b y <> f_b z ->
  (forall f u, fr s f = Some u -> ~ (f_a u = f_a x /\ f_b u = f_b y) /\ ~ (f_a u = f_a y /\ f_b u = f_b z) /\ ~ (f_a u = f_a x /\ f_b u = f_b z)) ->
  exists sl sr rl rr u v, run (Unum R) s [:: Mul p f1 f2 true g; Mul q p f3 true g] = Ok (sl, rl) /\ run (Unum R) s [:: Mul p f2 f3 true g; Mul q f1 p true g] = Ok (sr, rr) /\
    fr sl q = Some u /\ fr sr q = Some v /\ f_a u = f_a x /\ f_b u = f_b z /\ f_a v = f_a x /\ f_b v = f_b z /\ toM 4 4 (f_T u) = toM 4 4 (f_T v).
Proof. exact assoc. Qed.
Print Assumptions C65_associative.
