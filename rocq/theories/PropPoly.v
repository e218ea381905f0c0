(** Property C63: polynomials and fractions. [pval o a x] is the sum of a i * x^i for i <= o. *)
From Verif Require Import Prelude Num MatModel PolyModel.
From mathcomp Require Import all_ssreflect all_algebra.
From Verif Require Import MatRing PolyMain.
Import GRing.Theory.
Local Open Scope ring_scope.
Local Notation mem := MatModel.mem.

Theorem C63_product : forall (R : comUnitRingType) o r (a b g : mem (Unum R)) x, exists c, p_mul (Unum R) o r a b g = Ok c /\ pval (o + r) c x = pval o a x * pval r b x.
Proof. exact val_mul. Qed.
Print Assumptions C63_product.
Theorem C63_sum : forall (R : comUnitRingType) o r (a b g : mem (Unum R)) x, exists c, p_add (Unum R) o r a b g = Ok c /\ pval (maxn o r) c x = pval o a x + pval r b x.
Proof. exact val_add. Qed.
Print Assumptions C63_sum.
Theorem C63_scalar : forall (R : comUnitRingType) o (a : mem (Unum R)) (k : R) g x, 
  (exists c, p_scale (Unum R) o a k g = Ok c /\ pval o c x = pval o a x * k) /\ (exists c, p_adds (Unum R) o a k = Ok c /\ pval o c x = pval o a x + k).
Proof. exact (fun R o a k g x => conj (val_scale o a k g x) (val_adds o a k x)). Qed.
Print Assumptions C63_scalar.
(** The same as polynomials: all coefficients are right, also over rings where values do not determine them. *)
Theorem C63_coefficients : forall (R : comUnitRingType) o r (a b g : mem (Unum R)),
  (exists c, p_mul (Unum R) o r a b g = Ok c /\ \poly_(i < (o + r).+1) c i = \poly_(i < o.+1) a i * \poly_(i < r.+1) b i :> {poly R}) /\
  (exists c, p_add (Unum R) o r a b g = Ok c /\ \poly_(i < (maxn o r).+1) c i = \poly_(i < o.+1) a i + \poly_(i < r.+1) b i :> {poly R}).
Proof. exact (fun R o r a b g => conj (mul_P o r a b g) (add_P o r a b g)). Qed.
Print Assumptions C63_coefficients.
Theorem C63_fraction_product : forall (F : fieldType) o r (a b : PolyModel.frac (Unum F)) g x, pval o a.2 x != 0 -> pval r b.2 x != 0 ->
  exists c, f_mul (Unum F) o r a b g = Ok c /\ fval (o + r) c x = fval o a x * fval r b x /\ pval (o + r) c.2 x != 0.
Proof. exact fval_mul. Qed.
Print Assumptions C63_fraction_product.
Theorem C63_fraction_sum : forall (F : fieldType) o r (a b : PolyModel.frac (Unum F)) g x, pval o a.2 x != 0 -> pval r b.2 x != 0 ->
  exists c, f_add (Unum F) o r a b g = Ok c /\ fval (o + r) c x = fval o a x + fval r b x /\ pval (o + r) c.2 x != 0.
Proof. exact fval_add. Qed.
Print Assumptions C63_fraction_sum.
Theorem C63_fraction_scalar : forall (F : fieldType) o (a : PolyModel.frac (Unum F)) (k : F) g x, pval o a.2 x != 0 ->
  (exists c, f_scale (Unum F) o a k g = Ok c /\ fval o c x = fval o a x * k /\ pval o c.2 x = pval o a.2 x) /\
  (exists c, f_adds (Unum F) o a k g = Ok c /\ fval o c x = fval o a x + k /\ pval o c.2 x = pval o a.2 x).
Proof. exact (fun F o a k g x H => conj (fval_scale o a k g x) (fval_adds k g H)). Qed.
Print Assumptions C63_fraction_scalar.
Theorem C63_quotient : forall (F : fieldType) o r (a b g : mem (Unum F)) x, exists c, p_div (Unum F) o r a b g = Ok c /\ fval (maxn o r) c x = pval o a x / pval r b x.
Proof. exact fval_div. Qed.
Print Assumptions C63_quotient.
(** Construction from lists of coefficients that fit *)
Theorem C63_construct : forall (F : fieldType) o (n d : seq F) g x, (size n <= o.+1)%N -> (size d <= o.+1)%N ->
  (exists c, p_vector (Unum F) o n g = Ok c /\ pval o c x = \sum_(i < size n) n`_i * x ^+ i) /\
  exists c, f_vectors (Unum F) o n d g = Ok c /\ fval o c x = (\sum_(i < size n) n`_i * x ^+ i) / (\sum_(i < size d) d`_i * x ^+ i).
Proof. exact (fun F o n d g x Hn Hd => conj (val_vector g x Hn) (fval_vectors g x Hn Hd)). Qed.
Print Assumptions C63_construct.
Example C63_example (R : comUnitRingType) (x : R) : pval 2 (fun i => if i == 0%N then 1 else if i == 1%N then 0 else 3%:R) x = 1 + 3%:R * x ^+ 2 :> R.
Proof. by rewrite /pval 2!big_ord_recr big_ord_recl /= big_ord0 /bump /= expr0 mulr1 mul0r !addr0. Qed.

(** C132: what the constructors from coefficients keep. *)
Theorem C132_dropped : forall (R : comUnitRingType) o (v : seq R) g x, exists c, p_vector (Unum R) o v g = Ok c /\ pval o c x = \sum_(i < o.+1) v`_i * x ^+ i.
Proof. exact val_dropped. Qed.
Print Assumptions C132_dropped.
Theorem C132_construct_partial : forall (R : comUnitRingType) o (v : seq R) g x, (size v <= o.+1)%N -> exists c, p_vector (Unum R) o v g = Ok c /\ pval o c x = \sum_(i < size v) v`_i * x ^+ i.
Proof. exact val_vector. Qed.
Print Assumptions C132_construct_partial.
(** Coefficients beyond the order are dropped silently. *)
Theorem C132_truncated_refuted : exists o, forall (F : fieldType) g, exists (v : seq F) c x, p_vector (Unum F) o v g = Ok c /\ pval o c x != \sum_(i < size v) v`_i * x ^+ i.
Proof. exact truncated. Qed.
Print Assumptions C132_truncated_refuted.
(** The constructor with a numerator only makes the denominator 0, at every point. *)
Theorem C132_no_denominator_refuted : exists o, forall (F : fieldType) (v : seq F) g, exists c, f_vector (Unum F) o v g = Ok c /\ forall x, pval o c.2 x = 0.
Proof. exact no_denominator. Qed.
Print Assumptions C132_no_denominator_refuted.
Example C132_example (F : fieldType) : (size ([:: 1; 0] : seq F)%R <= 2)%N.
Proof. by []. Qed.
