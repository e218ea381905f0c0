(** Model of polynomials and fractions, /repo/includes/eeros/math/Fraction.hpp.
    A Polynome<ORDER> is its array double c[ORDER + 1], here a function of which the indices below ORDER + 1 matter;
    the order is an explicit argument. The array is a plain C array: an access out of range is undefined. *)
From Verif Require Import Prelude Num MatModel.
Open Scope nat_scope.

Section Poly.
Context (T : num).
Notation mem := (mem T). Notation zero := (nofZ T 0%Z).
(** element of an array of n elements *)
Definition get (n : nat) (a : mem) (i : nat) : outcome T := if i <? n then Ok (a i) else UB.
Definition put (n : nat) (a : mem) (i : nat) (v : T) : outcome mem := if i <? n then Ok (upd a i v) else UB.

(** 63-66; g: contents of the memory before *)
Definition p_zero (o : nat) (g : mem) : outcome mem := loop (o + 1) (fun i c => put (o + 1) c i zero) g.
(** 68-76: the coefficients beyond the order are dropped *)
Definition p_vector (o : nat) (v : list T) (g : mem) : outcome mem :=
  loop (o + 1) (fun i c => match nth_error v i with Some x => put (o + 1) c i x | None => put (o + 1) c i zero end) g.
(** 78-87: conversion from order r *)
Definition p_convert (o r : nat) (a : mem) (g : mem) : outcome mem :=
  loop (o + 1) (fun i c => if i <? r + 1 then bind (get (r + 1) a i) (put (o + 1) c i) else put (o + 1) c i zero) g.
(** 89-99 *)
Definition p_mul (o r : nat) (a b : mem) (g : mem) : outcome mem :=
  let n := o + r + 1 in
  bind (p_zero (o + r) g) (loop (o + 1) (fun i => loop (r + 1) (fun j p =>
    bind (get n p (i + j)) (fun z => bind (get (o + 1) a i) (fun x => bind (get (r + 1) b j) (fun y =>
      put n p (i + j) (nadd T z (nmul T x y)))))))).
(** 101-108 *)
Definition p_scale (o : nat) (a : mem) (k : T) (g : mem) : outcome mem :=
  bind (p_zero o g) (loop (o + 1) (fun i p => bind (get (o + 1) p i) (fun z => bind (get (o + 1) a i) (fun x => put (o + 1) p i (nadd T z (nmul T x k)))))).
(** 61 *)
Definition max (x y : nat) : nat := if y <? x then x else y.
(** 110-126 *)
Definition p_add (o r : nat) (a b : mem) (g : mem) : outcome mem :=
  let n := max o r + 1 in
  bind (p_zero (max o r) g) (loop n (fun i p =>
    if (i <? r + 1) && (i <? o + 1) then bind (get (o + 1) a i) (fun x => bind (get (r + 1) b i) (fun y => put n p i (nadd T x y)))
    else if i <? o + 1 then bind (get (o + 1) a i) (put n p i)
    else if i <? r + 1 then bind (get (r + 1) b i) (put n p i)
    else Ok p)).
(** 128-132 *)
Definition p_adds (o : nat) (a : mem) (k : T) : outcome mem := bind (get (o + 1) a 0) (fun x => put (o + 1) a 0 (nadd T x k)).

(** Fraction<ORDER>: numerator and denominator *)
Definition frac := (mem * mem)%type.
(** 15-21 *)
Definition f_vector (o : nat) (n : list T) (g : mem) : outcome frac := bind (p_vector o n g) (fun n => bind (p_zero o g) (fun d => Ok (n, d))).
Definition f_vectors (o : nat) (n d : list T) (g : mem) : outcome frac := bind (p_vector o n g) (fun n => bind (p_vector o d g) (fun d => Ok (n, d))).
(** 23-29 *)
Definition f_mul (o r : nat) (a b : frac) (g : mem) : outcome frac :=
  bind (p_mul o r (fst a) (fst b) g) (fun n => bind (p_mul o r (snd a) (snd b) g) (fun d => Ok (n, d))).
(** 31-36 *)
Definition f_scale (o : nat) (a : frac) (k : T) (g : mem) : outcome frac := bind (p_scale o (fst a) k g) (fun n => Ok (n, snd a)).
(** 38-44: both summands have order o + r, so has the sum *)
Definition f_add (o r : nat) (a b : frac) (g : mem) : outcome frac :=
  bind (p_mul o r (fst a) (snd b) g) (fun x => bind (p_mul o r (snd a) (fst b) g) (fun y =>
    bind (p_add (o + r) (o + r) x y g) (fun n => bind (p_mul o r (snd a) (snd b) g) (fun d => Ok (n, d))))).
(** 46-51 *)
Definition f_adds (o : nat) (a : frac) (k : T) (g : mem) : outcome frac :=
  bind (p_scale o (snd a) k g) (fun x => bind (p_add o o (fst a) x g) (fun n => Ok (n, snd a))).
(** 134-140 *)
Definition p_div (o r : nat) (a b : mem) (g : mem) : outcome frac :=
  bind (p_convert (max o r) o a g) (fun n => bind (p_convert (max o r) r b g) (fun d => Ok (n, d))).
End Poly.
