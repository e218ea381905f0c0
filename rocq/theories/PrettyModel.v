(** Model of the function pretty, includes/eeros/logger/Pretty.hpp 12-126, on exact real numbers.
    Not modelled: rounding of log10, pow and the divisions; for NaN and infinite arguments the conversions to int (28, 38)
    have undefined behaviour.  The text is given by its parts. *)
From Coq Require Import Reals.
From Flocq Require Import Core.Raux.
From Verif Require Import Prelude.
Open Scope Z_scope.

Inductive ptext :=
| PZero                                                         (* "   0.000 ", line 21 *)
| PText (neg : bool) (left right : Z) (positive : bool) (r : Z). (* parts of lines 42-123 *)

Definition log10 (x : R) : R := (ln x / ln 10)%R.
(** Lines 24-39; [a] is the absolute value of the argument (16-17). *)
Definition pretty_abs (neg : bool) (a : R) : ptext :=
  let l := log10 a in
  let positive := Rle_bool 0 l in
  let l := if positive then l else (- l)%R in
  let r := Z.quot (Ztrunc l) 3 * 3 in
  let r := if positive then r else r + 3 in
  let b := powerRZ 10 r in
  let x := if positive then (a / b)%R else (a * b)%R in
  let left := Ztrunc x in
  let right := Ztrunc ((x - IZR left) * 1000)%R in
  PText neg left right positive r.
Definition pretty (x : R) : ptext :=
  let npositive := Rle_bool 0 x in
  let x := if npositive then x else (- x)%R in
  if Rlt_bool x (/ 10 ^ 12) then PZero else pretty_abs (negb npositive) x.

(** Number of characters of operator<< for a non-negative int. *)
Fixpoint digits_fuel (n : nat) (z : Z) : Z :=
  match n with O => 1 | S n => if z <? 10 then 1 else 1 + digits_fuel n (z / 10) end.
Definition digits (z : Z) : Z := digits_fuel 10 z.
(** Lines 42-123: number of characters of the text. *)
Definition width (t : ptext) : Z :=
  match t with
  | PZero => 9
  | PText _ lft rgt _ r =>
    (if lft <? 10 then 2 else if lft <? 100 then 1 else 0) + 1 + digits lft + 1 +
    (if rgt <? 10 then 2 else if rgt <? 100 then 1 else 0) + digits rgt +
    (if (r =? 0) || (r =? 3) || (r =? 6) || (r =? 9) || (r =? 12) then 1 else 2 + digits r)
  end.
(** The number which the text denotes. *)
Definition denotes (t : ptext) : R :=
  match t with
  | PZero => 0
  | PText neg lft rgt positive r =>
    let v := ((IZR lft + IZR rgt / 1000) * powerRZ 10 (if positive then r else - r))%R in
    if neg then (- v)%R else v
  end.
