(** Specifications for the camera driver. *)
From Coq Require Import Floats.SpecFloat Reals.
From Verif Require Import Prelude Num PixyModel.
Open Scope Z_scope.

(** A marker inside the window which keeps ten pixels from the border of the 316 x 208 picture. *)
Definition inside (d : dot) : Prop := 10 < fst d < 306 /\ 10 < snd d < 198.
Definition nonfinite (x : dbl) : Prop := match x with S754_infinity _ | S754_nan => True | _ => False end.
Definition dsqrt (x : dbl) : dbl := SFsqrt dprec demax x.
Definition within (lo hi x : R) : Prop := (lo <= x <= hi)%R.
