(** Exact real arithmetic extended by the infinities and NaN of IEEE 754: what binary64 would
    compute without rounding.  Zeros carry no sign, so dividing by zero gives the infinity with
    the sign of the dividend (used only where the absolute value is taken afterwards). *)
From Coq Require Import Reals Bool Lra.
From Flocq Require Import Core.Raux Core.Zaux.
From Verif Require Import Prelude Num.
Open Scope R_scope.

Inductive xr := Fin (r : R) | Inf (neg : bool) | Nan.

Definition xopp (a : xr) : xr := match a with Fin x => Fin (- x) | Inf s => Inf (negb s) | Nan => Nan end.
Definition xadd (a b : xr) : xr :=
  match a, b with
  | Fin x, Fin y => Fin (x + y)
  | Inf s, Inf s' => if Bool.eqb s s' then Inf s else Nan
  | Inf s, Fin _ | Fin _, Inf s => Inf s
  | Nan, _ | _, Nan => Nan
  end.
Definition xsub (a b : xr) : xr := match a, b with Fin x, Fin y => Fin (x - y) | _, _ => xadd a (xopp b) end.
Definition xmul (a b : xr) : xr :=
  match a, b with
  | Fin x, Fin y => Fin (x * y)
  | Inf s, Inf s' => Inf (xorb s s')
  | Inf s, Fin x | Fin x, Inf s => if Req_bool x 0 then Nan else Inf (xorb s (Rlt_bool x 0))
  | Nan, _ | _, Nan => Nan
  end.
Definition xdiv (a b : xr) : xr :=
  match a, b with
  | Fin x, Fin y => if Req_bool y 0 then if Req_bool x 0 then Nan else Inf (Rlt_bool x 0) else Fin (x / y)
  | Inf s, Fin y => Inf (xorb s (Rlt_bool y 0))
  | Fin _, Inf _ => Fin 0
  | Inf _, Inf _ => Nan
  | Nan, _ | _, Nan => Nan
  end.
Definition xltb (a b : xr) : bool :=
  match a, b with
  | Fin x, Fin y => Rlt_bool x y
  | Fin _, Inf s => negb s
  | Inf s, Fin _ => s
  | Inf s, Inf s' => s && negb s'
  | Nan, _ | _, Nan => false
  end.
Definition xeqb (a b : xr) : bool :=
  match a, b with Fin x, Fin y => Req_bool x y | Inf s, Inf s' => Bool.eqb s s' | _, _ => false end.
Definition xleb (a b : xr) : bool :=
  match a, b with Fin x, Fin y => Rle_bool x y | _, _ => xltb a b || xeqb a b end.
Definition xabs (a : xr) : xr := match a with Fin x => Fin (Rabs x) | Inf _ => Inf false | Nan => Nan end.

Definition Xnum : num :=
  {| nT := xr; nadd := xadd; nsub := xsub; nmul := xmul; ndiv := xdiv; nltb := xltb; nleb := xleb; neqb := xeqb;
     nabs := xabs; nofZ := fun z => Fin (IZR z);
     ntrunc := fun a => match a with Fin x => Some (Ztrunc x) | _ => None end |}.

Definition xsqrt (a : xr) : xr :=
  match a with Fin x => if Rlt_bool x 0 then Nan else Fin (sqrt x) | Inf false => Inf false | _ => Nan end.

(** Real cube root (std::cbrt without rounding). *)
Definition Rcbrt (x : R) : R :=
  if Rlt_bool 0 x then Rpower x (/ 3) else if Rlt_bool x 0 then - Rpower (- x) (/ 3) else 0.
Lemma Rcbrt_pos x : 0 < x -> 0 < Rcbrt x /\ Rcbrt x * Rcbrt x * Rcbrt x = x.
Proof.
  intros H. unfold Rcbrt. rewrite Rlt_bool_true by exact H. split; [apply exp_pos|].
  rewrite <- !Rpower_plus. replace (/ 3 + / 3 + / 3) with 1 by field. now apply Rpower_1.
Qed.
Definition xcbrt (a : xr) : xr := match a with Fin x => Fin (Rcbrt x) | Inf s => Inf s | Nan => Nan end.
