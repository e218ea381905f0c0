(** Number types the templates of the framework are instantiated with.

    A [num] bundles a carrier with the C++ operators used by the code.  The same model
    function is instantiated with exact reals ([Rnum], for theorems about the intended
    arithmetic) and with IEEE 754 binary64 ([Dnum], for what the machine computes,
    including NaN and rounding).  [Dnum] uses the standard library's executable
    specification of binary64 (Coq.Floats.SpecFloat). *)
From Verif Require Import Prelude.
From Coq Require Import Floats.SpecFloat Reals.
From Flocq Require Import Core.Raux.
Open Scope Z_scope.

Record num := {
  nT :> Type;
  nadd : nT -> nT -> nT;
  nsub : nT -> nT -> nT;
  nmul : nT -> nT -> nT;
  ndiv : nT -> nT -> nT;
  nltb : nT -> nT -> bool;
  nleb : nT -> nT -> bool;
  neqb : nT -> nT -> bool;
  nabs : nT -> nT;
  nofZ : Z -> nT;            (* conversion of an integer *)
  ntrunc : nT -> option Z    (* truncation towards zero; None: not finite *)
}.

(** ** Exact real numbers *)
Definition Rnum : num :=
  {| nT := R; nadd := Rplus; nsub := Rminus; nmul := Rmult; ndiv := Rdiv;
     nltb := Rlt_bool; nleb := Rle_bool; neqb := Req_bool; nabs := Rabs;
     nofZ := IZR; ntrunc := fun x => Some (Ztrunc x) |}.

(** ** IEEE binary64 *)
Definition dprec := 53.
Definition demax := 1024.
Definition dbl := spec_float.
Definition dofZ (z : Z) : dbl :=
  match z with
  | Z0 => S754_zero false
  | Zpos p => binary_round dprec demax false p 0
  | Zneg p => binary_round dprec demax true p 0
  end.
Definition dtrunc (x : dbl) : option Z :=
  match x with
  | S754_zero _ => Some 0
  | S754_finite s m e =>
    let a := if 0 <=? e then Zpos m * 2 ^ e else Zpos m / 2 ^ (- e) in
    Some (if s then - a else a)
  | _ => None
  end.
Definition dnan : dbl := S754_nan.
Definition Dnum : num :=
  {| nT := dbl; nadd := SFadd dprec demax; nsub := SFsub dprec demax;
     nmul := SFmul dprec demax; ndiv := SFdiv dprec demax;
     nltb := SFltb; nleb := SFleb; neqb := SFeqb; nabs := SFabs;
     nofZ := dofZ; ntrunc := dtrunc |}.
(** Decimal literals: the binary64 number nearest to n/d (for d > 0, as a C++ compiler
    converts a decimal constant; both n and d exactly representable). *)
Definition dlit (n d : Z) : dbl := ndiv Dnum (dofZ n) (dofZ d).

(** ** 32-bit conversions *)
Definition int_range (z : Z) : bool := (- 2 ^ 31 <=? z) && (z <? 2 ^ 31).
(** static_cast<int>(double): undefined behaviour when the truncated value does not fit. *)
Definition to_int (N : num) (x : N) : outcome Z :=
  match ntrunc N x with
  | Some z => if int_range z then Ok z else UB
  | None => UB
  end.
