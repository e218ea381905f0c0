(** Model of Vector2Corrector: correction of points in the plane by a mesh of triangles.
    Source: src/control/Vector2Corrector.cpp, includes/eeros/control/Vector2Corrector.hpp. *)
From Verif Require Import Prelude Num.

Section Corr.
  Variable T : num.
  (** Vector2, and Matrix<2,2> by rows: m(0,0), m(0,1), m(1,0), m(1,1). *)
  Definition v2 := (T * T)%type.
  Record m22 := { m00 : T; m01 : T; m10 : T; m11 : T }.
  Definition vadd (a b : v2) : v2 := (nadd T (fst a) (fst b), nadd T (snd a) (snd b)).
  Definition vsub (a b : v2) : v2 := (nsub T (fst a) (fst b), nsub T (snd a) (snd b)).
  (** Matrix.hpp 582-596 for a 2x2 matrix and a vector: the sum starts from zero. *)
  Definition mv (m : m22) (v : v2) : v2 :=
    (nadd T (nadd T (nofZ T 0) (nmul T (m00 m) (fst v))) (nmul T (m01 m) (snd v)),
     nadd T (nadd T (nofZ T 0) (nmul T (m10 m) (fst v))) (nmul T (m11 m) (snd v))).
  (** Matrix.hpp 381 *)
  Definition det2 (m : m22) : T := nsub T (nmul T (m00 m) (m11 m)) (nmul T (m01 m) (m10 m)).
  (** Matrix.hpp isOrthogonal for M = 2: the matrix times its transpose is the identity. *)
  Definition orth2 (m : m22) : bool :=
    let dot a b c d := nadd T (nadd T (nofZ T 0) (nmul T a c)) (nmul T b d) in
    neqb T (dot (m00 m) (m01 m) (m00 m) (m01 m)) (nofZ T 1) && neqb T (dot (m00 m) (m01 m) (m10 m) (m11 m)) (nofZ T 0) &&
    neqb T (dot (m10 m) (m11 m) (m00 m) (m01 m)) (nofZ T 0) && neqb T (dot (m10 m) (m11 m) (m10 m) (m11 m)) (nofZ T 1).
  (** Matrix.hpp 672-690 for M = 2 and a determinant other than zero; -x is 0 - x up to the sign of a zero. *)
  Definition inv2 (m : m22) : m22 :=
    if orth2 m then {| m00 := m00 m; m01 := m10 m; m10 := m01 m; m11 := m11 m |}
    else let d := det2 m in
      {| m00 := ndiv T (m11 m) d; m01 := ndiv T (nsub T (nofZ T 0) (m01 m)) d;
         m10 := ndiv T (nsub T (nofZ T 0) (m10 m)) d; m11 := ndiv T (m00 m) d |}.

  (** Vector2Corrector.hpp 18-23 *)
  Record cmap := { c_aref : v2; c_tiref : m22; c_amapped : v2; c_tmapped : m22 }.
  (** Lines 31-35 and 38-42: the columns are the edges from the first corner. *)
  Definition edges (p0 p1 p2 : v2) : m22 :=
    {| m00 := nsub T (fst p1) (fst p0); m10 := nsub T (snd p1) (snd p0);
       m01 := nsub T (fst p2) (fst p0); m11 := nsub T (snd p2) (snd p0) |}.
  (** load(), lines 13-52.  The argument is the list of pairs (reference, mapped) which fscanf reads successfully before
      its first failure; a last incomplete group of three is dropped, a degenerate triangle is skipped (37). *)
  Fixpoint load_maps (es : list (v2 * v2)) : list cmap :=
    match es with
    | (r0, q0) :: (r1, q1) :: (r2, q2) :: es =>
      let tr := edges r0 r1 r2 in
      let rest := load_maps es in
      if negb (neqb T (det2 tr) (nofZ T 0))
      then {| c_aref := r0; c_tiref := inv2 tr; c_amapped := q0; c_tmapped := edges q0 q1 q2 |} :: rest
      else rest
    | _ => []
    end.
  (** The members: maps, and the number of elements of the buffer `mapped`. *)
  Record corr := { co_maps : list cmap; co_size : nat }.
  Definition corr0 : corr := {| co_maps := []; co_size := 0 |}.
  (** load(), lines 54-61: with no triangle the state is unchanged; reserve() (57) does not change the size. *)
  Definition load (es : list (v2 * v2)) (c : corr) : corr * bool :=
    match load_maps es with
    | [] => (c, false)
    | ms => ({| co_maps := ms; co_size := co_size c |}, true)
    end.
  (** Lines 71-74 *)
  Definition local (m : cmap) (p : v2) : option v2 :=
    let l := mv (c_tiref m) (vsub p (c_aref m)) in
    let zero := nofZ T 0 in let one := nofZ T 1 in
    if nltb T (fst l) zero || nltb T one (fst l) then None
    else if nltb T (snd l) zero || nltb T one (snd l) then None
    else if nltb T one (nadd T (fst l) (snd l)) then None else Some l.
  (** Lines 69-76: the elements written to `mapped`; writing past its size is undefined behaviour. *)
  Fixpoint collect (size n : nat) (ms : list cmap) (p : v2) : outcome (list v2) :=
    match ms with
    | [] => Ok []
    | m :: ms => match local m p with
      | None => collect size n ms p
      | Some l => if (n <? size)%nat
                  then bind (collect size (S n) ms p) (fun qs => Ok (vadd (mv (c_tmapped m) l) (c_amapped m) :: qs))
                  else UB
      end
    end.
  (** get(), lines 68-85 *)
  Definition get (c : corr) (p : v2) : outcome v2 :=
    bind (collect (co_size c) 0 (co_maps c) p) (fun qs =>
      match qs with
      | [] => Ok p
      | _ => let s := fold_left vadd qs (nofZ T 0, nofZ T 0) in
             let n := nofZ T (Z.of_nat (length qs)) in
             Ok (ndiv T (fst s) n, ndiv T (snd s) n)
      end).
End Corr.
