(** Model of the matrix class (includes/eeros/math/Matrix.hpp).

    A Matrix<M,N,T> is its array T value[M*N], here a function from linear index to value of
    which the indices below M*N matter.  The dimensions are explicit arguments.  A matrix that
    the code declares without initialising it is an argument ([g], arbitrary contents).
    Loops are executed in the order of the code; an access out of range is [Fault]
    (MatrixIndexOutOfBoundException).  Unary minus is 0 - x (which differs only in the sign of
    zero).  Indices do not overflow: M*N is the size of an existing array. *)
From Verif Require Import Prelude Num.
Open Scope nat_scope.

(** for(i = i0; i < i0 + k; i++) body, with a possible exception. *)
Fixpoint loop_from {S : Type} (i k : nat) (body : nat -> S -> outcome S) (s : S) : outcome S :=
  match k with
  | O => Ok s
  | Datatypes.S k' => bind (body i s) (loop_from (Datatypes.S i) k' body)
  end.
Definition loop {S : Type} (k : nat) (body : nat -> S -> outcome S) (s : S) : outcome S := loop_from 0 k body s.

Section Matrix.
  Context (T : num).
  Definition mem := nat -> T.
  Notation zero := (nofZ T 0%Z). Notation one := (nofZ T 1%Z).
  Definition mopp (x : T) : T := nsub T zero x.

  (** ** Element access *)
  (** Lines 235-251: operator()(m, n), reading and writing *)
  Definition rd (M N : nat) (a : mem) (m n : nat) : outcome T :=
    if (m <? M) && (n <? N) then Ok (a (M * n + m)) else Fault.
  Definition wr (M N : nat) (a : mem) (m n : nat) (v : T) : outcome mem :=
    if (m <? M) && (n <? N) then Ok (upd a (M * n + m) v) else Fault.
  (** Lines 253-287: operator()(i) and operator[](i) *)
  Definition rd1 (M N : nat) (a : mem) (i : nat) : outcome T := if i <? M * N then Ok (a i) else Fault.
  Definition wr1 (M N : nat) (a : mem) (i : nat) (v : T) : outcome mem := if i <? M * N then Ok (upd a i v) else Fault.
  (** Lines 38-49 and 147-150: mat << v0, v1, ... *)
  Definition m_init (M N : nat) (a : mem) (vs : list T) : outcome mem :=
    match vs with
    | [] => Ok a
    | v :: vs => bind (wr1 M N a 0 v) (fun a =>
        snd (fold_left (fun '(i, r) v => (S i, bind r (fun a => wr M N a (i / N) (i mod N) v))) vs (1, Ok a)))
    end.

  (** ** Loops over all elements, row by row: result(m,n) = f m n *)
  Definition each (M N : nat) (f : nat -> nat -> outcome T) (g : mem) : outcome mem :=
    loop M (fun m r => loop N (fun n r => bind (f m n) (fun v => wr M N r m n v)) r) g.
  (** Lines 66-78: zero() and eye() *)
  Definition m_zero (M N : nat) (g : mem) : outcome mem := loop (M * N) (fun i r => wr1 M N r i zero) g.
  Definition m_eye (M N : nat) (g : mem) : outcome mem :=
    bind (m_zero M N g) (loop (if M <? N then M else N) (fun i r => wr M N r i i one)).
  (** Lines 80-82 and 552-559: fill *)
  Definition m_fill (M N : nat) (v : T) (g : mem) : outcome mem := each M N (fun _ _ => Ok v) g.
  (** Lines 445-453 *)
  Definition m_transpose (M N : nat) (a : mem) (g : mem) : outcome mem :=
    loop M (fun m r => loop N (fun n r => bind (rd M N a m n) (fun v => wr N M r n m v)) r) g.
  (** Lines 565-576 *)
  Definition m_mul (M N K : nat) (a b : mem) (g : mem) : outcome mem :=
    loop M (fun m r => loop K (fun k r =>
      bind (wr M K r m k zero) (loop N (fun n r =>
        bind (rd M K r m k) (fun c => bind (rd M N a m n) (fun x => bind (rd N K b n k) (fun y =>
          wr M K r m k (nadd T c (nmul T x y)))))))) r) g.
  (** Lines 582-590 and the free operator* (left * matrix) *)
  Definition m_scale (M N : nat) (a : mem) (c : T) (g : mem) : outcome mem :=
    each M N (fun m n => bind (rd M N a m n) (fun x => Ok (nmul T x c))) g.
  Definition m_lscale (M N : nat) (c : T) (a : mem) (g : mem) : outcome mem :=
    each M N (fun m n => bind (rd M N a m n) (fun x => Ok (nmul T c x))) g.
  (** Lines 592-660: element-wise operators *)
  Definition m_zip (f : T -> T -> T) (M N : nat) (a b : mem) (g : mem) : outcome mem :=
    each M N (fun m n => bind (rd M N a m n) (fun x => bind (rd M N b m n) (fun y => Ok (f x y)))) g.
  Definition m_add := m_zip (nadd T).
  Definition m_sub := m_zip (nsub T).
  Definition m_emul := m_zip (nmul T).
  Definition m_adds (M N : nat) (a : mem) (c : T) (g : mem) : outcome mem :=
    each M N (fun m n => bind (rd M N a m n) (fun x => Ok (nadd T x c))) g.
  Definition m_subs (M N : nat) (a : mem) (c : T) (g : mem) : outcome mem :=
    each M N (fun m n => bind (rd M N a m n) (fun x => Ok (nsub T x c))) g.
  Definition m_neg (M N : nat) (a : mem) (g : mem) : outcome mem :=
    each M N (fun m n => bind (rd M N a m n) (fun x => Ok (mopp x))) g.
  (** Lines 662-670 *)
  Definition m_div (M N : nat) (a : mem) (c : T) (g : mem) : outcome mem :=
    each M N (fun m n => bind (rd M N a m n) (fun x => Ok (ndiv T x c))) g.
  (** Lines 436-443 *)
  Definition m_trace (M N : nat) (a : mem) : outcome T :=
    loop (if M <? N then M else N) (fun i r => bind (rd M N a i i) (fun x => Ok (nadd T r x))) zero.
  (** Lines 462-470: operator==.  The early return is a flag that later iterations keep. *)
  Definition m_all (M N : nat) (p : nat -> nat -> outcome bool) : outcome bool :=
    loop M (fun m (ok : bool) => loop N (fun n (ok : bool) => if ok then p m n else Ok false) ok) true.
  Definition m_eq (M N : nat) (a b : mem) : outcome bool :=
    m_all M N (fun m n => bind (rd M N a m n) (fun x => bind (rd M N b m n) (fun y => Ok (neqb T x y)))).
  (** Lines 477-486: operator!= *)
  Definition m_neq (M N : nat) (a b : mem) : outcome bool := bind (m_eq M N a b) (fun r => Ok (negb r)).
  (** Lines 493-550: the order relations; [rel] tells whether the loop goes on. *)
  Definition m_rel (rel : T -> T -> bool) (M N : nat) (a b : mem) : outcome bool :=
    m_all M N (fun m n => bind (rd M N a m n) (fun x => bind (rd M N b m n) (fun y => Ok (rel x y)))).
  Definition m_lt := m_rel (fun x y => negb (nleb T y x)).
  Definition m_le := m_rel (fun x y => negb (nltb T y x)).
  Definition m_gt := m_rel (fun x y => negb (nleb T x y)).
  Definition m_ge := m_rel (fun x y => negb (nltb T x y)).
  (** Lines 295-301 (compiles for M = N only) *)
  Definition m_orthogonal (M : nat) (a : mem) (g : mem) : outcome bool :=
    bind (m_eye M M g) (fun eye => bind (m_transpose M M a g) (fun t => bind (m_mul M M M a t g) (fun r => m_eq M M r eye))).
  (** Lines 303-305 *)
  Definition m_symmetric (M : nat) (a : mem) (g : mem) : outcome bool :=
    bind (m_transpose M M a g) (fun t => m_eq M M a t).
  (** Lines 307-344: a zero is required where [q m n]. *)
  Definition m_pattern (q : nat -> nat -> bool) (M N : nat) (a : mem) : outcome bool :=
    m_all M N (fun m n => if q m n then bind (rd M N a m n) (fun x => Ok (neqb T x zero)) else Ok true).
  Definition m_diagonal := m_pattern (fun m n => negb (m =? n)).
  Definition m_lower := m_pattern (fun m n => m <? n).
  Definition m_upper := m_pattern (fun m n => n <? m).

  (** ** Determinant, lines 378-434 *)
  (** The loops at 403-419: the matrix without row [ign] and column 0. *)
  Definition det_sub (M : nat) (a : mem) (ign : nat) (g : mem) : outcome mem :=
    omap fst (loop M (fun i '(s, y) =>
      bind (loop_from 1 (M - 1) (fun b '(s, x) =>
          if negb (i =? ign) then bind (rd M M a i b) (fun v => bind (wr (M - 1) (M - 1) s y x v) (fun s => Ok (s, S x)))
          else Ok (s, x)) (s, 0))
        (fun '(s, _) => Ok (s, if negb (i =? ign) then S y else y))) (g, 0)).
  (** Square matrices; order 1 is the specialisation at 1027. *)
  Fixpoint m_det (M : nat) (a : mem) (g : mem) : outcome T :=
    match M with
    | O => Fault
    | S k =>
      if M =? 1 then Ok (a 0)
      else if M =? 2 then
        bind (rd 2 2 a 0 0) (fun a00 => bind (rd 2 2 a 1 1) (fun a11 => bind (rd 2 2 a 0 1) (fun a01 => bind (rd 2 2 a 1 0) (fun a10 =>
          Ok (nsub T (nmul T a00 a11) (nmul T a01 a10))))))
      else if M =? 3 then
        bind (rd 3 3 a 0 0) (fun a00 => bind (rd 3 3 a 0 1) (fun a01 => bind (rd 3 3 a 0 2) (fun a02 =>
        bind (rd 3 3 a 1 0) (fun a10 => bind (rd 3 3 a 1 1) (fun a11 => bind (rd 3 3 a 1 2) (fun a12 =>
        bind (rd 3 3 a 2 0) (fun a20 => bind (rd 3 3 a 2 1) (fun a21 => bind (rd 3 3 a 2 2) (fun a22 =>
          let p x y z := nmul T (nmul T x y) z in
          Ok (nsub T (nsub T (nsub T (nadd T (nadd T (p a00 a11 a22) (p a01 a12 a20)) (p a02 a10 a21))
                (p a02 a11 a20)) (p a00 a12 a21)) (p a01 a10 a22)))))))))))
      else
        loop M (fun m det =>
          bind (det_sub M a m g) (fun s => bind (m_det k s g) (fun d => bind (rd M M a m 0) (fun x =>
            Ok (if Nat.even m then nadd T det (nmul T x d) else nsub T det (nmul T x d)))))) zero
    end.
  (** det() of any matrix: line 430 *)
  Definition m_det_any (M N : nat) (a : mem) (g : mem) : outcome T := if M =? N then m_det M a g else Fault.
  (** Line 346-349 *)
  Definition m_invertible (M N : nat) (a : mem) (g : mem) : outcome bool :=
    if M =? N then bind (m_det M a g) (fun d => Ok (negb (neqb T d zero))) else Ok false.

  (** ** Inverse, lines 672-749 *)
  (** Lines 711-724: overwrite [s] (smallerPart) by the matrix without row m and column n.
      Note a & (M-1) in line 722. *)
  Definition inv_sub (M : nat) (x : mem) (m n : nat) (s : mem) : outcome mem :=
    omap (fun r => fst (fst r)) (loop M (fun u '(s, a, b) =>
      bind (loop M (fun w '(s, b) =>
          if negb (u =? m) && negb (w =? n)
          then bind (rd M M x u w) (fun v => bind (wr (M - 1) (M - 1) s a b v) (fun s => Ok (s, S b mod (M - 1))))
          else Ok (s, b)) (s, b))
        (fun '(s, b) => Ok (s, if negb (u =? m) then Nat.land (S a) (M - 1) else a, b))) (s, 0, 0)).
  Definition m_inv (M : nat) (x : mem) (g : mem) : outcome mem :=
    bind (m_det M x g) (fun det =>
    if neqb T det zero then Fault else
    bind (m_orthogonal M x g) (fun orth =>
    if orth then m_transpose M M x g
    else if M =? 2 then
      bind (bind (rd 2 2 x 1 1) (wr 2 2 g 0 0)) (fun r => bind (bind (rd 2 2 x 1 0) (fun v => wr 2 2 r 1 0 (mopp v))) (fun r =>
      bind (bind (rd 2 2 x 0 1) (fun v => wr 2 2 r 0 1 (mopp v))) (fun r => bind (bind (rd 2 2 x 0 0) (wr 2 2 r 1 1)) (fun r =>
        m_div 2 2 r det g))))
    else if M =? 3 then
      let put r i j i1 j1 i2 j2 i3 j3 i4 j4 :=
        bind (rd 3 3 x i1 j1) (fun p => bind (rd 3 3 x i2 j2) (fun q => bind (rd 3 3 x i3 j3) (fun s => bind (rd 3 3 x i4 j4) (fun t =>
          wr 3 3 r i j (nsub T (nmul T p q) (nmul T s t)))))) in
      bind (put g 0 0 1 1 2 2 1 2 2 1) (fun r => bind (put r 1 0 1 2 2 0 1 0 2 2) (fun r => bind (put r 2 0 1 0 2 1 1 1 2 0) (fun r =>
      bind (put r 0 1 0 2 2 1 0 1 2 2) (fun r => bind (put r 1 1 0 0 2 2 0 2 2 0) (fun r => bind (put r 2 1 0 1 2 0 0 0 2 1) (fun r =>
      bind (put r 0 2 0 1 1 2 0 2 1 1) (fun r => bind (put r 1 2 0 2 1 0 0 0 1 2) (fun r => bind (put r 2 2 0 0 1 1 0 1 1 0) (fun r =>
        m_div 3 3 r det g)))))))))
    else
      bind (loop M (fun m '(r, s) => loop M (fun n '(r, s) =>
          bind (inv_sub M x m n s) (fun s => bind (m_det (M - 1) s g) (fun d =>
          bind (wr M M r m n (if Bool.eqb (Nat.even m) (Nat.even n) then d else mopp d)) (fun r =>
          bind (rd M M r m n) (fun v => bind (wr M M r m n (ndiv T v det)) (fun r => Ok (r, s))))))) (r, s)) (g, g))
        (fun '(r, _) => m_transpose M M r g))).

  (** ** Rank, lines 363-376, 826-874 *)
  Definition swap_rows (M N : nat) (x : mem) (i j : nat) : outcome mem :=
    loop N (fun n x => bind (rd M N x i n) (fun t => bind (rd M N x j n) (fun v =>
      bind (wr M N x i n v) (fun x => wr M N x j n t)))) x.
  (** Lines 849-866; the inner while loop makes at most 2*M iterations. *)
  Fixpoint sort_inner (M N : nat) (col : nat) (fuel : nat) (x : mem) (row swap : nat) : outcome (mem * nat * nat) :=
    match fuel with
    | O => Ok (x, row, swap)
    | S fuel =>
      if row <? M then
        bind (rd M N x row col) (fun v =>
          if neqb T v zero && (swap <? M) && (row <? M - 1)
          then bind (swap_rows M N x row swap) (fun x => sort_inner M N col fuel x row (S swap))
          else sort_inner M N col fuel x (S row) swap)
      else Ok (x, row, swap)
    end.
  Definition sort_gauss (M N : nat) (x : mem) : outcome mem :=
    omap (fun '(x, _, _) => x) (loop N (fun col '(x, row, swap) =>
      bind (sort_inner M N col (2 * M) x row swap) (fun '(x, row, _) => Ok (x, row, S row))) (x, 0, 1)).
  (** Lines 826-847: completedRow = completedColum = c *)
  Definition gauss (M N : nat) (x : mem) : outcome mem :=
    bind (sort_gauss M N x) (loop N (fun c x =>
      loop_from (S c) (M - S c) (fun i x =>
        bind (rd M N x c c) (fun p => if neqb T p zero then Ok x else
        bind (rd M N x i c) (fun v => if neqb T v zero then Ok x else
          let f := ndiv T v p in
          loop_from c (N - c) (fun n x => bind (rd M N x i n) (fun u => bind (rd M N x c n) (fun w =>
            wr M N x i n (nsub T u (nmul T f w))))) x))) x)).
  Definition m_rank (M N : nat) (a : mem) : outcome nat :=
    bind (gauss M N a) (fun t => loop M (fun m k =>
      bind (loop N (fun n nz => if nz : bool then Ok true else bind (rd M N t m n) (fun v => Ok (negb (neqb T v zero)))) false)
        (fun nz => Ok (if nz then S k else k))) 0).

  (** ** Three-dimensional vectors *)
  (** Lines 802-814 *)
  Definition m_skew (a : mem) (g : mem) : outcome mem :=
    bind (rd1 3 1 a 0) (fun a0 => bind (rd1 3 1 a 1) (fun a1 => bind (rd1 3 1 a 2) (fun a2 =>
    bind (wr 3 3 g 0 0 zero) (fun r => bind (wr 3 3 r 0 1 (mopp a2)) (fun r => bind (wr 3 3 r 0 2 a1) (fun r =>
    bind (wr 3 3 r 1 0 a2) (fun r => bind (wr 3 3 r 1 1 zero) (fun r => bind (wr 3 3 r 1 2 (mopp a0)) (fun r =>
    bind (wr 3 3 r 2 0 (mopp a1)) (fun r => bind (wr 3 3 r 2 1 a0) (fun r => wr 3 3 r 2 2 zero))))))))))).
  (** Lines 816-822 *)
  Definition m_cross (a b : mem) (g : mem) : outcome mem :=
    let el i j k l := bind (rd 3 1 a i 0) (fun p => bind (rd 3 1 b j 0) (fun q => bind (rd 3 1 a k 0) (fun s => bind (rd 3 1 b l 0) (fun t =>
      Ok (nsub T (nmul T p q) (nmul T s t)))))) in
    bind (bind (el 1 2 2 1) (wr 3 1 g 0 0)) (fun r => bind (bind (el 2 0 0 2) (wr 3 1 r 1 0)) (fun r => bind (el 0 1 1 0) (wr 3 1 r 2 0))).
  (** Lines 84-142; c and s are cos(angle) and sin(angle). *)
  Definition nine (g : mem) (v00 v10 v20 v01 v11 v21 v02 v12 v22 : T) : outcome mem :=
    bind (wr 3 3 g 0 0 v00) (fun r => bind (wr 3 3 r 1 0 v10) (fun r => bind (wr 3 3 r 2 0 v20) (fun r =>
    bind (wr 3 3 r 0 1 v01) (fun r => bind (wr 3 3 r 1 1 v11) (fun r => bind (wr 3 3 r 2 1 v21) (fun r =>
    bind (wr 3 3 r 0 2 v02) (fun r => bind (wr 3 3 r 1 2 v12) (fun r => wr 3 3 r 2 2 v22)))))))).
  Definition m_rotx (M N : nat) (c s : T) (g : mem) : outcome mem :=
    if (M =? 3) && (N =? 3) then nine g one zero zero zero c s zero (mopp s) c else Fault.
  Definition m_roty (M N : nat) (c s : T) (g : mem) : outcome mem :=
    if (M =? 3) && (N =? 3) then nine g c zero (mopp s) zero one zero s zero c else Fault.
  Definition m_rotz (M N : nat) (c s : T) (g : mem) : outcome mem :=
    if (M =? 3) && (N =? 3) then nine g c s zero (mopp s) c zero zero zero one else Fault.

  (** ** Rows, columns and parts *)
  (** Lines 158-164 and 174-180 *)
  Definition m_getcol (M N : nat) (a : mem) (n : nat) (g : mem) : outcome mem :=
    loop M (fun m r => bind (rd M N a m n) (fun v => wr M 1 r m 0 v)) g.
  Definition m_getrow (M N : nat) (a : mem) (m : nat) (g : mem) : outcome mem :=
    loop N (fun n r => bind (rd M N a m n) (fun v => wr 1 N r 0 n v)) g.
  (** Lines 190-205; the sums of unsigned int wrap around *)
  Definition wrap32 (k : Z) : Z := Z.modulo k 4294967296.
  Definition m_sub_matrix (M N U V : nat) (a : mem) (m n : nat) (g : mem) : outcome mem :=
    if Z.leb (wrap32 (Z.of_nat m + Z.of_nat U)) (Z.of_nat M) && Z.leb (wrap32 (Z.of_nat n + Z.of_nat V)) (Z.of_nat N)
    then loop U (fun u r => loop V (fun v r =>
           bind (rd M N a (Z.to_nat (wrap32 (Z.of_nat m + Z.of_nat u))) (Z.to_nat (wrap32 (Z.of_nat n + Z.of_nat v)))) (fun x => wr U V r u v x)) r) g
    else Fault.
  (** Lines 211-215 and 223-227 *)
  Definition m_setcol (M N : nat) (a : mem) (n : nat) (col : mem) : outcome mem :=
    loop M (fun m a => bind (rd M 1 col m 0) (fun v => wr M N a m n v)) a.
  Definition m_setrow (M N : nat) (a : mem) (m : nat) (row : mem) : outcome mem :=
    loop N (fun n a => bind (rd 1 N row 0 n) (fun v => wr M N a m n v)) a.
  (** Lines 217-221 and 229-233: from a std::vector, whose operator[] is not checked.
      The left-hand side may be evaluated first; the outcome below is that of an in-range row or column. *)
  Definition vec_at (v : list T) (i : nat) : outcome T := match nth_error v i with Some x => Ok x | None => UB end.
  Definition m_setcol_vec (M N : nat) (a : mem) (n : nat) (col : list T) : outcome mem :=
    loop M (fun m a => bind (vec_at col m) (fun v => wr M N a m n v)) a.
  Definition m_setrow_vec (M N : nat) (a : mem) (m : nat) (row : list T) : outcome mem :=
    loop N (fun n a => bind (vec_at row n) (fun v => wr M N a m n v)) a.
  (** ** The specialisation Matrix<1,1,T>, lines 969-1047 *)
  (** Lines 985, 993-995: the indices are uint8_t *)
  Definition one_rd (v : T) (m n : nat) : outcome T := if (m mod 256 =? 0) && (n mod 256 =? 0) then Ok v else Fault.
  Definition one_rd1 (v : T) (i : nat) : outcome T := if i =? 0 then Ok v else Fault.
  Definition one_rank (v : T) : nat := if neqb T v zero then 1 else 0.
  Definition one_orthogonal (v : T) : bool := neqb T v one.
  Definition one_inv (v : T) : T := ndiv T one v.
End Matrix.
