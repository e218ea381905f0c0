(** * Blocks whose signals are vectors

    The templates of includes/eeros/control instantiated with Matrix<n, 1, double>.  A vector is the list of its
    elements; all vectors of a block have the same length.  The loops of Matrix.hpp over all elements are element-wise
    operations.  Numbers as in [CtrlModel]. *)
From Coq Require Import Reals Floats.SpecFloat List ZArith Bool.
From Flocq Require Import Core.Raux.
From Verif Require Import Prelude Num CtrlModel CtrlModel2.
Import ListNotations.
Open Scope Z_scope.

Section Vectors.
  Context (N : num).
  Local Notation vec := (list N).

  (** ** Matrix.hpp *)
  Definition map2 (f : N -> N -> N) (a b : vec) : vec := map (fun p => f (fst p) (snd p)) (combine a b).
  (** 602-610, 627-635, 592-600: operator+, operator-, multiplyElementWise *)
  Definition vadd : vec -> vec -> vec := map2 (nadd N).
  Definition vsub : vec -> vec -> vec := map2 (nsub N).
  Definition vmul : vec -> vec -> vec := map2 (nmul N).
  (** 582-590, 920-928 and 662-670: operators * and / with a number *)
  Definition vscale (v : vec) (c : N) : vec := map (fun x => nmul N x c) v.
  Definition scalev (c : N) (v : vec) : vec := map (fun x => nmul N c x) v.
  Definition vdiv (v : vec) (c : N) : vec := map (fun x => ndiv N x c) v.
  (** 493-502, 525-534: see [vec_lt], [vec_gt]; 509-518, 541-550: operator<=, operator>= *)
  Definition vec_le (a b : vec) : bool := forallb (fun p => negb (nltb N (snd p) (fst p))) (combine a b).
  Definition vec_ge (a b : vec) : bool := forallb (fun p => negb (nltb N (fst p) (snd p))) (combine a b).
  (** 552-559: operator=(T) *)
  Definition vfill (n : nat) (c : N) : vec := repeat c n.

  (** ** Saturation.hpp *)
  (** run, 53-60, with calculateResult, 105-112 *)
  Definition vsat_run (en : bool) (lo hi : vec) (i : signal vec) : signal vec :=
    mksig (if en then sat_calc_vec N lo hi (sv i) else sv i) (st i).

  (** ** RateLimiter.hpp *)
  (** The rates: one for all elements (153-163) or one for each (166-176). *)
  Inductive rates := ROne (fall rise : N) | REach (fall rise : vec).
  Definition rate_at (r : rates) (k : nat) : N * N :=
    match r with ROne f g => (f, g) | REach f g => (nth k f (nofZ N 0), nth k g (nofZ N 0)) end.
  Record vrlim := { vr_prev : signal vec; vr_rates : rates; vr_en : bool }.
  (** Each pass of the loops also writes a line to the standard output (154, 167), which is left out. *)
  Definition vrl_calc (r : rates) (prev x : vec) (dt : N) : vec :=
    map (fun p => let '(k, (a, y)) := p in rl_calc N (fst (rate_at r k)) (snd (rate_at r k)) a y dt)
      (combine (seq 0 (length x)) (combine prev x)).
  (** run, 79-93 *)
  Definition vrl_run (s : vrlim) (i : signal vec) : vrlim * signal vec :=
    let dt := nsub N (secs N (st i)) (secs N (st (vr_prev s))) in
    let o := if vr_en s then vrl_calc (vr_rates s) (sv (vr_prev s)) (sv i) dt else sv i in
    ({| vr_prev := mksig o (st i); vr_rates := vr_rates s; vr_en := vr_en s |}, mksig o (st i)).

  (** ** WrapAround.hpp *)
  (** run, 47-54, with calculateResult, 106-119 and 122-137: the bounds are numbers or vectors. *)
  Definition vwa_run (en : bool) (r : rates) (i : signal vec) : signal vec :=
    mksig (if en then map (fun p => wa_calc N (fst (rate_at r (fst p))) (snd (rate_at r (fst p))) (snd p))
                          (combine (seq 0 (length (sv i))) (sv i))
           else sv i) (st i).

  (** ** D.hpp *)
  Record vdiff := { vd_prev : signal vec; vd_out : vec; vd_time : Z; vd_first : bool }.
  (** run, 37-59 *)
  Definition vd_run (s : vdiff) (i : signal vec) : vdiff * signal vec :=
    let tin := secs N (st i) in
    let tprev := secs N (st (vd_prev s)) in
    let '(o, t) :=
      if vd_first s then (vfill (length (sv i)) (nofZ N 0), st i)
      else if neqb N tin tprev then (vd_out s, vd_time s)
      else (vdiv (vsub (sv i) (sv (vd_prev s))) (nsub N tin tprev), ((st i + st (vd_prev s)) mod 2 ^ 64) / 2) in
    ({| vd_prev := i; vd_out := o; vd_time := t; vd_first := false |}, mksig o t).

  (** ** LowPassFilter.hpp *)
  Record vlpf := { vl_alpha : N; vl_first : bool; vl_en : bool; vl_prev : vec }.
  (** run, 58-72 *)
  Definition vlp_run (s : vlpf) (i : signal vec) : vlpf * signal vec :=
    let p := if vl_first s then sv i else vl_prev s in
    let o := if vl_en s then vadd (vscale (sv i) (vl_alpha s)) (vscale p (nsub N (nofZ N 1) (vl_alpha s))) else sv i in
    ({| vl_alpha := vl_alpha s; vl_first := false; vl_en := vl_en s; vl_prev := o |}, mksig o (st i)).

  (** ** MovingAverageFilter.hpp, coefficients of type double *)
  Record vmaf := { vm_coef : list N; vm_prev : list vec; vm_en : bool }.
  (** run, 64-78 *)
  Definition vma_run (s : vmaf) (i : signal vec) : vmaf * signal vec :=
    let shifted := tl (vm_prev s) in
    let r := fold_left (fun a p => vadd a (scalev (fst p) (snd p))) (combine (removelast (vm_coef s)) shifted)
               (scalev (last (vm_coef s) (nofZ N 0)) (sv i)) in
    ({| vm_coef := vm_coef s; vm_prev := shifted ++ [sv i]; vm_en := vm_en s |}, mksig (if vm_en s then r else sv i) (st i)).

  (** ** Sum.hpp, without initial values *)
  (** run, 42-66; [n]: the length of the vectors *)
  Definition vsum_run (n : nat) (neg : list bool) (is : list (signal vec)) : signal vec :=
    mksig (fold_left (fun a p => if fst p : bool then vsub a (sv (snd p)) else vadd a (sv (snd p))) (combine neg is)
             (vfill n (nofZ N 0)))
          (match is with i :: _ => st i | [] => 0 end).

  (** ** I.hpp *)
  Record vinteg := { vi_first : bool; vi_en : bool; vi_prev : signal vec; vi_hi : vec; vi_lo : vec }.
  (** run, 53-75; val < upperLimit && val > lowerLimit compares all elements (67). *)
  Definition vi_run (s : vinteg) (lvl : option bool) (i : signal vec) : vinteg * signal vec :=
    let en := match lvl with Some b => b | None => vi_en s end in
    let dt := if vi_first s then nofZ N 0 else nsub N (secs N (st i)) (secs N (st (vi_prev s))) in
    let p := sv (vi_prev s) in
    let v := vadd p (vscale (sv i) dt) in
    let o := if en then (if vec_lt N v (vi_hi s) && vec_gt N v (vi_lo s) then v else p) else p in
    ({| vi_first := false; vi_en := en; vi_prev := mksig o (st i); vi_hi := vi_hi s; vi_lo := vi_lo s |},
     mksig o (st i)).
  (** setLimit, 119-125 *)
  Definition vi_limit (s : vinteg) (hi lo : vec) : vinteg :=
    let v := sv (vi_prev s) in
    let p1 := if vec_gt N v hi then hi else v in
    let p2 := if vec_lt N v lo then lo else p1 in
    {| vi_first := vi_first s; vi_en := vi_en s; vi_prev := mksig p2 (st (vi_prev s)); vi_hi := hi; vi_lo := lo |}.
  Fixpoint vi_runs (s : vinteg) (is : list (option bool * signal vec)) : vinteg * list (signal vec) :=
    match is with
    | [] => (s, [])
    | (l, i) :: is' => let (s1, y) := vi_run s l i in let (s2, ys) := vi_runs s1 is' in (s2, y :: ys)
    end.

  (** ** Gain.hpp, element-wise with a vector of gains (Gain<Vector, Vector, true>) *)
  Record vgain := { vg_gain : vec; vg_max : vec; vg_min : vec; vg_target : vec; vg_diff : vec; vg_en : bool; vg_smooth : bool }.
  (** 110-132: the comparisons are those of whole vectors. *)
  Definition vg_adapt (s : vgain) : vec :=
    let g0 := vg_gain s in
    let g2 :=
      if vg_smooth s then
        let g1 := if vec_lt N g0 (vg_target s) then
                    let g := vadd g0 (vg_diff s) in if vec_gt N g (vg_target s) then vg_target s else g
                  else g0 in
        if vec_gt N g1 (vg_target s) then
          let g := vsub g1 (vg_diff s) in if vec_lt N g (vg_target s) then vg_target s else g
        else g1
      else g0 in
    let g3 := if vec_gt N g2 (vg_max s) then vg_max s else g2 in
    if vec_lt N g3 (vg_min s) then vg_min s else g3.
  (** 107-142 with calculate, 298-302 *)
  Definition vg_run (s : vgain) (i : signal vec) : vgain * signal vec :=
    let g := vg_adapt s in
    ({| vg_gain := g; vg_max := vg_max s; vg_min := vg_min s; vg_target := vg_target s; vg_diff := vg_diff s;
        vg_en := vg_en s; vg_smooth := vg_smooth s |},
     mksig (if vg_en s then vmul (sv i) g else sv i) (st i)).
  Fixpoint vg_runs (s : vgain) (is : list (signal vec)) : vgain * list (signal vec) :=
    match is with
    | [] => (s, [])
    | i :: is' => let (s1, y) := vg_run s i in let (s2, ys) := vg_runs s1 is' in (s2, y :: ys)
    end.
  (** setGain, 219-229 *)
  Definition vg_set (s : vgain) (c : vec) : vgain :=
    if vec_le c (vg_max s) && vec_ge c (vg_min s) then
      if vg_smooth s then
        {| vg_gain := vg_gain s; vg_max := vg_max s; vg_min := vg_min s; vg_target := c; vg_diff := vg_diff s;
           vg_en := vg_en s; vg_smooth := vg_smooth s |}
      else
        {| vg_gain := c; vg_max := vg_max s; vg_min := vg_min s; vg_target := vg_target s; vg_diff := vg_diff s;
           vg_en := vg_en s; vg_smooth := vg_smooth s |}
    else s.

  (** ** MedianFilter.hpp *)
  (** std::sort (70) requires that operator< is a strict weak order of the values (C++ [alg.sorting]); otherwise the
      behaviour is undefined.  [weak_order]: it is one of the values [l]. *)
  Definition weak_order (lt : vec -> vec -> bool) (l : list vec) : bool :=
    forallb (fun a => negb (lt a a) &&
      forallb (fun b => (negb (lt a b && lt b a)) &&
        forallb (fun c => (negb (lt a b && lt b c) || lt a c) &&
          (negb (negb (lt a b) && negb (lt b a) && negb (lt b c) && negb (lt c b)) || negb (lt a c))) l) l) l.
  (** run, 62-77; [vals]: the values stored, [sort]: what std::sort does with them. *)
  Definition vme_run (sort : list vec -> list vec) (vals : list vec) (i : signal vec) : list vec * outcome (signal vec) :=
    let vals := tl vals ++ [sv i] in
    (vals, if weak_order (vec_lt N) vals then Ok (mksig (nth (length vals / 2) (sort vals) []) (st i)) else UB).

  (** ** Switch.hpp:60, the condition for switching *)
  Definition vsw_cond (level delta x : vec) : bool := vec_lt N x (vadd level delta) && vec_gt N x (vsub level delta).

  (** ** SignalChecker.hpp *)
  (** 88-109: the condition for firing, without and with the option to check that the signal is out of the range;
      limitsExceeded 174-177, withinLimits 184-187. *)
  Definition sc_violated (off : bool) (lo hi x : N) : bool := if off then within N lo hi x else negb (within N lo hi x).
End Vectors.
Arguments vr_prev {N} _.
Arguments vr_rates {N} _.
Arguments vr_en {N} _.
Arguments vd_prev {N} _.
Arguments vd_out {N} _.
Arguments vd_time {N} _.
Arguments vd_first {N} _.
Arguments vl_alpha {N} _.
Arguments vl_first {N} _.
Arguments vl_en {N} _.
Arguments vl_prev {N} _.
Arguments vm_coef {N} _.
Arguments vm_prev {N} _.
Arguments vm_en {N} _.
Arguments vi_first {N} _.
Arguments vi_en {N} _.
Arguments vi_prev {N} _.
Arguments vi_hi {N} _.
Arguments vi_lo {N} _.
Arguments vg_gain {N} _.
Arguments vg_max {N} _.
Arguments vg_min {N} _.
Arguments vg_target {N} _.
Arguments vg_diff {N} _.
Arguments vg_en {N} _.
Arguments vg_smooth {N} _.
Arguments ROne {N} _ _.
Arguments REach {N} _ _.

(** Gain.hpp:316-356, calculateParabolic for vectors: one gain (316-328), element-wise gains (344-356), a matrix of gains
    (337-342, the result is not initialised).  Exact numbers; [parabolic] is the scalar case. *)
Inductive gains := GOne (g : R) | GEach (g : list R) | GMatrix.
Definition vparabolic (g : gains) (p x : list R) : outcome (list R) :=
  match g with
  | GOne c => Ok (map (fun q => parabolic c (fst q) (snd q)) (combine p x))
  | GEach cs => Ok (map (fun q => parabolic (fst q) (fst (snd q)) (snd (snd q))) (combine cs (combine p x)))
  | GMatrix => UB
  end.

(** Matrix.hpp:751-759, norm, of a vector. *)
Definition Rnorm (v : list R) : R := sqrt (fold_left (fun a x => a + x * x)%R v 0%R).
Definition dnorm (v : list dbl) : dbl :=
  SFsqrt dprec demax (fold_left (fun a x => nadd Dnum a (nmul Dnum x x)) v (dofZ 0)).
(** SignalChecker.hpp:179-182, limitsExceeded with checkNorm. *)
Definition norm_exceeded (lo hi : dbl) (v : list dbl) : bool := negb (within Dnum lo hi (dnorm v)).
