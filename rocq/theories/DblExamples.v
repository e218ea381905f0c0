(** Examples for the properties of the binary64 arithmetic. *)
From Coq Require Import ZArith Reals Lra Lia Floats.SpecFloat Bool List.
From Flocq Require Import Core IEEE754.BinarySingleNaN.
From Verif Require Import Prelude Num NumDbl NumDbl3 CtrlModel CtrlModel2 CtrlProofs4 PlanModel PlanExamples DblModel DblSpec DblProofs DblProofs2.
Import ListNotations.
Open Scope R_scope.

Ltac dcheck := split; [vm_compute; reflexivity|exact I].
Ltac dnum := unfold dval, SF2R, F2R; cbn [Fnum Fexp cond_Zopp].

(** A constant input of 3, smoothed with alpha = 0.2, gives 3.0000000000000004. *)
Definition three : Dnum := dlit 3 1.
Definition fifth : Dnum := dlit 1 5.
Definition above : Dnum := S754_finite false 6755399441055745 (-51).
Lemma lp_three : map sv (lp_runs Dnum (lp_new Dnum dnan fifth) [mksig three 0; mksig three 1]) = [above; above].
Proof. vm_compute. reflexivity. Qed.
Lemma above_three : dok above /\ dval above = 3 + / 2251799813685248.
Proof. split; [dcheck|]. unfold above. dnum. change (bpow radix2 (-51)) with (/ 2251799813685248). lra. Qed.
Lemma three_val : dok three /\ dval three = 3.
Proof. split; [dcheck|]. change three with (S754_finite false 6755399441055744 (-51)). dnum. change (bpow radix2 (-51)) with (/ 2251799813685248). lra. Qed.
Lemma fifth_val : dok fifth /\ Rabs (dval fifth - / 5) <= / 1000000000.
Proof.
  split; [dcheck|]. change fifth with (S754_finite false 7205759403792794 (-55)). dnum. change (bpow radix2 (-55)) with (/ 36028797018963968).
  apply Rabs_le. lra.
Qed.
Lemma lp_over : exists (alpha : Dnum) (l : list (signal Dnum)) (y : signal Dnum),
  dok alpha /\ 0 < dval alpha < 1 /\ (forall i, In i l -> sv i = three) /\ dval three = 3 /\
  In y (lp_runs Dnum (lp_new Dnum dnan alpha) l) /\ 3 < dval (sv y).
Proof.
  destruct fifth_val as [K F]. apply Rabs_le_inv in F. destruct above_three as [_ A]. destruct three_val as [_ T3].
  exists fifth, [mksig three 0; mksig three 1], (mksig above 0). split; [exact K|]. split; [lra|].
  split; [intros i [<-|[<-|[]]]; reflexivity|]. split; [exact T3|].
  assert (E : lp_runs Dnum (lp_new Dnum dnan fifth) [mksig three 0; mksig three 1] = [mksig above 0; mksig above 1]) by (vm_compute; reflexivity).
  rewrite E. split; [now left|]. cbn [sv]. rewrite A. lra.
Qed.

(** The range of the inputs, up to the rounding. *)
Lemma lp_range_close B alpha nan (i0 : signal Dnum) l (a b : R) :
  / IZR (2 ^ 900) <= B <= IZR (2 ^ 900) -> dok alpha -> / IZR (2 ^ 20) <= dval alpha <= 1 ->
  (forall i, In i (i0 :: l) -> dok (sv i) /\ Rabs (dval (sv i)) <= B /\ a <= dval (sv i) <= b) ->
  forall y, In y (lp_runs Dnum (lp_new Dnum nan alpha) (i0 :: l)) ->
  dok (sv y) /\ a - B / IZR (2 ^ 30) <= dval (sv y) <= b + B / IZR (2 ^ 30).
Proof.
  intros HB Ka Ha Hl y Hy.
  assert (Hl' : forall i, In i (i0 :: l) -> dok (sv i) /\ Rabs (dval (sv i)) <= B) by (intros i Hi; destruct (Hl i Hi) as (? & ? & _); auto).
  pose proof (lp_close B HB alpha Ka Ha nan 0 (i0 :: l) Hl') as C.
  assert (G : forall z, In z (lp_runs Rnum (lp_new Rnum 0 (dval alpha)) (map real_sig (i0 :: l))) -> a <= sv z <= b).
  { intros z Hz. cbn [map] in Hz. revert z Hz. apply lp_range.
    - assert (0 < / IZR (2 ^ 20)) by (apply Rinv_0_lt_compat, IZR_lt; reflexivity). lra.
    - intros i Hi. change (real_sig i0 :: map real_sig l) with (map real_sig (i0 :: l)) in Hi. apply in_map_iff in Hi. destruct Hi as (j & <- & Hj).
      cbn [real_sig sv]. apply Hl, Hj. }
  revert C G Hy. generalize (lp_runs Dnum (lp_new Dnum nan alpha) (i0 :: l)) (lp_runs Rnum (lp_new Rnum 0 (dval alpha)) (map real_sig (i0 :: l))).
  intros l1 l2 C. induction C as [|u v l1 l2 (_ & Ku & Cu) C IH]; intros G Hy; [destruct Hy|].
  destruct Hy as [<-|Hy]; [|apply IH; [intros z Hz; apply G; now right|exact Hy]].
  split; [exact Ku|]. apply Rabs_le_inv in Cu. pose proof (G v (or_introl eq_refl)) as [G1 G2]. unfold Rdiv.
  split; [apply Rle_trans with (sv v - B * / IZR (2 ^ 30))|apply Rle_trans with (sv v + B * / IZR (2 ^ 30))]; lra.
Qed.

(** A move of the constant acceleration planner with a cycle of 1 ms. *)
Definition go : pa Dnum := pa_new Dnum 1 (cst (dlit 1 1)) (cst (dlit 1 1)) (cst (dlit 1 1)) (dlit 1 1000) noplan 0 (dlit 0 1).
Definition go' : pa Dnum := fst (pa_move Dnum dsqrt go (cst (dlit 0 1)) (cst (dlit 2 1))).
Lemma go_move : snd (pa_move Dnum dsqrt go (cst (dlit 0 1)) (cst (dlit 2 1))) = true.
Proof. vm_compute. reflexivity. Qed.
Lemma go_times : pa_dT1 (pa_pl go') = nmul Dnum (nofZ Dnum 1000) (dlit 1 1000) /\
  pa_dT2 (pa_pl go') = nmul Dnum (nofZ Dnum 1000) (dlit 1 1000) /\ pa_dT3 (pa_pl go') = nmul Dnum (nofZ Dnum 1000) (dlit 1 1000).
Proof. split; [|split]; vm_compute; reflexivity. Qed.
Lemma milli : dok (dlit 1 1000) /\ / 1000 - / 1000000000 <= dval (dlit 1 1000) <= / 1000 + / 1000000000.
Proof.
  split; [dcheck|]. assert (E : dlit 1 1000 = S754_finite false 4611686018427388 (-62)) by (vm_compute; reflexivity). rewrite E.
  dnum. change (bpow radix2 (-62)) with (/ 4611686018427387904). lra.
Qed.
Definition jgo : pj Dnum := pj_new Dnum 1 (cst (dlit 1 1)) (cst (dlit 1 1)) (dlit 1 100)
  (pj_coefs Dnum (dlit 1 1) (dlit 1 1) (cst (dlit 0 1)) (cst (dlit 0 1)) (cst (dlit 0 1))) 0 (dlit 0 1).
(** A value for the cube root of 2.5, the only one needed. *)
Definition cbrt25 (_ : Dnum) : Dnum := dlit 136 100.
Definition jgo' : pj Dnum := fst (pj_move Dnum dsqrt cbrt25 jgo (cst (dlit 0 1)) (cst (dlit 5 1))).
Lemma jgo_move : snd (pj_move Dnum dsqrt cbrt25 jgo (cst (dlit 0 1)) (cst (dlit 5 1))) = true.
Proof. vm_compute. reflexivity. Qed.
Lemma jgo_times : pj_dT1 (pj_pl jgo') = nmul Dnum (nofZ Dnum 100) (dlit 1 100) /\ pj_dT2 (pj_pl jgo') = nmul Dnum (nofZ Dnum 300) (dlit 1 100).
Proof. split; vm_compute; reflexivity. Qed.
Lemma centi : dok (dlit 1 100) /\ / 100 - / 1000000000 <= dval (dlit 1 100) <= / 100 + / 1000000000.
Proof.
  split; [dcheck|]. assert (E : dlit 1 100 = S754_finite false 5764607523034235 (-59)) by (vm_compute; reflexivity). rewrite E.
  dnum. change (bpow radix2 (-59)) with (/ 576460752303423488). lra.
Qed.
