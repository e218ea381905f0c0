(** Proofs about mouse and keyboard blocks. *)
From Coq Require Import Ascii Reals Lra Floats.SpecFloat.
From Flocq Require Import Core.Raux.
From Verif Require Import Prelude Num InputModel InputSpec.

Section Axis.
  Local Open Scope R_scope.
  Lemma axis_step_R : forall (a : axis Rnum) (off : R) (c : Z), a_min Rnum a <= a_max Rnum a ->
    snd (axis_step Rnum a off c) = limited (a_min Rnum a) (a_max Rnum a) (off + a_scale Rnum a * IZR c) /\
    fst (axis_step Rnum a off c) = snd (axis_step Rnum a off c) - a_scale Rnum a * IZR c.
  Proof.
    intros [s lo hi] off c H; unfold axis_step, limited; cbn in *.
    set (v := s * IZR c).
    destruct (Rlt_bool_spec (off + v) lo) as [H1|H1].
    - cbn. rewrite Rmin_right by lra. rewrite Rmax_left by lra. lra.
    - destruct (Rlt_bool_spec hi (off + v)) as [H2|H2]; cbn.
      + rewrite Rmin_left by lra. rewrite Rmax_right by lra. lra.
      + rewrite Rmin_right by lra. rewrite Rmax_right by lra. lra.
  Qed.
  Lemma limited_in : forall lo hi v, lo <= hi -> lo <= limited lo hi v <= hi.
  Proof.
    intros lo hi v H; unfold limited, Rmax, Rmin.
    destruct (Rle_dec hi v); destruct (Rle_dec _ _); lra.
  Qed.
  Lemma limited_id : forall lo hi v, lo <= v <= hi -> limited lo hi v = v.
  Proof. intros lo hi v H; unfold limited. rewrite Rmin_right by lra. now rewrite Rmax_right by lra. Qed.
End Axis.

Lemma run_comp : forall sel, is_comp sel -> forall ax m c, mi_first Rnum m = false ->
  sel _ (mi_out Rnum (minput_run Rnum ax m c)) = snd (axis_step Rnum (sel _ ax) (sel _ (mi_off Rnum m)) (sel _ c)) /\
  sel _ (mi_off Rnum (minput_run Rnum ax m c)) = fst (axis_step Rnum (sel _ ax) (sel _ (mi_off Rnum m)) (sel _ c)).
Proof.
  intros sel [->|[->|[->| ->]]] ax m c H; unfold minput_run; rewrite H; split; reflexivity.
Qed.

Lemma run_comp_any : forall sel, is_comp sel -> forall ax m c, exists off,
  sel _ (mi_out Rnum (minput_run Rnum ax m c)) = snd (axis_step Rnum (sel _ ax) off (sel _ c)) /\
  sel _ (mi_off Rnum (minput_run Rnum ax m c)) = fst (axis_step Rnum (sel _ ax) off (sel _ c)).
Proof.
  intros sel [->|[->|[->| ->]]] ax m c; unfold minput_run; eexists; split; reflexivity.
Qed.

Lemma mouse_limits : forall sel, is_comp sel -> forall ax m c,
  (a_min Rnum (sel _ ax) <= a_max Rnum (sel _ ax))%R ->
  (a_min Rnum (sel _ ax) <= sel _ (mi_out Rnum (minput_run Rnum ax m c)) <= a_max Rnum (sel _ ax))%R.
Proof.
  intros sel Hs ax m c H. destruct (run_comp_any sel Hs ax m c) as (off & E & _). rewrite E.
  destruct (axis_step_R (sel _ ax) off (sel _ c) H) as [-> _]. now apply limited_in.
Qed.

Lemma mouse_antiwindup : forall sel, is_comp sel -> forall ax m c c',
  (a_min Rnum (sel _ ax) <= a_max Rnum (sel _ ax))%R ->
  let m1 := minput_run Rnum ax m c in
  let m2 := minput_run Rnum ax m1 c' in
  sel _ (mi_out Rnum m2) = limited (a_min Rnum (sel _ ax)) (a_max Rnum (sel _ ax))
     (sel _ (mi_out Rnum m1) + a_scale Rnum (sel _ ax) * (IZR (sel _ c') - IZR (sel _ c)))%R.
Proof.
  intros sel Hs ax m c c' H m1 m2.
  destruct (run_comp_any sel Hs ax m c) as (off & E1 & E2). fold m1 in E1, E2.
  destruct (run_comp sel Hs ax m1 c' eq_refl) as [E3 _]. fold m2 in E3. rewrite E3.
  destruct (axis_step_R (sel _ ax) (sel _ (mi_off Rnum m1)) (sel _ c') H) as [-> _].
  destruct (axis_step_R (sel _ ax) off (sel _ c) H) as [_ E4].
  rewrite E2, E4, E1. f_equal. match goal with |- @eq _ ?x ?y => change (@eq R x y) end. ring.
Qed.

(** ** Initial position *)
Lemma init_then_run : forall sel, is_comp sel -> forall ax m p c, mi_first Rnum m = false -> q_x c = q_y c ->
  (a_min Rnum (sel _ ax) <= sel _ p <= a_max Rnum (sel _ ax))%R ->
  sel _ (mi_out Rnum (minput_run Rnum ax (minput_init Rnum ax m p c) c)) = sel _ p.
Proof.
  intros sel Hs ax m p c Hf Hxy [H1 H2].
  destruct (run_comp sel Hs ax (minput_init Rnum ax m p c) c Hf) as [E _]. rewrite E.
  assert (Hm : (a_min Rnum (sel _ ax) <= a_max Rnum (sel _ ax))%R) by (cbn in *; lra).
  destruct (axis_step_R (sel _ ax) (sel _ (mi_off Rnum (minput_init Rnum ax m p c))) (sel _ c) Hm) as [-> _].
  assert (Ev : (sel _ (mi_off Rnum (minput_init Rnum ax m p c)) + a_scale Rnum (sel _ ax) * IZR (sel _ c))%R = sel _ p).
  { destruct Hs as [->|[->|[->| ->]]]; cbn; rewrite ?Hxy; ring. }
  rewrite Ev. apply limited_id. split; assumption.
Qed.
Lemma init_then_run_zr : forall sel, sel = @q_z \/ sel = @q_r -> forall ax m p c, mi_first Rnum m = false ->
  (a_min Rnum (sel _ ax) <= sel _ p <= a_max Rnum (sel _ ax))%R ->
  sel _ (mi_out Rnum (minput_run Rnum ax (minput_init Rnum ax m p c) c)) = sel _ p.
Proof.
  intros sel Hs ax m p c Hf [H1 H2].
  assert (Hc : is_comp sel) by (unfold is_comp; tauto).
  destruct (run_comp sel Hc ax (minput_init Rnum ax m p c) c Hf) as [E _]. rewrite E.
  assert (Hm : (a_min Rnum (sel _ ax) <= a_max Rnum (sel _ ax))%R) by (cbn in *; lra).
  destruct (axis_step_R (sel _ ax) (sel _ (mi_off Rnum (minput_init Rnum ax m p c))) (sel _ c) Hm) as [-> _].
  assert (Ev : (sel _ (mi_off Rnum (minput_init Rnum ax m p c)) + a_scale Rnum (sel _ ax) * IZR (sel _ c))%R = sel _ p).
  { destruct Hs as [->| ->]; cbn; ring. }
  rewrite Ev. apply limited_id. split; assumption.
Qed.

Definition axR : quad (axis Rnum) :=
  let a := Build_axis Rnum 1%R (-100)%R 100%R in {| q_x := a; q_y := a; q_z := a; q_r := a |}.
Definition pR : quad R := {| q_x := 5%R; q_y := 6%R; q_z := 7%R; q_r := 8%R |}.
Definition cR : quad Z := {| q_x := 1%Z; q_y := 3%Z; q_z := 0%Z; q_r := 0%Z |}.

(** After an ordinary run, setInitPos and another run with unchanged counts: x is not the position set. *)
Lemma init_swapped : exists ax m p c, mi_first Rnum m = false /\
  (a_min Rnum (q_x ax) <= q_x p <= a_max Rnum (q_x ax))%R /\
  q_x (mi_out Rnum (minput_run Rnum ax (minput_init Rnum ax m p c) c)) <> q_x p.
Proof.
  exists axR, (minput_run Rnum axR (minput_new Rnum axR c0) c0), pR, cR. split; [reflexivity|]. split; [cbn; lra|].
  destruct (run_comp _ (or_introl eq_refl) axR (minput_init Rnum axR (minput_run Rnum axR (minput_new Rnum axR c0) c0) pR cR) cR eq_refl) as [E _].
  rewrite E.
  assert (Hm : (a_min Rnum (q_x axR) <= a_max Rnum (q_x axR))%R) by (cbn; lra).
  destruct (axis_step_R (q_x axR) (q_x (mi_off Rnum (minput_init Rnum axR (minput_run Rnum axR (minput_new Rnum axR c0) c0) pR cR))) (q_x cR) Hm) as [-> _].
  cbn -[limited]. rewrite limited_id by lra. lra.
Qed.
(** A position set before the first run is forgotten. *)
Lemma init_forgotten : exists ax p, let m := minput_init Rnum ax (minput_new Rnum ax c0) p c0 in
  (a_min Rnum (q_z ax) <= q_z p <= a_max Rnum (q_z ax))%R /\
  q_z (mi_out Rnum m) = q_z p /\ q_z (mi_out Rnum (minput_run Rnum ax m c0)) <> q_z p.
Proof.
  exists axR, pR. cbv zeta. split; [cbn; lra|]. split; [reflexivity|].
  cbn. rewrite (Rlt_bool_false (1 * 0 + 1 * 0) (-100)) by lra. rewrite (Rlt_bool_false 100 (1 * 0 + 1 * 0)) by lra. lra.
Qed.
(** The first output: zero for z and r, within limits. *)
Lemma first_run_zr : forall sel, sel = @q_z \/ sel = @q_r -> forall ax m c, mi_first Rnum m = true ->
  (a_min Rnum (sel _ ax) <= a_max Rnum (sel _ ax))%R ->
  sel _ (mi_out Rnum (minput_run Rnum ax m c)) = limited (a_min Rnum (sel _ ax)) (a_max Rnum (sel _ ax)) 0%R.
Proof.
  intros sel Hs ax m c H Hm.
  assert (E : sel _ (mi_out Rnum (minput_run Rnum ax m c)) =
              snd (axis_step Rnum (sel _ ax) (a_scale Rnum (sel _ ax) * IZR (- sel _ c))%R (sel _ c))).
  { destruct Hs as [->| ->]; unfold minput_run; rewrite H; reflexivity. }
  rewrite E. destruct (axis_step_R (sel _ ax) (a_scale Rnum (sel _ ax) * IZR (- sel _ c))%R (sel _ c) Hm) as [E2 _]. rewrite E2.
  f_equal. rewrite opp_IZR. match goal with |- @eq _ ?x ?y => change (@eq R x y) end. ring.
Qed.

(** ** Doubles: the limit is missed by rounding *)
Definition axD : axis Dnum := Build_axis Dnum (dlit 1 10000) (dlit (-3) 100) (dlit 45 1000).
Lemma limit_missed : exists a (c : Z), nleb Dnum (a_min Dnum a) (a_max Dnum a) = true /\
  nltb Dnum (snd (axis_step Dnum a (dofZ 0) c)) (a_min Dnum a) = true.
Proof. exists axD, (-2995)%Z. split; vm_compute; reflexivity. Qed.
