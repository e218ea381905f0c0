(** Proofs for the camera driver. *)
From Coq Require Import Floats.SpecFloat Reals Lra.
From Verif Require Import Prelude Num PixyModel PixySpec.
Open Scope Z_scope.

Lemma ext_min : forall co ds, (extremal Z.ltb co ds < 4)%nat /\ forall i, (i < 4)%nat -> co (ds (extremal Z.ltb co ds)) <= co (ds i).
Proof.
  intros co ds. unfold extremal. cbn [fold_left].
  rewrite Z.ltb_irrefl.
  destruct (Z.ltb_spec (co (ds 1%nat)) (co (ds 0%nat)));
  match goal with |- context[Z.ltb (co (ds 2%nat)) ?x] => destruct (Z.ltb_spec (co (ds 2%nat)) x) end;
  match goal with |- context[Z.ltb (co (ds 3%nat)) ?x] => destruct (Z.ltb_spec (co (ds 3%nat)) x) end;
  (split; [lia|]); intros i Hi; assert (C : i = 0%nat \/ i = 1%nat \/ i = 2%nat \/ i = 3%nat) by lia;
  destruct C as [->|[->|[->| ->]]]; lia.
Qed.
Lemma ext_max : forall co ds, (extremal Z.gtb co ds < 4)%nat /\ forall i, (i < 4)%nat -> co (ds i) <= co (ds (extremal Z.gtb co ds)).
Proof.
  intros co ds. unfold extremal. cbn [fold_left]. rewrite !Z.gtb_ltb. rewrite Z.ltb_irrefl.
  destruct (Z.ltb_spec (co (ds 0%nat)) (co (ds 1%nat)));
  match goal with |- context[Z.ltb ?x (co (ds 2%nat))] => destruct (Z.ltb_spec x (co (ds 2%nat))) end;
  match goal with |- context[Z.ltb ?x (co (ds 3%nat))] => destruct (Z.ltb_spec x (co (ds 3%nat))) end;
  (split; [lia|]); intros i Hi; assert (C : i = 0%nat \/ i = 1%nat \/ i = 2%nat \/ i = 3%nat) by lia;
  destruct C as [->|[->|[->| ->]]]; lia.
Qed.
Lemma in_x_ok : forall x, in_x x = true <-> 10 < x < 306.
Proof. intros x. unfold in_x. rewrite andb_true_iff, !Z.ltb_lt. lia. Qed.
Lemma in_y_ok : forall x, in_y x = true <-> 10 < x < 198.
Proof. intros x. unfold in_y. rewrite andb_true_iff, !Z.ltb_lt. lia. Qed.
Lemma in_range_ok : forall ds, in_range ds = true <-> forall i, (i < 4)%nat -> inside (ds i).
Proof.
  intros ds. unfold in_range. rewrite !andb_true_iff, !in_x_ok, !in_y_ok.
  destruct (ext_min fst ds) as [A1 A2]. destruct (ext_max fst ds) as [B1 B2].
  destruct (ext_min snd ds) as [C1 C2]. destruct (ext_max snd ds) as [D1 D2].
  change (extremal Z.ltb fst ds) with (i_x_min ds) in *. change (extremal Z.gtb fst ds) with (i_x_max ds) in *.
  change (extremal Z.ltb snd ds) with (i_y_min ds) in *. change (extremal Z.gtb snd ds) with (i_y_max ds) in *.
  split.
  - intros H i Hi. specialize (A2 i Hi). specialize (B2 i Hi). specialize (C2 i Hi). specialize (D2 i Hi). unfold inside. lia.
  - intros H. pose proof (H _ A1) as HA. pose proof (H _ B1) as HB. pose proof (H _ C1) as HC. pose proof (H _ D1) as HD.
    unfold inside in *. tauto.
Qed.
Lemma valid_ok : forall (N : num) sqrt ds, valid N sqrt ds = true <->
  (forall i, (i < 4)%nat -> inside (ds i)) /\ nltb N (height N sqrt ds) (ndiv N (nofZ N 12) (nofZ N 10)) = true.
Proof. intros N sqrt ds. unfold valid. rewrite andb_true_iff, in_range_ok. tauto. Qed.

(** *** Infinite positions stay *)
Lemma mix_bad : forall new old, nonfinite old -> nonfinite (mix Dnum (dlit 5 100) new old).
Proof.
  intros new old H. unfold mix. change (nofZ Dnum 1) with (dofZ 1).
  assert (E : exists m e, nsub Dnum (dofZ 1) (dlit 5 100) = S754_finite false m e) by (vm_compute; eauto).
  destruct E as (m & e & E). rewrite E. generalize (nmul Dnum new (dlit 5 100)). intros x.
  destruct old as [s|s| |s m' e']; try contradiction H.
  - change (nmul Dnum (S754_infinity s) (S754_finite false m e)) with (S754_infinity (xorb s false)).
    destruct x as [s'|s'| |s' m' e']; cbn; try exact I. destruct s, s'; exact I.
  - change (nmul Dnum S754_nan (S754_finite false m e)) with (@S754_nan). destruct x; exact I.
Qed.
Lemma bad_run : forall rs (p : pose Dnum), nonfinite (p_x p) -> exists q, smooth_run Dnum (Some p) rs = Some q /\ nonfinite (p_x q).
Proof.
  induction rs as [|r rs IH]; intros p H; [exists p; split; [reflexivity|exact H]|].
  change (smooth_run Dnum (Some p) (r :: rs)) with (smooth_run Dnum (Some (smooth Dnum (Some p) r)) rs).
  apply IH. unfold smooth. cbn [p_x]. exact (mix_bad (p_x r) (p_x p) H).
Qed.

(** *** The filter over the reals *)
Open Scope R_scope.
Lemma mix_R : forall a x y lo hi : R, 0 <= a <= 1 -> within lo hi x -> within lo hi y -> within lo hi (mix Rnum a x y).
Proof.
  intros a x y lo hi Ha Hx Hy. unfold within, mix in *. cbn.
  assert (0 <= (x - lo) * a) by (apply Rmult_le_pos; lra). assert (0 <= (y - lo) * (1 - a)) by (apply Rmult_le_pos; lra).
  assert (0 <= (hi - x) * a) by (apply Rmult_le_pos; lra). assert (0 <= (hi - y) * (1 - a)) by (apply Rmult_le_pos; lra).
  lra.
Qed.
Definition pose_in (lx hx ly hy lp hp : R) (p : pose Rnum) : Prop :=
  within lx hx (p_x p) /\ within ly hy (p_y p) /\ within lp hp (p_phi p).
Lemma smooth_R : forall lx hx ly hy lp hp rs prev q,
  (forall p, prev = Some p -> pose_in lx hx ly hy lp hp p) ->
  (forall r, In r rs -> pose_in lx hx ly hy lp hp r) ->
  smooth_run Rnum prev rs = Some q -> pose_in lx hx ly hy lp hp q.
Proof.
  intros lx hx ly hy lp hp; induction rs as [|r rs IH]; intros prev q Hp Hr E.
  - apply Hp. exact E.
  - apply (IH (Some (smooth Rnum prev r)) q); [| |exact E].
    + intros p Ep. injection Ep as <-. destruct prev as [p|]; [|apply Hr; left; reflexivity].
      destruct (Hp p eq_refl) as (A & B & C). destruct (Hr r (or_introl eq_refl)) as (A' & B' & C').
      unfold smooth, pose_in. cbn [p_x p_y p_phi].
      split; [|split]; (apply mix_R; [cbn; lra|assumption|assumption]).
    + intros r' H. apply Hr. right. exact H.
Qed.
Lemma smooth_const : forall (r : pose Rnum) n, smooth_run Rnum None (repeat r (S n)) = Some r.
Proof.
  intros r n. change (smooth_run Rnum None (repeat r (S n))) with (smooth_run Rnum (Some r) (repeat r n)).
  assert (E : smooth Rnum (Some r) r = r).
  { assert (Em : forall a v : R, mix Rnum a v v = v).
    { intros a v. unfold mix. cbn. match goal with |- @eq _ ?x ?y => change (@eq R x y) end. ring. }
    destruct r as [x y p]. unfold smooth. cbn [p_x p_y p_phi]. rewrite !Em. reflexivity. }
  induction n as [|n IH]; [reflexivity|].
  change (smooth_run Rnum (Some r) (repeat r (S n))) with (smooth_run Rnum (Some (smooth Rnum (Some r) r)) (repeat r n)).
  rewrite E. exact IH.
Qed.
Lemma smooth_range : forall (lx hx ly hy lp hp : R) (rs : list (pose Rnum)) (q : pose Rnum),
  (forall r, In r rs -> within lx hx (p_x r) /\ within ly hy (p_y r) /\ within lp hp (p_phi r)) ->
  smooth_run Rnum None rs = Some q ->
  within lx hx (p_x q) /\ within ly hy (p_y q) /\ within lp hp (p_phi q).
Proof.
  intros lx hx ly hy lp hp rs q H E. apply (smooth_R lx hx ly hy lp hp rs None q); [discriminate|exact H|exact E].
Qed.
