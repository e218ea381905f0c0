(** Order laws of the number types of [Num.v], shared by the proofs about comparisons. *)
From Coq Require Import Floats.SpecFloat Reals Lra Lia.
From Flocq Require Import Core.Raux.
From Verif Require Import Prelude Num.
Open Scope Z_scope.

Canonical Structure Rnum.
Canonical Structure Dnum.

(** A strict weak order on the values satisfying [ok]; comparisons with other values are false. *)
Record ord_laws (N : num) (ok : N -> Prop) : Prop := {
  ol_irr : forall x, nltb N x x = false;
  ol_trans : forall x y z, nltb N x y = true -> nltb N y z = true -> nltb N x z = true;
  ol_neg : forall x y z, ok y -> nltb N x z = true -> nltb N x y = true \/ nltb N y z = true;
  ol_le : forall x y, ok x -> ok y -> nleb N x y = negb (nltb N y x);
  ol_eq : forall x y, ok x -> ok y -> neqb N x y = negb (nltb N x y) && negb (nltb N y x);
  ol_lt_ok : forall x y, nltb N x y = true -> ok x /\ ok y;
  ol_le_ok : forall x y, nleb N x y = true -> ok x /\ ok y
}.

Definition Rok (x : Rnum) : Prop := True.
Definition Dok (x : Dnum) : Prop := x <> S754_nan.

Lemma Rnum_ord : ord_laws Rnum Rok.
Proof.
  split; cbn; intros; unfold Rok; auto.
  - apply Rlt_bool_false. lra.
  - revert H H0. case Rlt_bool_spec; [|discriminate]. case Rlt_bool_spec; [|discriminate].
    intros. apply Rlt_bool_true. lra.
  - revert H0. case Rlt_bool_spec; [|discriminate]. intros Hx _.
    destruct (Rlt_or_le x y) as [h|h]; [left|right]; apply Rlt_bool_true; lra.
  - rewrite <- negb_Rlt_bool, Bool.negb_involutive. reflexivity.
  - case Req_bool_spec; intros E.
    + subst. rewrite Rlt_bool_false by lra. reflexivity.
    + case Rlt_bool_spec; intros; [reflexivity|]. rewrite Rlt_bool_true by lra. reflexivity.
Qed.

(** binary64 comparison is the lexicographic order of these keys. *)
Definition dkey (x : dbl) : Z * Z * Z :=
  match x with
  | S754_nan => (0, 0, 0)
  | S754_zero _ => (0, 0, 0)
  | S754_infinity true => (-2, 0, 0)
  | S754_infinity false => (2, 0, 0)
  | S754_finite true m e => (-1, - e, - Zpos m)
  | S754_finite false m e => (1, e, Zpos m)
  end.
Definition klt (a b : Z * Z * Z) : Prop :=
  match a, b with
  | (a1, a2, a3), (b1, b2, b3) => a1 < b1 \/ a1 = b1 /\ (a2 < b2 \/ a2 = b2 /\ a3 < b3)
  end.

Lemma dcompare_key x y : x <> S754_nan -> y <> S754_nan ->
  exists c, SFcompare x y = Some c /\
    match c with Lt => klt (dkey x) (dkey y) | Eq => dkey x = dkey y | Gt => klt (dkey y) (dkey x) end.
Proof.
  intros Hx Hy.
  destruct x as [sx|[|]| |[|] mx ex], y as [sy|[|]| |[|] my ey]; try congruence;
    try (eexists; split; [reflexivity|]; cbn; try reflexivity; lia);
    try (destruct sx; eexists; split; [reflexivity|]; cbn; try reflexivity; lia);
    try (destruct sy; eexists; split; [reflexivity|]; cbn; try reflexivity; lia);
    cbn -[Z.compare]; rewrite Z.compare_antisym; destruct (Z.compare_spec ey ex) as [E|E|E]; cbn;
    try (eexists; split; [reflexivity|]; cbn; lia).
  - subst ex. change (Pos.compare_cont Eq mx my) with (Pos.compare mx my).
    destruct (Pos.compare_spec mx my); eexists; (split; [reflexivity|]); cbn; subst; try reflexivity; lia.
  - subst ex. change (Pos.compare_cont Eq mx my) with (Pos.compare mx my).
    destruct (Pos.compare_spec mx my); eexists; (split; [reflexivity|]); cbn; subst; try reflexivity; lia.
Qed.

Lemma dlt_key x y : x <> S754_nan -> y <> S754_nan -> (SFltb x y = true <-> klt (dkey x) (dkey y)).
Proof.
  intros Hx Hy. destruct (dcompare_key x y Hx Hy) as (c & Hc & H). unfold SFltb. rewrite Hc.
  destruct (dkey x) as [[a1 a2] a3], (dkey y) as [[b1 b2] b3]. cbn in H.
  destruct c; cbn in *; try (injection H as -> -> ->); split; intros; try discriminate; auto; exfalso; lia.
Qed.
Lemma dlt_nan_l y : SFltb S754_nan y = false. Proof. reflexivity. Qed.
Lemma dlt_nan_r x : SFltb x S754_nan = false. Proof. destruct x as [|[]| |[]]; reflexivity. Qed.

Lemma Dnum_ord : ord_laws Dnum Dok.
Proof.
  assert (Hok : forall x y, SFltb x y = true -> x <> S754_nan /\ y <> S754_nan).
  { intros x y H. split; intros ->; [rewrite dlt_nan_l in H|rewrite dlt_nan_r in H]; discriminate. }
  assert (Hok' : forall x y, SFleb x y = true -> x <> S754_nan /\ y <> S754_nan).
  { intros x y H. split; intros ->; [discriminate|]. destruct x as [|[]| |[]]; discriminate. }
  split; cbn -[SFltb SFleb SFeqb]; unfold Dok.
  - intros x. destruct (SFltb x x) eqn:E; [|reflexivity].
    destruct (Hok _ _ E) as [H _]. apply dlt_key in E; auto.
    destruct (dkey x) as [[a1 a2] a3]. cbn in E. lia.
  - intros x y z H1 H2. destruct (Hok _ _ H1), (Hok _ _ H2). apply dlt_key in H1, H2; auto. apply dlt_key; auto.
    destruct (dkey x) as [[a1 a2] a3], (dkey y) as [[b1 b2] b3], (dkey z) as [[c1 c2] c3]. cbn in *. lia.
  - intros x y z Hy H. destruct (Hok _ _ H) as [Hx Hz]. apply dlt_key in H; auto.
    rewrite (dlt_key x y), (dlt_key y z) by auto.
    destruct (dkey x) as [[a1 a2] a3], (dkey y) as [[b1 b2] b3], (dkey z) as [[c1 c2] c3]. cbn in *. lia.
  - intros x y Hx Hy. destruct (dcompare_key x y Hx Hy) as (c & Hc & H).
    unfold SFleb. rewrite Hc. destruct (SFltb y x) eqn:E.
    + apply dlt_key in E; auto. destruct c; auto; exfalso;
      destruct (dkey x) as [[a1 a2] a3], (dkey y) as [[b1 b2] b3]; cbn in *; try injection H; lia.
    + destruct c; auto. exfalso. apply dlt_key in H; auto. congruence.
  - intros x y Hx Hy. destruct (dcompare_key x y Hx Hy) as (c & Hc & H).
    unfold SFeqb. rewrite Hc. destruct c.
    + assert (SFltb x y = false) as ->.
      { destruct (SFltb x y) eqn:E; auto. apply dlt_key in E; auto. rewrite H in E.
        destruct (dkey y) as [[b1 b2] b3]; cbn in *; lia. }
      assert (SFltb y x = false) as ->; [|reflexivity].
      destruct (SFltb y x) eqn:E; auto. apply dlt_key in E; auto. rewrite H in E.
      destruct (dkey y) as [[b1 b2] b3]; cbn in *; lia.
    + apply dlt_key in H; auto. rewrite H. reflexivity.
    + apply dlt_key in H; auto. rewrite H. destruct (SFltb x y); reflexivity.
  - exact Hok.
  - exact Hok'.
Qed.

(** Derived laws. *)
Section Laws.
  Context {N : num} {ok : N -> Prop} (L : ord_laws N ok).
  Lemma ol_asym x y : nltb N x y = true -> nltb N y x = false.
  Proof.
    intros H. destruct (nltb N y x) eqn:E; auto.
    rewrite <- (ol_irr _ _ L x). symmetry. exact (ol_trans _ _ L _ _ _ H E).
  Qed.
  Lemma ol_le_refl x : ok x -> nleb N x x = true.
  Proof. intros H. rewrite (ol_le _ _ L) by auto. rewrite (ol_irr _ _ L). reflexivity. Qed.
  Lemma ol_lt_le x y : nltb N x y = true -> nleb N x y = true.
  Proof.
    intros H. destruct (ol_lt_ok _ _ L _ _ H). rewrite (ol_le _ _ L) by auto. now rewrite ol_asym.
  Qed.
  Lemma ol_le_trans x y z : nleb N x y = true -> nleb N y z = true -> nleb N x z = true.
  Proof.
    intros H1 H2. destruct (ol_le_ok _ _ L _ _ H1) as [ox oy], (ol_le_ok _ _ L _ _ H2) as [_ oz].
    rewrite (ol_le _ _ L) in * by auto. destruct (nltb N z x) eqn:E; auto.
    destruct (ol_neg _ _ L _ _ _ oy E) as [h|h]; [rewrite h in H2|rewrite h in H1]; discriminate.
  Qed.
  Lemma ol_nlt_le x y : ok x -> ok y -> nltb N x y = false -> nleb N y x = true.
  Proof. intros. rewrite (ol_le _ _ L) by auto. now rewrite H1. Qed.
  Lemma ol_le_nlt x y : nleb N x y = true -> nltb N y x = false.
  Proof.
    intros H. destruct (ol_le_ok _ _ L _ _ H). rewrite (ol_le _ _ L) in H by auto.
    now destruct (nltb N y x).
  Qed.
  Lemma ol_lt_le_trans x y z : nltb N x y = true -> nleb N y z = true -> nltb N x z = true.
  Proof.
    intros H1 H2. destruct (ol_le_ok _ _ L _ _ H2) as [oy oz].
    destruct (ol_neg _ _ L _ _ _ oz H1) as [h|h]; auto. rewrite (ol_le _ _ L), h in H2 by auto. discriminate.
  Qed.
  Lemma ol_le_lt_trans x y z : nleb N x y = true -> nltb N y z = true -> nltb N x z = true.
  Proof.
    intros H1 H2. destruct (ol_le_ok _ _ L _ _ H1) as [ox oy].
    destruct (ol_neg _ _ L _ _ _ ox H2) as [h|h]; auto. rewrite (ol_le _ _ L), h in H1 by auto. discriminate.
  Qed.
End Laws.
