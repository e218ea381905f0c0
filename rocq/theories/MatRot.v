(** Rotation matrices in exact real arithmetic. *)
From Coq Require Import Reals Lra.
From Flocq Require Import Core.
From Verif Require Import Prelude Num MatModel MatProofs.
Open Scope nat_scope.

(** The textbook rotations about the axes: rot 0 about x, rot 1 about y, rot 2 about z. *)
Definition rot (axis : nat) (al : R) (m n : nat) : R :=
  (match axis, m, n with
  | 0, 0, 0 => 1 | 0, 1, 1 => cos al | 0, 1, 2 => - sin al | 0, 2, 1 => sin al | 0, 2, 2 => cos al
  | 1, 0, 0 => cos al | 1, 0, 2 => sin al | 1, 1, 1 => 1 | 1, 2, 0 => - sin al | 1, 2, 2 => cos al
  | 2, 0, 0 => cos al | 2, 0, 1 => - sin al | 2, 1, 0 => sin al | 2, 1, 1 => cos al | 2, 2, 2 => 1
  | _, _, _ => 0
  end)%R.
Definition m_rot (axis : nat) (al : R) (g : mem Rnum) : outcome (mem Rnum) :=
  match axis with
  | 0 => m_rotx Rnum 3 3 (cos al) (sin al) g
  | 1 => m_roty Rnum 3 3 (cos al) (sin al) g
  | _ => m_rotz Rnum 3 3 (cos al) (sin al) g
  end.
(** An array holds a 3 x 3 matrix. *)
Definition holds (r : mem Rnum) (f : nat -> nat -> R) : Prop := forall m n, m < 3 -> n < 3 -> r (3 * n + m) = f m n :> R.

Ltac three m := destruct m as [|[|[|m]]]; [| | |lia].

Lemma rot_ok axis al g : axis < 3 -> exists r, m_rot axis al g = Ok r /\ holds r (rot axis al).
Proof.
  intros H. three axis; cbn [m_rot]; (eexists; split; [reflexivity|]); intros m n Hm Hn; three m; three n; cbn; try reflexivity; ring.
Qed.
Lemma rot_id axis al : axis < 3 -> forall m n, m < 3 -> n < 3 ->
  (0 + rot axis al m 0 * rot axis al n 0 + rot axis al m 1 * rot axis al n 1 + rot axis al m 2 * rot axis al n 2)%R = if m =? n then 1%R else 0%R.
Proof.
  intros Ha m n Hm Hn. pose proof (sin2_cos2 al) as S. unfold Rsqr in S.
  three axis; three m; three n; cbn [rot Nat.eqb]; lra.
Qed.
Lemma rot_orthogonal axis al (r g : mem Rnum) : axis < 3 -> holds r (rot axis al) -> m_orthogonal Rnum 3 r g = Ok true.
Proof.
  intros Ha H. unfold m_orthogonal.
  destruct (eye_ok Rnum 3 3 g) as (e & -> & He). cbn [bind]. destruct (transpose_ok Rnum 3 3 r g) as (t & -> & Ht). cbn [bind].
  destruct (mul_ok Rnum 3 3 3 r t g) as (p & -> & Hp). cbn [bind]. destruct (eq_ok Rnum 3 3 p e) as (b & -> & Hb). f_equal. apply Hb.
  intros m n Hm Hn. rewrite Hp, He by assumption. cbn [accum]. rewrite !Ht, !H by lia.
  pose proof (rot_id axis al Ha m n Hm Hn) as I. cbn [nadd nmul nofZ Rnum]. rewrite I. cbn [neqb Rnum].
  destruct (m =? n); apply Req_bool_true; reflexivity.
Qed.
Lemma rot_det axis al (r g : mem Rnum) : axis < 3 -> holds r (rot axis al) -> m_det Rnum 3 r g = Ok 1%R.
Proof.
  intros Ha H. change (m_det Rnum 3 r g) with (Ok (A := R) (
    r (3*0+0)%nat * r (3*1+1)%nat * r (3*2+2)%nat + r (3*1+0)%nat * r (3*2+1)%nat * r (3*0+2)%nat + r (3*2+0)%nat * r (3*0+1)%nat * r (3*1+2)%nat
    - r (3*2+0)%nat * r (3*1+1)%nat * r (3*0+2)%nat - r (3*0+0)%nat * r (3*2+1)%nat * r (3*1+2)%nat - r (3*1+0)%nat * r (3*0+1)%nat * r (3*2+2)%nat)%R).
  f_equal. rewrite !H by lia. pose proof (sin2_cos2 al) as S. unfold Rsqr in S. three axis; cbn [rot]; lra.
Qed.
Lemma rot_mul axis al be (r s g : mem Rnum) : axis < 3 -> holds r (rot axis al) -> holds s (rot axis be) ->
  exists p, m_mul Rnum 3 3 3 r s g = Ok p /\ holds p (rot axis (al + be)).
Proof.
  intros Ha H H'. destruct (mul_ok Rnum 3 3 3 r s g) as (p & E & Hp). exists p. split; [exact E|].
  intros m n Hm Hn. rewrite Hp by assumption. cbn [accum]. rewrite !H, !H' by lia. cbn [nadd nmul nofZ Rnum].
  pose proof (sin_plus al be) as S. pose proof (cos_plus al be) as C.
  three axis; three m; three n; cbn [rot]; rewrite ?S, ?C; ring.
Qed.
Lemma rot_inv axis al (r g : mem Rnum) : axis < 3 -> holds r (rot axis al) -> exists t, m_inv Rnum 3 r g = Ok t /\ holds t (rot axis (- al)).
Proof.
  intros Ha H. unfold m_inv. rewrite (rot_det axis al) by assumption. cbn [bind].
  replace (neqb Rnum 1%R (nofZ Rnum 0)) with false by (symmetry; apply Req_bool_false; cbn; lra).
  rewrite (rot_orthogonal axis al) by assumption. cbn [bind].
  destruct (transpose_ok Rnum 3 3 r g) as (t & E & Ht). exists t. split; [exact E|].
  intros m n Hm Hn. rewrite Ht, H by assumption. pose proof (sin_neg al) as S. pose proof (cos_neg al) as C.
  three axis; three m; three n; cbn [rot]; rewrite ?S, ?C; ring.
Qed.
Lemma rot_other M N axis c s g : ~ (M = 3 /\ N = 3) ->
  (match axis with 0 => m_rotx Rnum M N c s g | 1 => m_roty Rnum M N c s g | _ => m_rotz Rnum M N c s g end) = Fault.
Proof.
  intros H. unfold m_rotx, m_roty, m_rotz. destruct (Nat.eqb_spec M 3), (Nat.eqb_spec N 3); cbn [andb]; destruct axis as [|[|a]]; try reflexivity; tauto.
Qed.
