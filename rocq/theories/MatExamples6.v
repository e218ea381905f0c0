(** Concrete facts about the remaining matrix operations. *)
From Coq Require Import List Bool Lia Lra Reals Floats.SpecFloat.
From Verif Require Import Prelude Num MatModel MatProofs MatProofs4 MatModel2 MatProofs6.
Import ListNotations.
Open Scope nat_scope.

Lemma values_rd (T : num) M N (vs : list T) m n : m < M -> n < N -> rd T M N (m_values T vs) m n = Ok (nth (M * n + m) vs (nofZ T 0)).
Proof. intros. now rewrite rd_ok by assumption. Qed.
Lemma values_same (T : num) M N (a : mem T) vs : length vs = M * N -> M = 1 \/ N = 1 ->
  exists r, m_init T M N a vs = Ok r /\ forall m n, m < M -> n < N -> rd T M N r m n = rd T M N (m_values T vs) m n.
Proof.
  intros L D. destruct (init_ok T M N a vs ltac:(lia)) as (r & E & R). exists r. split; [exact E|].
  intros m n Hm Hn. rewrite !rd_ok by assumption. f_equal. rewrite R by assumption. unfold m_values.
  assert (I : m * N + n = M * n + m) by (destruct D; subst; nia). rewrite I. apply nth_indep. rewrite L. now apply cell_lt.
Qed.
Lemma values_differ : exists M N (vs : list R), length vs = M * N /\ forall a, exists r,
  m_init Rnum M N a vs = Ok r /\ rd Rnum M N r 0 1 = Ok 2%R /\ rd Rnum M N (m_values Rnum vs) 0 1 = Ok 3%R.
Proof.
  exists 2, 2, [1; 2; 3; 4]%R. split; [reflexivity|]. intros a. destruct (init_ok Rnum 2 2 a [1; 2; 3; 4]%R ltac:(cbn; lia)) as (r & E & R).
  exists r. split; [exact E|]. split; [rewrite rd_ok by lia; f_equal; exact (R 0 1 ltac:(lia) ltac:(lia))|reflexivity].
Qed.
Lemma diag_R M N v (g g' : mem Rnum) : exists r, m_diag Rnum M N v g g' = Ok r /\
  forall m n, m < M -> n < N -> r (M * n + m) = if m =? n then v else 0%R.
Proof.
  destruct (diag_ok Rnum M N v g g') as (r & E & R). exists r. split; [exact E|]. intros m n Hm Hn. rewrite R by assumption.
  destruct (m =? n); cbn; lra.
Qed.
Lemma diag_D M N (v : Dnum) (g g' : mem Dnum) :
  match v with S754_zero _ | S754_finite _ _ _ => True | _ => False end ->
  exists r, m_diag Dnum M N v g g' = Ok r /\
  forall m n, m < M -> n < N -> m <> n -> exists s, r (M * n + m) = S754_zero s.
Proof.
  intros F. destruct (diag_ok Dnum M N v g g') as (r & E & R). exists r. split; [exact E|]. intros m n Hm Hn Q. rewrite R by assumption.
  destruct (Nat.eqb_spec m n); [contradiction|]. now apply zero_times.
Qed.
Lemma diag_inf : exists v : Dnum, v <> S754_nan /\ forall g g', exists r, m_diag Dnum 2 2 v g g' = Ok r /\ r 1 = S754_nan.
Proof.
  exists (S754_infinity false). split; [discriminate|]. intros g g'. destruct (diag_ok Dnum 2 2 (S754_infinity false) g g') as (r & E & R).
  exists r. split; [exact E|]. exact (R 1 0 ltac:(lia) ltac:(lia)).
Qed.
