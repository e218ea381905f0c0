(** PathPlannerCubic: scaled paths. *)
From Coq Require Import Reals Lra Lia ZArith FunctionalExtensionality Bool List.
From Flocq Require Import Core.Raux.
From Verif Require Import Prelude Num PlanModel PlanModel2 PlanSpec PlanProofs PlanProofs7 PlanProofs8.
Import ListNotations.
Open Scope R_scope.

Definition rsum (l : list R) : R := fold_right Rplus 0 l.
Lemma nsum_R (l : list R) : nsum Rnum l = rsum l.
Proof.
  unfold nsum. assert (G : forall a, fold_left (nadd Rnum) l a = a + rsum l).
  { change (nT Rnum) with R. induction l as [|x l IH]; intros a; cbn [fold_left rsum fold_right]; [symmetry; apply Rplus_0_r|].
    rewrite IH. apply Rplus_assoc. }
  rewrite G. apply Rplus_0_l.
Qed.

(** The planner is idle and has been so for a cycle. *)
Definition idle (dt : R) (s : cubic Rnum) : Prop :=
  cu_dt s = dt /\ cu_fin s = true /\ cu_t s = dt /\ cu_int s = - dt /\ cu_idx s = 0%nat /\ cu_first s = true.
Lemma idle_run (s : cubic Rnum) : cu_fin s = true -> idle (@cu_dt Rnum s) (cu_run Rnum s) /\ cu_raw (cu_run Rnum s) = cu_raw s.
Proof.
  intros H. unfold cu_run. rewrite H. cbn [negb andb]. unfold idle, cu_put, nopp.
  cbn [cu_dt cu_fin cu_t cu_int cu_idx cu_first cu_raw nadd nsub nofZ Rnum]. change (nT Rnum) with R.
  repeat split; try assumption; ring.
Qed.

Lemma chain_facts ts js a v p : length ts = length js ->
  length (cu_chain Rnum ts js a v p) = length ts /\
  map (@r_j Rnum) (cu_chain Rnum ts js a v p) = js /\
  (forall i, r_t (at_row (cu_chain Rnum ts js a v p) i) = nth i ts 0) /\
  (ts <> [] -> begun (at_row (cu_chain Rnum ts js a v p) 0) = (p, v, a)) /\
  forall i, (S i < length ts)%nat ->
    begun (at_row (cu_chain Rnum ts js a v p) (S i)) =
    integrate (r_j (at_row (cu_chain Rnum ts js a v p) i)) (r_t (at_row (cu_chain Rnum ts js a v p) i)) (begun (at_row (cu_chain Rnum ts js a v p) i)).
Proof.
  revert js a v p. induction ts as [|t ts IH]; intros [|j js] a v p Hl; try discriminate.
  - cbn. repeat split; try lia; try contradiction. intros i. destruct i; reflexivity.
  - cbn [length] in Hl. injection Hl as Hl. cbn [cu_chain].
    match goal with |- context [cu_chain Rnum ts js ?x ?y ?z] => destruct (IH js x y z Hl) as (I1 & I2 & I3 & I4 & I5);
      set (a1 := x) in *; set (v1 := y) in *; set (p1 := z) in * end.
    set (C := cu_chain Rnum ts js a1 v1 p1) in *.
    split; [cbn [length]; now rewrite I1|]. split; [cbn [map r_j]; now rewrite I2|].
    split; [intros [|i]; [reflexivity|exact (I3 i)]|]. split; [reflexivity|].
    intros [|i] Hi; cbn [length] in Hi.
    + change (at_row ({| r_t := t; r_j := j; r_a := a; r_v := v; r_p := p |} :: C) 1) with (at_row C 0).
      rewrite I4 by (destruct ts; [cbn in Hi; lia|discriminate]).
      unfold at_row; cbn [nth r_j r_t]. unfold begun, integrate. cbn [r_p r_v r_a].
      unfold a1, v1, p1. cbn [nadd nmul ndiv nofZ Rnum].
      repeat match goal with |- (_, _) = (_, _) => f_equal end; change (nT Rnum) with R; field.
    + exact (I5 i ltac:(lia)).
Qed.

Section Scaled.
  Context (s : cubic Rnum) (dt time p0 dp : R) (ns : list nat).
  Notation raw := (cu_raw s).
  Hypothesis Hdt : 0 < dt.
  Hypothesis Hidle : idle dt s.
  Hypothesis Hraw : raw <> [].
  Hypothesis Hlen : length ns = length raw.
  Let tot := rsum (map (@r_t Rnum) raw).
  Hypothesis Hround : forall i, (i < length raw)%nat -> nround Rnum (r_t (at_row raw i) * (time / tot) / dt) = INR (nth i ns 0%nat).
  Hypothesis Hpos : forall i, (S i < length raw)%nat -> (0 < nth i ns 0%nat)%nat.
  Let scale := rsum (map (fun n => INR n * dt) ns) / tot.
  Let gain := dp / r_p (at_row raw (length raw - 1)).
  Let js := map (fun r : row Rnum => r_j r * gain / (scale * scale * scale)) raw.
  Let segs : list (nat * R) := combine (visit ns) js.

  Lemma times_eq : cu_times Rnum dt time raw = map (fun n => INR n * dt) ns.
  Proof.
    unfold cu_times. rewrite nsum_R. fold tot. cbn [nmul ndiv Rnum]. change (nT Rnum) with R in *.
    apply nth_ext with 0 0; [now rewrite !map_length|]. intros i Hi. rewrite map_length in Hi.
    rewrite (nth_indep (map (fun n => INR n * dt) ns) 0 (INR 0 * dt)) by (rewrite map_length; lia).
    rewrite (map_nth (fun n => INR n * dt) ns 0%nat i).
    set (f := fun r : row Rnum => nround Rnum (r_t r * (time / tot) / dt) * dt).
    rewrite (nth_indep (map f raw) 0 (f (nul Rnum))) by (rewrite map_length; lia).
    rewrite (map_nth f raw (nul Rnum) i). unfold f. change (nth i raw (nul Rnum)) with (at_row raw i).
    rewrite (Hround i Hi). reflexivity.
  Qed.

  Lemma jerks_eq : cu_jerks Rnum dt time dp raw = js.
  Proof. unfold cu_jerks. rewrite times_eq, !nsum_R. reflexivity. Qed.

  Let rows := map (shift Rnum p0) (cu_scaled Rnum dt time dp raw).
  Let base := cu_scaled Rnum dt time dp raw.
  Lemma base_eq : base = cu_chain Rnum (map (fun n => INR n * dt) ns) js 0 0 0.
  Proof. unfold base, cu_scaled. now rewrite times_eq, jerks_eq. Qed.
  Lemma base_facts : length base = length raw /\ map (@r_j Rnum) base = js /\
    (forall i, r_t (at_row base i) = INR (nth i ns 0%nat) * dt) /\ begun (at_row base 0) = (0, 0, 0) /\
    forall i, (S i < length raw)%nat -> begun (at_row base (S i)) = integrate (r_j (at_row base i)) (r_t (at_row base i)) (begun (at_row base i)).
  Proof.
    rewrite base_eq.
    destruct (chain_facts (map (fun n => INR n * dt) ns) js 0 0 0) as (I1 & I2 & I3 & I4 & I5).
    { unfold js. rewrite !map_length. exact Hlen. }
    rewrite map_length, Hlen in I1, I5. repeat split; try assumption.
    - intros i. etransitivity; [apply I3|]. rewrite <- (map_nth (fun n => INR n * dt) ns 0%nat i). destruct (le_lt_dec (length ns) i) as [H|H].
      + rewrite !nth_overflow by (rewrite map_length; exact H). cbn. ring.
      + apply nth_indep. now rewrite map_length.
    - apply I4. intros E. apply map_eq_nil in E. rewrite E in Hlen. symmetry in Hlen. apply length_zero_iff_nil in Hlen. exact (Hraw Hlen).
  Qed.

  Lemma row_shift i : (i < length raw)%nat -> at_row rows i = shift Rnum p0 (at_row base i).
  Proof.
    intros Hi. destruct base_facts as (I1 & _). unfold at_row, rows. fold base.
    rewrite (nth_indep _ (nul Rnum) (shift Rnum p0 (nul Rnum))) by (rewrite map_length, I1; exact Hi). apply map_nth.
  Qed.
  Lemma map_rj_shift (l : list (row Rnum)) : map (@r_j Rnum) (map (shift Rnum p0) l) = map (@r_j Rnum) l.
  Proof. induction l as [|r l IH]; [reflexivity|]. cbn [map shift r_j]. now rewrite IH. Qed.
  Lemma shift_begun r : begun (shift Rnum p0 r) = let '(p, v, a) := begun r in (p + p0, v, a).
  Proof. reflexivity. Qed.
  Lemma integrate_shift j T q : integrate j T (let '(p, v, a) := q in (p + p0, v, a)) = let '(p, v, a) := integrate j T q in (p + p0, v, a).
  Proof. destruct q as [[p v] a]. unfold integrate. f_equal. f_equal. ring. Qed.

  Theorem cubic_scaled : exists s', cu_move Rnum s time p0 dp = Ok (s', true) /\
    (forall k, (k < total segs)%nat -> cu_fin (Nat.iter (S k) (cu_run Rnum) s') = false /\
      exists o, cu_out (Nat.iter (S k) (cu_run Rnum) s') = Some o /\ (o_p o, o_v o, o_a o) = sample dt segs (p0, 0, 0) k /\ o_j o = active segs k) /\
    cu_fin (Nat.iter (S (total segs)) (cu_run Rnum) s') = true /\
    cu_out (Nat.iter (S (total segs)) (cu_run Rnum) s') = cu_out (Nat.iter (total segs) (cu_run Rnum) s').
  Proof.
    destruct Hidle as (D1 & D2 & D3 & D4 & D5 & D6). destruct base_facts as (I1 & I2 & I3 & I4 & I5).
    exists (cu_begin Rnum s rows).
    split. { unfold cu_move. rewrite D2, D1. cbn [negb]. unfold rows. destruct raw; [contradiction|reflexivity]. }
    assert (L : length rows = length raw) by (unfold rows; rewrite map_length; exact I1).
    assert (J : map (@r_j Rnum) rows = js) by (unfold rows; rewrite map_rj_shift; exact I2).
    assert (R0 : begun (at_row rows 0) = (p0, 0, 0)).
    { rewrite row_shift by (destruct raw; [contradiction|cbn; lia]). rewrite shift_begun, I4. f_equal. f_equal. ring. }
    pose proof (cubic_path (cu_begin Rnum s rows) dt rows ns Hdt) as CP. rewrite J, R0, L in CP. apply CP; clear CP; try assumption; try reflexivity.
    - intros E. rewrite E in L. symmetry in L. apply length_zero_iff_nil in L. exact (Hraw L).
    - intros i Hi. rewrite row_shift by exact Hi. apply I3.
    - intros i Hi. rewrite !row_shift by lia. rewrite !shift_begun. rewrite I5 by exact Hi. rewrite integrate_shift. reflexivity.
  Qed.

  (** If rounding changes no duration and the raw path is a path from rest at 0, the path
      leads exactly over the requested distance. *)
  Hypothesis Hexact : forall i, (i < length raw)%nat -> INR (nth i ns 0%nat) * dt = r_t (at_row raw i) * (time / tot).
  Hypothesis Htot : tot <> 0. Hypothesis Htime : time <> 0. Hypothesis Hdist : r_p (at_row raw (length raw - 1)) <> 0.
  Hypothesis Hrest : begun (at_row raw 0) = (0, 0, 0).
  Hypothesis Hcont : forall i, (S i < length raw)%nat ->
    begun (at_row raw (S i)) = integrate (r_j (at_row raw i)) (r_t (at_row raw i)) (begun (at_row raw i)).

  Lemma rsum_scale (c : R) (l : list R) : rsum (map (fun x => x * c) l) = rsum l * c.
  Proof. induction l; cbn; [ring|]. unfold rsum in IHl. rewrite IHl. ring. Qed.
  Lemma ns_eq : map (fun n => INR n * dt) ns = map (fun x => x * (time / tot)) (map (@r_t Rnum) raw).
  Proof.
    apply nth_ext with (INR 0 * dt) 0; [now rewrite !map_length|]. intros i Hi. rewrite map_length in Hi. rewrite Hlen in Hi.
    rewrite (map_nth (fun n => INR n * dt) ns 0%nat i). rewrite map_map.
    set (f := fun r : row Rnum => r_t r * (time / tot)).
    rewrite (nth_indep (map f raw) 0 (f (nul Rnum))) by (rewrite map_length; lia).
    rewrite (map_nth f raw (nul Rnum) i). exact (Hexact i Hi).
  Qed.
  Lemma scale_eq : scale = time / tot.
  Proof. unfold scale. rewrite ns_eq, rsum_scale. fold tot. field. exact Htot. Qed.

  Lemma scaled_rows i : (i < length raw)%nat ->
    begun (at_row base i) = let '(p, v, a) := begun (at_row raw i) in (gain * p, gain * v / scale, gain * a / (scale * scale)).
  Proof.
    destruct base_facts as (I1 & I2 & I3 & I4 & I5).
    assert (Hs : scale <> 0). { rewrite scale_eq. unfold Rdiv. apply Rmult_integral_contrapositive_currified; [exact Htime|]. now apply Rinv_neq_0_compat. }
    induction i as [|i IH]; intros Hi.
    - rewrite I4, Hrest. repeat match goal with |- (_, _) = (_, _) => f_equal end; field; assumption.
    - rewrite I5 by exact Hi. rewrite Hcont by exact Hi. rewrite IH by lia. rewrite I3, Hexact by lia. rewrite <- scale_eq.
      assert (EJ : r_j (at_row base i) = r_j (at_row raw i) * gain / (scale * scale * scale)).
      { etransitivity; [exact (eq_sym (map_nth (@r_j Rnum) base (nul Rnum) i))|]. rewrite I2. unfold js.
        set (f := fun r : row Rnum => r_j r * gain / (scale * scale * scale)).
        rewrite (nth_indep (map f raw) _ (f (nul Rnum))) by (rewrite map_length; lia). apply (map_nth f). }
      rewrite EJ. destruct (begun (at_row raw i)) as [[p v] a]. unfold integrate.
      repeat match goal with |- (_, _) = (_, _) => f_equal end; change (nT Rnum) with R; field; assumption.
  Qed.

  Lemma scaled_target : r_p (at_row rows (length raw - 1)) = p0 + dp.
  Proof.
    assert (Hl : (length raw - 1 < length raw)%nat) by (destruct raw; [contradiction|cbn; lia]).
    rewrite row_shift by exact Hl. pose proof (scaled_rows _ Hl) as E. unfold begun in E.
    injection E as E _ _. cbn [shift r_p]. rewrite E. unfold gain. cbn [nadd Rnum]. change (nT Rnum) with R. field. exact Hdist.
  Qed.

  Theorem cubic_distance : nth (length raw - 1) ns 0%nat = 0%nat -> exists s', cu_move Rnum s time p0 dp = Ok (s', true) /\
    cu_fin (Nat.iter (S (total segs)) (cu_run Rnum) s') = true /\
    exists o, cu_out (Nat.iter (S (total segs)) (cu_run Rnum) s') = Some o /\ o_p o = p0 + dp.
  Proof.
    intros Hz. destruct cubic_scaled as (s' & E & Run & Fin & Keep). exists s'. split; [exact E|]. split; [exact Fin|].
    destruct base_facts as (I1 & I2 & I3 & I4 & I5).
    assert (L : length rows = length raw) by (unfold rows; rewrite map_length; exact I1).
    assert (J : map (@r_j Rnum) rows = js) by (unfold rows; rewrite map_rj_shift; exact I2).
    assert (R0 : begun (at_row rows 0) = (p0, 0, 0)).
    { rewrite row_shift by (destruct raw; [contradiction|cbn; lia]). rewrite shift_begun, I4. f_equal. f_equal. ring. }
    assert (Hl : (length raw - 1 < length raw)%nat) by (destruct raw; [contradiction|cbn; lia]).
    assert (Hns' : forall i, (i < length rows)%nat -> r_t (at_row rows i) = INR (nth i ns 0%nat) * dt).
    { intros i Hi. rewrite L in Hi. rewrite row_shift by exact Hi. apply I3. }
    assert (Hch : forall i, (S i < length rows)%nat -> begun (at_row rows (S i)) = integrate (r_j (at_row rows i)) (r_t (at_row rows i)) (begun (at_row rows i))).
    { intros i Hi. rewrite L in Hi. rewrite !row_shift by lia. rewrite !shift_begun. rewrite I5 by exact Hi. rewrite integrate_shift. reflexivity. }
    assert (SB := sample_begin s dt rows ns). rewrite L, J, R0 in SB. rewrite L in Hns', Hch.
    specialize (SB Hlen Hns' Hch (proj1 (proj2 (proj2 (proj2 (proj2 Hidle))))) (length raw - 1)%nat Hl).
    assert (T : total segs = S (K segs (length raw - 1))).
    { assert (SL : length segs = length raw) by (unfold segs; rewrite combine_length, visit_length; unfold js; rewrite map_length; lia).
      rewrite <- K_total, SL. replace (length raw) with (S (length raw - 1)) at 1 by lia. rewrite K_S by (rewrite SL; exact Hl).
      assert (SN : sn segs (length raw - 1) = 1%nat).
      { unfold sn, segs. rewrite combine_nth by (rewrite visit_length; unfold js; rewrite map_length; exact Hlen). cbn [fst].
        rewrite visit_nth by (rewrite Hlen; exact Hl). rewrite Hlen. replace (S (length raw - 1) =? length raw)%nat with true by (symmetry; apply Nat.eqb_eq; lia).
        rewrite Hz. reflexivity. }
      rewrite SN. lia. }
    rewrite T in Keep. rewrite T. rewrite Keep.
    destruct (Run (K segs (length raw - 1)) ltac:(rewrite T; lia)) as (_ & o & O1 & O2 & _). exists o. split; [exact O1|].
    assert (O3 := eq_trans O2 SB). clear O2. rename O3 into O2. unfold begun in O2. injection O2 as O2 _ _. rewrite O2. apply scaled_target.
  Qed.
End Scaled.

Lemma nround_INR n : nround Rnum (INR n) = INR n.
Proof.
  unfold nround, lit. cbn [ntrunc nofZ nleb nabs nsub ndiv Rnum]. rewrite INR_IZR_INZ, Ztrunc_IZR.
  rewrite Rle_bool_false; [reflexivity|]. unfold Rminus. rewrite Rplus_opp_r, Rabs_R0. lra.
Qed.

(** Requests. *)
Section Requests.
  Context (N : num) (nsqrt ncbrt : N -> N).
  Lemma pa_busy s start endp : dy_fin (pa_dy s) = false -> pa_move N nsqrt s start endp = (s, false).
  Proof. intros H. unfold pa_move. now rewrite H. Qed.
  Lemma pj_busy s start endp : dy_fin (pj_dy s) = false -> pj_move N nsqrt ncbrt s start endp = (s, false).
  Proof. intros H. unfold pj_move. now rewrite H. Qed.
  Lemma cu_busy s time p0 dp : cu_fin s = false -> cu_move N s time p0 dp = Ok (s, false) /\ cu_move_raw N s p0 = Ok (s, false).
  Proof. intros H. unfold cu_move, cu_move_raw. now rewrite H. Qed.
  Lemma vzero_all d v : (forall i, (i < d)%nat -> neqb N (v i) (nofZ N 0) = true) -> vzero N d v = true.
  Proof. intros H. apply forallb_forall. intros i Hi. apply in_seq in Hi. apply H. lia. Qed.
  Lemma pa_done s k : dy_fin (pa_dy s) = true -> dy_fin (pa_dy (Nat.iter k (pa_run N) s)) = true /\ dy_last (pa_dy (Nat.iter k (pa_run N) s)) = dy_last (pa_dy s).
  Proof.
    intros H. induction k; [now split|]. rewrite iter_S. destruct IHk as [A B]. revert A B.
    generalize (Nat.iter k (pa_run N) s). intros x A B. cbn [pa_run pa_dy]. unfold ph_run. rewrite A. cbn [dy_fin dy_last]. now split.
  Qed.
  Lemma pj_done s k : dy_fin (pj_dy s) = true -> dy_fin (pj_dy (Nat.iter k (pj_run N) s)) = true /\ dy_last (pj_dy (Nat.iter k (pj_run N) s)) = dy_last (pj_dy s).
  Proof.
    intros H. induction k; [now split|]. rewrite iter_S. destruct IHk as [A B]. revert A B.
    generalize (Nat.iter k (pj_run N) s). intros x A B. cbn [pj_run pj_dy]. unfold ph_run. rewrite A. cbn [dy_fin dy_last]. now split.
  Qed.
  Lemma pa_zero s start endp : (forall i, (i < pa_d s)%nat -> neqb N (nsub N (endp i) (start i)) (nofZ N 0) = true) ->
    exists s', pa_move N nsqrt s start endp = (s', false) /\ pa_dy s' = pa_dy s.
  Proof.
    intros H. unfold pa_move. destruct (dy_fin (pa_dy s)); cbn [negb]; [|now exists s].
    rewrite (vzero_all (pa_d s) (fun i => nsub N (endp i) (start i)) H). eexists. split; reflexivity.
  Qed.
  Lemma pj_zero s start endp : (forall i, (i < pj_d s)%nat -> neqb N (nsub N (endp i) (start i)) (nofZ N 0) = true) ->
    pj_move N nsqrt ncbrt s start endp = (s, false).
  Proof.
    intros H. unfold pj_move. destruct (dy_fin (pj_dy s)); cbn [negb]; [|reflexivity].
    now rewrite (vzero_all (pj_d s) (fun i => nsub N (endp i) (start i)) H).
  Qed.
  (** A refused request changes nothing observable. *)
  Lemma pa_refused s start endp s' : pa_move N nsqrt s start endp = (s', false) ->
    pa_dy s' = pa_dy s /\ forall k, dy_last (pa_dy (Nat.iter k (pa_run N) s')) = dy_last (pa_dy (Nat.iter k (pa_run N) s)) /\
      dy_fin (pa_dy (Nat.iter k (pa_run N) s')) = dy_fin (pa_dy (Nat.iter k (pa_run N) s)).
  Proof.
    unfold pa_move. destruct (dy_fin (pa_dy s)) eqn:F; cbn [negb]; [|intros E; injection E as <-; auto].
    destruct (vzero _ _ _); [|discriminate]. intros E. injection E as <-. split; [reflexivity|]. intros k.
    destruct (pa_done (pa_with N s (pa_set_end N (pa_pl s) endp) (pa_dy s)) k F) as [A B].
    destruct (pa_done s k F) as [A' B']. rewrite A, B, A', B'. split; reflexivity.
  Qed.
  Lemma pj_refused s start endp s' : pj_move N nsqrt ncbrt s start endp = (s', false) -> s' = s.
  Proof.
    unfold pj_move. destruct (dy_fin (pj_dy s)); cbn [negb]; [|congruence].
    destruct (vzero _ _ _); [congruence|discriminate].
  Qed.
End Requests.
