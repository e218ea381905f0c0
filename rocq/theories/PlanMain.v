(** Combined results about the planners. *)
From Coq Require Import Reals Lra Lia ZArith Bool List.
From Flocq Require Import Core.Raux.
From Verif Require Import Prelude Num NumX PlanModel PlanModel2 PlanSpec PlanProofs PlanProofs2 PlanProofs3 PlanProofs4 PlanProofs6 PlanProofs7 PlanProofs8 PlanProofs9.
Import ListNotations.
Open Scope R_scope.

Section Acc.
  Context (s : pa Xnum) (dt : R) (vmax acc dec start endp : nat -> R) (L : nat -> R * R * R).
  Hypothesis Hfin : dy_fin (pa_dy s) = true.
  Hypothesis Hd : (0 < pa_d s)%nat.
  Hypothesis Hdt : pa_dt s = Fin dt. Hypothesis Hdt1 : / 10 ^ 12 <= dt.
  Hypothesis Hvm : pa_vmax s = xv vmax. Hypothesis Hac : pa_acc s = xv acc. Hypothesis Hde : pa_dec s = xv dec.
  Hypothesis Hl : dy_last (pa_dy s) = fun i => o3 (L i).
  Hypothesis Hnz : forall i, (i < pa_d s)%nat -> vmax i <> 0 /\ acc i <> 0 /\ dec i <> 0.
  Hypothesis Hmv : exists i, (i < pa_d s)%nat /\ start i <> endp i.
  Lemma dt_pos : 0 < dt.
  Proof. pose proof eps_pos. rewrite eps_R in *. lra. Qed.

  Lemma acc_reach : exists s' n, pa_move Xnum xsqrt s (xv start) (xv endp) = (s', true) /\
    let at_ k := pa_dy (Nat.iter k (pa_run Xnum) s') in
    (forall k, (k <= n)%nat -> dy_fin (at_ k) = false) /\ (forall k, (n < k)%nat -> dy_fin (at_ k) = true) /\
    forall i, (i < pa_d s)%nat ->
      fst (dy_last (at_ n) i) = (Fin (endp i), Fin 0) /\
      (forall k, (n < k)%nat -> dy_last (at_ k) i = (Fin (endp i), Fin 0, Fin 0)) /\
      forall k, (0 < k)%nat -> exists p v a, dy_last (at_ k) i = (Fin p, Fin v, Fin a) /\
        Rmin (start i) (endp i) <= p <= Rmax (start i) (endp i) /\ Rabs v <= Rabs (vmax i) /\
        (0 < (endp i - start i) * a -> Rabs a <= Rabs (acc i)) /\ ((endp i - start i) * a <= 0 -> Rabs a <= Rabs (dec i)).
  Proof.
    destruct (acc_planner s dt vmax acc dec start endp L Hfin Hd Hdt Hdt1 Hvm Hac Hde Hl Hnz Hmv)
      as (s' & n1 & n2 & n3 & E & _ & P1 & P3 & (VP & VB) & H).
    pose proof dt_pos as Pdt. exists s', (acc_cycles n1 n2 n3). split; [exact E|]. intro at_.
    assert (N0 : (0 < acc_cycles n1 n2 n3)%nat) by (unfold acc_cycles; lia).
    assert (ED : forall i, start i + (endp i - start i) = endp i) by (intros; ring).
    split.
    { intros [|k] Hk; [unfold pa_move in E; rewrite Hfin in E; cbn [negb] in E; destruct (vzero _ _ _); [discriminate|]; injection E as <-; reflexivity|].
      destruct (H (S k) ltac:(lia)) as [F _]. unfold at_. rewrite F. apply Nat.ltb_ge. lia. }
    split. { intros k Hk. destruct (H k ltac:(lia)) as [F _]. unfold at_. rewrite F. apply Nat.ltb_lt. exact Hk. }
    intros i Hi. split; [|split].
    - destruct (H _ N0) as [_ O]. unfold at_. rewrite (O i Hi).
      pose proof (acc_cycle_reach dt start (fun i => endp i - start i) n1 n2 n3 Pdt P1 P3 i) as Q.
      destruct (acc_cycle _ _ _ _ _ _ _ _) as [[p v] a]. cbn beta iota in Q. destruct Q as [-> ->]. unfold o3. cbn [fst]. now rewrite ED.
    - intros k Hk. destruct (H k ltac:(lia)) as [_ O]. unfold at_. rewrite (O i Hi). unfold acc_cycle.
      assert (K : (n1 + n2 < k)%nat) by (unfold acc_cycles in Hk; lia).
      replace (k <=? n1)%nat with false by (symmetry; apply Nat.leb_gt; lia).
      replace (k <=? n1 + n2)%nat with false by (symmetry; apply Nat.leb_gt; lia).
      replace (k =? n1 + 1)%nat with false by (symmetry; apply Nat.eqb_neq; unfold acc_cycles in Hk; lia). rewrite andb_false_r.
      replace (k <=? acc_cycles n1 n2 n3)%nat with false by (symmetry; apply Nat.leb_gt; lia). unfold o3. now rewrite ED.
    - intros k Hk. destruct (H k Hk) as [_ O]. unfold at_. rewrite (O i Hi).
      pose proof (acc_cycle_limits dt start (fun i => endp i - start i) n1 n2 n3 Pdt P1 P3 k i Hk) as Q.
      destruct (acc_cycle _ _ _ _ _ _ _ _) as [[p v] a]. cbn beta iota in Q. destruct Q as (Q1 & Q2 & Q3 & Q4).
      destruct (VB i Hi) as (B1 & B2 & B3). exists p, v, a. rewrite ED in Q1. split; [reflexivity|]. split; [exact Q1|]. split; [lra|].
      split; intros G; [specialize (Q3 G)|specialize (Q4 G)]; lra.
  Qed.

  (** With a constant velocity phase the planned positions integrate the planned velocities. *)
  Lemma acc_integral : exists s' n1 n2 n3, pa_move Xnum xsqrt s (xv start) (xv endp) = (s', true) /\
    ((0 < n2)%nat -> forall i, (i < pa_d s)%nat -> exists p v : nat -> R, p 0%nat = start i /\ v 0%nat = 0 /\
       (forall k, (0 < k)%nat -> fst (dy_last (pa_dy (Nat.iter k (pa_run Xnum) s')) i) = (Fin (p k), Fin (v k))) /\
       forall k, (k < n1 + n2 + n3)%nat -> p (S k) - p k = (v k + v (S k)) / 2 * dt) /\
    (n2 = 0%nat -> forall i, (i < pa_d s)%nat -> start i <> endp i -> exists p v : R, v <> 0 /\
       fst (dy_last (pa_dy (Nat.iter n1 (pa_run Xnum) s')) i) = (Fin p, Fin v) /\
       fst (dy_last (pa_dy (Nat.iter (S n1) (pa_run Xnum) s')) i) = (Fin p, Fin v)).
  Proof.
    destruct (acc_planner s dt vmax acc dec start endp L Hfin Hd Hdt Hdt1 Hvm Hac Hde Hl Hnz Hmv)
      as (s' & n1 & n2 & n3 & E & _ & P1 & P3 & _ & H).
    pose proof dt_pos as Pdt. exists s', n1, n2, n3. split; [exact E|]. set (dist := fun i => endp i - start i) in *.
    assert (M : forall i k, (i < pa_d s)%nat -> (0 < k)%nat -> fst (dy_last (pa_dy (Nat.iter k (pa_run Xnum) s')) i) =
      (Fin (fst (moved dt start dist n1 n2 n3 k i)), Fin (snd (moved dt start dist n1 n2 n3 k i)))).
    { intros i k Hi Hk. destruct (H k Hk) as [_ O]. rewrite (O i Hi). unfold moved. destruct k; [lia|]. cbn [Nat.eqb].
      fold dist. destruct (acc_cycle _ _ _ _ _ _ _ _) as [[p v] a]. reflexivity. }
    split.
    - intros H2 i Hi. exists (fun k => fst (moved dt start dist n1 n2 n3 k i)), (fun k => snd (moved dt start dist n1 n2 n3 k i)).
      split; [reflexivity|]. split; [reflexivity|]. split; [intros k Hk; now apply M|].
      intros k Hk. apply (moved_step dt start dist n1 n2 n3 Pdt P1 P3 k i H2). unfold acc_cycles. rewrite Nat.max_r; lia.
    - intros H2 i Hi Hne.
      destruct (moved_stall dt start dist n1 n2 n3 Pdt P1 P3 i H2 ltac:(unfold dist; lra)) as (A & B & C).
      exists (fst (moved dt start dist n1 n2 n3 n1 i)), (snd (moved dt start dist n1 n2 n3 n1 i)).
      split; [exact C|]. split; [now apply M|]. rewrite M by (try exact Hi; lia). rewrite A, B. reflexivity.
  Qed.
End Acc.

Section Jerk.
  Context (s : pj Xnum) (dt : R) (vmax jerk start endp : nat -> R) (L : nat -> R * R * R * R).
  Hypothesis Hfin : dy_fin (pj_dy s) = true.
  Hypothesis Hd : (0 < pj_d s)%nat.
  Hypothesis Hdt : pj_dt s = Fin dt. Hypothesis Hdt1 : / 10 ^ 12 <= dt.
  Hypothesis Hvm : pj_vmax s = xv vmax. Hypothesis Hje : pj_jerk s = xv jerk.
  Hypothesis Hl : dy_last (pj_dy s) = fun i => o4 (L i).
  Hypothesis Hnz : forall i, (i < pj_d s)%nat -> vmax i <> 0 /\ jerk i <> 0.
  (** The velocity limit of some moving component is reached before the jerk limits of the
      moving components forbid it. *)
  Hypothesis Hslow : exists i, (i < pj_d s)%nat /\ start i <> endp i /\ forall i', (i' < pj_d s)%nat -> start i' <> endp i' ->
    4 * Rabs (vmax i / (endp i - start i)) ^ 3 < Rabs (jerk i' / (endp i' - start i')).

  Lemma jerk_reach : exists s' n, pj_move Xnum xsqrt xcbrt s (xv start) (xv endp) = (s', true) /\
    let at_ k := pj_dy (Nat.iter k (pj_run Xnum) s') in
    (forall k, (k <= n)%nat -> dy_fin (at_ k) = false) /\ (forall k, (n < k)%nat -> dy_fin (at_ k) = true) /\
    forall i, (i < pj_d s)%nat -> exists p v a j : nat -> R,
      p 0%nat = start i /\ v 0%nat = 0 /\ a 0%nat = 0 /\
      (forall k, (0 < k)%nat -> dy_last (at_ k) i = (Fin (p k), Fin (v k), Fin (a k), Fin (j k))) /\
      (forall k, (k < n)%nat -> (p (S k), v (S k), a (S k)) = integrate (j (S k)) dt (p k, v k, a k)) /\
      (forall k, (n <= k)%nat -> p k = endp i /\ v k = 0 /\ a k = 0) /\
      (forall k, (0 < k)%nat -> Rabs (v k) <= Rabs (vmax i) /\ Rabs (j k) <= Rabs (jerk i)).
  Proof.
    assert (Hmv : exists i, (i < pj_d s)%nat /\ start i <> endp i) by (destruct Hslow as (i & A & B & _); eauto).
    destruct (jerk_planner s dt vmax jerk start endp L Hfin Hd Hdt Hdt1 Hvm Hje Hl Hnz Hmv)
      as (s' & n1 & n2 & E & _ & P1 & (VP & VB) & Q2 & _ & _ & H).
    assert (P2 : (0 < n2)%nat).
    { apply Q2. destruct Hslow as (i & A & B & C). exists i. split; [exact A|]. split; [lra|]. intros i' A' B'.
      specialize (C i' A' ltac:(lra)). cbn [pow] in C. rewrite Rmult_1_r in C.
      eapply Rle_lt_trans; [right|exact C]. ring. }
    clear Q2. specialize (H P2). pose proof (dt_pos _ Hdt1) as Pdt.
    exists s', (4 * n1 + n2)%nat. split; [exact E|]. intro at_.
    split.
    { intros [|k] Hk; [unfold pj_move in E; rewrite Hfin in E; cbn [negb] in E; destruct (vzero _ _ _); [discriminate|]; injection E as <-; reflexivity|].
      destruct (H (S k) ltac:(lia)) as [F _]. unfold at_. rewrite F. apply Nat.ltb_ge. lia. }
    split. { intros k Hk. destruct (H k ltac:(lia)) as [F _]. unfold at_. rewrite F. apply Nat.ltb_lt. exact Hk. }
    intros i Hi. set (dist := fun i => endp i - start i) in *.
    set (m := fun k => motion dt start dist n1 n2 k i).
    exists (fun k => fst (fst (m k))), (fun k => snd (fst (m k))), (fun k => snd (m k)), (fun k => snd (jerk_cycle dt start dist n1 n2 k i)).
    split; [reflexivity|]. split; [reflexivity|]. split; [reflexivity|].
    assert (MC : forall k, (0 < k)%nat -> m k = fst (jerk_cycle dt start dist n1 n2 k i)) by (intros [|k] Hk; [lia|reflexivity]).
    assert (END : forall k, (4 * n1 + n2 <= k)%nat -> m k = (start i + dist i, 0, 0)).
    { intros k Hk. apply Nat.lt_eq_cases in Hk. destruct Hk as [Hk|<-].
      - rewrite MC by lia. unfold jerk_cycle.
        replace (k <=? n1)%nat with false by (symmetry; apply Nat.leb_gt; lia).
        replace (k <=? 2 * n1)%nat with false by (symmetry; apply Nat.leb_gt; lia).
        replace (k <=? 2 * n1 + n2)%nat with false by (symmetry; apply Nat.leb_gt; lia).
        replace (k <=? 3 * n1 + n2)%nat with false by (symmetry; apply Nat.leb_gt; lia).
        replace (k <=? 4 * n1 + n2)%nat with false by (symmetry; apply Nat.leb_gt; lia). reflexivity.
      - apply (jerk_cycle_reach dt start dist n1 n2 Pdt P1 P2 i). }
    split; [|split; [|split]].
    - intros k Hk. destruct (H k Hk) as [_ O]. unfold at_. rewrite (O i Hi). rewrite (MC k Hk). fold dist.
      destruct (jerk_cycle _ _ _ _ _ _ _) as [[[p v] a] j]. reflexivity.
    - intros k Hk. pose proof (jerk_cycle_step dt start dist n1 n2 P1 P2 k i Hk) as Q. fold (m (S k)) in Q. fold (m k) in Q.
      destruct (m (S k)) as [[p1 v1] a1]. destruct (m k) as [[p0 v0] a0]. exact Q.
    - intros k Hk. rewrite (END k Hk). cbn [fst snd]. unfold dist. split; [ring|now split].
    - intros k Hk. pose proof (jerk_cycle_limits dt start dist n1 n2 Pdt P1 P2 k i Hk) as Q. cbv zeta in Q. rewrite (MC k Hk).
      destruct (jerk_cycle _ _ _ _ _ _ _) as [[[p v] a] j]. cbn [fst snd]. destruct Q as (Q1 & _ & Q3). destruct (VB i Hi) as [B1 B2].
      fold dist in B1, B2. unfold dist in *. split; lra.
  Qed.
End Jerk.

(** A consistent path file, moved as it is or scaled without rounding. *)
Definition path_from_rest (rows : list (row Rnum)) : Prop :=
  begun (at_row rows 0) = (0, 0, 0) /\
  forall i, (S i < length rows)%nat ->
    begun (at_row rows (S i)) = integrate (r_j (at_row rows i)) (r_t (at_row rows i)) (begun (at_row rows i)).

Lemma cubic_target (s : cubic Rnum) (dt time p0 dp : R) (ns : list nat) :
  let rows := cu_raw s in let tot := rsum (map (@r_t Rnum) rows) in let last := at_row rows (length rows - 1) in
  0 < dt -> idle dt s -> rows <> [] -> path_from_rest rows -> length ns = length rows ->
  tot <> 0 -> time <> 0 -> r_p last <> 0 ->
  (forall i, (i < length rows)%nat -> r_t (at_row rows i) * (time / tot) = INR (nth i ns 0%nat) * dt) ->
  (forall i, (S i < length rows)%nat -> (0 < nth i ns 0%nat)%nat) -> nth (length rows - 1) ns 0%nat = 0%nat ->
  exists s' n, cu_move Rnum s time p0 dp = Ok (s', true) /\
    cu_fin (Nat.iter n (cu_run Rnum) s') = true /\
    exists o, cu_out (Nat.iter n (cu_run Rnum) s') = Some o /\ o_p o = p0 + dp.
Proof.
  cbv zeta. intros Hdt Hi Hne [R0 RC] Hlen Ht Htm Hp Hex Hpos Hz.
  destruct (cubic_distance s dt time p0 dp ns Hdt Hi Hne Hlen) as (s' & A & B & C); try assumption.
  - intros i Hl. rewrite Hex by exact Hl. rewrite <- (nround_INR (nth i ns 0%nat)) at 2. f_equal. field. lra.
  - intros i Hl. symmetry. now apply Hex.
  - exists s'. eexists. split; [exact A|]. split; [exact B|exact C].
Qed.

(** The raw path: rows as given in the file. *)
Lemma cubic_raw (s : cubic Rnum) (dt p0 : R) (ns : list nat) :
  let rows := cu_raw s in let segs := combine (visit ns) (map (@r_j Rnum) rows) in
  0 < dt -> idle dt s -> rows <> [] -> length ns = length rows ->
  (forall i, (i < length rows)%nat -> r_t (at_row rows i) = INR (nth i ns 0%nat) * dt) ->
  (forall i, (S i < length rows)%nat -> (0 < nth i ns 0%nat)%nat) ->
  path_from_rest rows ->
  exists s', cu_move_raw Rnum s p0 = Ok (s', true) /\
    (forall k, (k < total segs)%nat -> cu_fin (Nat.iter (S k) (cu_run Rnum) s') = false /\
      exists o, cu_out (Nat.iter (S k) (cu_run Rnum) s') = Some o /\ (o_p o, o_v o, o_a o) = sample dt segs (p0, 0, 0) k /\ o_j o = active segs k) /\
    cu_fin (Nat.iter (S (total segs)) (cu_run Rnum) s') = true /\
    cu_out (Nat.iter (S (total segs)) (cu_run Rnum) s') = cu_out (Nat.iter (total segs) (cu_run Rnum) s').
Proof.
  cbv zeta. intros Hdt (D1 & D2 & D3 & D4 & D5 & D6) Hne Hlen Hns Hpos [R0 RC].
  set (rows := map (shift Rnum p0) (cu_raw s)). exists (cu_begin Rnum s rows).
  split. { unfold cu_move_raw, rows. rewrite D2. cbn [negb]. destruct (cu_raw s); [contradiction|reflexivity]. }
  assert (L : length rows = length (cu_raw s)) by (unfold rows; apply map_length).
  assert (J : map (@r_j Rnum) rows = map (@r_j Rnum) (cu_raw s)) by (unfold rows; apply map_rj_shift).
  assert (RS : forall i, (i < length (cu_raw s))%nat -> at_row rows i = shift Rnum p0 (at_row (cu_raw s) i)).
  { intros i Hi. unfold at_row, rows. rewrite (nth_indep _ (nul Rnum) (shift Rnum p0 (nul Rnum))) by (rewrite map_length; exact Hi). apply map_nth. }
  assert (Q0 : begun (at_row rows 0) = (p0, 0, 0)).
  { rewrite RS by (destruct (cu_raw s); [contradiction|cbn; lia]). rewrite shift_begun, R0. f_equal. f_equal. ring. }
  pose proof (cubic_path (cu_begin Rnum s rows) dt rows ns Hdt) as CP. rewrite J, Q0, L in CP. apply CP; clear CP; try assumption; try reflexivity.
  - intros E. rewrite E in L. symmetry in L. apply length_zero_iff_nil in L. exact (Hne L).
  - intros i Hi. rewrite RS by exact Hi. apply Hns. exact Hi.
  - intros i Hi. rewrite !RS by lia. rewrite !shift_begun. rewrite RC by exact Hi. rewrite integrate_shift. reflexivity.
Qed.

Lemma acc_ends (s : pa Xnum) (dt : R) (vmax acc dec start endp : nat -> R) (L : nat -> R * R * R) :
  dy_fin (pa_dy s) = true -> (0 < pa_d s)%nat -> pa_dt s = Fin dt -> / 10 ^ 12 <= dt ->
  pa_vmax s = xv vmax -> pa_acc s = xv acc -> pa_dec s = xv dec -> dy_last (pa_dy s) = (fun i => o3 (L i)) ->
  (forall i, (i < pa_d s)%nat -> vmax i <> 0 /\ acc i <> 0 /\ dec i <> 0) ->
  (exists i, (i < pa_d s)%nat /\ start i <> endp i) ->
  exists s' n, pa_move Xnum xsqrt s (xv start) (xv endp) = (s', true) /\
    forall k, dy_fin (pa_dy (Nat.iter k (pa_run Xnum) s')) = (n <? k)%nat.
Proof.
  intros. destruct (acc_reach s dt vmax acc dec start endp L) as (s' & n & E & A & B & _); try assumption.
  exists s', n. split; [exact E|]. intros k. destruct (Nat.ltb_spec n k); [now apply B|now apply A].
Qed.

Lemma cubic_begins (s : cubic Rnum) (time p0 dp : R) : cu_fin s = true -> 0 < cu_dt s -> cu_raw s <> [] ->
  idle (@cu_dt Rnum s) (cu_run Rnum s) /\
  exists s', cu_move Rnum (cu_run Rnum s) time p0 dp = Ok (s', true) /\
    cu_fin (cu_run Rnum s') = false /\ exists o, cu_out (cu_run Rnum s') = Some o /\ (o_p o, o_v o, o_a o) = (p0, 0, 0).
Proof.
  intros F D R0. destruct (idle_run s F) as [I E]. split; [exact I|].
  destruct I as (D1 & D2 & D3 & D4 & D5 & D6). revert D1 D2 D3 D4 D5 D6 E. generalize (cu_run Rnum s). intros x D1 D2 D3 D4 D5 D6 E.
  unfold cu_move. rewrite D2, E. cbn [negb]. set (rows := map (shift Rnum p0) (cu_scaled Rnum (cu_dt x) time dp (cu_raw s))).
  exists (cu_begin Rnum x rows). split; [destruct (cu_raw s); [contradiction|reflexivity]|].
  assert (RR : exists r rest, rows = r :: rest /\ begun r = (p0, 0, 0)).
  { unfold rows, cu_scaled, cu_times, cu_jerks. destruct (cu_raw s) as [|r0 rest0]; [contradiction|]. cbn [map cu_chain].
    eexists. eexists. split; [reflexivity|]. unfold begun, shift. cbn [r_p r_v r_a nadd nofZ Rnum]. f_equal. f_equal. apply Rplus_0_l. }
  clearbody rows. destruct RR as (r & rest & -> & Hr).
  unfold cu_run. cbn [cu_begin cu_fin cu_seg cu_idx cu_t cu_int cu_dt cu_first length].
  rewrite D1, D3, D4, D5, D6. cbn [negb Nat.ltb Nat.leb andb].
  cbn [nleb nadd ndiv nofZ Rnum]. rewrite Raux.Rle_bool_false by (change (nT Rnum) with R in *; lra).
  unfold cu_put. cbn [cu_fin cu_out at_row nth]. split; [reflexivity|]. eexists. split; [reflexivity|]. cbn [cu_load o_p o_v o_a]. exact Hr.
Qed.
