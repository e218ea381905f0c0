(** Proofs about PathPlannerCubic in exact arithmetic. *)
From Coq Require Import Reals Lra Lia ZArith FunctionalExtensionality Bool List.
From Flocq Require Import Core.Raux.
From Verif Require Import Prelude Num PlanModel PlanModel2 PlanSpec PlanProofs PlanProofs7.
Import ListNotations.
Open Scope R_scope.

Definition posn (o : cout Rnum) : R * R * R := (o_p o, o_v o, o_a o).
Definition begun (r : row Rnum) : R * R * R := (r_p r, r_v r, r_a r).

Lemma cu_step_integrate dt j q : posn (cu_step Rnum dt j q) = integrate j dt (posn q).
Proof. unfold posn, cu_step, integrate. cbn [o_p o_v o_a nadd nmul ndiv nofZ Rnum].
  repeat match goal with |- (_, _) = (_, _) => f_equal end; field. Qed.

Section Segs.
  Context (segs : list (nat * R)).
  Definition K (i : nat) : nat := total (firstn i segs).
  Definition sn (i : nat) : nat := fst (nth i segs (0%nat, 0)).
  Definition sj (i : nat) : R := snd (nth i segs (0%nat, 0)).
End Segs.
Lemma total_cons x l : total (x :: l) = (fst x + total l)%nat. Proof. reflexivity. Qed.
Lemma K_S segs i : (i < length segs)%nat -> K segs (S i) = (K segs i + sn segs i)%nat.
Proof.
  unfold K, sn. revert i. induction segs as [|[n j] l IH]; intros i Hi; [cbn in Hi; lia|]. destruct i as [|i].
  - cbn. lia.
  - cbn [length] in Hi. rewrite !(firstn_cons _ (n, j) l), !total_cons. cbn [nth fst]. rewrite IH by lia. lia.
Qed.
Lemma active_at segs i m : (i < length segs)%nat -> (m < sn segs i)%nat -> active segs (K segs i + m) = sj segs i.
Proof.
  unfold K, sn, sj. revert i m. induction segs as [|[n j] l IH]; intros i m Hi Hm; [cbn in Hi; lia|]. destruct i as [|i].
  - cbn [nth fst snd] in *. change (firstn 0 ((n, j) :: l)) with (@nil (nat * R)). change (total []) with 0%nat. cbn [Nat.add active]. replace (m <? n)%nat with true by (symmetry; apply Nat.ltb_lt; lia). reflexivity.
  - rewrite firstn_cons, total_cons. cbn [fst nth active length] in *.
    replace (n + total (firstn i l) + m <? n)%nat with false by (symmetry; apply Nat.ltb_ge; lia).
    replace (n + total (firstn i l) + m - n)%nat with (total (firstn i l) + m)%nat by lia. apply IH; lia || assumption.
Qed.
Lemma K_total segs : K segs (length segs) = total segs.
Proof. unfold K. now rewrite firstn_all. Qed.

Lemma visit_length ns : length (visit ns) = length ns.
Proof. induction ns as [|n [|m l] IH]; [reflexivity|reflexivity|]. cbn [visit length] in *. now rewrite IH. Qed.
Lemma visit_nth ns i : (i < length ns)%nat -> nth i (visit ns) 0%nat = if Nat.eqb (S i) (length ns) then Nat.max 1 (nth i ns 0%nat) else nth i ns 0%nat.
Proof.
  revert i. induction ns as [|n [|m l] IH]; intros i Hi; [cbn in Hi; lia| |].
  - cbn in Hi. assert (i = 0%nat) by lia. subst i. reflexivity.
  - destruct i as [|i]; [reflexivity|]. change (visit (n :: m :: l)) with (n :: visit (m :: l)). cbn [nth length] in *.
    rewrite IH by lia. reflexivity.
Qed.

Section Path.
  Context (s0 : cubic Rnum) (dt : R) (rows : list (row Rnum)) (ns : list nat).
  Let segs : list (nat * R) := combine (visit ns) (map (@r_j Rnum) rows).
  Let M := length rows.
  Notation row_ := (at_row rows).
  Hypothesis Hdt : 0 < dt.
  Hypothesis HM : rows <> [].
  Hypothesis Hlen : length ns = M.
  Hypothesis Hns : forall i, (i < M)%nat -> r_t (row_ i) = INR (nth i ns 0%nat) * dt.
  Hypothesis Hpos : forall i, (S i < M)%nat -> (0 < nth i ns 0%nat)%nat.
  Hypothesis Hchain : forall i, (S i < M)%nat -> begun (row_ (S i)) = integrate (r_j (row_ i)) (r_t (row_ i)) (begun (row_ i)).
  (** The planner was idle in the last cycle and then accepted the path. *)
  Hypothesis S_dt : cu_dt s0 = dt. Hypothesis S_fin : cu_fin s0 = false. Hypothesis S_t : cu_t s0 = dt.
  Hypothesis S_int : cu_int s0 = - dt. Hypothesis S_idx : cu_idx s0 = 0%nat. Hypothesis S_first : cu_first s0 = true.
  Hypothesis S_seg : cu_seg s0 = rows.
  Notation st k := (Nat.iter k (cu_run Rnum) s0).
  Let q0 := begun (row_ 0).

  Lemma M_pos : (0 < M)%nat. Proof. unfold M. destruct rows; [contradiction|cbn; lia]. Qed.
  Lemma segs_len : length segs = M.
  Proof. unfold segs. rewrite combine_length, visit_length, map_length, Hlen. fold M. lia. Qed.
  Lemma segs_nth i : (i < M)%nat -> nth i segs (0%nat, 0) = (nth i (visit ns) 0%nat, r_j (row_ i)).
  Proof.
    intros Hi. unfold segs. rewrite combine_nth by (rewrite visit_length, map_length; exact Hlen).
    apply (f_equal (pair (nth i (visit ns) 0%nat))). unfold at_row. exact (map_nth (@r_j Rnum) rows (nul Rnum) i).
  Qed.
  Lemma sn_val i : (i < M)%nat -> sn segs i = if Nat.eqb (S i) M then Nat.max 1 (nth i ns 0%nat) else nth i ns 0%nat.
  Proof. intros Hi. unfold sn. rewrite segs_nth by exact Hi. cbn [fst]. rewrite visit_nth by (rewrite Hlen; exact Hi). now rewrite Hlen. Qed.
  Lemma sj_val i : (i < M)%nat -> sj segs i = r_j (row_ i).
  Proof. intros Hi. unfold sj. now rewrite segs_nth by exact Hi. Qed.
  Lemma sn_pos i : (i < M)%nat -> (0 < sn segs i)%nat.
  Proof. intros Hi. rewrite sn_val by exact Hi. destruct (Nat.eqb_spec (S i) M); [lia|]. apply Hpos. lia. Qed.

  (** State after k+1 cycles. *)
  Definition inv (k : nat) (s : cubic Rnum) : Prop :=
    exists i m, (i < M)%nat /\ (m < sn segs i)%nat /\ k = (K segs i + m)%nat /\
      cu_dt s = dt /\ cu_fin s = false /\ cu_t s = INR (k + 2) * dt /\ cu_int s = INR (K segs i + nth i ns 0%nat) * dt /\
      cu_idx s = i /\ cu_first s = false /\ cu_seg s = rows /\
      posn (cu_prev s) = sample dt segs q0 k /\ o_j (cu_prev s) = active segs k /\ cu_out s = Some (cu_prev s).

  Lemma sample_row i m : (i < M)%nat -> (m <= sn segs i)%nat ->
    sample dt segs q0 (K segs i) = begun (row_ i) ->
    sample dt segs q0 (K segs i + m) = integrate (r_j (row_ i)) (INR m * dt) (begun (row_ i)).
  Proof.
    intros Hi Hm E. induction m as [|m IH].
    - rewrite Nat.add_0_r, E. change (INR 0) with 0. rewrite (Rmult_0_l dt). now rewrite integrate_0.
    - replace (K segs i + S m)%nat with (S (K segs i + m)) by lia. cbn [sample]. rewrite IH by lia.
      rewrite active_at by (rewrite ?segs_len; lia). rewrite sj_val by exact Hi. rewrite <- integrate_split. f_equal.
      rewrite S_INR. ring.
  Qed.
  Lemma sample_begin i : (i < M)%nat -> sample dt segs q0 (K segs i) = begun (row_ i).
  Proof.
    induction i as [|i IH]; intros Hi; [reflexivity|]. rewrite K_S by (rewrite segs_len; lia).
    rewrite sample_row; [|lia|lia|apply IH; lia]. rewrite Hchain by exact Hi. f_equal. rewrite Hns by lia.
    f_equal. f_equal. rewrite sn_val by lia. destruct (Nat.eqb_spec (S i) M); [lia|reflexivity].
  Qed.

  Lemma inv_0 : inv 0 (st 1).
  Proof.
    pose proof M_pos as HM0. cbn [Nat.iter nat_rect]. exists 0%nat, 0%nat.
    assert (E : cu_run Rnum s0 = cu_put Rnum s0 (r_t (row_ 0)) 0 false (cu_t s0) (cu_load (row_ 0))).
    { unfold cu_run. rewrite S_fin, S_seg, S_idx, S_first, S_t, S_int, S_dt. cbn [negb andb].
      fold M. replace (0 <? M)%nat with true by (symmetry; apply Nat.ltb_lt; exact HM0). cbn [andb].
      cbn [nleb nadd ndiv nofZ Rnum]. rewrite Rle_bool_false by lra. reflexivity. }
    rewrite E. unfold cu_put. cbn [cu_dt cu_fin cu_t cu_int cu_idx cu_first cu_seg cu_prev cu_out].
    repeat split; try assumption.
    - apply sn_pos, HM0.
    - rewrite S_t, S_dt. cbn. ring.
    - rewrite Hns by exact HM0. reflexivity.
    - cbn [o_j cu_load]. rewrite <- (sj_val 0 HM0). symmetry. apply (active_at segs 0 0); [rewrite segs_len; exact HM0|apply sn_pos, HM0].
  Qed.

  Lemma inv_S k s : inv k s -> (S k < total segs)%nat -> inv (S k) (cu_run Rnum s).
  Proof.
    intros (i & m & Hi & Hm & Ek & Edt & Ef & Et & Ei & Ex & E1 & Es & Eq & Ej & Eo) Hk.
    assert (TI : forall a b, (a <= b)%nat -> INR a * dt <= INR b * dt + dt / 2).
    { intros a b Hab. apply le_INR in Hab. assert (INR a * dt <= INR b * dt) by (apply Rmult_le_compat_r; lra). lra. }
    assert (TF : forall a b, (b < a)%nat -> INR b * dt + dt / 2 < INR a * dt).
    { intros a b Hab. assert (Hab' : (S b <= a)%nat) by lia. apply le_INR in Hab'. rewrite S_INR in Hab'.
      assert ((INR b + 1) * dt <= INR a * dt) by (apply Rmult_le_compat_r; lra). lra. }
    destruct (le_lt_dec (sn segs i) (S m)) as [Hlast|Hin].
    - (* next row *)
      assert (Em : S m = sn segs i) by lia.
      assert (HSi : (S i < M)%nat).
      { destruct (le_lt_dec M (S i)); [|assumption]. exfalso. assert (S i = length segs) by (rewrite segs_len; lia).
        rewrite <- K_total, <- H, K_S in Hk by (rewrite segs_len; lia). lia. }
      assert (En : sn segs i = nth i ns 0%nat) by (rewrite sn_val by exact Hi; destruct (Nat.eqb_spec (S i) M); [lia|reflexivity]).
      assert (EK : S k = K segs (S i)) by (rewrite K_S by (rewrite segs_len; lia); lia).
      assert (E : cu_run Rnum s = cu_put Rnum s (cu_int s + r_t (row_ (S i))) (S i) false (cu_t s) (cu_load (row_ (S i)))).
      { unfold cu_run. rewrite Ef, Es, Ex, E1, Et, Ei, Edt. cbn [negb andb]. fold M.
        replace (0 <? M)%nat with true by (symmetry; apply Nat.ltb_lt; lia).
        replace (i <? M)%nat with true by (symmetry; apply Nat.ltb_lt; lia). cbn [andb].
        cbn [nleb nadd ndiv nofZ Rnum]. rewrite Rle_bool_false by (apply TF; lia).
        replace (S i =? M)%nat with false by (symmetry; apply Nat.eqb_neq; lia). reflexivity. }
      rewrite E. exists (S i), 0%nat. unfold cu_put. cbn [cu_dt cu_fin cu_t cu_int cu_idx cu_first cu_seg cu_prev cu_out].
      repeat split; try assumption.
      + apply sn_pos, HSi.
      + lia.
      + rewrite Et, Edt. replace (S k + 2)%nat with (S (k + 2)) by lia. rewrite S_INR. change (INR (k + 2) * dt + dt = (INR (k + 2) + 1) * dt). ring.
      + rewrite Ei, Hns by exact HSi. rewrite (K_S segs i) by (rewrite segs_len; lia). rewrite !plus_INR, En. change (nT Rnum) with R. ring.
      + rewrite EK. symmetry. apply sample_begin, HSi.
      + cbn [o_j cu_load]. rewrite EK, <- (sj_val (S i) HSi), <- (Nat.add_0_r (K segs (S i))). symmetry.
        apply active_at; [rewrite segs_len; exact HSi|apply sn_pos, HSi].
    - (* inside the row *)
      assert (En : (S m < nth i ns 0%nat)%nat).
      { rewrite sn_val in Hin by exact Hi. destruct (S i =? M)%nat; lia. }
      assert (E : cu_run Rnum s = cu_put Rnum s (cu_int s) i false (cu_t s) (cu_step Rnum dt (r_j (row_ i)) (cu_prev s))).
      { unfold cu_run. rewrite Ef, Es, Ex, E1, Et, Ei, Edt. cbn [negb andb]. fold M.
        replace (0 <? M)%nat with true by (symmetry; apply Nat.ltb_lt; lia).
        replace (i <? M)%nat with true by (symmetry; apply Nat.ltb_lt; lia). cbn [andb].
        cbn [nleb nadd ndiv nofZ Rnum]. rewrite Rle_bool_true by (apply TI; lia). reflexivity. }
      rewrite E. exists i, (S m). unfold cu_put. cbn [cu_dt cu_fin cu_t cu_int cu_idx cu_first cu_seg cu_prev cu_out].
      repeat split; try assumption.
      + lia.
      + rewrite Et, Edt. replace (S k + 2)%nat with (S (k + 2)) by lia. rewrite S_INR. change (INR (k + 2) * dt + dt = (INR (k + 2) + 1) * dt). ring.
      + rewrite cu_step_integrate, Eq. cbn [sample]. rewrite Ek. rewrite active_at by (rewrite ?segs_len; lia). now rewrite sj_val by exact Hi.
      + cbn [cu_step o_j]. rewrite Ek. replace (S (K segs i + m)) with (K segs i + S m)%nat by lia.
        rewrite active_at by (rewrite ?segs_len; lia). now rewrite sj_val by exact Hi.
  Qed.

  Lemma inv_all k : (k < total segs)%nat -> inv k (st (S k)).
  Proof.
    induction k as [|k IH]; intros Hk; [apply inv_0|]. rewrite iter_S. apply inv_S; [apply IH; lia|exact Hk].
  Qed.

  Lemma total_pos : (0 < total segs)%nat.
  Proof.
    pose proof M_pos. rewrite <- K_total, segs_len. assert (E : M = S (M - 1)) by lia. rewrite E.
    rewrite K_S by (rewrite segs_len; lia). pose proof (sn_pos (M - 1) ltac:(lia)). lia.
  Qed.

  (** The cycle after the last sample ends the motion without changing the outputs. *)
  Lemma path_end : let s := st (S (total segs)) in
    cu_fin s = true /\ cu_out s = cu_out (st (total segs)) /\ cu_prev s = cu_prev (st (total segs)).
  Proof.
    pose proof total_pos as HT. destruct (total segs) as [|k] eqn:ET; [lia|]. cbn zeta. rewrite (iter_S (S k)).
    destruct (inv_all k ltac:(lia)) as (i & m & Hi & Hm & Ek & Edt & Ef & Et & Ei & Ex & E1 & Es & Eq & Ej & Eo).
    assert (SI : S i = M).
    { destruct (Nat.eq_dec (S i) M) as [|Hne]; [assumption|exfalso].
      assert (G : forall a, (a <= M)%nat -> forall b, (b <= a)%nat -> (K segs b <= K segs a)%nat).
      { induction a; intros Ha b Hb; [replace b with 0%nat by lia; lia|].
        destruct (Nat.eq_dec b (S a)) as [->|]; [lia|]. rewrite K_S by (rewrite segs_len; lia). specialize (IHa ltac:(lia) b ltac:(lia)). lia. }
      pose proof (G M ltac:(lia) (S (S i)) ltac:(lia)) as H. 
      assert (KM : K segs M = S k) by (rewrite <- ET, <- segs_len; apply K_total). rewrite KM in H.
      rewrite !K_S in H by (rewrite segs_len; lia). pose proof (sn_pos (S i) ltac:(lia)). lia. }
    assert (Hm' : S m = sn segs i).
    { assert (H : K segs (S i) = S k) by (rewrite SI, <- ET, <- segs_len; apply K_total).
      rewrite K_S in H by (rewrite segs_len; lia). lia. }
    set (s := Nat.iter (S k) (cu_run Rnum) s0) in *. clearbody s. unfold cu_run. rewrite Ef, Es, Ex, E1, Et, Ei, Edt. cbn [negb andb]. fold M.
    replace (0 <? M)%nat with true by (symmetry; apply Nat.ltb_lt; lia).
    replace (i <? M)%nat with true by (symmetry; apply Nat.ltb_lt; lia). cbn [andb].
    cbn [nleb nadd ndiv nofZ Rnum]. rewrite Rle_bool_false.
    - replace (S i =? M)%nat with true by (symmetry; apply Nat.eqb_eq; exact SI). now cbn.
    - assert (H : (S (K segs i + nth i ns 0%nat) <= k + 2)%nat).
      { rewrite sn_val in Hm' by exact Hi. destruct (S i =? M)%nat; lia. }
      apply le_INR in H. rewrite S_INR in H.
      assert ((INR (K segs i + nth i ns 0%nat) + 1) * dt <= INR (k + 2) * dt) by (apply Rmult_le_compat_r; lra). lra.
  Qed.

  Theorem cubic_path :
    (forall k, (k < total segs)%nat -> cu_fin (st (S k)) = false /\
      exists o, cu_out (st (S k)) = Some o /\ posn o = sample dt segs q0 k /\ o_j o = active segs k) /\
    cu_fin (st (S (total segs))) = true /\ cu_out (st (S (total segs))) = cu_out (st (total segs)).
  Proof.
    split.
    - intros k Hk. destruct (inv_all k Hk) as (i & m & Hi & Hm & Ek & Edt & Ef & Et & Ei & Ex & E1 & Es & Eq & Ej & Eo).
      split; [exact Ef|]. exists (cu_prev (st (S k))). repeat split; assumption.
    - destruct path_end as (H1 & H2 & _). now split.
  Qed.
End Path.
