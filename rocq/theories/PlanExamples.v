(** Examples for the path planners. *)
From Coq Require Import Floats.SpecFloat Reals Lra Lia ZArith Bool List.
From Verif Require Import Prelude Num NumOrd NumDbl NumX PlanModel PlanModel2 PlanSpec PlanProofs PlanProofs2 PlanProofs3 PlanProofs4 PlanProofs6.
Import ListNotations.
Open Scope Z_scope.

Definition dsqrt : Dnum -> Dnum := SFsqrt dprec demax.
Definition cst (x : Dnum) : nat -> Dnum := fun _ => x.
Definition noplan : pa_plan Dnum := pa_coefs Dnum (dlit 1 1) (dlit 1 1) (dlit 1 1) (cst (dlit 0 1)) (cst (dlit 0 1)) (cst (dlit 0 1)).

Lemma iter_runN (N : num) k (s : pa N) : Nat.iter k (pa_run N) s =
  pa_with N s (pa_pl s) (Nat.iter k (ph_run N (pa_phases N (pa_d s) (pa_pl s)) (pa_dt s)) (pa_dy s)).
Proof. induction k; [now destruct s|]. rewrite !iter_S, IHk. reflexivity. Qed.

(** With one component a phase whose end is met is left. *)
Lemma run_adv {Y : Type} (p : phases Dnum Y) dt r t L : ph_dim p = 1%nat -> ((1 <=? r) && (r <=? ph_n p))%Z = true ->
  neard (nadd Dnum t dt) (ph_dur p r) = true ->
  exists L', ph_run Dnum p dt (Build_dyn false r t L) = Build_dyn false (r + 1) (dlit 0 1) L'.
Proof.
  intros Hd Hr Hn. unfold ph_run. cbn [dy_fin dy_range dy_t dy_last]. rewrite Hd. cbn [seq fold_left].
  unfold ph_elem. cbn [dy_fin dy_range dy_t dy_last]. rewrite Hr. unfold neard in Hn. rewrite Hn, Hd. cbn [Nat.eqb Nat.sub andb].
  rewrite orb_true_r. eexists. reflexivity.
Qed.

(** ** Binary64: dt = 0.1, distance 10, velocity 0.1, acceleration 1.  Phase 2 lasts
    dT2 = 999 * 0.1; repeatedly adding 0.1 misses it by more than 1e-12. *)
Definition slow : pa Dnum := pa_new Dnum 1 (cst (dlit 1 10)) (cst (dlit 1 1)) (cst (dlit 1 1)) (dlit 1 10) noplan 0 (dlit 0 1).
Definition slow' : pa Dnum := fst (pa_move Dnum dsqrt slow (cst (dlit 0 1)) (cst (dlit 10 1))).
Definition slow_plan := pa_pl slow'.
Definition slow_T2 : Dnum := S754_finite false 7029837543348634 (-46).
Definition slow_tK : Dnum := S754_finite false 7036874417766301 (-46).
Lemma slow_move : snd (pa_move Dnum dsqrt slow (cst (dlit 0 1)) (cst (dlit 10 1))) = true.
Proof. vm_compute. reflexivity. Qed.
Lemma slow_misses : misses 1000 (dlit 0 1) (dlit 1 10) slow_T2 = Some slow_tK.
Proof. vm_compute. reflexivity. Qed.
Lemma slow_dims : pa_d slow' = 1%nat /\ pa_dt slow' = dlit 1 10.
Proof. split; reflexivity. Qed.
Lemma slow_begin : exists L, pa_dy slow' = Build_dyn false 1 (dlit 0 1) L.
Proof. eexists. reflexivity. Qed.
Lemma slow_dur : pa_dT2 slow_plan = slow_T2.
Proof. vm_compute. reflexivity. Qed.
Lemma slow_one : neard (nadd Dnum (dlit 0 1) (dlit 1 10)) (pa_dT1 slow_plan) = true.
Proof. vm_compute. reflexivity. Qed.
Lemma slow_early : nltb Dnum slow_T2 (eps Dnum) = false.
Proof. vm_compute. reflexivity. Qed.
Lemma val_dt : dvalid (dlit 1 10). Proof. vm_compute. reflexivity. Qed.
Lemma val_T2 : dvalid slow_T2. Proof. vm_compute. reflexivity. Qed.
Lemma val_tK : dvalid slow_tK. Proof. vm_compute. reflexivity. Qed.
Lemma fin_e : dfin (nsub Dnum slow_tK slow_T2). Proof. vm_compute. exact I. Qed.
Lemma fin_dt : dfin (dlit 1 10). Proof. vm_compute. exact I. Qed.
Lemma pos_dt : SFleb (S754_zero false) (dlit 1 10) = true. Proof. vm_compute. reflexivity. Qed.
Lemma le_e : SFleb (eps Dnum) (nsub Dnum slow_tK slow_T2) = true. Proof. vm_compute. reflexivity. Qed.
Lemma slow_never k : dy_fin (pa_dy (Nat.iter k (pa_run Dnum) slow')) = false.
Proof.
  rewrite iter_runN. unfold pa_with. cbn [pa_dy]. destruct slow_dims as [-> ->]. destruct slow_begin as [L ->].
  fold slow_plan. destruct k; [reflexivity|]. replace (S k) with (1 + k)%nat by lia. rewrite iter_add.
  change (Nat.iter 1 ?f ?x) with (f x).
  destruct (run_adv (pa_phases Dnum 1 slow_plan) (dlit 1 10) 1 (dlit 0 1) L eq_refl eq_refl slow_one) as [L' ->].
  refine (stuck_forever (pa_phases Dnum 1 slow_plan) (dlit 1 10) slow_T2 2 eq_refl slow_dur _ val_dt fin_dt pos_dt val_T2 I slow_tK val_tK I fin_e le_e
    1000 (dlit 0 1) L' slow_misses k).
  rewrite slow_early. apply andb_false_r.
Qed.
Lemma slow_ex : exists (s s' : pa Dnum) (start endp : nat -> Dnum), pa_d s = 1%nat /\ pa_dt s = dlit 1 10 /\
  pa_vmax s 0%nat = dlit 1 10 /\ pa_acc s 0%nat = dlit 1 1 /\ pa_dec s 0%nat = dlit 1 1 /\ start 0%nat = dlit 0 1 /\ endp 0%nat = dlit 10 1 /\
  pa_move Dnum dsqrt s start endp = (s', true) /\ forall k, dy_fin (pa_dy (Nat.iter k (pa_run Dnum) s')) = false.
Proof.
  exists slow, slow', (cst (dlit 0 1)), (cst (dlit 10 1)). do 7 (split; [reflexivity|]). split; [|exact slow_never].
  unfold slow'. generalize slow_move. generalize (pa_move Dnum dsqrt slow (cst (dlit 0 1)) (cst (dlit 10 1))).
  intros [x b]. cbn [fst snd]. now intros ->.
Qed.

(** ** A locked axis: distance and velocity limit of the first component are zero. *)
Definition ax (x y : Dnum) : nat -> Dnum := fun i => match i with O => x | _ => y end.
Definition lock : pa Dnum := pa_new Dnum 2 (ax (dlit 0 1) (dlit 1 1)) (cst (dlit 1 1)) (cst (dlit 1 1)) (dlit 1 4) noplan 0 (dlit 0 1).
Definition lock' : pa Dnum := fst (pa_move Dnum dsqrt lock (cst (dlit 0 1)) (ax (dlit 0 1) (dlit 1 1))).
Lemma lock_move : snd (pa_move Dnum dsqrt lock (cst (dlit 0 1)) (ax (dlit 0 1) (dlit 1 1))) = true.
Proof. vm_compute. reflexivity. Qed.
Lemma lock_T1 : pa_dT1 (pa_pl lock') = dnan.
Proof. vm_compute. reflexivity. Qed.
Lemma near_nan t : neard t dnan = false.
Proof. unfold neard. destruct t as [| | |]; reflexivity. Qed.
Lemma lock_never k : dy_fin (pa_dy (Nat.iter k (pa_run Dnum) lock')) = false.
Proof.
  rewrite iter_runN. unfold pa_with. cbn [pa_dy]. set (p := pa_phases Dnum (pa_d lock') (pa_pl lock')).
  assert (G : exists t L, Nat.iter k (ph_run Dnum p (pa_dt lock')) (pa_dy lock') = Build_dyn false 1 t L).
  { induction k.
    - eexists. eexists. reflexivity.
    - destruct IHk as (t & L & E). rewrite iter_S, E.
      destruct (runD_miss p (pa_dt lock') dnan 1 eq_refl lock_T1 eq_refl t L (near_nan _)) as [L' ->].
      eexists. eexists. reflexivity. }
  destruct G as (t & L & ->). reflexivity.
Qed.

(** ** Without a constant velocity phase the planned position stalls for one cycle:
    dt = 1/4, distance 1, acceleration 1, so four cycles up and four cycles down. *)
Definition tri : pa Dnum := pa_new Dnum 1 (cst (dlit 10 1)) (cst (dlit 1 1)) (cst (dlit 1 1)) (dlit 1 4) noplan 0 (dlit 0 1).
Definition tri' : pa Dnum := fst (pa_move Dnum dsqrt tri (cst (dlit 0 1)) (cst (dlit 1 1))).
Lemma tri_move : snd (pa_move Dnum dsqrt tri (cst (dlit 0 1)) (cst (dlit 1 1))) = true.
Proof. vm_compute. reflexivity. Qed.
Definition tri_out (k : nat) : Dnum * Dnum := fst (dy_last (pa_dy (Nat.iter k (pa_run Dnum) tri')) 0%nat).
Lemma tri_stall : tri_out 4 = (dlit 1 2, dlit 1 1) /\ tri_out 5 = (dlit 1 2, dlit 1 1) /\ tri_out 9 = (dlit 1 1, dlit 0 1).
Proof. split; [|split]; vm_compute; reflexivity. Qed.

(** ** Constant jerk without a constant velocity phase. *)
Definition quick : pj Xnum := pj_new Xnum 1 (xv (fun _ => 10%R)) (xv (fun _ => 1%R)) (Fin 1%R)
  (pj_coefs Xnum (Fin 1) (Fin 1) (xv (fun _ => 0%R)) (xv (fun _ => 0%R)) (xv (fun _ => 0%R))) 0 (Fin 0%R).
Lemma quick_never : exists (s s' : pj Xnum), pj_d s = 1%nat /\ pj_dt s = Fin 1%R /\ pj_vmax s 0%nat = Fin 10%R /\ pj_jerk s 0%nat = Fin 1%R /\
  pj_move Xnum xsqrt xcbrt s (xv (fun _ => 0%R)) (xv (fun _ => 1%R)) = (s', true) /\
  forall k, dy_fin (pj_dy (Nat.iter k (pj_run Xnum) s')) = false.
Proof.
  exists quick.
  destruct (jerk_planner quick 1 (fun _ => 10%R) (fun _ => 1%R) (fun _ => 0%R) (fun _ => 1%R) (fun _ => (0, 0, 0, 0)%R))
    as (s' & n1 & n2 & E & _ & _ & _ & _ & Z & St & _); try reflexivity.
  - cbn [pj_d quick pj_new]. lia.
  - assert (H : (1 <= 10 ^ 12)%R) by (apply pow_R1_Rle; lra). rewrite <- Rinv_1. apply Rinv_le_contravar; [lra|exact H].
  - intros i _. split; lra.
  - exists 0%nat. split; [cbn; lia|lra].
  - exists s'. do 4 (split; [reflexivity|]). split; [exact E|]. apply St. apply Z. exists 0%nat.
    split; [cbn; lia|]. split; [lra|]. intros _ _ _.
    replace (1 - 0)%R with 1%R by ring. unfold Rdiv. rewrite Rinv_1, !Rmult_1_r. rewrite !Rabs_pos_eq by lra. lra.
Qed.

(** ** Cubic planner *)
Definition rw (t j a v p : Z) : row Dnum := Build_row (dlit t 1) (dlit j 1) (dlit a 1) (dlit v 1) (dlit p 1).
Definition file : list (row Dnum) := [rw 1 6 0 0 0; rw 2 0 6 3 1; rw 0 0 6 15 19].
Definition cu0 : cubic Dnum := cu_run Dnum (cu_init Dnum (cu_new Dnum (dlit 1 1) (dlit 0 1) (dlit 0 1)) file).
Definition cu_after (r : outcome (cubic Dnum * bool)) (k : nat) : option (bool * Dnum) :=
  match r with
  | Ok (s, true) => let s := Nat.iter k (cu_run Dnum) s in match cu_out s with Some o => Some (cu_fin s, o_p o) | None => None end
  | _ => None
  end.
(** Requested duration 3 (as in the file): ends at 19. *)
Lemma cu_good : cu_after (cu_move Dnum cu0 (dlit 3 1) (dlit 0 1) (dlit 19 1)) 5 = Some (true, dlit 19 1).
Proof. vm_compute. reflexivity. Qed.
(** Requested duration 4.5: the durations are rounded to 2 and 3, the path ends at 21.168. *)
Definition cu_bad := cu_move Dnum cu0 (dlit 9 2) (dlit 0 1) (dlit 19 1).
Lemma cu_off : match cu_after cu_bad 7 with Some (true, p) => SFltb (dlit 21 1) p && SFltb p (dlit 22 1) | _ => false end = true.
Proof. vm_compute. reflexivity. Qed.

(** Move right after reset: the planner continues in the middle of the new path. *)
Definition cu_mid : cubic Dnum :=
  match cu_move Dnum cu0 (dlit 3 1) (dlit 0 1) (dlit 19 1) with Ok (s, _) => cu_reset Dnum (Nat.iter 2 (cu_run Dnum) s) | _ => cu0 end.
Lemma cu_reset_mid : match cu_after (cu_move Dnum cu_mid (dlit 3 1) (dlit 100 1) (dlit 19 1)) 1 with
  | Some (false, p) => SFltb p (dlit 100 1) | _ => false end = true.
Proof. vm_compute. reflexivity. Qed.
(** Move before the first cycle: t is uninitialised. *)
Lemma cu_early : match cu_after (cu_move Dnum (cu_init Dnum (cu_new Dnum (dlit 1 1) (dlit (-5) 1) (dlit 0 1)) file) (dlit 3 1) (dlit 100 1) (dlit 19 1)) 1 with
  | Some (false, p) => SFltb p (dlit 100 1) | _ => false end = true.
Proof. vm_compute. reflexivity. Qed.
Definition cu_run2 : cubic Dnum :=
  match cu_move Dnum cu0 (dlit 3 1) (dlit 0 1) (dlit 19 1) with Ok (s, _) => Nat.iter 2 (cu_run Dnum) s | _ => cu0 end.
Lemma cu_run2_busy : cu_fin cu_run2 = false.
Proof. vm_compute. reflexivity. Qed.
Lemma cu_reset_run2 : match cu_after (cu_move Dnum (cu_reset Dnum cu_run2) (dlit 3 1) (dlit 100 1) (dlit 19 1)) 1 with
  | Some (false, p) => SFltb p (dlit 100 1) | _ => false end = true.
Proof. vm_compute. reflexivity. Qed.
Lemma cu_reset_ex : exists (s : cubic Dnum), cu_fin s = false /\
  match cu_after (cu_move Dnum (cu_reset Dnum s) (dlit 3 1) (dlit 100 1) (dlit 19 1)) 1 with
  | Some (false, p) => SFltb p (dlit 100 1) | _ => false end = true.
Proof. exists cu_run2. split; [exact cu_run2_busy|exact cu_reset_run2]. Qed.
Lemma tri_ex : exists (s : pa Dnum) (start endp : nat -> Dnum),
  snd (pa_move Dnum dsqrt s start endp) = true /\
  let out k := fst (dy_last (pa_dy (Nat.iter k (pa_run Dnum) (fst (pa_move Dnum dsqrt s start endp)))) 0%nat) in
  out 4%nat = (dlit 1 2, dlit 1 1) /\ out 5%nat = (dlit 1 2, dlit 1 1) /\ out 9%nat = (dlit 1 1, dlit 0 1).
Proof.
  exists tri, (cst (dlit 0 1)), (cst (dlit 1 1)). split; [exact tri_move|]. cbv zeta.
  split; [|split]; vm_compute; reflexivity.
Qed.
