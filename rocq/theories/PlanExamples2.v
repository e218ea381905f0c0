(** Instances of the combined planner results. *)
From Coq Require Import Reals Lra Lia ZArith Bool List.
From Verif Require Import Prelude Num NumX PlanModel PlanModel2 PlanSpec PlanProofs3 PlanProofs8 PlanProofs9 PlanMain PlanExamples.
Import ListNotations.
Open Scope R_scope.

Lemma one_eps : / 10 ^ 12 <= 1.
Proof. assert (H : 1 <= 10 ^ 12) by (apply pow_R1_Rle; lra). rewrite <- Rinv_1. apply Rinv_le_contravar; [lra|exact H]. Qed.
Definition rc (x : R) : nat -> R := fun _ => x.
(** Two components, of which the first does not move. *)
Definition two : nat -> R := fun i => match i with O => 0 | _ => 10 end.
Definition easy_acc : pa Xnum := pa_new Xnum 2 (xv (rc 2)) (xv (rc 1)) (xv (rc 1)) (Fin 1)
  (pa_coefs Xnum (Fin 1) (Fin 1) (Fin 1) (xv (rc 0)) (xv (rc 0)) (xv (rc 0))) 0 (Fin 0).
Lemma easy_acc_ends : exists s' n, pa_move Xnum xsqrt easy_acc (xv (rc 0)) (xv two) = (s', true) /\
  dy_fin (pa_dy (Nat.iter (S n) (pa_run Xnum) s')) = true /\
  dy_last (pa_dy (Nat.iter (S n) (pa_run Xnum) s')) 1%nat = (Fin 10, Fin 0, Fin 0).
Proof.
  destruct (acc_reach easy_acc 1 (rc 2) (rc 1) (rc 1) (rc 0) two (fun _ => (0, 0, 0))) as (s' & n & E & _ & F & H);
    try reflexivity.
  - cbn; lia.
  - exact one_eps.
  - intros i _. unfold rc. repeat split; lra.
  - exists 1%nat. split; [cbn; lia|]. unfold rc, two. lra.
  - exists s', n. split; [exact E|]. split; [apply F; lia|]. apply (H 1%nat ltac:(cbn; lia)). lia.
Qed.
Definition easy_jerk : pj Xnum := pj_new Xnum 2 (xv (rc 1)) (xv (rc 1)) (Fin 1)
  (pj_coefs Xnum (Fin 1) (Fin 1) (xv (rc 0)) (xv (rc 0)) (xv (rc 0))) 0 (Fin 0).
Lemma easy_jerk_ends : exists s' n, pj_move Xnum xsqrt xcbrt easy_jerk (xv (rc 0)) (xv two) = (s', true) /\
  dy_fin (pj_dy (Nat.iter (S n) (pj_run Xnum) s')) = true /\
  fst (dy_last (pj_dy (Nat.iter (S n) (pj_run Xnum) s')) 1%nat) = (Fin 10, Fin 0, Fin 0).
Proof.
  destruct (jerk_reach easy_jerk 1 (rc 1) (rc 1) (rc 0) two (fun _ => (0, 0, 0, 0))) as (s' & n & E & _ & F & H);
    try reflexivity.
  - cbn; lia.
  - exact one_eps.
  - intros i _. unfold rc. repeat split; lra.
  - exists 1%nat. split; [cbn; lia|]. split; [unfold rc, two; lra|]. intros [|i'] _ Hne; unfold rc, two in *; [lra|].
    replace (10 - 0) with 10 by ring. rewrite Rabs_pos_eq by lra. lra.
  - exists s', n. split; [exact E|]. split; [apply F; lia|].
    destruct (H 1%nat ltac:(cbn; lia)) as (p & v & a & j & _ & _ & _ & O & _ & T & _).
    rewrite O by lia. cbn [fst]. destruct (T (S n) ltac:(lia)) as (-> & -> & ->). reflexivity.
Qed.

Definition cr (t j a v p : R) : row Rnum := @Build_row Rnum t j a v p.
Definition filer : list (row Rnum) := [cr 1 6 0 0 0; cr 2 0 6 3 1; cr 0 0 6 15 19].
Definition cur : cubic Rnum := cu_run Rnum (cu_init Rnum (cu_new Rnum 1 5 5) filer).
Lemma cur_idle : idle 1 cur /\ cu_raw cur = filer.
Proof. apply (idle_run (cu_init Rnum (cu_new Rnum 1 5 5) filer) eq_refl). Qed.
Lemma filer_ok : path_from_rest filer.
Proof.
  split; [reflexivity|]. intros i Hi. unfold filer, at_row, begun, integrate. destruct i as [|[|i]]; [| |cbn in Hi; lia]; cbn [nth cr r_t r_j r_a r_v r_p];
    repeat match goal with |- (_, _) = (_, _) => f_equal end; change (nT Rnum) with R; field.
Qed.
(** Twice as long and ten times as far. *)
Lemma cubic_far : exists s' n, cu_move Rnum cur 6 3 190 = Ok (s', true) /\
  cu_fin (Nat.iter n (cu_run Rnum) s') = true /\
  exists o, cu_out (Nat.iter n (cu_run Rnum) s') = Some o /\ o_p o = 3 + 190.
Proof.
  destruct cur_idle as [I RW]. pose proof (cubic_target cur 1 6 3 190 [2; 4; 0]%nat) as C. cbv zeta in C. rewrite RW in C.
  cbn [length filer map rsum fold_right r_t cr Nat.sub] in C.
  apply C; clear C; try lra; try assumption; try reflexivity; try discriminate.
  - exact filer_ok.
  - unfold at_row, filer, cr. cbn. lra.
  - intros i Hi. destruct i as [|[|[|i]]]; [| | |lia]; unfold at_row, filer, cr; cbn [nth r_t INR]; change (nT Rnum) with R; field.
  - intros i Hi. destruct i as [|[|i]]; cbn; lia.
Qed.
Lemma cubic_plain : exists s', cu_move_raw Rnum cur 3 = Ok (s', true) /\ cu_fin (Nat.iter 5 (cu_run Rnum) s') = true.
Proof.
  destruct cur_idle as [I RW]. pose proof (cubic_raw cur 1 3 [1; 2; 0]%nat) as C. cbv zeta in C. rewrite RW in C.
  destruct C as (s' & E & _ & F & _); try lra; try assumption; try reflexivity; try discriminate.
  - intros i Hi. cbn [length filer] in Hi. destruct i as [|[|[|i]]]; [| | |lia]; unfold at_row, filer, cr; cbn [nth r_t INR]; change (nT Rnum) with R; ring.
  - intros i Hi. cbn [length filer] in Hi. destruct i as [|[|i]]; cbn; lia.
  - exact filer_ok.
  - exists s'. split; [exact E|exact F].
Qed.

(** ** The cubic planner at rest *)
Lemma cubic_idle (N : num) (s : cubic N) : cu_fin s = true -> cu_fin (cu_run N s) = true /\ cu_prev (cu_run N s) = cu_prev s /\ cu_out (cu_run N s) = Some (cu_prev s).
Proof. intros H. unfold cu_run. rewrite H. cbn [negb andb]. now split. Qed.
Lemma cubic_holds (N : num) (s : cubic N) (o : cout N) k : cu_fin s = true -> cu_prev s = o ->
  cu_fin (Nat.iter (S k) (cu_run N) s) = true /\ cu_out (Nat.iter (S k) (cu_run N) s) = Some o.
Proof.
  intros H <-.
  assert (G : forall j, cu_fin (Nat.iter j (cu_run N) s) = true /\ cu_prev (Nat.iter j (cu_run N) s) = cu_prev s).
  { induction j as [|j [IH1 IH2]]; [now split|]. destruct (cubic_idle N _ IH1) as (A & B & _). split; [exact A|]. exact (eq_trans B IH2). }
  destruct (G k) as [G1 G2]. destruct (cubic_idle N _ G1) as (A & _ & C). split; [exact A|]. rewrite <- G2. exact C.
Qed.
Lemma cubic_prev (N : num) (s : cubic N) : cu_out s = Some (cu_prev s) -> cu_out (cu_run N s) = Some (cu_prev (cu_run N s)).
Proof.
  intros H. unfold cu_run. destruct (negb (cu_fin s) && Nat.ltb 0 (length (cu_seg s)) && Nat.ltb (cu_idx s) (length (cu_seg s))); [|reflexivity].
  destruct (nleb N _ _); [reflexivity|]. destruct (cu_first s); [reflexivity|]. destruct (Nat.eqb _ _); [exact H|reflexivity].
Qed.
