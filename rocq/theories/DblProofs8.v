(** Rounding of the statistics. *)
From Coq Require Import Floats.SpecFloat Reals Lra Lia ZArith Bool List.
From Flocq Require Import Core.
From Verif Require Import Prelude Num NumDbl NumDbl3 CtrlModel TaskModel TaskSpec TaskProofs DblSpec DblSpec2 DblProofs DblProofs2 DblProofs5 DblProofs7.
Import ListNotations.
Open Scope R_scope.

Lemma stats_closed (N : num) (b l : N) vs v : let us := vs ++ [v] in let s := stats_adds (stats_reset N b l) us in
  let A := fold_left (nadd N) us (nofZ N 0) in let B := fold_left (nadd N) (map (fun v => nmul N v v) us) (nofZ N 0) in
  let c := nofZ N (Z.of_nat (length us)) in let mean := ndiv N A c in
  smean s = mean /\ svar s = nadd N (ndiv N (nsub N B (nmul N (nmul N (nofZ N 2) mean) A)) c) (nmul N mean mean).
Proof.
  assert (G : forall vs (s : stats N), sA (stats_adds s vs) = fold_left (nadd N) vs (sA s) /\
     sB (stats_adds s vs) = fold_left (nadd N) (map (fun v => nmul N v v) vs) (sB s) /\ scount (stats_adds s vs) = (scount s + Z.of_nat (length vs))%Z).
  { clear. induction vs as [|v vs IH]; intros s; [cbn; repeat split; lia|].
    change (stats_adds s (v :: vs)) with (stats_adds (stats_add s v) vs). destruct (IH (stats_add s v)) as (A & B & C). rewrite A, B, C. cbn [length]. repeat split. cbn [stats_add scount]. lia. }
  intros us s A B c mean.
  destruct (G us (stats_reset N b l)) as (GA & GB & GC). fold s in GA, GB, GC. cbn [stats_reset sA sB scount] in GA, GB, GC. fold A in GA. fold B in GB.
  assert (E : s = stats_add (stats_adds (stats_reset N b l) vs) v) by (unfold s, us, stats_adds; rewrite fold_left_app; reflexivity).
  rewrite Z.add_0_l in GC. unfold c, mean. rewrite <- GA, <- GB. unfold c. rewrite <- GC, E. split; reflexivity.
Qed.

Lemma mul_near a b A B da db ba bb : Rabs (a - A) <= da -> Rabs (b - B) <= db -> Rabs b <= bb -> Rabs A <= ba ->
  Rabs (a * b - A * B) <= da * bb + ba * db.
Proof.
  intros H1 H2 H3 H4. replace (a * b - A * B) with ((a - A) * b + A * (b - B)) by ring.
  eapply Rle_trans; [apply Rabs_triang|]. rewrite !Rabs_mult.
  apply Rplus_le_compat; apply Rmult_le_compat; try apply Rabs_pos; assumption.
Qed.
Lemma abs_near a A d b : Rabs (a - A) <= d -> Rabs A <= b -> Rabs a <= b + d.
Proof. intros H1 H2. replace a with ((a - A) + A) by ring. eapply Rle_trans; [apply Rabs_triang|]. lra. Qed.
Lemma near_trans a b c d e : Rabs (a - b) <= d -> Rabs (b - c) <= e -> Rabs (a - c) <= d + e.
Proof. intros. replace (a - c) with ((a - b) + (b - c)) by ring. eapply Rle_trans; [apply Rabs_triang|]. lra. Qed.

Lemma total_rsum l : total l = TaskSpec.rsum l. Proof. reflexivity. Qed.
Lemma total_bound l M : Forall (fun x => Rabs x <= M) l -> Rabs (total l) <= INR (length l) * M /\ mass l <= INR (length l) * M.
Proof.
  induction 1 as [|x l Hx _ [I1 I2]]; cbn [total mass length]; [cbn; rewrite Rabs_R0; lra|]. rewrite S_INR.
  assert (Rabs (x + total l) <= Rabs x + Rabs (total l)) by apply Rabs_triang. lra.
Qed.
Lemma total_diff {A} (f g : A -> R) l d : Forall (fun x => Rabs (f x - g x) <= d) l -> Rabs (total (map f l) - total (map g l)) <= INR (length l) * d.
Proof.
  induction 1 as [|x l Hx _ IH]; cbn [map total length]; [cbn; rewrite Rminus_0_r, Rabs_R0; lra|]. rewrite S_INR.
  replace (f x + total (map f l) - (g x + total (map g l))) with ((f x - g x) + (total (map f l) - total (map g l))) by ring.
  eapply Rle_trans; [apply Rabs_triang|]. lra.
Qed.

Lemma adds_close (vs : list Dnum) M : Forall dok vs -> Forall (fun v => Rabs (dval v) <= M) vs -> 0 <= M ->
  INR (length vs) * uro <= / 4096 -> 2 * (INR (length vs) * M) <= big ->
  let A := fold_left (nadd Dnum) vs (nofZ Dnum 0) in
  dok A /\ Rabs (dval A - total (map dval vs)) <= 2 * (INR (length vs) * uro) * (INR (length vs) * M).
Proof.
  intros Kv Hv M0 Hn HB A. pose proof uro_pos as U.
  assert (EA : A = fold_left (fun (a : Dnum) (p : bool * Dnum) => if fst p : bool then nsub Dnum a (snd p) else nadd Dnum a (snd p)) (map (fun v => (false, v)) vs) (nofZ Dnum 0)).
  { unfold A. generalize (nofZ Dnum 0). clear. induction vs as [|v vs IH]; intros a; [reflexivity|]. cbn [fold_left map fst snd]. apply IH. }
  assert (ET : map (fun p => signed (fst p, dval (snd p))) (map (fun v : Dnum => (false, v)) vs) = map dval vs) by (rewrite map_map; apply map_ext; reflexivity).
  assert (Hv' : Forall (fun x => Rabs x <= M) (map dval vs)) by (apply Forall_map; exact Hv).
  destruct (total_bound _ _ Hv') as [_ HM]. rewrite map_length in HM. pose proof (mass_nonneg (map dval vs)) as M1.
  set (x := INR (length vs) * uro) in *. assert (x0 : 0 <= x) by (apply Rmult_le_pos; [apply pos_INR|lra]).
  assert (P : (1 + uro) ^ length vs <= 1 + 2 * x) by (apply pow_u; fold x; lra). pose proof (pow_u_ge1 (length vs)) as P1.
  destruct (dofZ_val 0 ltac:(lia)) as [K0 V0].
  assert (NM : 0 <= INR (length vs) * M) by (apply Rmult_le_pos; [apply pos_INR|exact M0]).
  destruct (acc_close (map (fun v => (false, v)) vs) (nofZ Dnum 0) 0 0 0) as (C1 & _ & C3); cbn [nofZ Dnum] in *; try rewrite V0; auto; try lra.
  - apply Forall_map. cbn [snd]. exact Kv.
  - rewrite Rabs_R0. cbn. lra.
  - replace (0 - 0) with 0 by ring. rewrite Rabs_R0. cbn. lra.
  - rewrite ET, map_length, Nat.add_0_l, Rplus_0_l. apply Rle_trans with (2 * (INR (length vs) * M)); [|exact HB]. apply Rmult_le_compat; [lra|exact M1|lra|exact HM].
  - rewrite ET, map_length, Nat.add_0_l, !Rplus_0_l in C3. rewrite EA. split; [exact C1|]. eapply Rle_trans; [exact C3|].
    apply Rmult_le_compat; [lra|exact M1|lra|exact HM].
Qed.

Section Stats.
  Variables (vs : list Dnum) (v : Dnum) (M : R) (b l : Dnum).
  Let us := vs ++ [v].
  Let n := INR (length us).
  Let x := n * uro.
  Hypothesis Kv : Forall dok us.
  Hypothesis Hv : Forall (fun v => Rabs (dval v) <= M) us.
  Hypothesis HM : bpow radix2 (-400) <= M <= bpow radix2 400.
  Hypothesis Hlen : (Z.of_nat (length us) <= 2 ^ 40)%Z.

  Let U := uro_pos.
  Lemma M_pos : 0 < M. Proof. pose proof (bpow_gt_0 radix2 (-400)). lra. Qed.
  Lemma n_ge1 : 1 <= n.
  Proof. unfold n, us. rewrite app_length. cbn [length]. rewrite plus_INR. pose proof (pos_INR (length vs)). cbn [INR]. lra. Qed.
  Lemma n_le : n <= bpow radix2 40.
  Proof. unfold n. rewrite INR_IZR_INZ. change (bpow radix2 40) with (IZR (2 ^ 40)). now apply IZR_le. Qed.
  Lemma x_le : x <= / 4096.
  Proof. unfold x. apply Rle_trans with (bpow radix2 40 * uro); [apply Rmult_le_compat_r; [lra|exact n_le]|]. unfold uro. rewrite <- bpow_plus. cbn. lra. Qed.
  Lemma u_le_x : uro <= x.
  Proof. unfold x. pose proof n_ge1. rewrite <- (Rmult_1_l uro) at 1. apply Rmult_le_compat_r; lra. Qed.
  Lemma MM_le : n * (M * M) * 16 <= big /\ n * M * 16 <= big /\ eta <= uro * M /\ eta <= uro * (M * M).
  Proof.
    pose proof M_pos as MP. destruct HM as [L R]. pose proof n_ge1 as N1. pose proof n_le as NL.
    assert (A1 : M * M <= bpow radix2 800) by (change (bpow radix2 800) with (bpow radix2 (400 + 400)); rewrite bpow_plus; apply Rmult_le_compat; lra).
    assert (A2 : bpow radix2 (-800) <= M * M) by (change (bpow radix2 (-800)) with (bpow radix2 (-400 + -400)); rewrite bpow_plus; apply Rmult_le_compat; try apply bpow_ge_0; lra).
    assert (B16 : 16 = bpow radix2 4) by (cbn; lra).
    assert (MMP : 0 < M * M) by (apply Rmult_lt_0_compat; lra).
    repeat split.
    - rewrite B16. apply Rle_trans with (bpow radix2 40 * bpow radix2 800 * bpow radix2 4).
      + apply Rmult_le_compat_r; [apply bpow_ge_0|]. apply Rmult_le_compat; lra.
      + rewrite <- !bpow_plus. unfold big. apply bpow_le. lia.
    - rewrite B16. apply Rle_trans with (bpow radix2 40 * bpow radix2 400 * bpow radix2 4).
      + apply Rmult_le_compat_r; [apply bpow_ge_0|]. apply Rmult_le_compat; lra.
      + rewrite <- !bpow_plus. unfold big. apply bpow_le. lia.
    - apply Rle_trans with (uro * bpow radix2 (-400)); [|apply Rmult_le_compat_l; lra]. unfold uro, eta. rewrite <- bpow_plus. apply bpow_le. lia.
    - apply Rle_trans with (uro * bpow radix2 (-800)); [|apply Rmult_le_compat_l; lra]. unfold uro, eta. rewrite <- bpow_plus. apply bpow_le. lia.
  Qed.

  Let A := fold_left (nadd Dnum) us (nofZ Dnum 0).
  Let B := fold_left (nadd Dnum) (map (fun v => nmul Dnum v v) us) (nofZ Dnum 0).
  Let c := nofZ Dnum (Z.of_nat (length us)).
  Let mean := ndiv Dnum A c.
  Let rA := TaskSpec.rsum (map dval us).
  Let rB := TaskSpec.rsum (map (fun x => x * x) (map dval us)).
  Let rm := rmean (map dval us).

  Lemma c_val : dok c /\ dval c = n.
  Proof. unfold c, n. rewrite INR_IZR_INZ. apply dofZ_val. lia. Qed.
  Lemma A_close : dok A /\ Rabs (dval A - rA) <= 2 * (x * (n * M)) /\ Rabs rA <= n * M.
  Proof.
    destruct MM_le as (_ & L & _). pose proof M_pos.
    destruct (adds_close us M Kv Hv ltac:(lra) x_le) as [K H0].
    { fold n. assert (0 <= n * M) by (apply Rmult_le_pos; [apply pos_INR|lra]). lra. }
    split; [exact K|]. split; [fold n x A in H0; rewrite total_rsum in H0; fold rA in H0; lra|].
    assert (Hv' : Forall (fun x => Rabs x <= M) (map dval us)) by (apply Forall_map; exact Hv).
    destruct (total_bound _ _ Hv') as [Q _]. rewrite map_length in Q. exact Q.
  Qed.
  Lemma sq_close v' : In v' us -> dok (nmul Dnum v' v') /\ Rabs (dval (nmul Dnum v' v') - dval v' * dval v') <= 2 * (uro * (M * M)).
  Proof.
    intros I. rewrite Forall_forall in Kv, Hv. pose proof (Kv v' I) as K. pose proof (Hv v' I) as H. destruct MM_le as (L & _ & _ & E).
    pose proof M_pos as MP. assert (S : Rabs (dval v' * dval v') <= M * M) by (rewrite Rabs_mult; apply Rmult_le_compat; try apply Rabs_pos; exact H).
    assert (0 <= M * M) by (apply Rmult_le_pos; lra). pose proof n_ge1.
    assert (M * M <= n * (M * M)) by (rewrite <- (Rmult_1_l (M * M)) at 1; apply Rmult_le_compat_r; lra).
    destruct (dmul_close v' v' K K ltac:(lra)) as [K' D]. split; [exact K'|].
    assert (uro * Rabs (dval v' * dval v') <= uro * (M * M)) by (apply Rmult_le_compat_l; lra). lra.
  Qed.
  Lemma B_close : dok B /\ Rabs (dval B - rB) <= 5 * (x * (n * (M * M))) /\ Rabs rB <= n * (M * M).
  Proof.
    destruct MM_le as (L & _ & _ & E). pose proof M_pos as MP. pose proof n_ge1 as N1. pose proof x_le as XL. pose proof u_le_x as UX.
    assert (Q0 : 0 < M * M) by (apply Rmult_lt_0_compat; lra). set (q := M * M) in *.
    assert (NQ : 0 < n * q) by (apply Rmult_lt_0_compat; lra).
    assert (UQ : uro * q <= / 4096 * q) by (apply Rmult_le_compat_r; lra).
    assert (UQ0 : 0 <= uro * q) by (apply Rmult_le_pos; lra).
    set (ws := map (fun v => nmul Dnum v v) us).
    assert (LW : length ws = length us) by apply map_length.
    destruct (adds_close ws (1.25 * q)) as [K H0]; try (rewrite ?LW; fold n; fold x); try lra.
    - apply Forall_map, Forall_forall. intros w I. apply (sq_close w I).
    - apply Forall_map, Forall_forall. intros w I. destruct (sq_close w I) as [_ D]. fold q in D.
      assert (S : Rabs (dval w * dval w) <= q). { rewrite Forall_forall in Hv. rewrite Rabs_mult. apply Rmult_le_compat; try apply Rabs_pos; apply (Hv w I). }
      pose proof (abs_near _ _ _ _ D S). lra.
    - split; [exact K|]. rewrite LW in H0. fold n x B in H0.
      assert (T : Rabs (total (map dval ws) - rB) <= n * (2 * (uro * q))).
      { unfold ws, rB. change TaskSpec.rsum with total. rewrite !map_map. apply total_diff. apply Forall_forall. intros w I. apply (sq_close w I). }
      assert (XQ : n * (2 * (uro * q)) = 2 * (x * q)) by (unfold x; ring). rewrite XQ in T.
      assert (x0 : 0 <= x) by (pose proof uro_pos; lra).
      assert (X1 : x * q <= x * (n * q)). { apply Rmult_le_compat_l; [exact x0|]. rewrite <- (Rmult_1_l q) at 1. apply Rmult_le_compat_r; lra. }
      split.
      + eapply Rle_trans; [eapply near_trans; [exact H0|exact T]|].
        replace (2 * x * (n * (1.25 * q))) with (2.5 * (x * (n * q))) by lra. assert (0 <= x * (n * q)) by (apply Rmult_le_pos; lra). lra.
      + assert (Hv' : Forall (fun x => Rabs x <= q) (map (fun x => x * x) (map dval us))).
        { apply Forall_map, Forall_map. eapply Forall_impl; [|exact Hv]. intros w Hw. cbn. rewrite Rabs_mult. apply Rmult_le_compat; try apply Rabs_pos; exact Hw. }
        destruct (total_bound _ _ Hv') as [Q _]. rewrite !map_length in Q. exact Q.
  Qed.
  Lemma rm_eq : rm = rA / n. Proof. unfold rm, rmean, rA, n. rewrite map_length. reflexivity. Qed.
  Lemma div_n a e : Rabs a <= n * e -> Rabs (a / n) <= e.
  Proof.
    intros H. pose proof n_ge1. unfold Rdiv. rewrite Rabs_mult, (Rabs_pos_eq (/ n)) by (left; apply Rinv_0_lt_compat; lra).
    replace e with (n * e * / n) by (field; lra). apply Rmult_le_compat_r; [left; apply Rinv_0_lt_compat; lra|exact H].
  Qed.
  Lemma rm_le : Rabs rm <= M.
  Proof. rewrite rm_eq. apply div_n. apply A_close. Qed.
  Lemma mean_close : dok mean /\ Rabs (dval mean - rm) <= 5 * (x * M).
  Proof.
    destruct A_close as (K & D & S). destruct c_val as [Kc Vc]. pose proof n_ge1 as N1. pose proof x_le as XL. pose proof u_le_x as UX. pose proof M_pos as MP.
    destruct MM_le as (_ & L & E & _). pose proof uro_pos as UP.
    assert (XM : x * M <= / 4096 * M) by (apply Rmult_le_compat_r; lra). assert (XM0 : 0 <= x * M) by (apply Rmult_le_pos; lra).
    assert (UM : uro * M <= x * M) by (apply Rmult_le_compat_r; lra).
    assert (D' : Rabs (dval A / n - rm) <= 2 * (x * M)).
    { rewrite rm_eq. replace (dval A / n - rA / n) with ((dval A - rA) / n) by (field; lra). apply div_n. lra. }
    pose proof (abs_near _ _ _ _ D' rm_le) as S'.
    assert (NM : M <= n * M) by (rewrite <- (Rmult_1_l M) at 1; apply Rmult_le_compat_r; lra).
    destruct (ddiv_close A c K Kc) as [Km Dm]; rewrite ?Vc; try lra. rewrite Vc in Dm. fold mean in Dm, Km.
    split; [exact Km|]. eapply Rle_trans; [eapply near_trans; [exact Dm|exact D']|].
    assert (uro * Rabs (dval A / n) <= uro * (M + 2 * (x * M))) by (apply Rmult_le_compat_l; lra).
    assert (uro * (M + 2 * (x * M)) <= uro * (1.5 * M)) by (apply Rmult_le_compat_l; lra). lra.
  Qed.

  Definition svar_expr := nadd Dnum (ndiv Dnum (nsub Dnum B (nmul Dnum (nmul Dnum (nofZ Dnum 2) mean) A)) c) (nmul Dnum mean mean).
  Lemma var_close : dok svar_expr /\ Rabs (dval svar_expr - rvariance (map dval us)) <= 64 * (x * (M * M)).
  Proof.
    destruct A_close as (KA & DA & SA). destruct B_close as (KB & DB & SB). destruct mean_close as (Km & Dm). pose proof rm_le as Sm.
    destruct c_val as [Kc Vc]. destruct MM_le as (L1 & L2 & E1 & E2).
    pose proof n_ge1 as N1. pose proof x_le as XL. pose proof u_le_x as UX. pose proof M_pos as MP. pose proof uro_pos as UP.
    assert (x0 : 0 <= x) by lra.
    assert (ne : map dval us <> []) by (unfold us; destruct vs; discriminate).
    pose proof (variance_formula (map dval us) ne) as VF. fold rA rB rm in VF. rewrite map_length in VF. fold n in VF.
    set (q := M * M) in *. assert (Q0 : 0 < q) by (apply Rmult_lt_0_compat; lra).
    assert (NM : M <= n * M) by (rewrite <- (Rmult_1_l M) at 1; apply Rmult_le_compat_r; lra).
    assert (NQ : q <= n * q) by (rewrite <- (Rmult_1_l q) at 1; apply Rmult_le_compat_r; lra).
    assert (XM : x * M <= / 4096 * M) by (apply Rmult_le_compat_r; lra). assert (XM0 : 0 <= x * M) by (apply Rmult_le_pos; lra).
    assert (XnM : x * (n * M) <= / 4096 * (n * M)) by (apply Rmult_le_compat_r; lra). assert (XnM0 : 0 <= x * (n * M)) by (apply Rmult_le_pos; lra).
    assert (XQ : x * q <= / 4096 * q) by (apply Rmult_le_compat_r; lra). assert (XQ0 : 0 <= x * q) by (apply Rmult_le_pos; lra).
    assert (XnQ : x * (n * q) <= / 4096 * (n * q)) by (apply Rmult_le_compat_r; lra). assert (XnQ0 : 0 <= x * (n * q)) by (apply Rmult_le_pos; lra).
    assert (UM : uro * M <= x * M) by (apply Rmult_le_compat_r; lra).
    assert (UQ : uro * q <= x * q) by (apply Rmult_le_compat_r; lra).
    assert (UnQ : uro * (n * q) <= x * (n * q)) by (apply Rmult_le_compat_r; lra).
    assert (UQn : uro * q <= uro * (n * q)) by (apply Rmult_le_compat_l; lra).
    assert (XQn : x * q <= x * (n * q)) by (apply Rmult_le_compat_l; lra).
    pose proof (abs_near _ _ _ _ DA SA) as BA. pose proof (abs_near _ _ _ _ Dm Sm) as Bm. pose proof (abs_near _ _ _ _ DB SB) as BB.
    (* 2 * mean *)
    destruct (dofZ_val 2 ltac:(lia)) as [K2 V2].
    assert (T1 : Rabs (2 * dval mean) <= 2.25 * M) by (rewrite Rabs_mult, (Rabs_pos_eq 2) by lra; lra).
    destruct (dmul_close (dofZ 2) mean K2 Km) as [K1 D1]; [rewrite V2; lra|]. rewrite V2 in D1.
    set (t1 := nmul Dnum (dofZ 2) mean) in *.
    assert (D1' : Rabs (dval t1 - 2 * rm) <= 14 * (x * M)).
    { assert (D0 : Rabs (2 * dval mean - 2 * rm) <= 10 * (x * M)).
      { replace (2 * dval mean - 2 * rm) with (2 * (dval mean - rm)) by ring. rewrite Rabs_mult, (Rabs_pos_eq 2) by lra. lra. }
      eapply Rle_trans; [eapply near_trans; [exact D1|exact D0]|].
      assert (uro * Rabs (2 * dval mean) <= uro * (2.25 * M)) by (apply Rmult_le_compat_l; lra). lra. }
    assert (R2 : Rabs (2 * rm) <= 2 * M) by (rewrite Rabs_mult, (Rabs_pos_eq 2) by lra; lra).
    pose proof (abs_near _ _ _ _ D1' R2) as B1.
    (* times A *)
    assert (D2 : Rabs (dval t1 * dval A - 2 * rm * rA) <= 19.75 * (x * (n * q))).
    { eapply Rle_trans; [apply (mul_near _ _ _ _ (14 * (x * M)) (2 * (x * (n * M))) (2 * M) (1.125 * (n * M))); try assumption; lra|].
      unfold q. apply Req_le. lra. }
    assert (S2 : Rabs (2 * rm * rA) <= 2 * (n * q)).
    { rewrite Rabs_mult. replace (2 * (n * q)) with (2 * M * (n * M)) by (unfold q; ring). apply Rmult_le_compat; try apply Rabs_pos; assumption. }
    pose proof (abs_near _ _ _ _ D2 S2) as B2.
    destruct (dmul_close t1 A K1 KA ltac:(lra)) as [Kt2 Dt2]. set (t2 := nmul Dnum t1 A) in *.
    assert (D3 : Rabs (dval t2 - 2 * rm * rA) <= 24 * (x * (n * q))).
    { eapply Rle_trans; [eapply near_trans; [exact Dt2|exact D2]|].
      assert (uro * Rabs (dval t1 * dval A) <= uro * (2.25 * (n * q))) by (apply Rmult_le_compat_l; lra). lra. }
    pose proof (abs_near _ _ _ _ D3 S2) as B3.
    (* B - *)
    assert (D4 : Rabs (dval B - dval t2 - (rB - 2 * rm * rA)) <= 29 * (x * (n * q))).
    { replace (dval B - dval t2 - (rB - 2 * rm * rA)) with ((dval B - rB) + - (dval t2 - 2 * rm * rA)) by ring.
      eapply Rle_trans; [apply Rabs_triang|]. rewrite Rabs_Ropp. lra. }
    assert (S4 : Rabs (rB - 2 * rm * rA) <= 3 * (n * q)).
    { unfold Rminus. eapply Rle_trans; [apply Rabs_triang|]. rewrite Rabs_Ropp. lra. }
    pose proof (abs_near _ _ _ _ D4 S4) as B4.
    destruct (dsub_val B t2 KB Kt2 ltac:(lra)) as [K3 V3]. set (t3 := nsub Dnum B t2) in *.
    assert (D5 : Rabs (dval t3 - (rB - 2 * rm * rA)) <= 33 * (x * (n * q))).
    { eapply Rle_trans; [eapply near_trans; [rewrite V3; apply dsub_err; assumption|exact D4]|].
      assert (uro * Rabs (dval B - dval t2) <= uro * (3.25 * (n * q))) by (apply Rmult_le_compat_l; lra). lra. }
    (* / n *)
    assert (D6 : Rabs (dval t3 / n - (rB - 2 * rm * rA) / n) <= 33 * (x * q)).
    { replace (dval t3 / n - (rB - 2 * rm * rA) / n) with ((dval t3 - (rB - 2 * rm * rA)) / n) by (field; lra). apply div_n. lra. }
    assert (S6 : Rabs ((rB - 2 * rm * rA) / n) <= 3 * q) by (apply div_n; lra).
    pose proof (abs_near _ _ _ _ D6 S6) as B6.
    destruct (ddiv_close t3 c K3 Kc) as [K4 Dt4]; rewrite ?Vc; try lra. rewrite Vc in Dt4. set (t4 := ndiv Dnum t3 c) in *.
    assert (D7 : Rabs (dval t4 - (rB - 2 * rm * rA) / n) <= 38 * (x * q)).
    { eapply Rle_trans; [eapply near_trans; [exact Dt4|exact D6]|].
      assert (uro * Rabs (dval t3 / n) <= uro * (3.25 * q)) by (apply Rmult_le_compat_l; lra). lra. }
    (* mean * mean *)
    assert (D8 : Rabs (dval mean * dval mean - rm * rm) <= 11 * (x * q)).
    { eapply Rle_trans; [apply (mul_near _ _ _ _ (5 * (x * M)) (5 * (x * M)) M (1.125 * M)); try assumption; lra|].
      replace (5 * (x * M) * (1.125 * M) + M * (5 * (x * M))) with (10.625 * (x * q)) by (unfold q; lra). lra. }
    assert (S8 : Rabs (rm * rm) <= q) by (rewrite Rabs_mult; apply Rmult_le_compat; try apply Rabs_pos; assumption).
    pose proof (abs_near _ _ _ _ D8 S8) as B8.
    destruct (dmul_close mean mean Km Km ltac:(lra)) as [K5 Dt5]. set (t5 := nmul Dnum mean mean) in *.
    assert (D9 : Rabs (dval t5 - rm * rm) <= 14 * (x * q)).
    { eapply Rle_trans; [eapply near_trans; [exact Dt5|exact D8]|].
      assert (uro * Rabs (dval mean * dval mean) <= uro * (1.25 * q)) by (apply Rmult_le_compat_l; lra). lra. }
    (* sum *)
    assert (D10 : Rabs (dval t4 + dval t5 - ((rB - 2 * rm * rA) / n + rm * rm)) <= 52 * (x * q)).
    { replace (dval t4 + dval t5 - ((rB - 2 * rm * rA) / n + rm * rm)) with ((dval t4 - (rB - 2 * rm * rA) / n) + (dval t5 - rm * rm)) by ring.
      eapply Rle_trans; [apply Rabs_triang|]. lra. }
    assert (S10 : Rabs ((rB - 2 * rm * rA) / n + rm * rm) <= 4 * q) by (eapply Rle_trans; [apply Rabs_triang|]; lra).
    pose proof (abs_near _ _ _ _ D10 S10) as B10.
    destruct (dadd_val t4 t5 K4 K5 ltac:(lra)) as [K6 V6].
    assert (EV : svar_expr = nadd Dnum t4 t5) by reflexivity. rewrite EV. split; [exact K6|].
    eapply Rle_trans; [eapply near_trans; [rewrite V6; apply dadd_err; assumption|rewrite <- VF; exact D10]|].
    assert (uro * Rabs (dval t4 + dval t5) <= uro * (5 * q)) by (apply Rmult_le_compat_l; lra). lra.
  Qed.

  Lemma stats_close_snoc : let s := stats_adds (stats_reset Dnum b l) us in
    dok (smean s) /\ Rabs (dval (smean s) - rmean (map dval us)) <= 5 * (x * M) /\
    dok (svar s) /\ Rabs (dval (svar s) - rvariance (map dval us)) <= 64 * (x * (M * M)).
  Proof.
    intros s. destruct (stats_closed Dnum b l vs v) as [E1 E2]. fold us s A B c mean in E1, E2. rewrite E1, E2.
    destruct mean_close as [K1 D1]. destruct var_close as [K2 D2]. auto.
  Qed.
End Stats.

Lemma stats_close (us : list Dnum) M b l : us <> [] -> Forall dok us -> Forall (fun v => Rabs (dval v) <= M) us ->
  bpow radix2 (-400) <= M <= bpow radix2 400 -> (Z.of_nat (length us) <= 2 ^ 40)%Z ->
  let s := stats_adds (stats_reset Dnum b l) us in let x := INR (length us) * bpow radix2 (-53) in
  dok (smean s) /\ Rabs (dval (smean s) - rmean (map dval us)) <= 5 * (x * M) /\
  dok (svar s) /\ Rabs (dval (svar s) - rvariance (map dval us)) <= 64 * (x * (M * M)).
Proof.
  intros H. destruct (exists_last H) as (vs & v & ->). intros K1 K2 K3 K4. now apply stats_close_snoc.
Qed.

(** Count, minimum and maximum are exact. *)
Lemma stats_extremes (us : list Dnum) (b l : Dnum) : us <> [] -> Forall dok us -> dok b -> dok l ->
  Forall (fun v => dval l <= dval v <= dval b) us ->
  let s := stats_adds (stats_reset Dnum b l) us in
  scount s = Z.of_nat (length us) /\ slast s = last us (nofZ Dnum 0) /\
  (exists v, In v us /\ dval (smin s) = dval v) /\ (exists v, In v us /\ dval (smax s) = dval v) /\
  (forall v, In v us -> dval (smin s) <= dval v <= dval (smax s)).
Proof.
  intros Hne Hk Kb Kl Hr s.
  assert (G : forall pre us (s0 : stats Dnum), Forall dok (pre ++ us) -> Forall (fun v => dval l <= dval v <= dval b) (pre ++ us) ->
    scount s0 = Z.of_nat (length pre) -> slast s0 = last pre (nofZ Dnum 0) -> dok (smin s0) -> dok (smax s0) ->
    (pre = [] -> smin s0 = b /\ smax s0 = l) ->
    (pre <> [] -> (exists v, In v pre /\ dval (smin s0) = dval v) /\ (exists v, In v pre /\ dval (smax s0) = dval v) /\ (forall v, In v pre -> dval (smin s0) <= dval v <= dval (smax s0))) ->
    let s := stats_adds s0 us in let al := pre ++ us in al <> [] ->
    scount s = Z.of_nat (length al) /\ slast s = last al (nofZ Dnum 0) /\
    (exists v, In v al /\ dval (smin s) = dval v) /\ (exists v, In v al /\ dval (smax s) = dval v) /\
    (forall v, In v al -> dval (smin s) <= dval v <= dval (smax s))).
  { clear. intros pre us. revert pre. induction us as [|v us IH]; intros pre s0 Hk Hr Hc Hl K1 K2 He Hn s al Hne.
    - unfold s, al in *. rewrite app_nil_r in *. destruct (Hn Hne) as (X & Y & Z). auto.
    - assert (Ea : al = (pre ++ [v]) ++ us) by (unfold al; rewrite <- app_assoc; reflexivity).
      assert (Kv : dok v) by (apply (proj1 (Forall_app _ _ _)) in Hk; destruct Hk as [_ Hk]; now inversion Hk).
      assert (Rv : dval l <= dval v <= dval b) by (apply (proj1 (Forall_app _ _ _)) in Hr; destruct Hr as [_ Hr]; now inversion Hr).
      rewrite Ea in *. unfold s. change (stats_adds s0 (v :: us)) with (stats_adds (stats_add s0 v) us).
      apply (IH (pre ++ [v]) (stats_add s0 v)).
      + rewrite <- app_assoc. exact Hk.
      + rewrite <- app_assoc. exact Hr.
      + cbn [stats_add scount]. rewrite Hc, app_length. cbn [length]. lia.
      + cbn [stats_add slast]. rewrite last_last. reflexivity.
      + cbn [stats_add smin]. destruct (nltb Dnum v (smin s0)); assumption.
      + cbn [stats_add smax]. destruct (nltb Dnum (smax s0) v); assumption.
      + intros E. destruct pre; discriminate.
      + intros _. cbn [stats_add smin smax].
        assert (C1 : forall a b' : Dnum, dok a -> dok b' -> nltb Dnum a b' = false -> dval b' <= dval a).
        { intros a b' Ka Kb' E. destruct (Rle_or_lt (dval b') (dval a)); auto. apply dltb_val in H; auto. congruence. }
        destruct pre as [|p0 pre'].
        * destruct (He eq_refl) as [E1 E2]. rewrite E1, E2 in *.
          assert (M1 : dval ((if nltb Dnum v b then v else b) : nT Dnum) = dval v).
          { destruct (nltb Dnum v b) eqn:F; [reflexivity|]. apply C1 in F; auto. lra. }
          assert (M2 : dval ((if nltb Dnum l v then v else l) : nT Dnum) = dval v).
          { destruct (nltb Dnum l v) eqn:F; [reflexivity|]. apply C1 in F; auto. lra. }
          cbn [nT Dnum] in M1, M2 |- *. rewrite M1, M2. cbn [app]. repeat split; try (exists v; split; [now left|reflexivity]).
          -- destruct H as [<- | [] ]. lra.
          -- destruct H as [<- | [] ]. lra.
        * destruct (Hn ltac:(discriminate)) as ((v1 & I1 & V1) & (v2 & I2 & V2) & B).
          repeat split.
          -- destruct (nltb Dnum v (smin s0)) eqn:F; [exists v|exists v1]; (split; [apply in_or_app|]); auto. right. now left.
          -- destruct (nltb Dnum (smax s0) v) eqn:F; [exists v|exists v2]; (split; [apply in_or_app|]); auto. right. now left.
          -- apply in_app_or in H. destruct (nltb Dnum v (smin s0)) eqn:F.
             ++ apply dltb_val in F; auto. destruct H as [H | [<- | [] ] ]; [|lra]. specialize (B _ H). lra.
             ++ apply C1 in F; auto. destruct H as [H | [<- | [] ] ]; [|lra]. apply (B _ H).
          -- apply in_app_or in H. destruct (nltb Dnum (smax s0) v) eqn:F.
             ++ apply dltb_val in F; auto. destruct H as [H | [<- | [] ] ]; [|lra]. specialize (B _ H). lra.
             ++ apply C1 in F; auto. destruct H as [H | [<- | [] ] ]; [|lra]. apply (B _ H).
      + exact Hne. }
  apply (G [] us (stats_reset Dnum b l)); auto. intros H. contradiction.
Qed.
