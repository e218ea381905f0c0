(** Transport of the planner results to exact arithmetic with IEEE special values. *)
From Coq Require Import Reals Lra Lia ZArith FunctionalExtensionality Bool.
From Flocq Require Import Core.Raux.
From Verif Require Import Prelude Num NumX PlanModel PlanSpec PlanProofs PlanProofs2.
Open Scope R_scope.

Definition xv (f : nat -> R) : nat -> Xnum := fun i => Fin (f i).
Definition o3 (q : R * R * R) : out3 Xnum := let '(a, b, c) := q in (Fin a, Fin b, Fin c).
Definition o4 (q : R * R * R * R) : out4 Xnum := let '(a, b, c, e) := q in (Fin a, Fin b, Fin c, Fin e).

Lemma xdiv_nz a b : b <> 0 -> xdiv (Fin a) (Fin b) = Fin (a / b).
Proof. intros H. cbn. now rewrite Req_bool_false. Qed.
Lemma lit_X n d : (d <> 0)%Z -> lit Xnum n d = Fin (lit Rnum n d).
Proof. intros H. unfold lit. cbn [ndiv nofZ Xnum Rnum]. apply xdiv_nz. now apply not_0_IZR. Qed.
Lemma eps_X : eps Xnum = Fin (eps Rnum).
Proof. apply lit_X. discriminate. Qed.
Lemma nceil_X x : nceil Xnum (Fin x) = Fin (nceil Rnum x).
Proof. unfold nceil. cbn. now destruct (Rlt_bool (IZR (Ztrunc x)) x). Qed.

Section Inj.
  Context {O O' : Type} (o : O -> O') (q : phases Rnum O) (q' : phases Xnum O') (dt : R).
  Hypothesis Hdim : ph_dim q' = ph_dim q. Hypothesis Hn : ph_n q' = ph_n q.
  Hypothesis Hdur : forall r, ph_dur q' r = Fin (ph_dur q r).
  Hypothesis Hval : forall r t i, ph_val q' r (Fin t) i = o (ph_val q r t i).
  Hypothesis Hend : forall i, ph_end q' i = o (ph_end q i).
  Hypothesis Hearly : forall r, ph_early q' r = ph_early q r.
  Definition injD (s : dyn Rnum O) : dyn Xnum O' :=
    @Build_dyn Xnum O' (dy_fin s) (dy_range s) (Fin (dy_t s)) (fun i => o (dy_last s i)).
  Lemma upd_o (L : nat -> O) i x : upd (fun j => o (L j)) i (o x) = fun j => o (upd L i x j).
  Proof. apply functional_extensionality; intro j. unfold upd. now destruct (Nat.eqb j i). Qed.
  Lemma elem_inj s i : ph_elem Xnum q' (injD s) i = injD (ph_elem Rnum q s i).
  Proof.
    unfold ph_elem. cbn [injD dy_fin dy_range dy_t dy_last]. rewrite Hn, Hdim, !Hdur, Hearly.
    destruct ((1 <=? dy_range s) && (dy_range s <=? ph_n q))%Z.
    - rewrite eps_X. cbn [nleb nltb nabs nsub nofZ Xnum Rnum xleb xltb xabs xsub].
      change (nT Rnum) with R in *.
      match goal with |- context [if ?c then (dy_range s + 1)%Z else _] => destruct c end;
      unfold injD; cbn [dy_fin dy_range dy_t dy_last]; f_equal; rewrite <- upd_o; f_equal;
      rewrite Hval; now destruct (Rle_bool (dy_t s) (ph_dur q (dy_range s))).
    - destruct (dy_range s =? ph_n q + 1)%Z; [|reflexivity].
      unfold injD; cbn [dy_fin dy_range dy_t dy_last]; f_equal. rewrite Hend. apply upd_o.
  Qed.
  Lemma run_inj s : ph_run Xnum q' (Fin dt) (injD s) = injD (ph_run Rnum q dt s).
  Proof.
    unfold ph_run. cbn [injD dy_fin]. destruct (dy_fin s); [reflexivity|].
    rewrite Hdim. cbn [nadd Xnum Rnum xadd].
    match goal with |- fold_left _ _ ?a = injD (fold_left _ _ ?b) => change a with (injD b); generalize b end.
    generalize (seq 0 (ph_dim q)). intro l. induction l as [|i l IH]; intros b; [reflexivity|].
    cbn [fold_left]. rewrite elem_inj. apply IH.
  Qed.
  Lemma iter_inj k s : Nat.iter k (ph_run Xnum q' (Fin dt)) (injD s) = injD (Nat.iter k (ph_run Rnum q dt) s).
  Proof. induction k; [reflexivity|]. rewrite !iter_S, IHk. apply run_inj. Qed.
End Inj.

(** Minimum of positive, possibly infinite numbers. *)
Definition posx (x : xr) : Prop := x = Inf false \/ exists r, x = Fin r /\ 0 < r.
Lemma vmin_fold (v : nat -> Xnum) (l : list nat) a : posx a -> (forall i, In i l -> posx (v i)) ->
  (exists r, a = Fin r) \/ (exists i r, In i l /\ v i = Fin r) ->
  exists m, fold_left (fun m i => if nltb Xnum (v i) m then v i else m) l a = Fin m /\ 0 < m /\
    (forall r, a = Fin r -> m <= r) /\ forall i r, In i l -> v i = Fin r -> m <= r.
Proof.
  revert a; induction l as [|i l IH]; intros a Pa Pv Hex.
  - destruct Hex as [[r ->]|(i & r & [] & _)]. exists r. cbn. destruct Pa as [|(r' & E & H)]; [discriminate|]. injection E as <-.
    repeat split; [exact H|intros r0 [= <-]; lra|intros ? ? []].
  - cbn [fold_left]. assert (Pi := Pv i (or_introl eq_refl)). assert (Pv' : forall j, In j l -> posx (v j)) by (intros; apply Pv; now right).
    destruct (nltb Xnum (v i) a) eqn:E.
    + destruct (IH (v i) Pi Pv') as (m & E' & Pm & A & B).
      { left. destruct Pi as [Ei|(r & Ei & _)]; [|now exists r]. exfalso. rewrite Ei in E.
        destruct Pa as [->|(r & -> & _)]; discriminate E. }
      exists m. repeat split; [exact E'|exact Pm| |].
      * intros r Ea. rewrite Ea in E. destruct Pi as [Ei|(ri & Ei & _)]; [rewrite Ei in E; discriminate E|].
        rewrite Ei in E. cbn in E. destruct (Rlt_bool_spec ri r); [|discriminate]. specialize (A _ Ei). lra.
      * intros j r [<-|Hj] Ej; [exact (A r Ej)|exact (B j r Hj Ej)].
    + destruct (IH a Pa Pv') as (m & E' & Pm & A & B).
      { destruct Hex as [Hex|(j & r & [<-|Hj] & Ej)]; [now left| |right; eauto].
        left. destruct Pa as [->|(ra & -> & _)]; [|eauto]. rewrite Ej in E. discriminate E. }
      exists m. repeat split; [exact E'|exact Pm|exact A|].
      intros j r [<-|Hj] Ej; [|exact (B j r Hj Ej)].
      rewrite Ej in E. destruct Pa as [->|(ra & -> & _)]; [discriminate E|]. cbn in E.
      destruct (Rlt_bool_spec r ra); [discriminate|]. specialize (A _ eq_refl). lra.
Qed.

Lemma norm_X d (lim dist : nat -> R) : (0 < d)%nat -> (forall i, (i < d)%nat -> lim i <> 0) ->
  (exists i, (i < d)%nat /\ dist i <> 0) ->
  exists m, vmin Xnum d (fun i => nabs Xnum (ndiv Xnum (Fin (lim i)) (Fin (dist i)))) = Fin m /\ 0 < m /\
    forall i, (i < d)%nat -> m * Rabs (dist i) <= Rabs (lim i).
Proof.
  intros Hd Hl (i0 & Hi0 & Hz). unfold vmin. set (v := fun i => nabs Xnum (ndiv Xnum (Fin (lim i)) (Fin (dist i)))).
  assert (V0 : forall i, dist i <> 0 -> v i = Fin (Rabs (lim i / dist i))).
  { intros i H. unfold v. cbn [ndiv nabs Xnum]. now rewrite xdiv_nz. }
  assert (V1 : forall i, (i < d)%nat -> dist i = 0 -> v i = Inf false).
  { intros i Hi H. unfold v. cbn. rewrite H, Req_bool_true by reflexivity. rewrite Req_bool_false by auto. reflexivity. }
  assert (P : forall i, (i < d)%nat -> posx (v i)).
  { intros i Hi. destruct (Req_dec (dist i) 0) as [H|H]; [left; auto|right]. eexists. split; [apply V0, H|].
    apply Rabs_pos_lt. unfold Rdiv. apply Rmult_integral_contrapositive_currified; [auto|]. apply Rinv_neq_0_compat, H. }
  destruct (vmin_fold v (seq 0 d) (v 0%nat)) as (m & E & Pm & _ & B).
  - apply P, Hd.
  - intros i Hi. apply in_seq in Hi. apply P. lia.
  - right. exists i0, (Rabs (lim i0 / dist i0)). split; [apply in_seq; lia|apply V0, Hz].
  - exists m. repeat split; [exact E|exact Pm|]. intros i Hi. destruct (Req_dec (dist i) 0) as [H|H].
    + rewrite H, Rabs_R0, Rmult_0_r. apply Rabs_pos.
    + assert (L : m <= Rabs (lim i / dist i)) by (eapply B; [apply in_seq; split; [lia|exact Hi]|apply V0, H]).
      pose proof (Rabs_pos_lt _ H). apply Rmult_le_compat_r with (r := Rabs (dist i)) in L; [|lra].
      rewrite <- Rabs_mult in L. now replace (lim i / dist i * dist i) with (lim i) in L by (field; exact H).
Qed.

Lemma vzero_X d (dist : nat -> R) : vzero Xnum d (xv dist) = true <-> forall i, (i < d)%nat -> dist i = 0.
Proof.
  unfold vzero. rewrite forallb_forall. split.
  - intros H i Hi. assert (I : In i (seq 0 d)) by (apply in_seq; lia). specialize (H i I). cbn in H.
    destruct (Req_bool_spec (dist i) 0); [assumption|discriminate].
  - intros H i Hi. apply in_seq in Hi. cbn. apply Req_bool_true. apply H. lia.
Qed.

Lemma xsqrt_nn x : 0 <= x -> xsqrt (Fin x) = Fin (sqrt x).
Proof. intros H. cbn. now rewrite Rlt_bool_false. Qed.

Lemma times_injA (dt v a dc : R) : 0 < dt -> 0 < v -> 0 < a -> 0 < dc ->
  pa_times Xnum xsqrt (Fin dt) (Fin v) (Fin a) (Fin dc) =
  let '(x, y, z) := pa_times Rnum sqrt dt v a dc in (Fin x, Fin y, Fin z).
Proof.
  intros Hdt Hv Ha Hdc. unfold pa_times. cbv zeta. rewrite !lit_X by discriminate.
  cbn [nadd nsub nmul nltb nofZ Xnum Rnum xadd xsub xmul xltb]. change (nT Rnum) with R in *.
  assert (Q : 0 < 2 * (a * dc) / (a + dc)) by (apply Rdiv_lt_0_compat; nra).
  cbn [ndiv Xnum Rnum]. rewrite (xdiv_nz (2 * (a * dc))) by lra. rewrite xsqrt_nn by lra.
  set (vm := sqrt (2 * (a * dc) / (a + dc))).
  assert (Hvm : 0 < vm) by (apply sqrt_lt_R0; exact Q).
  cbn [xltb]. change (nT Xnum) with xr in *.
  replace (if Rlt_bool vm v then Fin vm else Fin v) with (Fin (if Rlt_bool vm v then vm else v)) by (now destruct (Rlt_bool vm v)).
  set (v1 := if Rlt_bool vm v then vm else v).
  assert (Hv1 : 0 < v1) by (unfold v1; destruct (Rlt_bool vm v); assumption). clearbody v1.
  rewrite !xdiv_nz by lra. cbn [xadd xmul xsub xltb].
  match goal with |- context [if Rlt_bool ?x 0 then Fin 0 else Fin ?x] => 
    replace (if Rlt_bool x 0 then Fin 0 else Fin x) with (Fin (if Rlt_bool x 0 then 0 else x)) by (now destruct (Rlt_bool x 0)) end.
  rewrite !xdiv_nz by lra. rewrite !nceil_X. cbn [xadd xmul xsub xltb]. reflexivity.
Qed.

Section CoefsA.
  Context (T1 T2 T3 : R) (start dist endp : nat -> R).
  Hypothesis Q1 : 0 < T1. Hypothesis Q2 : 0 <= T2. Hypothesis Q3 : 0 < T3.
  Notation pX := (pa_coefs Xnum (Fin T1) (Fin T2) (Fin T3) (xv start) (xv dist) (xv endp)).
  Notation pR := (pa_coefs Rnum T1 T2 T3 start dist endp).

  Lemma val_injA r t i : pa_val Xnum pX r (Fin t) i = o3 (pa_val Rnum pR r t i).
  Proof.
    unfold pa_val, pa_coefs. cbv zeta.
    cbn [pa_a1p pa_c1p pa_b1v pa_c1a pa_b2p pa_c2p pa_c2v pa_c2a pa_a3p pa_b3p pa_c3p pa_b3v pa_c3v pa_c3a].
    unfold nopp. rewrite !lit_X by discriminate. set (h := lit Rnum 1 2). clearbody h.
    cbn [nadd nsub nmul nofZ ndiv Xnum Rnum xadd xsub xmul]. unfold xv. change (nT Rnum) with R in *.
    rewrite (xdiv_nz (T1 + T3) 2) by lra. cbn [xadd].
    rewrite (xdiv_nz 1) by lra. cbn [xmul].
    set (J := 1 / (T2 + (T1 + T3) / 2) * dist i). clearbody J. cbn [xsub].
    rewrite !(xdiv_nz J) by lra. rewrite !(xdiv_nz (0 - J)) by lra. cbn [xmul xadd xsub].
    destruct (r =? 1)%Z; [reflexivity|]. destruct (r =? 2)%Z; reflexivity.
  Qed.

  Lemma phases_inj d dt k s :
    Nat.iter k (ph_run Xnum (pa_phases Xnum d pX) (Fin dt)) (injD o3 s) = injD o3 (Nat.iter k (ph_run Rnum (pa_phases Rnum d pR) dt) s).
  Proof.
    apply iter_inj; cbn [pa_phases ph_dim ph_n ph_dur ph_val ph_end ph_early]; try reflexivity.
    - intros r. now destruct (r =? 1)%Z, (r =? 2)%Z.
    - intros r t i. apply val_injA.
  Qed.
End CoefsA.

Lemma iter_run k (s : pa Xnum) : Nat.iter k (pa_run Xnum) s =
  pa_with Xnum s (pa_pl s) (Nat.iter k (ph_run Xnum (pa_phases Xnum (pa_d s) (pa_pl s)) (pa_dt s)) (pa_dy s)).
Proof. induction k; [now destruct s|]. rewrite !iter_S, IHk. reflexivity. Qed.

(** Main result for PathPlannerConstAcc. *)
Section AccPlanner.
  Context (s : pa Xnum) (dt : R) (vmax acc dec start endp : nat -> R) (L : nat -> R * R * R).
  Notation d := (pa_d s).
  Let dist (i : nat) := endp i - start i.
  Hypothesis Hfin : dy_fin (pa_dy s) = true.
  Hypothesis Hd : (0 < d)%nat.
  Hypothesis Hdt : pa_dt s = Fin dt. Hypothesis Hdt1 : / 10 ^ 12 <= dt.
  Hypothesis Hvm : pa_vmax s = xv vmax. Hypothesis Hac : pa_acc s = xv acc. Hypothesis Hde : pa_dec s = xv dec.
  Hypothesis Hl : dy_last (pa_dy s) = fun i => o3 (L i).
  Hypothesis Hnz : forall i, (i < d)%nat -> vmax i <> 0 /\ acc i <> 0 /\ dec i <> 0.
  Hypothesis Hmv : exists i, (i < d)%nat /\ start i <> endp i.

  Lemma acc_planner : exists s' n1 n2 n3,
    pa_move Xnum xsqrt s (xv start) (xv endp) = (s', true) /\ pa_d s' = d /\ (0 < n1)%nat /\ (0 < n3)%nat /\
    (let V := 1 / (INR n2 * dt + (INR n1 * dt + INR n3 * dt) / 2) in 0 < V /\
     forall i, (i < d)%nat -> V * Rabs (dist i) <= Rabs (vmax i) /\
       V / (INR n1 * dt) * Rabs (dist i) <= Rabs (acc i) /\ V / (INR n3 * dt) * Rabs (dist i) <= Rabs (dec i)) /\
    forall k, (0 < k)%nat ->
      dy_fin (pa_dy (Nat.iter k (pa_run Xnum) s')) = (acc_cycles n1 n2 n3 <? k)%nat /\
      forall i, (i < d)%nat -> dy_last (pa_dy (Nat.iter k (pa_run Xnum) s')) i = o3 (acc_cycle dt start dist n1 n2 n3 k i).
  Proof.
    assert (Hdt0 : 0 < dt) by (pose proof eps_pos; rewrite eps_R in *; lra).
    assert (Hex : exists i, (i < d)%nat /\ dist i <> 0).
    { destruct Hmv as (i & Hi & H). exists i. split; [exact Hi|]. unfold dist. intros E. apply H. lra. }
    destruct (norm_X d vmax dist Hd ltac:(intros; now apply Hnz) Hex) as (v & Ev & Pv & Bv).
    destruct (norm_X d acc dist Hd ltac:(intros; now apply Hnz) Hex) as (a & Ea & Pa & Ba).
    destruct (norm_X d dec dist Hd ltac:(intros; now apply Hnz) Hex) as (c & Ec & Pc & Bc).
    destruct (make_durations dt v a c start dist endp Hdt0 Pv Pa Pc) as (n1 & n2 & n3 & E1 & E2 & E3 & H1 & H3 & HV).
    assert (VAL := make_values dt v a c start dist endp Hdt0 n1 n2 n3 E1 E2 E3 H1 H3).
    assert (TI := times_injA dt v a c Hdt0 Pv Pa Pc). unfold pa_make in *. destruct (pa_times Rnum sqrt dt v a c) as [[T1 T2] T3].
    set (p := pa_coefs Rnum T1 T2 T3 start dist endp) in *. set (q := pa_coefs Xnum (Fin T1) (Fin T2) (Fin T3) (xv start) (xv dist) (xv endp)).
    assert (END : forall i, pa_endp p i = start i + dist i) by (intros i; unfold p, dist; cbn; ring).
    assert (EP : eps Rnum <= dt) by (rewrite eps_R; exact Hdt1).
    assert (QT1 : 0 < T1) by (change (pa_dT1 p) with T1 in E1; rewrite E1; apply Rmult_lt_0_compat; [apply lt_0_INR; lia|assumption]).
    assert (QT3 : 0 < T3) by (change (pa_dT3 p) with T3 in E3; rewrite E3; apply Rmult_lt_0_compat; [apply lt_0_INR; lia|assumption]).
    assert (QT2 : 0 <= T2) by (change (pa_dT2 p) with T2 in E2; rewrite E2; apply Rmult_le_pos; [apply pos_INR|lra]).
    exists (pa_with Xnum s q (injD o3 (@Build_dyn Rnum (out3 Rnum) false 1%Z 0 L))), n1, n2, n3.
    repeat split.
    - unfold pa_move. rewrite Hfin. cbn [negb].
      change (fun i : nat => nsub Xnum (xv endp i) (xv start i)) with (xv dist).
      destruct (vzero Xnum d (xv dist)) eqn:Z.
      { exfalso. destruct Hex as (i & Hi & H). apply H. now apply (proj1 (vzero_X d dist) Z). }
      rewrite Hvm, Hac, Hde. cbv beta zeta.
      change (vmin Xnum d (fun i => nabs Xnum (ndiv Xnum (xv vmax i) (nsub Xnum (xv endp i) (xv start i)))) = Fin v) in Ev.
      change (vmin Xnum d (fun i => nabs Xnum (ndiv Xnum (xv acc i) (nsub Xnum (xv endp i) (xv start i)))) = Fin a) in Ea.
      change (vmin Xnum d (fun i => nabs Xnum (ndiv Xnum (xv dec i) (nsub Xnum (xv endp i) (xv start i)))) = Fin c) in Ec.
      rewrite Ev, Ea, Ec.
      rewrite Hdt. unfold pa_make. rewrite TI. change (xv (fun i : nat => endp i - start i)) with (xv dist). fold q.
      unfold injD. cbn [dy_fin dy_range dy_t dy_last]. now rewrite Hl.
    - exact H1.
    - exact H3.
    - destruct HV as [[HV _] _]. exact HV.
    - destruct HV as ((HV & Hv1) & _). pose proof (Bv i H). pose proof (Rabs_pos (dist i)). nra.
    - destruct HV as ((HV & Hv1) & HV1 & _). pose proof (Ba i H). pose proof (Rabs_pos (dist i)). nra.
    - destruct HV as ((HV & Hv1) & _ & HV1). pose proof (Bc i H). pose proof (Rabs_pos (dist i)). nra.
    - rewrite iter_run. cbn [pa_with pa_dy pa_pl pa_d pa_dt]. rewrite Hdt. unfold q. rewrite (phases_inj T1 T2 T3 start dist endp QT1 QT2 QT3). fold p.
      apply (acc_master d dt start dist p n1 n2 n3 Hd EP E1 E2 E3 H1 H3 VAL END L k H).
    - intros i Hi. rewrite iter_run. cbn [pa_with pa_dy pa_pl pa_d pa_dt]. rewrite Hdt. unfold q.
      rewrite (phases_inj T1 T2 T3 start dist endp QT1 QT2 QT3). fold p.
      cbn [injD dy_last]. apply (f_equal o3).
      destruct (acc_master d dt start dist p n1 n2 n3 Hd EP E1 E2 E3 H1 H3 VAL END L k H) as [_ M].
      etransitivity; [exact (f_equal (fun g => g i) M)|]. unfold patch. now replace (i <? d)%nat with true by (symmetry; apply Nat.ltb_lt; exact Hi).
  Qed.
End AccPlanner.
