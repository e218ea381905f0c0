From Coq Require Import ZifyBool ZifyNat Reals Lra Psatz String.
From Flocq Require Import Core.Raux.
From Verif Require Import Prelude Num SeqModel SeqSpec SeqProofs SeqProofs2 SeqProofs3.
Open Scope Z_scope.
Open Scope list_scope.

(** ** timeouts *)
Lemma ct_started_runs : forall (T : R) t0 ts,
  T <> 0%R ->
  snd (ct_runs {| ctimeout_s := T : Rnum; cstarted := true; cstart_ns := t0 |} (map CTEval ts)) =
  map (fun t => Rlt_bool (T * 1000) (IZR (Z.quot (t - t0) 1000000))) ts.
Proof.
  intros T t0 ts HT. induction ts as [|t ts IH]; [reflexivity|].
  cbn [map ct_runs]. unfold ct_validate at 1. cbn [ctimeout_s cstarted cstart_ns].
  change (neqb Rnum T (nofZ Rnum 0)) with (Req_bool T 0). rewrite Req_bool_false by exact HT. cbn [negb].
  destruct (ct_runs _ (map CTEval ts)) as [c bs] eqn:E. cbn [snd] in *. rewrite IH. reflexivity.
Qed.

Lemma ct_first_eval : forall (T : R) t0 ts, T <> 0%R ->
  snd (ct_runs {| ctimeout_s := T : Rnum; cstarted := false; cstart_ns := 0 |} (map CTEval (t0 :: ts))) =
  false :: map (fun t => Rlt_bool (T * 1000) (IZR (Z.quot (t - t0) 1000000))) ts.
Proof.
  intros T t0 ts HT. cbn [map ct_runs]. unfold ct_validate at 1. cbn [ctimeout_s cstarted].
  change (neqb Rnum T (nofZ Rnum 0)) with (Req_bool T 0). rewrite Req_bool_false by exact HT. cbn [negb].
  unfold ct_reset; cbn [ctimeout_s]. rewrite <- (ct_started_runs T t0 ts HT).
  destruct (ct_runs _ (map CTEval ts)) as [c bs]. reflexivity.
Qed.

Lemma ct_after_reset : forall (T : R) (c : ctimeout Rnum) t0 ts, T <> 0%R -> ctimeout_s c = T ->
  snd (ct_runs c (CTReset t0 :: map CTEval ts)) =
  map (fun t => Rlt_bool (T * 1000) (IZR (Z.quot (t - t0) 1000000))) ts.
Proof.
  intros T c t0 ts HT Hc. cbn [ct_runs]. unfold ct_reset. rewrite Hc. apply ct_started_runs, HT.
Qed.

Lemma ct_fire_elapsed : forall (T : R) t0 t, t0 <= t ->
  Rlt_bool (T * 1000) (IZR (Z.quot (t - t0) 1000000)) = true -> (T * 1000000000 < IZR (t - t0))%R.
Proof.
  intros T t0 t H F. destruct (Rlt_bool_spec (T * 1000) (IZR (Z.quot (t - t0) 1000000))) as [L|L]; [|discriminate].
  rewrite Z.quot_div_nonneg in L by lia.
  assert (X : (IZR ((t - t0) / 1000000) * 1000000 <= IZR (t - t0))%R).
  { rewrite <- mult_IZR. apply IZR_le. pose proof (Z.mul_div_le (t - t0) 1000000). lia. }
  lra.
Qed.
Lemma ct_elapsed_fire : forall (T : R) t0 t, t0 <= t -> (T * 1000000000 + 1000000 <= IZR (t - t0))%R ->
  Rlt_bool (T * 1000) (IZR (Z.quot (t - t0) 1000000)) = true.
Proof.
  intros T t0 t H F. apply Rlt_bool_true. rewrite Z.quot_div_nonneg by lia.
  assert (X : (IZR (t - t0) < IZR ((t - t0) / 1000000) * 1000000 + 1000000)%R).
  { rewrite <- mult_IZR, <- plus_IZR. apply IZR_lt. pose proof (Z.mul_succ_div_gt (t - t0) 1000000). lia. }
  lra.
Qed.
Lemma ct_stays : forall (T : R) t0 t t', t0 <= t <= t' ->
  Rlt_bool (T * 1000) (IZR (Z.quot (t - t0) 1000000)) = true ->
  Rlt_bool (T * 1000) (IZR (Z.quot (t' - t0) 1000000)) = true.
Proof.
  intros T t0 t t' H F. destruct (Rlt_bool_spec (T * 1000) (IZR (Z.quot (t - t0) 1000000))) as [L|L]; [|discriminate].
  apply Rlt_bool_true. eapply Rlt_le_trans; [exact L|]. apply IZR_le. rewrite !Z.quot_div_nonneg by lia.
  apply Z.div_le_mono; lia.
Qed.
Lemma ct_zero : forall (c : ctimeout Rnum) os, ctimeout_s c = 0%R -> Forall (fun b => b = false) (snd (ct_runs c os)).
Proof.
  intros c os; revert c. induction os as [|o os IH]; intros c Hc; [constructor|].
  destruct o as [t|t]; cbn [ct_runs].
  - unfold ct_validate. rewrite Hc. change (neqb Rnum 0%R (nofZ Rnum 0)) with (Req_bool 0 0).
    rewrite Req_bool_true by reflexivity. destruct (ct_runs c os) as [c2 bs] eqn:E. cbn. constructor; [reflexivity|].
    specialize (IH c Hc). rewrite E in IH. exact IH.
  - apply IH. exact Hc.
Qed.

(** ** registry *)
Definition reg_ok (r : registry) : Prop :=
  rcount r = Z.of_nat (length (rlist r)) /\
  NoDup (map snd (rlist r)) /\ (forall x, In x (rlist r) -> snd x <> EmptyString) /\
  (forall i x, nth_error (rlist r) i = Some x -> snd (fst x) = Z.of_nat i).
Lemma reg_add_ok : forall r o n r', reg_ok r -> reg_add r o n = Ok r' ->
  reg_ok r' /\ rlist r' = rlist r ++ [(o, Z.of_nat (length (rlist r)), n)].
Proof.
  intros r o n r' (H1 & H2 & H3 & H4) H. unfold reg_add in H.
  destruct (String.eqb_spec n ""); [discriminate|].
  destruct (existsb _ (rlist r)) eqn:E; [discriminate|]. inversion H; subst r'; clear H.
  split; [|cbn; rewrite H1; reflexivity]. split; [|split; [|split]]; cbn.
  - rewrite app_length. cbn. lia.
  - rewrite map_app. cbn. apply NoDup_remove_1 with (l' := []) (a := n) || idtac.
    clear - H2 E. induction (rlist r) as [|x l IH]; cbn in *; [constructor; [intros []|constructor]|].
    inversion H2; subst. apply orb_false_iff in E. destruct E as [E1 E2]. constructor; [|apply IH; assumption].
    intros Hin. apply in_app_or in Hin. destruct Hin as [Hin|[Hin|[]]]; [contradiction|].
    apply String.eqb_neq in E1. congruence.
  - intros x Hx. apply in_app_or in Hx. destruct Hx as [Hx|[<-|[]]]; [apply H3, Hx|exact n0].
  - intros i x Hx. destruct (Nat.lt_ge_cases i (length (rlist r))) as [L|L].
    + rewrite nth_error_app1 in Hx by exact L. apply H4, Hx.
    + rewrite nth_error_app2 in Hx by exact L. destruct (i - length (rlist r))%nat eqn:Ed.
      * cbn in Hx. inversion Hx; subst. cbn. rewrite H1. lia.
      * destruct n1; discriminate.
Qed.
Lemma reg_ok_runs : forall os, reg_ok (reg_runs os).
Proof.
  intros os. unfold reg_runs. enough (forall r, reg_ok r -> reg_ok (fold_left reg_step os r)) as H.
  { apply H. split; [reflexivity|]. split; [constructor|]. split; [intros x []|]. intros [|i] x Hx; discriminate. }
  induction os as [|o os IH]; intros r Hr; [exact Hr|]. cbn. apply IH. destruct o as [o n|]; cbn.
  - destruct (reg_add r o n) as [r'| |] eqn:E; auto. apply (reg_add_ok r o n r' Hr E).
  - split; [reflexivity|]. split; [constructor|]. split; [intros x []|]. intros [|i] x Hx; discriminate.
Qed.
Lemma find_id : forall (l : list (nat * Z * string)) k i,
  (forall j x, nth_error l j = Some x -> snd (fst x) = k + Z.of_nat j) ->
  find (fun x => i =? snd (fst x)) l = if (k <=? i) && (i <? k + Z.of_nat (length l)) then nth_error l (Z.to_nat (i - k)) else None.
Proof.
  intros l; induction l as [|x l IH]; intros k i H.
  - cbn. destruct ((k <=? i) && (i <? k + 0)) eqn:E; [lia|reflexivity].
  - cbn [find]. pose proof (H 0%nat x eq_refl) as H0. cbn in H0. rewrite Z.add_0_r in H0. rewrite H0.
    destruct (Z.eqb_spec i k) as [->|N].
    + replace ((k <=? k) && (k <? k + Z.of_nat (length (x :: l)))) with true by (cbn [length]; lia).
      rewrite Z.sub_diag. reflexivity.
    + rewrite (IH (k + 1) i).
      2:{ intros j y Hy. rewrite (H (S j) y Hy). lia. }
      cbn [length].
      replace ((k + 1 <=? i) && (i <? k + 1 + Z.of_nat (length l))) with ((k <=? i) && (i <? k + Z.of_nat (S (length l)))) by lia.
      destruct ((k <=? i) && (i <? k + Z.of_nat (S (length l)))) eqn:E; [|reflexivity].
      replace (Z.to_nat (i - k)) with (S (Z.to_nat (i - (k + 1)))) by lia. reflexivity.
Qed.
Lemma find_name : forall (l : list (nat * Z * string)) n x, NoDup (map snd l) -> In x l -> snd x = n ->
  find (fun x => String.eqb n (snd x)) l = Some x.
Proof.
  intros l n x; induction l as [|y l IH]; intros ND Hin Hn; [destruct Hin|]. cbn. inversion ND; subst.
  destruct (String.eqb_spec (snd x) (snd y)) as [E|N].
  - destruct Hin as [->|Hin]; [reflexivity|]. exfalso. apply H1. rewrite <- E. apply in_map, Hin.
  - destruct Hin as [->|Hin]; [congruence|]. apply IH; auto.
Qed.
Lemma reg_unique : forall os, let r := reg_runs os in
  NoDup (map snd (rlist r)) /\ (forall x, In x (rlist r) -> snd x <> EmptyString) /\
  (forall i, reg_by_id r i = if 0 <=? i then option_map (fun x => fst (fst x)) (nth_error (rlist r) (Z.to_nat i)) else None) /\
  (forall x, In x (rlist r) -> reg_by_name r (snd x) = Some (fst (fst x)) /\ reg_by_id r (snd (fst x)) = Some (fst (fst x))) /\
  (forall n, ~ In n (map snd (rlist r)) -> reg_by_name r n = None).
Proof.
  intros os r. destruct (reg_ok_runs os) as (H1 & H2 & H3 & H4). fold r in H1, H2, H3, H4.
  assert (Hid : forall i, reg_by_id r i = if 0 <=? i then option_map (fun x => fst (fst x)) (nth_error (rlist r) (Z.to_nat i)) else None).
  { intros i. unfold reg_by_id. rewrite (find_id (rlist r) 0 i) by (intros j x Hx; rewrite (H4 j x Hx); lia).
    rewrite Z.sub_0_r. destruct (0 <=? i) eqn:E; cbn [andb]; [|reflexivity].
    destruct (i <? 0 + Z.of_nat (length (rlist r))) eqn:E2.
    - destruct (nth_error (rlist r) (Z.to_nat i)); reflexivity.
    - destruct (nth_error (rlist r) (Z.to_nat i)) eqn:E3; [|reflexivity].
      assert (Z.to_nat i < length (rlist r))%nat by (apply nth_error_Some; congruence). lia. }
  split; [exact H2|]. split; [exact H3|]. split; [exact Hid|]. split.
  - intros x Hx. split.
    + unfold reg_by_name. rewrite (find_name (rlist r) (snd x) x H2 Hx eq_refl). reflexivity.
    + destruct (In_nth_error _ _ Hx) as (j & Hj). rewrite Hid, (H4 j x Hj).
      replace (0 <=? Z.of_nat j) with true by lia. rewrite Nat2Z.id, Hj. reflexivity.
  - intros n Hn. unfold reg_by_name. destruct (find _ (rlist r)) as [x|] eqn:E; [|reflexivity].
    apply find_some in E. destruct E as [E1 E2]. apply String.eqb_eq in E2. exfalso. apply Hn. rewrite E2. apply in_map, E1.
Qed.
Lemma reg_rejects : forall os o n, (exists r', reg_add (reg_runs os) o n = Ok r') <->
  n <> EmptyString /\ ~ In n (map snd (rlist (reg_runs os))).
Proof.
  intros os o n. unfold reg_add. destruct (String.eqb_spec n "") as [->|N].
  { split; [intros (r' & H); discriminate|intros [H _]; congruence]. }
  destruct (existsb (fun x => String.eqb n (snd x)) (rlist (reg_runs os))) eqn:E.
  - split; [intros (r' & H); discriminate|]. intros [_ H]. exfalso. apply H.
    apply existsb_exists in E. destruct E as (x & Hx & Ex). apply String.eqb_eq in Ex. rewrite Ex. apply in_map, Hx.
  - split; [|eauto]. intros _. split; [exact N|]. intros Hin. apply in_map_iff in Hin. destruct Hin as (x & Ex & Hx).
    assert (X : existsb (fun x => String.eqb n (snd x)) (rlist (reg_runs os)) = true).
    { apply existsb_exists. exists x. split; [exact Hx|]. apply String.eqb_eq. auto. }
    congruence.
Qed.

(** ** single stepping *)
Definition count_step (os : list kop) : Z := Z.of_nat (length (filter (fun o => match o with KStep => true | _ => false end) os)).
Lemma stepping_bound : forall os s, kstepping s = true -> krunning s = true ->
  (forall o, In o os -> o <> KRestart /\ o <> KStop) ->
  kpassed (k_runs s os) - kpassed s <= count_step os + (if knext s then 1 else 0).
Proof.
  unfold k_runs, count_step. intros os; induction os as [|o os IH]; intros s Hs Hr Ho; [cbn; destruct (knext s); lia|].
  cbn [fold_left]. assert (Ho' : forall o', In o' os -> o' <> KRestart /\ o' <> KStop) by (intros; apply Ho; right; assumption).
  destruct (Ho o (or_introl eq_refl)) as [N1 N2].
  destruct o; try congruence; cbn [k_step filter length].
  - specialize (IH {| kstepping := true; knext := knext s; krunning := krunning s; kpassed := kpassed s |} eq_refl Hr Ho').
    cbn in IH. exact IH.
  - specialize (IH {| kstepping := kstepping s; knext := true; krunning := krunning s; kpassed := kpassed s |} Hs Hr Ho').
    cbn in IH. destruct (knext s); lia.
  - rewrite Hs, Hr. destruct (knext s) eqn:En; cbn [andb negb].
    + specialize (IH {| kstepping := true; knext := false; krunning := true; kpassed := kpassed s + 1 |} eq_refl eq_refl Ho').
      cbn in IH. lia.
    + specialize (IH s Hs Hr Ho'). rewrite En in IH. lia.
Qed.
Lemma stepping_progress : forall s, knext (k_step s KStep) = true /\
  (kstepping s = true -> kpassed (k_runs s [KStep; KGate]) = kpassed s + 1).
Proof.
  intros s. split; [reflexivity|]. intros H. unfold k_runs. cbn. rewrite H. cbn.
  rewrite andb_false_r. reflexivity.
Qed.

(** ** abort of all sequences *)
Lemma ab_after : forall os1 os2 s, (forall x, In x os2 -> x <> ABStart s) -> ab_runs (os1 ++ ABAbortAll :: os2) s = true.
Proof.
  intros os1 os2 s H. unfold ab_runs. rewrite fold_left_app. cbn [fold_left].
  enough (forall f, f s = true -> fold_left ab_step os2 f s = true) by (apply H0; reflexivity).
  induction os2 as [|o os2 IH]; intros f Hf; [exact Hf|]. cbn. apply IH.
  - intros x Hx. apply H. right; exact Hx.
  - destruct o as [|q]; [reflexivity|]. cbn. rewrite upd_other; [exact Hf|].
    intros ->. apply (H (ABStart q)); [left; reflexivity|reflexivity].
Qed.

(** ** a restart monitor that stays true *)
Definition ll_defs (s : nat) : seqdef := {| sstack := [s]; smons := match s with O => [0%nat] | _ => [] end; sbody := Ret 0 |}.
Definition ll_mons (m : nat) : mondef := {| mowner := 0; mbeh := Restart; mexc := None |}.
Definition ll_orc (n : nat) : bool := true.

Lemma ll_wf : wf_config ll_defs ll_mons.
Proof.
  split; [intros s; exists []; reflexivity|]. split.
  { intros q [|p pre] s suf H; cbn in H; inversion H; subst; [reflexivity|]. destruct pre; discriminate. }
  split; [intros [|s] m Hm; cbn in Hm; [reflexivity|destruct Hm]|].
  split; [intros s; constructor|]. intros m e H; discriminate.
Qed.

Lemma ll_check : forall n w, qinexc (wq w 0) = false -> qfired (wq w 0) = false ->
  check ll_defs ll_mons ll_orc n 0 w = OutOfFuel \/
  exists w', check ll_defs ll_mons ll_orc n 0 w = Fin w' /\ qinexc (wq w' 0) = false /\ qphase (wq w' 0) = Restarting.
Proof.
  intros n w Hi Hf. destruct n as [|n]; [left; reflexivity|]. rewrite check_S.
  change (sstack (ll_defs 0)) with [0%nat].
  destruct n as [|n]; [left; reflexivity|]. rewrite scan_S, Hi. change (smons (ll_defs 0)) with [0%nat].
  destruct n as [|n]; [left; reflexivity|]. rewrite scan_mons_S. unfold ask. change (ll_orc (wpos w)) with true.
  cbv beta iota. change (mowner (ll_mons 0)) with 0%nat. change (mexc (ll_mons 0)) with (@None nat).
  cbn [wq]. rewrite Hf. cbn [rbind fst].
  destruct n as [|n]; [left; reflexivity|]. rewrite scan_mons_S. cbn [rbind fst snd].
  rewrite scan_S. cbn [rbind fst snd]. right. eexists. split; [reflexivity|]. split; reflexivity.
Qed.

Lemma ll_loop : forall n ret w, qinexc (wq w 0) = false ->
  match qphase (wq w 0) with
  | Idle | Restarting => True
  | Starting | Running => qfired (wq w 0) = false
  | _ => False
  end -> loop ll_defs ll_mons ll_orc n 0 ret w = OutOfFuel.
Proof.
  intros n; induction n as [n IH] using (well_founded_induction lt_wf). intros ret w Hi Hp.
  destruct n as [|n]; [reflexivity|]. rewrite loop_S.
  destruct (qphase (wq w 0)) eqn:Ep; try contradiction.
  - destruct (ll_check n (clear_active w 0)) as [E|(w' & E & E1 & E2)].
    + rewrite wq_clear. exact Hi.
    + rewrite wq_clear. reflexivity.
    + rewrite E. reflexivity.
    + rewrite E. cbn [rbind]. rewrite E2. apply IH; [lia|exact E1|]. rewrite E2. exact I.
  - unfold ask. change (ll_orc (wpos w)) with true. cbv beta iota. change (sbody (ll_defs 0)) with (Ret 0).
    destruct n as [|n]; [reflexivity|]. rewrite runscript_S. cbn [rbind fst snd]. apply IH; [lia| |].
    + rewrite wq_emit, wq_setphase. cbn. exact Hi.
    + rewrite wq_emit, wq_setphase. cbn. exact Hp.
  - destruct (ll_check n w Hi Hp) as [E|(w' & E & E1 & E2)]; rewrite E; [reflexivity|].
    cbn [rbind]. rewrite E2. apply IH; [lia|exact E1|]. rewrite E2. exact I.
  - apply IH; [lia| |].
    + rewrite wq_clear, wq_setphase. cbn. exact Hi.
    + rewrite wq_clear, wq_setphase. cbn. reflexivity.
Qed.

Lemma ll_never_ends : forall n, exec ll_defs ll_mons ll_orc n 0 world_new = OutOfFuel.
Proof.
  intros [|n]; [reflexivity|]. rewrite exec_S. cbn [world_new wq qbusy]. apply ll_loop; [reflexivity|exact I].
Qed.

(** ** a step none of whose monitors is ever true ends once its exit condition holds *)
Section Ends.
Variable defs : nat -> seqdef.
Variable mons : nat -> mondef.
Variable orc : nat -> bool.

Lemma scan_mons_total : forall ms n act w, (length ms < n)%nat ->
  (forall i, (i < length ms)%nat -> orc (wpos w + i) = false) ->
  exists w', scan_mons defs mons orc n ms act w = Fin (w', act).
Proof.
  intros ms; induction ms as [|m ms IH]; intros n act w Hn Hq; (destruct n as [|n]; [lia|]); rewrite scan_mons_S.
  - eauto.
  - unfold ask. pose proof (Hq 0%nat ltac:(cbn; lia)) as H0. rewrite Nat.add_0_r in H0. rewrite H0.
    apply IH; [cbn in Hn; lia|]. intros i Hi. cbn. rewrite <- (Hq (S i)) by (cbn; lia). f_equal. lia.
Qed.

Lemma scan_total : forall qs n act w,
  (length qs + length (flat_map (fun q => smons (defs q)) qs) < n)%nat ->
  (forall q, In q qs -> qinexc (wq w q) = false) ->
  (forall i, (i < length (flat_map (fun q => smons (defs q)) qs))%nat -> orc (wpos w + i) = false) ->
  exists w', scan defs mons orc n qs act w = Fin (w', act).
Proof.
  intros qs; induction qs as [|q qs IH]; intros n act w Hn Hi Hq; (destruct n as [|n]; [lia|]); rewrite scan_S.
  - eauto.
  - cbn [flat_map length] in *. rewrite app_length in *. rewrite (Hi q (or_introl eq_refl)).
    destruct (scan_mons_total (smons (defs q)) n act w) as (w1 & E1); [lia|intros; apply Hq; lia|].
    rewrite E1. cbn [rbind fst snd].
    destruct (scan_mons_quiet defs mons orc n _ _ _ _ _ E1) as (F1 & F2 & _); [intros; apply Hq; lia|].
    apply IH; [lia| |].
    + intros x Hx. rewrite F1. apply Hi. right; exact Hx.
    + intros i Hl. rewrite F2. rewrite <- (Hq (length (smons (defs q)) + i)%nat) by lia. f_equal. lia.
Qed.

Lemma check_total : forall s n w,
  let k := length (flat_map (fun q => smons (defs q)) (sstack (defs s))) in
  (length (sstack (defs s)) + k + 1 < n)%nat ->
  (forall q, In q (sstack (defs s)) -> qinexc (wq w q) = false) ->
  (forall i, (i < k)%nat -> orc (wpos w + i) = false) ->
  exists w', check defs mons orc n s w = Fin w' /\ wq w' = wq w /\ wpos w' = (wpos w + k)%nat.
Proof.
  intros s n w k Hn Hi Hq. destruct n as [|n]; [lia|]. rewrite check_S.
  destruct (scan_total (sstack (defs s)) n None w) as (w' & E); [fold k; lia|exact Hi|exact Hq|].
  rewrite E. cbn [rbind fst snd]. exists w'. split; [reflexivity|].
  destruct (scan_quiet defs mons orc n _ _ _ _ _ E Hi Hq) as (F1 & F2 & _). auto.
Qed.

(** Polls: [j] polls in which the exit condition is false, then one in which it is true. *)
Lemma running_ends : forall s k, k = length (flat_map (fun q => smons (defs q)) (sstack (defs s))) ->
  forall j ret w, qphase (wq w s) = Running ->
  (forall q, In q (sstack (defs s)) -> qinexc (wq w q) = false) ->
  (forall p i, (p <= j)%nat -> (i < k)%nat -> orc (wpos w + p * S k + i) = false) ->
  (forall p, (p <= j)%nat -> orc (wpos w + p * S k + k) = Nat.eqb p j) ->
  exists n w', loop defs mons orc n s ret w = Fin (w', ret).
Proof.
  intros s k Hk j; induction j as [|j IH]; intros ret w Hp Hi Hq He.
  - exists (S (S (S (length (sstack (defs s)) + k + 1)))).
    rewrite loop_S, Hp. destruct (check_total s (S (S (length (sstack (defs s)) + k + 1))) w) as (w1 & E & E1 & E2).
    { rewrite <- Hk. lia. } { exact Hi. } { rewrite <- Hk. intros i Hl. specialize (Hq 0%nat i ltac:(lia) Hl). rewrite Nat.mul_0_l, Nat.add_0_r in Hq. exact Hq. }
    rewrite E. cbn [rbind]. rewrite E1, Hp. unfold ask. rewrite <- Hk in E2.
    pose proof (He 0%nat ltac:(lia)) as H0. rewrite Nat.mul_0_l, Nat.add_0_r in H0. rewrite E2, H0. cbn [Nat.eqb].
    rewrite loop_S, wq_setphase. cbn [qphase]. eauto.
  - (* one poll *)
    set (n0 := S (S (length (sstack (defs s)) + k + 1))).
    destruct (check_total s n0 w) as (w1 & E & E1 & E2).
    { rewrite <- Hk. unfold n0. lia. } { exact Hi. } { rewrite <- Hk. intros i Hl. specialize (Hq 0%nat i ltac:(lia) Hl). rewrite Nat.mul_0_l, Nat.add_0_r in Hq. exact Hq. }
    rewrite <- Hk in E2.
    set (w2 := {| wq := wq w1; wpos := S (wpos w1); wlog := wlog w1 ++ [VExit s false] |}).
    destruct (IH ret w2) as (n & w' & Hl).
    + cbn. rewrite E1. exact Hp.
    + cbn. rewrite E1. exact Hi.
    + intros p i Hpj Hik. cbn [w2 wpos]. rewrite E2, <- (Hq (S p) i) by lia. f_equal. lia.
    + intros p Hpj. cbn [w2 wpos]. rewrite E2. replace (Nat.eqb p j) with (Nat.eqb (S p) (S j)) by reflexivity.
      rewrite <- (He (S p)) by lia. f_equal. lia.
    + exists (S (n0 + n)), w'. rewrite loop_S, Hp.
      assert (HC : check defs mons orc (n0 + n) s w = Fin w1).
      { rewrite Nat.add_comm. clear - E. induction n as [|n IHn]; [exact E|]. cbn [Nat.add].
        destruct (fuel_all defs mons orc (n + n0)) as (_ & _ & _ & X & _). destruct (X s w) as [Y|Y]; congruence. }
      rewrite HC. cbn [rbind]. rewrite E1, Hp. unfold ask.
      pose proof (He 0%nat ltac:(lia)) as H0. rewrite Nat.mul_0_l, Nat.add_0_r in H0. rewrite E2, H0. cbn [Nat.eqb].
      unfold w2 in Hl. rewrite E2 in Hl. clear - Hl E2. 
      assert (HL : forall m, loop defs mons orc (m + n) s ret {| wq := wq w1; wpos := S (wpos w + k); wlog := wlog w1 ++ [VExit s false] |} = Fin (w', ret)).
      { intros m. induction m as [|m IHm]; [exact Hl|]. cbn [Nat.add].
        destruct (fuel_all defs mons orc (m + n)) as (X & _). 
        destruct (X s ret {| wq := wq w1; wpos := S (wpos w + k); wlog := wlog w1 ++ [VExit s false] |}) as [Y|Y]; congruence. }
      apply HL.
Qed.

Lemma quiet_step_ends : forall s r k j w, k = length (flat_map (fun q => smons (defs q)) (sstack (defs s))) ->
  In s (sstack (defs s)) -> sbody (defs s) = Ret r ->
  qbusy (wq w s) = false -> qphase (wq w s) = Idle ->
  (forall q, In q (sstack (defs s)) -> qinexc (wq w q) = false) ->
  (* start: no monitor true, precondition true *)
  (forall i, (i < k)%nat -> orc (wpos w + i) = false) -> orc (wpos w + k) = true ->
  (* polls *)
  (forall p i, (p <= j)%nat -> (i < k)%nat -> orc (wpos w + S k + p * S k + i) = false) ->
  (forall p, (p <= j)%nat -> orc (wpos w + S k + p * S k + k) = Nat.eqb p j) ->
  exists n w', exec defs mons orc n s w = Fin (w', r).
Proof.
  intros s r k j w Hk Hin Hbody Hb Hp Hi Hq Hpre Hqp Hep.
  set (w0 := clear_active (lock w s true) s).
  assert (E0 : wq w0 s = {| qphase := Idle; qfired := false; qactive := None; qinexc := false; qbusy := true |}).
  { unfold w0. rewrite wq_clear. unfold lock. cbn. rewrite upd_same. cbn. rewrite Hp, (Hi s Hin). reflexivity. }
  assert (O0 : forall q, q <> s -> wq w0 q = wq w q).
  { intros q N. unfold w0. rewrite wq_clear_o by exact N. unfold lock. cbn. rewrite upd_other by exact N. reflexivity. }
  assert (I0 : forall q, In q (sstack (defs s)) -> qinexc (wq w0 q) = false).
  { intros q Hqs. destruct (Nat.eq_dec q s) as [->|N]; [rewrite E0; reflexivity|]. rewrite (O0 q N). apply Hi, Hqs. }
  set (n0 := S (S (length (sstack (defs s)) + k + 1))).
  destruct (check_total s n0 w0) as (w1 & C & C1 & C2).
  { rewrite <- Hk. unfold n0. lia. } { exact I0. } { rewrite <- Hk. exact Hq. }
  rewrite <- Hk in C2. change (wpos w0) with (wpos w) in C2.
  set (w2 := setphase w1 s Starting).
  set (w3 := {| wq := wq w2; wpos := S (wpos w2); wlog := wlog w2 ++ [VPre s true] |}).
  set (w4 := emit (setphase (emit w3 (VAct s)) s Running) (VRet s r)).
  assert (P4 : wpos w4 = (wpos w + S k)%nat).
  { cbn. rewrite C2. lia. }
  destruct (running_ends s k Hk j r w4) as (n & w' & L).
  { unfold w4. rewrite wq_emit, wq_setphase. reflexivity. }
  { intros q Hqs. unfold w4. rewrite wq_emit. destruct (Nat.eq_dec q s) as [->|N].
    - rewrite wq_setphase. cbn. unfold w2, setphase. cbn. rewrite upd_same, C1, E0. reflexivity.
    - rewrite wq_setphase_o by exact N. cbn. unfold w2. rewrite upd_other by exact N. rewrite C1. apply I0, Hqs. }
  { rewrite P4. exact Hqp. }
  { rewrite P4. exact Hep. }
  assert (HC : forall m, check defs mons orc (m + n0) s w0 = Fin w1).
  { intros m. induction m as [|m IHm]; [exact C|]. cbn [Nat.add].
    destruct (fuel_all defs mons orc (m + n0)) as (_ & _ & _ & X & _). destruct (X s w0) as [Y|Y]; congruence. }
  assert (HL : forall m, loop defs mons orc (m + n) s r w4 = Fin (w', r)).
  { intros m. induction m as [|m IHm]; [exact L|]. cbn [Nat.add].
    destruct (fuel_all defs mons orc (m + n)) as (X & _). destruct (X s r w4) as [Y|Y]; congruence. }
  exists (S (S (S (S (n0 + n))))), w'. rewrite exec_S, Hb. rewrite loop_S.
  assert (Hp' : qphase (wq (lock w s true) s) = Idle) by (unfold lock; cbn; rewrite upd_same; exact Hp).
  rewrite Hp'. fold w0. rewrite (Nat.add_comm n0 n). change (S (S (n + n0))) with (S (S n) + n0)%nat. rewrite HC.
  cbn [rbind]. rewrite C1, E0. cbn [qphase]. change (S (S n) + n0)%nat with (S (S (n + n0))).
  rewrite loop_S. fold w2. assert (Hp2 : qphase (wq w2 s) = Starting) by (unfold w2; rewrite wq_setphase; reflexivity).
  rewrite Hp2. unfold ask. change (wpos w2) with (wpos w1). rewrite C2, Hpre, Hbody.
  rewrite runscript_S. cbn [rbind fst snd].
  replace (S (n + n0)) with (S n0 + n)%nat by lia. unfold w4, w3 in HL. change (wpos w2) with (wpos w1) in HL. rewrite C2 in HL. apply HL.
Qed.
End Ends.

(** ** a caller's monitor is true when a step starts *)
Lemma start_aborted : forall defs mons orc n s w w' r pre o suf m1 m m2,
  wf_config defs mons ->
  exec defs mons orc n s w = Fin (w', r) ->
  sstack (defs s) = s :: pre ++ o :: suf -> ~ In o (s :: pre) -> qphase (wq w s) = Idle ->
  smons (defs o) = m1 ++ m :: m2 -> mexc (mons m) = None -> mbeh (mons m) <> Resume ->
  (forall q, In q (sstack (defs s)) -> qinexc (wq w q) = false) ->
  (forall q, In q pre -> qfired (wq w q) = false) ->
  (qfired (wq w o) = true -> exists m', qactive (wq w o) = Some m' /\ mbeh (mons m') <> Resume) ->
  (forall i, (i < length (flat_map (fun q => smons (defs q)) (sstack (defs s))))%nat ->
     orc (wpos w + i)%nat = Nat.eqb i (length (flat_map (fun q => smons (defs q)) (s :: pre)) + length m1)%nat) ->
  r = -1 /\ exists seg, wlog w' = wlog w ++ seg ++ [VEnd s (-1)] /\
    forall b, ~ In (VAct s) seg /\ ~ In (VPre s b) seg.
Proof.
  intros defs mons orc n s w w' r pre o suf m1 m m2 WF H Est Hno Hid Em Hx Hb Hi Hf Hfo Ho.
  destruct n as [|n]; [discriminate|]. rewrite exec_S in H.
  destruct (qbusy (wq w s)) eqn:Eb; [discriminate|].
  destruct n as [|n]; [discriminate|]. rewrite loop_S in H.
  assert (Hp' : qphase (wq (lock w s true) s) = Idle) by (unfold lock; cbn; rewrite upd_same; exact Hid).
  rewrite Hp' in H. set (w0 := clear_active (lock w s true) s) in *.
  assert (O0 : forall q, q <> s -> wq w0 q = wq w q).
  { intros q N. unfold w0. rewrite wq_clear_o by exact N. unfold lock. cbn. rewrite upd_other by exact N. reflexivity. }
  assert (E0 : qinexc (wq w0 s) = false /\ qfired (wq w0 s) = false).
  { unfold w0. rewrite wq_clear. cbn. rewrite upd_same. cbn. split; [|reflexivity]. apply Hi. rewrite Est. left; reflexivity. }
  destruct (check defs mons orc n s w0) as [w1| |] eqn:Ec; cbn [rbind] in H; try discriminate.
  assert (Nos : o <> s) by (intros ->; apply Hno; left; reflexivity).
  assert (Hev : exists seg, wlog w1 = wlog w0 ++ seg /\ forall b, ~ In (VAct s) seg /\ ~ In (VPre s b) seg).
  { (* only monitor events: all monitors but m are false *)
    clear H. destruct n as [|n]; [discriminate|]. rewrite check_S in Ec.
    destruct (scan defs mons orc n (sstack (defs s)) None w0) as [[wx act]| |] eqn:Es; cbn [rbind fst snd] in Ec; try discriminate.
    assert (Hl : wlog w1 = wlog wx).
    { destruct act as [a|]; [|inversion Ec; reflexivity]. destruct (qactive (wq wx a)); [|discriminate].
      inversion Ec; subst. apply propagate_log. }
    rewrite Hl. clear Ec Hl.
    (* every evaluated monitor that is true is m, which has no exception sequence *)
    assert (Hsm : forall n ms act w a w' act', scan_mons defs mons orc n ms act w = Fin (w', act') ->
       (forall i x, nth_error ms i = Some x -> orc (wpos w + i)%nat = true -> mexc (mons x) = None) ->
       a = s -> exists seg, wlog w' = wlog w ++ seg /\ wpos w' = (wpos w + length ms)%nat /\
         (forall b, ~ In (VAct a) seg /\ ~ In (VPre a b) seg)).
    { clear. intros n; induction n as [|n IH]; intros ms act w a w' act' H Hm Ha; [discriminate|].
      rewrite scan_mons_S in H. destruct ms as [|x ms].
      { inversion H; subst. exists []. rewrite app_nil_r. cbn. repeat split; auto. }
      unfold ask in H. set (w1 := {| wq := wq w; wpos := S (wpos w); wlog := wlog w ++ [VMon x (orc (wpos w))] |}) in *.
      assert (Hm' : forall i y, nth_error ms i = Some y -> orc (S (wpos w) + i)%nat = true -> mexc (mons y) = None).
      { intros i y Hy Hoy. apply (Hm (S i) y Hy). rewrite <- Hoy. f_equal. lia. }
      assert (Hc : forall wy act2 es, scan_mons defs mons orc n ms act2 wy = Fin (w', act') ->
         wpos wy = S (wpos w) -> wlog wy = wlog w ++ es -> (forall b, ~ In (VAct a) es /\ ~ In (VPre a b) es) ->
         exists seg, wlog w' = wlog w ++ seg /\ wpos w' = (wpos w + length (x :: ms))%nat /\
         (forall b, ~ In (VAct a) seg /\ ~ In (VPre a b) seg)).
      { intros wy act2 es Hy Py Ly Ey. destruct (IH ms act2 wy a w' act' Hy) as (seg & L & P & E); auto.
        - rewrite Py. exact Hm'.
        - exists (es ++ seg). split; [rewrite L, Ly, app_assoc; reflexivity|]. split; [cbn [length]; lia|].
          intros b. destruct (E b), (Ey b). split; intros X; apply in_app_or in X; tauto. }
      destruct (orc (wpos w)) eqn:Eo.
      - destruct (qfired (wq w1 (mowner (mons x)))).
        + apply (Hc w1 _ [VMon x true] H); auto. intros b. split; intros [X|[]]; discriminate.
        + rewrite (Hm 0%nat x eq_refl) in H by (rewrite Nat.add_0_r; exact Eo). cbn [rbind fst] in H.
          apply (Hc _ _ [VMon x true; VFire x; VHandled x] H); [reflexivity| |].
          * cbn. rewrite <- !app_assoc. reflexivity.
          * intros b. split; intros [X|[X|[X|[]]]]; discriminate.
      - apply (Hc w1 _ [VMon x false] H); auto. intros b. split; intros [X|[]]; discriminate. }
    assert (Hsc : forall n qs act w w' act', scan defs mons orc n qs act w = Fin (w', act') ->
       (forall q, In q qs -> qinexc (wq w q) = false) ->
       (forall q x, In q qs -> In x (smons (defs q)) -> mowner (mons x) = q) ->
       (forall i x, nth_error (flat_map (fun q => smons (defs q)) qs) i = Some x -> orc (wpos w + i)%nat = true -> mexc (mons x) = None) ->
       exists seg, wlog w' = wlog w ++ seg /\ (forall b, ~ In (VAct s) seg /\ ~ In (VPre s b) seg)).
    { clear - Hsm. intros n; induction n as [|n IH]; intros qs act w w' act' H Hi Hown Hm; [discriminate|].
      rewrite scan_S in H. destruct qs as [|q qs].
      { inversion H; subst. exists []. rewrite app_nil_r. cbn. repeat split; auto. }
      rewrite (Hi q (or_introl eq_refl)) in H.
      destruct (scan_mons defs mons orc n (smons (defs q)) act w) as [[w1 a1]| |] eqn:E1; cbn [rbind fst snd] in H; try discriminate.
      destruct (Hsm n _ _ _ s _ _ E1) as (g1 & L1 & P1 & N1); auto.
      { intros i x Hx Hox. apply (Hm i x); [|exact Hox]. cbn. rewrite nth_error_app1; [exact Hx|]. apply nth_error_Some. congruence. }
      destruct (IH qs a1 w1 w' act' H) as (g2 & L2 & N2).
      - intros x Hx.
        assert (Hs : forall y, qinexc (wq w1 y) = qinexc (wq w y)).
        { assert (Hmx : forall i x, nth_error (smons (defs q)) i = Some x -> orc (wpos w + i)%nat = true -> mexc (mons x) = None).
          { intros i x' Hx' Hox. apply (Hm i x'); [|exact Hox]. cbn. rewrite nth_error_app1; [exact Hx'|]. apply nth_error_Some. congruence. }
          pose proof (Hi q (or_introl eq_refl)) as Hiq.
          assert (Ho : forall x', In x' (smons (defs q)) -> mowner (mons x') = q) by (intros; apply Hown; [left; reflexivity|assumption]).
          clear - E1 Hmx Hiq Ho. revert act w w1 a1 E1 Hmx Hiq Ho. generalize (smons (defs q)) as ms.
          induction n as [|n IH]; intros ms act w w1 a1 E1 Hmx Hiq Ho; [discriminate|].
          rewrite scan_mons_S in E1. destruct ms as [|x ms]; [inversion E1; reflexivity|].
          unfold ask in E1. set (wa := {| wq := wq w; wpos := S (wpos w); wlog := wlog w ++ [VMon x (orc (wpos w))] |}) in *.
          assert (Hmx' : forall i y, nth_error ms i = Some y -> orc (S (wpos w) + i)%nat = true -> mexc (mons y) = None).
          { intros i y Hy Hoy. apply (Hmx (S i) y Hy). rewrite <- Hoy. f_equal. lia. }
          assert (Ho' : forall x', In x' ms -> mowner (mons x') = q) by (intros; apply Ho; right; assumption).
          destruct (orc (wpos w)) eqn:Eo.
          - destruct (qfired (wq wa (mowner (mons x)))); [apply (IH ms _ wa _ _ E1 Hmx' Hiq Ho')|].
            rewrite (Hmx 0%nat x eq_refl) in E1 by (rewrite Nat.add_0_r; exact Eo). cbn [rbind fst] in E1.
            assert (Hy : forall y, qinexc (wq (handled mons (fire mons wa x) x) y) = qinexc (wq w y)).
            { intros y. unfold handled, fire. cbn. rewrite (Ho x (or_introl eq_refl)).
              destruct (Nat.eq_dec y q) as [->|N]; [rewrite upd_same, Hiq; destruct (mbeh (mons x)); reflexivity|].
              rewrite !upd_other by exact N. reflexivity. }
            intros y. rewrite (IH ms _ _ _ _ E1 Hmx'); [apply Hy| |exact Ho']. rewrite Hy. exact Hiq.
          - apply (IH ms _ wa _ _ E1 Hmx' Hiq Ho'). }
        rewrite Hs. apply Hi. right; exact Hx.
      - intros x y Hx Hy. apply Hown; [right; exact Hx|exact Hy].
      - intros i x Hx Hox. apply (Hm (length (smons (defs q)) + i)%nat x).
        + cbn. rewrite nth_error_app2 by lia. rewrite <- Hx. f_equal. lia.
        + rewrite <- Hox. f_equal. rewrite P1. lia.
      - exists (g1 ++ g2). split; [rewrite L2, L1, app_assoc; reflexivity|].
        intros b. destruct (N1 b), (N2 b). split; intros X; apply in_app_or in X; tauto. }
    destruct (Hsc _ _ _ _ _ _ Es) as (seg & L & N).
    - intros q Hq. destruct (Nat.eq_dec q s) as [->|Nq]; [apply E0|]. rewrite (O0 q Nq). apply Hi, Hq.
    - intros q x Hq Hx'. apply (wf_owner defs mons WF), Hx'.
    - intros i x Hx' Hox. change (wpos w0) with (wpos w) in Hox.
      assert (Hlt : (i < length (flat_map (fun q => smons (defs q)) (sstack (defs s))))%nat) by (apply nth_error_Some; congruence).
      rewrite (Ho i Hlt) in Hox. apply Nat.eqb_eq in Hox. subst i.
      rewrite Est in Hx'. change (s :: pre ++ o :: suf) with ((s :: pre) ++ o :: suf) in Hx'.
      rewrite flat_map_app in Hx'. rewrite nth_error_app2 in Hx' by lia.
      replace (length (flat_map (fun q => smons (defs q)) (s :: pre)) + length m1 - length (flat_map (fun q => smons (defs q)) (s :: pre)))%nat
        with (length m1) in Hx' by lia.
      cbn [flat_map] in Hx'. rewrite Em, <- app_assoc in Hx'. rewrite nth_error_app2 in Hx' by lia.
      rewrite Nat.sub_diag in Hx'. cbn in Hx'. inversion Hx'; subst. exact Hx.
    - exists seg. auto. }
  assert (Ha : qphase (wq w1 s) = Aborting).
  { destruct (single_monitor defs mons orc n s w0 w1 (s :: pre) o suf m1 m m2 WF Ec Est Hno Em Hx Hb) as (A1 & _).
    - intros q Hq. destruct (Nat.eq_dec q s) as [->|N]; [apply E0|]. rewrite (O0 q N). apply Hi, Hq.
    - intros q Hq. destruct (Nat.eq_dec q s) as [->|N]; [apply E0|]. rewrite (O0 q N). destruct Hq as [<-|Hq]; [congruence|]. apply Hf, Hq.
    - rewrite (O0 o Nos). exact Hfo.
    - exact Ho.
    - apply A1. left; reflexivity. }
  rewrite Ha in H. destruct n as [|n]; [discriminate|]. rewrite loop_S, Ha in H.
  destruct n as [|n]; [discriminate|]. rewrite loop_S, wq_setphase in H. cbn [qphase] in H. inversion H; subst.
  split; [reflexivity|]. destruct Hev as (seg & L & N). exists seg. split; [|exact N].
  cbn. rewrite L. change (wlog w0) with (wlog w). rewrite <- app_assoc. reflexivity.
Qed.
