(** Counterexamples and helper lemmas for the property file of the control blocks. *)
From Coq Require Import Reals Lra Lia Floats.SpecFloat.
From Flocq Require Import Core.Raux.
From Verif Require Import Prelude Num NumOrd CtrlModel CtrlSpec CtrlProofs CtrlProofs2.
Open Scope Z_scope.

Lemma reads_after os i r : first_since_disconnect i (OSig r) os ->
  forall n, get_signal (S n) (conn_runs os) i = RSignal r.
Proof. intros H n. apply conn_first in H. cbn. now rewrite H. Qed.

Lemma reads_unconnected c i n : is_connected c i = false -> get_signal (S n) c i = RNotConnected i.
Proof. unfold is_connected. cbn. destruct (c i); [discriminate|reflexivity]. Qed.

Lemma reconnect c i r : exists c', conn_step (fst (conn_step c (CDisconnect i))) (CConnect i r) = (c', true) /\ c' i = Some r.
Proof.
  eexists. cbn. rewrite upd_same. split; [reflexivity|]. apply upd_same.
Qed.

Lemma connect_null : exists c i, conn_step c (CConnectPtr i None) = (upd c i None, true) /\
  is_connected (fst (conn_step c (CConnectPtr i None))) i = false.
Proof. exists conns_new, 0%nat. split; reflexivity. Qed.

Lemma port_wraps : forall n i, 0 <= i <= 255 -> i < n -> get_port n (i + 256) = Ok i.
Proof.
  intros n i H H'. unfold get_port. replace ((i + 256) mod 256) with i.
  - destruct (Z.geb_spec i n); [lia|reflexivity].
  - rewrite Z.add_mod, Z.mod_same, Z.add_0_r, Z.mod_mod, Z.mod_small; lia.
Qed.

Lemma copy_shares : exists os i j, i <> j /\
  nth i (map get_id (sids (sig_runs os))) 0 = nth j (map get_id (sids (sig_runs os))) 0 /\
  (length (sids (sig_runs os)) <= 2)%nat /\ (i < 2)%nat /\ (j < 2)%nat.
Proof. exists [SNew; SCopy 0], 0%nat, 1%nat. cbn. repeat split; lia. Qed.

Lemma sub_out_unset M out i : 0 <= i <= 255 -> i < M -> out i = None -> sub_get_out M out i = UB.
Proof.
  intros H H' E. unfold sub_get_out, get_port. rewrite Z.mod_small by lia.
  destruct (Z.geb_spec i M); [lia|]. now rewrite E.
Qed.
Lemma set_out_beyond M out o i : 0 <= i <= 255 -> M <= i -> set_out M out o i = UB.
Proof.
  intros H H'. unfold set_out. rewrite Z.mod_small by lia. destruct (Z.geb_spec i M); [reflexivity|lia].
Qed.

(** Gain: an accepted gain set while smooth change is off is not the target afterwards. *)
Definition gain_ops : list (g_op Dnum) :=
  [@GDiff Dnum (dlit 1 1); @GSet Dnum (dlit 5 1); GSmooth true].
Lemma gain_target_old :
  let s := g_runs Dnum (g_new Dnum (dlit 1 1) (dlit 10 1) (dlit 0 1)) gain_ops in
  g_gain s = dlit 5 1 /\ g_target s = dlit 1 1 /\ g_gain (fst (g_run Dnum s (mksig (dlit 1 1) 0))) = dlit 4 1.
Proof. vm_compute. auto. Qed.

(** Gain in binary64: the increment is absorbed and the target is never reached. *)
Definition gain_big : gain Dnum :=
  {| g_gain := dofZ (2 ^ 53); g_max := dofZ (2 ^ 60); g_min := dofZ 0; g_target := dofZ (2 ^ 53 + 4);
     g_diff := dofZ 1; g_en := true; g_smooth := true |}.
Lemma gain_big_stuck i n : g_runs Dnum gain_big (repeat (GRun i) n) = gain_big.
Proof.
  assert (E : g_step Dnum gain_big (GRun i) = gain_big) by (vm_compute; reflexivity).
  unfold g_runs. induction n; cbn [repeat fold_left]; [reflexivity|]. rewrite E. exact IHn.
Qed.

(** Integrator: the limit is not reached although the integral would pass it. *)
Definition i_sat_state : integ Dnum :=
  {| i_first := false; i_en := true; i_prev := mksig (dlit 3 4) 0; i_hi := dlit 1 1; i_lo := dlit (-1) 1 |}.
Lemma i_not_saturated :
  snd (i_run Dnum i_sat_state None (mksig (dlit 1 2) 1000000000)) = mksig (dlit 3 4) 1000000000.
Proof. vm_compute. reflexivity. Qed.

(** An integrator without initial condition outputs NaN in every run. *)
Lemma i_nan_run : exists (o : i_op Dnum) y, (forall v, o <> IInit v) /\
  snd (i_step Dnum (i_new Dnum dnan (dlit (-100) 1) (dlit 100 1)) o) = Some y /\ sv y = dnan.
Proof.
  exists (IRun (Some true) (mksig (dlit 1 1) 5)), (mksig dnan 5). split; [discriminate|]. split; [vm_compute; reflexivity|reflexivity].
Qed.
Lemma i_nan (l : list (i_op Dnum)) : forall s, sv (i_prev s) = dnan ->
  (forall o, In o l -> match o with IInit _ => False | _ => True end) ->
  i_hist s l (fun s o => forall y, snd (i_step Dnum s o) = Some y -> sv y = dnan).
Proof.
  induction l as [|o l IH]; intros s H Ha; cbn [i_hist]; [exact I|].
  assert (Hs : sv (i_prev (fst (i_step Dnum s o))) = dnan /\
               forall y, snd (i_step Dnum s o) = Some y -> sv y = dnan).
  { specialize (Ha o (or_introl eq_refl)). destruct o; try tauto; cbn -[secs nltb nmul nadd] in *.
    - rewrite H. split; [|intros y E; injection E as <-; cbn -[secs nltb nmul nadd]];
        destruct lvl as [[]|]; cbn -[secs]; auto; destruct (i_en s); auto.
    - split; [exact H|discriminate].
    - rewrite H. split; [|discriminate]. cbn. destruct hi as [|[]| |[]]; reflexivity. }
  split; [exact (proj2 Hs)|]. apply IH; [exact (proj1 Hs)|intros o' Ho; apply Ha; now right].
Qed.

(** Distinct time stamps with equal conversions. *)
Lemma secs_collide : exists t t', t <> t' /\ 0 <= t < 2 ^ 64 /\ 0 <= t' < 2 ^ 64 /\ secs Dnum t = secs Dnum t'.
Proof. exists (2 ^ 60), (2 ^ 60 + 1). repeat split; try lia; vm_compute; reflexivity. Qed.
Lemma d_collide : exists i0 i1 : signal Dnum, st i0 <> st i1 /\
  map sv (snd (d_runs Dnum (d_new Dnum dnan) [i0; i1])) = [dlit 0 1; dlit 0 1] /\ sv i0 = dlit 0 1 /\ sv i1 = dlit 1 1.
Proof.
  exists (mksig (dlit 0 1) (2 ^ 60)), (mksig (dlit 1 1) (2 ^ 60 + 1)). repeat split; try (vm_compute; reflexivity).
  cbn. lia.
Qed.

Lemma sat_vec_spec (lo hi x : list Dnum) k d :
  length lo = length x -> length hi = length x -> (k < length x)%nat ->
  nth k x d <> S754_nan -> SFleb (nth k lo d) (nth k hi d) = true ->
  let o := nth k (sat_calc_vec Dnum lo hi x) d in
  SFleb (nth k lo d) o = true /\ SFleb o (nth k hi d) = true /\
  (SFleb (nth k lo d) (nth k x d) = true -> SFleb (nth k x d) (nth k hi d) = true -> o = nth k x d) /\
  (SFltb (nth k hi d) (nth k x d) = true -> o = nth k hi d) /\
  (SFltb (nth k x d) (nth k lo d) = true -> o = nth k lo d).
Proof.
  intros H1 H2 H3 H4 H5 o. unfold o. rewrite sat_vec_nth by assumption.
  exact (sat_calc_spec Dnum_ord _ _ _ H4 H5).
Qed.

Lemma gain_never : exists s : gain Dnum,
  g_smooth s = true /\ SFltb (dofZ 0) (g_diff s) = true /\ SFltb (g_gain s) (g_target s) = true /\
  forall i n, g_gain (g_runs Dnum s (repeat (GRun i) n)) = g_gain s.
Proof.
  exists gain_big. split; [reflexivity|]. split; [vm_compute; reflexivity|]. split; [vm_compute; reflexivity|].
  intros. now rewrite gain_big_stuck.
Qed.

Lemma connect_true c i r o : connects i r o -> snd (conn_step c o) = true ->
  is_connected (fst (conn_step c o)) i = true.
Proof.
  intros H E. destruct (conn_result c i r o H) as [A B]. destruct (is_connected c i) eqn:C.
  - rewrite (A eq_refl) in E. discriminate.
  - destruct (B eq_refl) as (_ & D & _). unfold is_connected. now rewrite D.
Qed.

Lemma port_refused n i : n <= i mod 256 -> get_port n i = Fault.
Proof. intros H. unfold get_port. destruct (Z.geb_spec (i mod 256) n); [reflexivity|lia]. Qed.

Lemma i_unsaturated : exists (s : integ Dnum) i,
  SFltb (i_hi s) (nadd Dnum (sv (i_prev s)) (nmul Dnum (sv i) (dlit 1 1))) = true /\
  i_en s = true /\ st i - st (i_prev s) = 1000000000 /\
  snd (i_run Dnum s None i) = mksig (sv (i_prev s)) (st i) /\ SFltb (sv (i_prev s)) (i_hi s) = true.
Proof.
  exists i_sat_state, (mksig (dlit 1 2) 1000000000). repeat split; vm_compute; reflexivity.
Qed.

Lemma i_keeps (s : integ Dnum) i : i_first s = false -> i_en s = true ->
  let v := nadd Dnum (sv (i_prev s)) (nmul Dnum (sv i) (nsub Dnum (secs Dnum (st i)) (secs Dnum (st (i_prev s))))) in
  (SFltb (i_lo s) v = true -> SFltb v (i_hi s) = true -> sv (snd (i_run Dnum s None i)) = v) /\
  (SFltb v (i_hi s) = false \/ SFltb (i_lo s) v = false -> sv (snd (i_run Dnum s None i)) = sv (i_prev s)).
Proof.
  intros F E v. unfold i_run. rewrite F, E. fold v. cbn [snd sv].
  change (nltb Dnum v (i_hi s)) with (SFltb v (i_hi s)). change (nltb Dnum (i_lo s) v) with (SFltb (i_lo s) v).
  split.
  - intros -> ->. reflexivity.
  - intros [->| ->]; [reflexivity|]. now rewrite Bool.andb_false_r.
Qed.

Lemma parabolic_225 : parabolic 2 2 5 = 8%R.
Proof.
  rewrite parabolic_high by lra. replace (2 * (2 * 5 - 2))%R with (4 * 4)%R by lra.
  rewrite sqrt_square by lra. lra.
Qed.

Lemma i_hist_imp {N : num} (P Q : integ N -> i_op N -> Prop) : (forall s o, P s o -> Q s o) ->
  forall os s, i_hist s os P -> i_hist s os Q.
Proof. intros H. induction os; cbn; firstorder. Qed.

Lemma i_hist_number (s : integ Dnum) os : i_inside s -> i_hist s os i_allowed ->
  i_hist s os (fun s o => forall y, snd (i_step Dnum s o) = Some y -> sv y <> S754_nan).
Proof.
  intros A B. eapply i_hist_imp; [|exact (i_hist_inside Dnum_ord s os A B)].
  cbn beta. intros s' o H y E. exact (proj1 (ol_le_ok _ _ Dnum_ord _ _ (proj2 (H y E)))).
Qed.

Lemma port_256 : exists n i, n <= i /\ get_port n i = Ok 0.
Proof. exists 1, 256. split; [lia|reflexivity]. Qed.
