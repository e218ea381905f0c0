From Coq Require Import Permutation ZifyBool ZifyNat Reals Lra Psatz.
From Flocq Require Import Core.Raux.
Import List ListNotations.
From Verif Require Import Prelude Num TaskModel TaskSpec.
Open Scope Z_scope.

(** ** C13 ring buffer *)
Section Ring.
Context {T : Type}.
Definition ring_abs (N : nat) (b : @ring T) : list T :=
  map (fun i => ritems b ((rtail b + i) mod N)%nat) (seq 0 (rlen b)).
Definition ring_ok (N : nat) (b : @ring T) : Prop := (rtail b < N /\ rlen b <= N)%nat.

Lemma mod_neq : forall t i j N : nat, (i < j)%nat -> (j - i < N)%nat -> (0 < N)%nat ->
  ((t + i) mod N <> (t + j) mod N)%nat.
Proof.
  intros t i j N Hij Hd HN E.
  pose proof (Nat.div_mod (t + i) N ltac:(lia)) as D1.
  pose proof (Nat.div_mod (t + j) N ltac:(lia)) as D2.
  rewrite E in D1. set (a := ((t + i) / N)%nat) in *. set (b := ((t + j) / N)%nat) in *.
  set (r := ((t + j) mod N)%nat) in *.
  assert (j - i = N * (b - a))%nat by nia.
  assert (b - a = 0 \/ 1 <= b - a)%nat as [?|?] by lia; nia.
Qed.

Lemma push_refines : forall N b v, (0 < N)%nat -> ring_ok N b ->
  ring_ok N (fst (push N b v)) /\
  ((snd (push N b v) = true /\ (length (ring_abs N b) < N)%nat /\
    ring_abs N (fst (push N b v)) = ring_abs N b ++ [v]) \/
   (snd (push N b v) = false /\ (length (ring_abs N b) = N)%nat /\ fst (push N b v) = b)).
Proof.
  intros N b v HN [Ht Hl]. unfold push, ring_abs. rewrite map_length, seq_length.
  destruct (Nat.eqb_spec (rlen b) N) as [E|E]; cbn [fst snd].
  - split; [split; assumption|right; auto].
  - split; [split; cbn; lia|left; split; [reflexivity|split; [lia|]]].
    cbn [rlen rtail ritems]. rewrite seq_S, map_app. cbn [map]. rewrite Nat.add_0_l, upd_same. f_equal.
    apply map_ext_in. intros i Hi. apply in_seq in Hi. apply upd_other.
    apply mod_neq; lia.
Qed.

Lemma pop_refines : forall N b, (0 < N)%nat -> ring_ok N b ->
  ring_ok N (fst (pop N b)) /\
  match ring_abs N b with
  | [] => snd (pop N b) = None /\ fst (pop N b) = b
  | x :: q => snd (pop N b) = Some x /\ ring_abs N (fst (pop N b)) = q
  end.
Proof.
  intros N b HN [Ht Hl]. unfold pop, ring_abs.
  destruct (Nat.eqb_spec (rlen b) 0) as [E|E]; cbn [fst snd].
  - split; [split; assumption|]. rewrite E; cbn; auto.
  - split.
    + split; cbn; [apply Nat.mod_upper_bound; lia|lia].
    + destruct (rlen b) as [|l] eqn:El; [congruence|]. cbn [seq map rlen rtail ritems Nat.pred].
      rewrite Nat.add_0_r, Nat.mod_small by exact Ht. split; [reflexivity|].
      rewrite <- seq_shift, map_map. apply map_ext. intros i. f_equal.
      rewrite Nat.add_mod_idemp_l by lia. f_equal. lia.
Qed.

Lemma ring_refines : forall N os b q, (0 < N)%nat -> ring_ok N b -> q = ring_abs N b ->
  snd (rb_runs N b os) = snd (q_runs N q os) /\
  rlen (fst (rb_runs N b os)) = length (fst (q_runs N q os)).
Proof.
  intros N os; induction os as [|o os IH]; intros b q HN Hok ->; cbn [rb_runs q_runs].
  - split; [reflexivity|]. cbn. unfold ring_abs. rewrite map_length, seq_length. reflexivity.
  - assert (Hstep : ring_ok N (fst (rb_step N b o)) /\
      ring_abs N (fst (rb_step N b o)) = fst (q_step N (ring_abs N b) o) /\
      snd (rb_step N b o) = snd (q_step N (ring_abs N b) o)).
    { destruct o as [v|]; cbn [rb_step q_step].
      - destruct (push_refines N b v HN Hok) as [H1 H2].
        destruct (push N b v) as [b' ok]; cbn [fst snd] in *.
        destruct H2 as [(-> & H3 & H4)|(-> & H3 & ->)].
        + destruct (Nat.ltb_spec (length (ring_abs N b)) N); [|lia]. cbn; auto.
        + destruct (Nat.ltb_spec (length (ring_abs N b)) N); [lia|]. cbn; auto.
      - destruct (pop_refines N b HN Hok) as [H1 H2].
        destruct (pop N b) as [b' v]; cbn [fst snd] in *.
        destruct (ring_abs N b) as [|x q] eqn:Eq; destruct H2 as [-> H3].
        + subst b'. cbn. rewrite Eq. auto.
        + cbn. auto. }
    destruct Hstep as (H1 & H2 & H3).
    destruct (rb_step N b o) as [b1 r1]; destruct (q_step N (ring_abs N b) o) as [q1 r1'];
      cbn [fst snd] in *. subst r1' q1.
    destruct (IH b1 (ring_abs N b1) HN H1 eq_refl) as [J1 J2].
    destruct (rb_runs N b1 os) as [b2 rs]; destruct (q_runs N (ring_abs N b1) os) as [q2 rs'];
      cbn [fst snd] in *. subst; auto.
Qed.

Lemma ring_fifo : forall N junk os, (0 < N)%nat ->
  snd (rb_runs N (ring_new junk) os) = snd (q_runs N (@nil T) os) /\
  rlen (fst (rb_runs N (ring_new junk) os)) = length (fst (q_runs N (@nil T) os)).
Proof.
  intros N junk os HN. apply ring_refines; [exact HN|split; cbn; lia|reflexivity].
Qed.
End Ring.

(** ** C14 harmonic *)
Lemma harmonic_count : forall m n k task, 1 <= n -> 0 <= k < n ->
  Z.of_nat (count_true (snd (harmonic_runs {| hn := n; hk := k; htask := task |} m))) = (k + Z.of_nat m) / n
  /\ hk (fst (harmonic_runs {| hn := n; hk := k; htask := task |} m)) = (k + Z.of_nat m) mod n
  /\ hn (fst (harmonic_runs {| hn := n; hk := k; htask := task |} m)) = n.
Proof.
  induction m as [|m IH]; intros n k task Hn Hk.
  - cbn. rewrite Z.add_0_r, Z.div_small, Z.mod_small by lia. auto.
  - cbn [harmonic_runs]. unfold harmonic_run; cbn [hk hn htask].
    destruct (k + 1 >=? n) eqn:E.
    + specialize (IH n 0 task Hn ltac:(lia)).
      destruct (harmonic_runs {| hn := n; hk := 0; htask := task |} m) as [t2 bs]; cbn [fst snd] in *.
      destruct IH as (I1 & I2 & I3). unfold count_true in *; cbn [filter length].
      assert (Ek : k + Z.of_nat (S m) = (0 + Z.of_nat m) + 1 * n) by lia.
      rewrite Ek, Z.div_add, Z.mod_add by lia. rewrite <- I1, <- I2, <- I3. split; [lia|auto].
    + specialize (IH n (k + 1) task Hn ltac:(lia)).
      destruct (harmonic_runs {| hn := n; hk := k + 1; htask := task |} m) as [t2 bs]; cbn [fst snd] in *.
      destruct IH as (I1 & I2 & I3). unfold count_true in *; cbn [filter].
      replace (k + Z.of_nat (S m)) with (k + 1 + Z.of_nat m) by lia. auto.
Qed.

Lemma harmonic_every_kth : forall n task m, 1 <= n ->
  Z.of_nat (count_true (snd (harmonic_runs (harmonic_new task n) m))) = Z.of_nat m / n.
Proof.
  intros n task m Hn. destruct (harmonic_count m n 0 task Hn ltac:(lia)) as [H _]. exact H.
Qed.

Lemma harmonic_runs_state : forall m n k task, 1 <= n -> 0 <= k < n ->
  snd (harmonic_runs {| hn := n; hk := k; htask := task |} m) =
  map (fun i => (k + Z.of_nat i) mod n =? 0) (seq 1 m).
Proof.
  induction m as [|m IH]; intros n k task Hn Hk; [reflexivity|].
  cbn [harmonic_runs]. unfold harmonic_run; cbn [hk hn htask].
  cbn [seq map]. rewrite <- seq_shift, map_map.
  destruct (k + 1 >=? n) eqn:E.
  - specialize (IH n 0 task Hn ltac:(lia)).
    destruct (harmonic_runs _ m) as [t2 bs]; cbn [fst snd] in *. rewrite IH. f_equal.
    + replace (k + Z.of_nat 1) with n by lia. rewrite Z.mod_same by lia. reflexivity.
    + apply map_ext. intros i. f_equal.
      replace (k + Z.of_nat (S i)) with (0 + Z.of_nat i + 1 * n) by lia.
      rewrite Z.mod_add by lia. reflexivity.
  - specialize (IH n (k + 1) task Hn ltac:(lia)).
    destruct (harmonic_runs _ m) as [t2 bs]; cbn [fst snd] in *. rewrite IH. f_equal.
    + symmetry. rewrite Z.mod_small by lia. apply Z.eqb_neq. lia.
    + apply map_ext. intros i. do 2 f_equal. lia.
Qed.

(** The task runs exactly in the runs number k, 2k, 3k, ... (1-based). *)
Lemma harmonic_exact_runs : forall n task m i, 1 <= n -> (i < m)%nat ->
  nth i (snd (harmonic_runs (harmonic_new task n) m)) false = (Z.of_nat (S i) mod n =? 0).
Proof.
  intros n task m i Hn Hi. unfold harmonic_new. rewrite harmonic_runs_state by lia.
  set (f := fun j => (0 + Z.of_nat j) mod n =? 0).
  rewrite nth_indep with (d' := f 0%nat) by (rewrite map_length, seq_length; exact Hi).
  rewrite map_nth, seq_nth by exact Hi. reflexivity.
Qed.

(** ** C15 harmonic task lists *)
Lemma hlist_runs_spec : forall m ts,
  (forall t, In t ts -> 1 <= hn t /\ 0 <= hk t < hn t) ->
  snd (hlist_runs ts m) =
  map (fun i => map htask (filter (fun t => (hk t + Z.of_nat i) mod (hn t) =? 0) ts)) (seq 1 m).
Proof.
  induction m as [|m IH]; intros ts Hts; [reflexivity|].
  cbn [hlist_runs seq map]. rewrite <- seq_shift, map_map.
  assert (G : forall ts, (forall t, In t ts -> 1 <= hn t /\ 0 <= hk t < hn t) ->
     snd (hlist_run ts) = map htask (filter (fun t => (hk t + Z.of_nat 1) mod hn t =? 0) ts) /\
     (forall t, In t (fst (hlist_run ts)) -> 1 <= hn t /\ 0 <= hk t < hn t) /\
     (forall i, map htask (filter (fun t => (hk t + Z.of_nat i) mod hn t =? 0) (fst (hlist_run ts)))
              = map htask (filter (fun t => (hk t + Z.of_nat (S i)) mod hn t =? 0) ts))).
  { clear. intros ts; induction ts as [|t ts IHt]; intros H; [cbn; auto|].
    destruct (IHt ltac:(intros; apply H; right; assumption)) as (G1 & G2 & G3).
    destruct (H t ltac:(left; reflexivity)) as [Hn Hk].
    cbn [hlist_run]. unfold harmonic_run.
    destruct (hk t + 1 >=? hn t) eqn:E; destruct (hlist_run ts) as [ts1 l]; cbn [fst snd filter] in *.
    - assert (Ek : hk t + 1 = hn t) by lia.
      replace (hk t + Z.of_nat 1) with (hn t) by lia. rewrite Z.mod_same by lia. cbn [map Z.eqb].
      split; [f_equal; exact G1|]. split.
      + intros t' [<-|Ht']; [cbn; lia|auto].
      + intros i. cbn [hk hn].
        replace (hk t + Z.of_nat (S i)) with (0 + Z.of_nat i + 1 * hn t) by lia.
        rewrite Z.mod_add by lia.
        destruct ((0 + Z.of_nat i) mod hn t =? 0); cbn [map htask]; [f_equal|]; apply G3.
    - rewrite (Z.mod_small (hk t + Z.of_nat 1)) by lia.
      destruct (hk t + Z.of_nat 1 =? 0) eqn:E0; [lia|].
      split; [exact G1|]. split.
      + intros t' [<-|Ht']; [cbn; lia|auto].
      + intros i. cbn [hk hn]. replace (hk t + Z.of_nat (S i)) with (hk t + 1 + Z.of_nat i) by lia.
        destruct ((hk t + 1 + Z.of_nat i) mod hn t =? 0); cbn [map htask]; [f_equal|]; apply G3. }
  destruct (G ts Hts) as (G1 & G2 & G3).
  destruct (hlist_run ts) as [ts1 l] eqn:E1; cbn [fst snd] in *.
  specialize (IH ts1 G2).
  destruct (hlist_runs ts1 m) as [ts2 ls]; cbn [fst snd] in *.
  rewrite G1, IH. f_equal. apply map_ext. intros i. apply G3.
Qed.

Lemma hlist_of_map : forall l, hlist_of l = map (fun a => harmonic_new (fst a) (snd a)) l.
Proof.
  intros l. unfold hlist_of.
  assert (G : forall l acc, fold_left (fun ts a => hlist_add ts (fst a) (snd a)) l acc
     = acc ++ map (fun a => harmonic_new (fst a) (snd a)) l).
  { clear l; induction l as [|a l IH]; intros acc; cbn; [rewrite app_nil_r; reflexivity|].
    rewrite IH. unfold hlist_add. rewrite <- app_assoc. reflexivity. }
  apply G.
Qed.

(** In run number [i+1] exactly the members whose factor divides i+1 run, in insertion order. *)
Lemma hlist_each_own_rate : forall l m i,
  (forall a, In a l -> 1 <= snd a) -> (i < m)%nat ->
  nth i (snd (hlist_runs (hlist_of l) m)) [] =
  map fst (filter (fun a => Z.of_nat (S i) mod snd a =? 0) l).
Proof.
  intros l m i Hl Hi. rewrite hlist_of_map, hlist_runs_spec.
  - set (f := fun j => map htask _).
    rewrite nth_indep with (d' := f 0%nat) by (rewrite map_length, seq_length; exact Hi).
    rewrite map_nth, seq_nth by exact Hi. unfold f. clear.
    induction l as [|a l IH]; [reflexivity|]. cbn [map filter harmonic_new hk hn htask].
    change (0 + Z.of_nat (1 + i)) with (Z.of_nat (S i)).
    destruct (Z.of_nat (S i) mod snd a =? 0); cbn [map]; [f_equal|]; exact IH.
  - intros t Ht. apply in_map_iff in Ht. destruct Ht as (a & <- & Ha). cbn. specialize (Hl a Ha). lia.
Qed.

(** ** C16 factors in exact arithmetic *)
Lemma Ztrunc_IZR_pos : forall k : Z, Ztrunc (IZR k) = k.
Proof. intros; apply Ztrunc_IZR. Qed.

Lemma factor_multiple : forall (m : Z) (b lim : R),
  1 <= m < 2 ^ 31 -> (0 < b)%R -> (0 <= lim)%R ->
  harmonic_factor Rnum lim (IZR m * b)%R b = Ok (Some m).
Proof.
  intros m b lim Hm Hb Hl. unfold harmonic_factor, to_int; cbn.
  replace (IZR m * b / b)%R with (IZR m) by (field; lra).
  rewrite Ztrunc_IZR.
  replace (int_range m) with true by (symmetry; unfold int_range; lia). cbn.
  replace (IZR m * b - IZR m * b)%R with 0%R by ring. rewrite Rabs_R0.
  replace (0 / (IZR m * b))%R with 0%R.
  - rewrite Rlt_bool_false by exact Hl. reflexivity.
  - assert (0 < IZR m)%R by (apply IZR_lt; lia). field. split; nra.
Qed.

Lemma factor_accepted : forall (p b lim : R) k,
  (0 < p)%R -> (0 < b)%R -> (lim < 1)%R ->
  harmonic_factor Rnum lim p b = Ok (Some k) ->
  1 <= k /\ (Rabs (p - IZR k * b) <= lim * p)%R.
Proof.
  intros p b lim k Hp Hb Hl H. unfold harmonic_factor, to_int in H; cbn in H.
  destruct (int_range (Ztrunc (p / b))); cbn in H; [|discriminate].
  set (z := Ztrunc (p / b)) in *.
  destruct (Rlt_bool_spec lim (Rabs (p - IZR z * b) / p)) as [L|L]; [discriminate|].
  inversion H; subst k. clear H.
  assert (Hd : (Rabs (p - IZR z * b) <= lim * p)%R).
  { apply Rmult_le_compat_r with (r := p) in L; [|lra].
    replace (Rabs (p - IZR z * b) / p * p)%R with (Rabs (p - IZR z * b)) in L by (field; lra). exact L. }
  split; [|exact Hd].
  assert (Hz : 0 <= z).
  { unfold z. rewrite Ztrunc_floor; [|apply Rlt_le, Rdiv_lt_0_compat; assumption].
    apply Zfloor_lub. cbn. apply Rlt_le, Rdiv_lt_0_compat; assumption. }
  destruct (Z.eq_dec z 0) as [E|E]; [|lia].
  exfalso. rewrite E in Hd. rewrite Rmult_0_l, Rminus_0_r, Rabs_pos_eq in Hd by lra. nra.
Qed.

(** ** C19 priorities *)
Lemma assign_nice_ids : forall P (l : list (pinfo P)) n x k,
  In (x, k) (assign_nice n l) -> n <= k /\ exists t, In t l /\ pid t = x /\ prt t = true.
Proof.
  intros P l; induction l as [|t l IH]; intros n x k H; cbn in H; [destruct H|].
  destruct (prt t) eqn:Et.
  - destruct H as [H|H].
    + inversion H; subst. split; [lia|]. exists t; cbn; auto.
    + apply IH in H. destruct H as (H1 & t' & H2 & H3). split; [lia|]. exists t'; cbn; auto.
  - apply IH in H. destruct H as (H1 & t' & H2 & H3). split; [lia|]. exists t'; cbn; auto.
Qed.

Lemma assign_nice_order : forall P (lt : P -> P -> bool) l n a b ka kb,
  (forall p, lt p p = false) ->
  std_sorted (prio_less lt) l -> NoDup (map pid l) ->
  In a l -> In b l -> prt a = true -> prt b = true -> lt (pperiod a) (pperiod b) = true ->
  In (pid a, ka) (assign_nice n l) -> In (pid b, kb) (assign_nice n l) -> ka < kb.
Proof.
  intros P lt l; induction l as [|t l IH];
    intros n a b ka kb Hir Hs Hnd Ha Hb Ra Rb Hlt Ka Kb; [destruct Ha|].
  cbn in Hs. destruct Hs as [Hs1 Hs2]. cbn in Hnd. inversion Hnd as [|? ? Hni Hnd']; subst.
  assert (Hout : forall k m, In (pid t, k) (assign_nice m l) -> False).
  { intros k m Hk. apply assign_nice_ids in Hk. destruct Hk as (_ & t' & I1 & I2 & _).
    apply Hni. rewrite <- I2. apply in_map. exact I1. }
  destruct Ha as [<-|Ha]; destruct Hb as [<-|Hb].
  - rewrite Hir in Hlt; discriminate.
  - cbn in Ka, Kb. rewrite Ra in Ka, Kb.
    destruct Ka as [Ka|Ka]; [|exfalso; eapply Hout; eauto].
    destruct Kb as [Kb|Kb].
    + inversion Kb as [Hp]. exfalso. apply Hni. rewrite Hp. apply in_map. exact Hb.
    + inversion Ka; subst. apply assign_nice_ids in Kb. lia.
  - specialize (Hs1 a Ha). unfold prio_less in Hs1. rewrite Ra, Rb in Hs1. cbn in Hs1. congruence.
  - cbn in Ka, Kb.
    assert (Ka' : exists m, In (pid a, ka) (assign_nice m l) /\ In (pid b, kb) (assign_nice m l)).
    { destruct (prt t); [|eauto].
      destruct Ka as [Ka|Ka]; [inversion Ka as [Hp]; exfalso; apply Hni; rewrite Hp; apply in_map; exact Ha|].
      destruct Kb as [Kb|Kb]; [inversion Kb as [Hp]; exfalso; apply Hni; rewrite Hp; apply in_map; exact Hb|].
      eauto. }
    destruct Ka' as [m [Ka1 Kb1]]. exact (IH m a b ka kb Hir Hs2 Hnd' Ha Hb Ra Rb Hlt Ka1 Kb1).
Qed.

(** realtime tasks precede the others in every result of the sort *)
Lemma sorted_realtime_first : forall P (lt : P -> P -> bool) l1 a l2 b,
  std_sorted (prio_less lt) (l1 ++ a :: l2) -> In b l2 -> prt b = true -> prt a = true.
Proof.
  intros P lt l1; induction l1 as [|t l1 IH]; intros a l2 b Hs Hb Rb; cbn in Hs; destruct Hs as [H1 H2].
  - specialize (H1 b Hb). unfold prio_less in H1. destruct (prt a); [reflexivity|].
    rewrite Rb in H1. cbn in H1. discriminate.
  - eapply IH; eauto.
Qed.

(** every realtime task gets a nice level, they are 1..m without gaps, others get none *)
Lemma assign_nice_values : forall P (l : list (pinfo P)) n,
  map snd (assign_nice n l) = map (fun i => n + Z.of_nat i) (seq 0 (length (filter prt l))) /\
  map fst (assign_nice n l) = map pid (filter prt l).
Proof.
  intros P l; induction l as [|t l IH]; intros n; cbn; [auto|].
  destruct (prt t); cbn [map filter length seq]; [|apply IH].
  destruct (IH (n + 1)) as [I1 I2]. cbn [fst snd map]. split.
  - f_equal; [lia|]. rewrite I1, <- seq_shift, map_map. apply map_ext. intros; lia.
  - f_equal; exact I2.
Qed.

(** ** C17 statistics over exact reals *)
Lemma rsum_app : forall l1 l2, rsum (l1 ++ l2) = (rsum l1 + rsum l2)%R.
Proof.
  induction l1 as [|x l1 IH]; intros l2; unfold rsum in *; cbn [app fold_right].
  - ring.
  - rewrite IH. ring.
Qed.

Definition stats_inv (big low : R) (vs : list R) (s : stats Rnum) : Prop :=
  scount s = Z.of_nat (length vs) /\
  sA s = rsum vs /\ sB s = rsum (map (fun x => x * x)%R vs) /\
  (vs <> [] -> smean s = rmean vs /\ svar s = rvariance vs /\ slast s = last vs 0%R) /\
  (vs = [] -> smin s = big /\ smax s = low) /\
  (vs <> [] -> (forall v, In v vs -> (low <= v <= big)%R) ->
     In (smin s) vs /\ In (smax s) vs /\
     forall v, In v vs -> (smin s <= v <= smax s)%R).

Lemma variance_formula : forall l, l <> [] ->
  ((rsum (map (fun x => x * x)%R l) - 2 * rmean l * rsum l) / INR (length l) + rmean l * rmean l)%R
  = rvariance l.
Proof.
  intros l Hne. unfold rvariance.
  assert (Hn : (INR (length l) <> 0)%R).
  { apply not_0_INR. destruct l; [congruence|discriminate]. }
  assert (G : forall (m : R) l, rsum (map (fun x => (x - m) * (x - m))%R l)
    = (rsum (map (fun x => x * x)%R l) - 2 * m * rsum l + INR (length l) * (m * m))%R).
  { clear. intros m l; induction l as [|x l IH]; [cbn; ring|].
    cbn [map rsum fold_right length] in *. unfold rsum in *. rewrite IH.
    rewrite S_INR. ring. }
  rewrite G. field. exact Hn.
Qed.

Lemma stats_add_inv : forall big low vs s v,
  stats_inv big low vs s -> stats_inv big low (vs ++ [v]) (stats_add s v).
Proof.
  intros big low vs s v (I1 & I2 & I3 & I4 & I5 & I6).
  assert (Hc : IZR (scount s + 1) = INR (length (vs ++ [v]))).
  { rewrite I1, INR_IZR_INZ, app_length. f_equal. cbn. lia. }
  unfold stats_inv, stats_add.
  split; [cbn; rewrite I1, app_length; cbn; lia|].
  split; [cbn; rewrite I2, rsum_app; cbn; lra|].
  split; [cbn; rewrite I3, map_app, rsum_app; cbn; lra|].
  assert (HA : (sA s + v)%R = rsum (vs ++ [v])) by (rewrite I2, rsum_app; cbn; lra).
  assert (HB : (sB s + v * v)%R = rsum (map (fun x => x * x)%R (vs ++ [v])))
    by (rewrite I3, map_app, rsum_app; cbn; lra).
  split.
  { intros Hne. cbn [smean svar slast]. cbn [nadd nmul ndiv nsub nofZ Rnum].
    rewrite HA, HB, Hc. split; [reflexivity|]. split.
    - fold (rmean (vs ++ [v])). apply variance_formula. exact Hne.
    - rewrite last_last. reflexivity. }
  split; [intros E; destruct vs; discriminate|].
  intros _ Hall. cbn [smin smax]. cbn [nltb Rnum].
  assert (Hv : (low <= v <= big)%R) by (apply Hall, in_or_app; right; left; reflexivity).
  destruct vs as [|w vs'].
  - destruct (I5 eq_refl) as [-> ->]. cbn [app].
    assert (Emin : (if Rlt_bool v big then v else big) = v).
    { destruct (Rlt_bool_spec v big); [reflexivity|lra]. }
    assert (Emax : (if Rlt_bool low v then v else low) = v).
    { destruct (Rlt_bool_spec low v); [reflexivity|lra]. }
    match goal with |- In ?mn _ /\ In ?mx _ /\ _ =>
      change mn with (if Rlt_bool v big then v else big);
      change mx with (if Rlt_bool low v then v else low) end.
    rewrite Emin, Emax.
    split; [left; reflexivity|]. split; [left; reflexivity|].
    intros x [<-|[]]. lra.
  - set (vs := w :: vs') in *.
    destruct (I6 ltac:(discriminate) ltac:(intros x Hx; apply Hall, in_or_app; left; exact Hx))
      as (J1 & J2 & J3).
    split; [destruct (Rlt_bool v (smin s)); apply in_or_app; [right; left; reflexivity|left; exact J1]|].
    split; [destruct (Rlt_bool (smax s) v); apply in_or_app; [right; left; reflexivity|left; exact J2]|].
    intros x Hx. apply in_app_or in Hx.
    destruct (Rlt_bool_spec v (smin s)) as [K1|K1]; destruct (Rlt_bool_spec (smax s) v) as [K2|K2];
      (destruct Hx as [Hx|[<-|[]]]; [specialize (J3 x Hx); lra|]).
    all: pose proof (J3 _ J1); try lra.
Qed.

Lemma stats_correct : forall big low vs, vs <> [] ->
  let s := stats_adds (stats_reset Rnum big low) vs in
  scount s = Z.of_nat (length vs) /\ smean s = rmean vs /\ svar s = rvariance vs /\
  slast s = last vs 0%R /\
  ((forall v, In v vs -> (low <= v <= big)%R) ->
     In (smin s) vs /\ In (smax s) vs /\ forall v, In v vs -> (smin s <= v <= smax s)%R).
Proof.
  intros big low vs Hne.
  assert (G : forall vs acc s, stats_inv big low acc s -> stats_inv big low (acc ++ vs) (stats_adds s vs)).
  { clear. intros vs; induction vs as [|v vs IH]; intros acc s H; cbn.
    - rewrite app_nil_r; exact H.
    - replace (acc ++ v :: vs) with ((acc ++ [v]) ++ vs) by (rewrite <- app_assoc; reflexivity).
      apply IH, stats_add_inv, H. }
  assert (I0 : stats_inv big low [] (stats_reset Rnum big low)).
  { unfold stats_inv, stats_reset; cbn. repeat split; try reflexivity; intros; try congruence; contradiction. }
  specialize (G vs [] _ I0). cbn [app] in G. destruct G as (I1 & I2 & I3 & I4 & I5 & I6).
  destruct (I4 Hne) as (M & V & L). cbv zeta.
  exact (conj I1 (conj M (conj V (conj L (I6 Hne))))).
Qed.

Lemma variance_nonneg : forall l, l <> [] -> (0 <= rvariance l)%R.
Proof.
  intros l Hne. unfold rvariance. apply Rmult_le_pos.
  - generalize (rmean l) as m. intros m. clear Hne. induction l as [|x l IH]; cbn; [lra|].
    unfold rsum in IH. pose proof (Rle_0_sqr (x - m)) as H. unfold Rsqr in H. lra.
  - apply Rlt_le, Rinv_0_lt_compat, lt_0_INR. destruct l; [congruence|cbn; lia].
Qed.

(** ** periodic counter *)
Lemma pc_cycles_spec : forall ts (c : pcounter Rnum),
  let c' := pc_cycles c ts in
  cruns c' = cruns c ++ map (fun st => (snd st - fst st)%R) ts /\
  (cfirst c = false ->
     cperiods c' = cperiods c ++ diffs (cstart c) (map fst ts) /\
     cjitters c' = cjitters c ++ map (fun p => (p - cnominal c)%R) (diffs (cstart c) (map fst ts)))
  /\ cnominal c' = cnominal c.
Proof.
  intros ts; induction ts as [|[s t] ts IH]; intros c; cbn zeta.
  - cbn. rewrite !app_nil_r. auto.
  - unfold pc_cycles in *; cbn [fold_left fst snd].
    set (c1 := pc_tock (pc_tick c s) t).
    assert (E0 : cstart c1 = s) by (unfold c1, pc_tock, pc_tick; cbn; destruct (cfirst c); reflexivity).
    assert (E1 : cfirst c1 = false) by (unfold c1, pc_tock, pc_tick; cbn; destruct (cfirst c); reflexivity).
    assert (E2 : cnominal c1 = cnominal c) by (unfold c1, pc_tock, pc_tick; cbn; destruct (cfirst c); reflexivity).
    assert (E3 : cruns c1 = cruns c ++ [(t - s)%R])
      by (unfold c1, pc_tock, pc_tick; cbn; destruct (cfirst c); reflexivity).
    specialize (IH c1). cbn zeta in IH. destruct IH as (J1 & J2 & J3).
    split; [rewrite J1, E3, <- app_assoc; reflexivity|]. split; [|rewrite J3, E2; reflexivity].
    intros Hf. destruct (J2 E1) as [K1 K2]. rewrite K1, K2, E0, E2. cbn [map fst diffs].
    assert (E4 : cperiods c1 = cperiods c ++ [(s - cstart c)%R])
      by (unfold c1, pc_tock, pc_tick; cbn; rewrite Hf; reflexivity).
    assert (E5 : cjitters c1 = cjitters c ++ [((s - cstart c) - cnominal c)%R])
      by (unfold c1, pc_tock, pc_tick; cbn; rewrite Hf; reflexivity).
    rewrite E4, E5, <- !app_assoc. split; reflexivity.
Qed.

Lemma pc_measures : forall ra nominal t0 (c : pcounter Rnum) s1 e1 ts,
  pc_new Rnum ra nominal t0 = Ok c ->
  let c' := pc_cycles c ((s1, e1) :: ts) in
  cperiods c' = diffs s1 (map fst ts) /\
  cjitters c' = map (fun p => (p - nominal)%R) (diffs s1 (map fst ts)) /\
  cruns c' = map (fun st => (snd st - fst st)%R) ((s1, e1) :: ts).
Proof.
  intros ra nominal t0 c s1 e1 ts H. unfold pc_new in H.
  destruct (to_int Rnum _) as [k| |]; cbn in H; try discriminate. inversion H; subst c; clear H.
  cbn zeta. unfold pc_cycles. cbn [fold_left fst snd].
  set (c1 := pc_tock (pc_tick _ s1) e1).
  destruct (pc_cycles_spec ts c1) as (J1 & J2 & J3).
  destruct (J2 eq_refl) as [K1 K2]. unfold pc_cycles in *.
  rewrite J1, K1, K2. cbn. auto.
Qed.

Lemma monitor_exact : forall period tol T : R,
  default_monitor_warns Rnum period tol T = false <->
  (period * (1 - tol) <= T <= period * (1 + tol))%R.
Proof.
  intros period tol T. unfold default_monitor_warns; cbn.
  destruct (Rlt_bool_spec T (period * (1 - tol))) as [A|A];
  destruct (Rlt_bool_spec (period * (1 + tol)) T) as [B|B]; cbn; split; intro H;
    try discriminate; try reflexivity; lra.
Qed.

(** ** C18 async *)
Definition async_inv (s : async) (stopped : bool) : Prop :=
  aFinished s = stopped /\ 0 <= aCounter s /\
  (stopped = false -> aRuns s + aCounter s = aPosts s /\ aWorker s <> WExited) /\
  aRuns s <= aPosts s.

Definition has_stop (os : list aop) : bool :=
  existsb (fun o => match o with AStop => true | _ => false end) os.

Lemma async_invariant : forall os s b, async_inv s b -> async_inv (async_runs s os) (b || has_stop os).
Proof.
  intros os; induction os as [|o os IH]; intros s b H; cbn [async_runs fold_left has_stop existsb].
  - rewrite orb_false_r. exact H.
  - assert (Hs : async_inv (async_step s o) (b || match o with AStop => true | _ => false end)).
    { destruct H as (H1 & H2 & H3 & H4). destruct o; cbn [async_step].
      - rewrite orb_false_r. split; [exact H1|]. cbn. split; [lia|]. split; [|lia].
        intros E; destruct (H3 E); split; [lia|assumption].
      - rewrite orb_true_r. split; [reflexivity|]. cbn. split; [lia|]. split; [discriminate|lia].
      - rewrite orb_false_r. destruct (aWorker s) eqn:Ew.
        + destruct (aCounter s >? 0) eqn:Ec; [|split; [exact H1|split; [exact H2|split; [|exact H4]]];
            intros E; destruct (H3 E); split; [assumption|congruence]].
          destruct (aFinished s) eqn:Ef; subst b; split; cbn; try reflexivity; (split; [lia|]).
          * split; [discriminate|lia].
          * destruct (H3 eq_refl). split; [intros _; split; [lia|discriminate]|lia].
        + split; [exact H1|]. cbn. split; [exact H2|]. split; [|exact H4].
          intros E; destruct (H3 E); split; [assumption|discriminate].
        + split; [exact H1|]. split; [exact H2|]. split; [|exact H4].
          intros E; destruct (H3 E); split; [assumption|congruence]. }
    rewrite orb_assoc. apply IH. exact Hs.
Qed.

Lemma async_runs_app : forall a b s, async_runs s (a ++ b) = async_runs (async_runs s a) b.
Proof. intros; unfold async_runs; apply fold_left_app. Qed.

Lemma async_at_most_once : forall os, aRuns (async_runs async_new os) <= aPosts (async_runs async_new os).
Proof.
  intros os. destruct (async_invariant os async_new false) as (_ & _ & _ & H); [|exact H].
  repeat split; cbn; try lia; discriminate.
Qed.

(** Without stop, enough worker steps execute every request. *)
Lemma async_drain : forall n s, aFinished s = false -> aWorker s <> WExited ->
  0 <= aCounter s -> aCounter s <= Z.of_nat n ->
  let s' := async_runs s (repeat AWorker (2 * n + 1)) in
  aCounter s' = 0 /\ aPosts s' = aPosts s /\ aRuns s' = aRuns s + aCounter s.
Proof.
  induction n as [|n IH]; intros s Hf Hw H0 Hn.
  - assert (Ec : aCounter s = 0) by lia. cbn. unfold async_step.
    destruct (aWorker s) eqn:Ew; try congruence; cbn; rewrite ?Ec; cbn; lia.
  - replace (2 * S n + 1)%nat with (S (S (2 * n + 1)))%nat by lia. cbn [repeat async_runs fold_left].
    assert (G : exists s2, async_step (async_step s AWorker) AWorker = s2 /\ aFinished s2 = false /\
       aWorker s2 <> WExited /\ aPosts s2 = aPosts s /\ 0 <= aCounter s2 /\ aCounter s2 <= Z.of_nat n /\
       aRuns s2 + aCounter s2 = aRuns s + aCounter s).
    { destruct (aWorker s) eqn:Ew; try congruence; cbn [async_step]; rewrite Ew.
      - destruct (aCounter s >? 0) eqn:Ec.
        + rewrite Hf. cbn. eexists; split; [reflexivity|]. cbn. repeat split; try lia; try assumption; discriminate.
        + rewrite Ew, Ec. eexists; split; [reflexivity|]. repeat split; try lia; try assumption; congruence.
      - cbn. destruct (aCounter s >? 0) eqn:Ec.
        + rewrite Hf. eexists; split; [reflexivity|]. cbn. repeat split; try lia; try assumption; discriminate.
        + eexists; split; [reflexivity|]. cbn. repeat split; try lia; try assumption; discriminate. }
    destruct G as (s2 & E2 & G1 & G2 & G3 & G4 & G5 & G6). rewrite E2.
    destruct (IH s2 G1 G2 G4 G5) as (K1 & K2 & K3). unfold async_runs in *.
    split; [exact K1|]. split; [rewrite K2; exact G3|]. rewrite K3. lia.
Qed.

Lemma async_all_executed : forall os, has_stop os = false ->
  exists n, let s := async_runs async_new (os ++ repeat AWorker n) in aRuns s = aPosts s /\
    aPosts s = aPosts (async_runs async_new os).
Proof.
  intros os Hs.
  destruct (async_invariant os async_new false) as (H1 & H2 & H3 & H4).
  { repeat split; cbn; try lia; discriminate. }
  rewrite Hs in *. cbn in *. destruct (H3 eq_refl) as [H5 H6].
  exists (2 * Z.to_nat (aCounter (async_runs async_new os)) + 1)%nat.
  rewrite async_runs_app.
  destruct (async_drain (Z.to_nat (aCounter (async_runs async_new os))) (async_runs async_new os)
     H1 H6 H2 ltac:(lia)) as (K1 & K2 & K3).
  cbv zeta. rewrite K2, K3. split; [lia|reflexivity].
Qed.

(** ** C20 executor *)
Lemma stop_while_looping : forall s os,
  xphase_of s = XLooping ->
  xphase_of (exec_runs s (XStop :: os ++ [XCheck])) = XExited.
Proof.
  intros s os H. unfold exec_runs. cbn [fold_left]. rewrite fold_left_app. cbn [fold_left].
  assert (G : forall os s, (xphase_of s = XLooping /\ xRunning s = false) \/ xphase_of s = XExited ->
    let s' := fold_left exec_step os s in
    (xphase_of s' = XLooping /\ xRunning s' = false) \/ xphase_of s' = XExited).
  { clear. intros os; induction os as [|o os IH]; intros s H; cbn; [exact H|].
    apply IH. destruct H as [[H1 H2]|H1]; destruct o; cbn; rewrite ?H1; cbn; rewrite ?H2; cbn; auto. }
  destruct (G os (exec_step s XStop)) as [[G1 G2]|G1].
  - left. cbn. rewrite H. auto.
  - unfold exec_step at 1. rewrite G1, G2. reflexivity.
  - unfold exec_step at 1. rewrite G1. exact G1.
Qed.

Lemma wakeup_no_drift : forall (start period : R) n,
  wakeup Rnum start period n = (start + INR (S n) * period)%R.
Proof.
  intros start period n; induction n as [|n IH]; cbn [wakeup nadd Rnum].
  - change (start + period = start + 1 * period)%R. ring.
  - rewrite IH. rewrite (S_INR (S n)). change (start + INR (S n) * period + period = start + (INR (S n) + 1) * period)%R. ring.
Qed.

(** ** nested harmonic tasks *)
Lemma chain_runs_cons : forall m t c,
  count_true (snd (chain_runs (t :: c) m)) =
  count_true (snd (chain_runs c (count_true (snd (harmonic_runs t m))))).
Proof.
  induction m as [|m IH]; intros t c; [reflexivity|].
  cbn [chain_runs harmonic_runs chain_run].
  destruct (harmonic_run t) as [t1 b] eqn:E. destruct b.
  - destruct (chain_run c) as [c1 r] eqn:Ec.
    specialize (IH t1 c1).
    destruct (chain_runs (t1 :: c1) m) as [c2 bs]; destruct (harmonic_runs t1 m) as [t2 hs];
      cbn [fst snd] in *.
    change (count_true (true :: hs)) with (S (count_true hs)). cbn [chain_runs]. rewrite Ec.
    destruct (chain_runs c1 (count_true hs)) as [c3 bs3]; cbn [fst snd] in *.
    unfold count_true in *; cbn [filter]. destruct r; cbn [length]; lia.
  - specialize (IH t1 c).
    destruct (chain_runs (t1 :: c) m) as [c2 bs]; destruct (harmonic_runs t1 m) as [t2 hs];
      cbn [fst snd] in *.
    exact IH.
Qed.

Lemma chain_nil : forall m, count_true (snd (chain_runs [] m)) = m.
Proof.
  induction m as [|m IH]; [reflexivity|]. cbn. destruct (chain_runs [] m) as [c bs]; cbn in *.
  unfold count_true in *; cbn. lia.
Qed.

Lemma nested_rate : forall l m, (forall a, In a l -> 1 <= snd a) ->
  Z.of_nat (count_true (snd (chain_runs (map (fun a => harmonic_new (fst a) (snd a)) l) m)))
  = Z.of_nat m / zprod (map snd l).
Proof.
  induction l as [|[t k] l IH]; intros m H.
  - cbn [map]. rewrite chain_nil. cbn. rewrite Z.div_1_r. reflexivity.
  - cbn [map fst snd]. rewrite chain_runs_cons, IH by (intros; apply H; right; assumption).
    rewrite harmonic_every_kth by (apply (H (t, k)); left; reflexivity).
    unfold zprod; cbn [fold_right]. apply Z.div_div.
    + specialize (H (t, k) ltac:(left; reflexivity)). cbn in H. lia.
    + assert (G : forall l : list (nat * Z), (forall a, In a l -> 1 <= snd a) -> 1 <= fold_right Z.mul 1 (map snd l)).
      { clear. induction l as [|a l IH]; intros H; cbn; [lia|].
        specialize (IH ltac:(intros; apply H; right; assumption)).
        specialize (H a ltac:(left; reflexivity)). nia. }
      specialize (G l ltac:(intros; apply H; right; assumption)). lia.
Qed.

(** ** thread trees *)
Section PtaskInd.
Variable P : Type.
Variable Q : ptask P -> Prop.
Hypothesis step : forall id per rt before after,
  Forall Q before -> Forall Q after -> Q (PTask id per rt before after).
Fixpoint ptask_ind' (t : ptask P) : Q t :=
  match t with
  | PTask id per rt before after =>
    let fix go (ts : list (ptask P)) : Forall Q ts :=
      match ts with
      | [] => Forall_nil Q
      | x :: xs => @Forall_cons _ Q x xs (ptask_ind' x) (go xs)
      end in
    step id per rt before after (go before) (go after)
  end.
End PtaskInd.

Fixpoint create_threads (N : num) (lim per : N) (ts : list (ptask N)) : outcome (list thr) :=
  match ts with
  | [] => Ok []
  | x :: xs => bind (create_thread N lim per x) (fun y =>
               bind (create_threads N lim per xs) (fun ys => Ok (y :: ys)))
  end.
Lemma create_thread_eq : forall N lim base id per rt before after,
  create_thread N lim base (PTask id per rt before after) =
  bind (to_int N (ndiv N per base)) (fun k =>
  bind (create_threads N lim per before) (fun b =>
  bind (create_threads N lim per after) (fun a =>
  if nltb N lim (ndiv N (nabs N (nsub N per (nmul N (nofZ N k) base))) per) then Fault
  else Ok (Thr k id b a)))).
Proof.
  intros. cbn [create_thread].
  set (go := fix go (ts : list (ptask N)) : outcome (list thr) := _).
  assert (G : forall ts, go ts = create_threads N lim per ts).
  { induction ts as [|x xs IH]; [reflexivity|]. cbn. rewrite <- IH. reflexivity. }
  rewrite !G. reflexivity.
Qed.

Lemma create_threads_forall2 : forall lim per (ts : list (ptask R)) ys,
  Forall (fun t => forall (base : R) th, (0 < base)%R -> positive_periods t ->
     create_thread Rnum lim base t = Ok th -> realises lim base t th) ts ->
  (0 < per)%R -> Forall positive_periods ts ->
  create_threads Rnum lim per ts = Ok ys -> Forall2 (realises lim per) ts ys.
Proof.
  intros lim per ts; induction ts as [|t ts IH]; intros ys HF Hp Hpos H; cbn in H.
  - inversion H. constructor.
  - inversion HF; subst. inversion Hpos; subst.
    destruct (create_thread Rnum lim per t) as [y| |] eqn:E; cbn in H; try discriminate.
    destruct (create_threads Rnum lim per ts) as [ys'| |] eqn:E2; cbn in H; try discriminate.
    inversion H; subst. constructor; [|apply IH; auto]. auto.
Qed.

Lemma create_thread_realises : forall (lim base : R) (t : ptask R) th,
  (lim < 1)%R -> (0 < base)%R -> positive_periods t ->
  create_thread Rnum lim base t = Ok th -> realises lim base t th.
Proof.
  intros lim base t th Hl. revert base th.
  induction t as [id per rt before after Hb Ha] using ptask_ind'.
  intros base th Hbase Hpos H. change (ptask Rnum) with (ptask R) in *.
  rewrite create_thread_eq in H. inversion Hpos as [? ? ? ? ? Hper Pb Pa]; subst.
  assert (F := factor_accepted per base lim). unfold harmonic_factor in F.
  destruct (to_int Rnum _) as [k| |]; cbn [bind] in H, F; try discriminate.
  destruct (create_threads Rnum lim per before) as [b| |] eqn:Eb; cbn [bind] in H; try discriminate.
  destruct (create_threads Rnum lim per after) as [a| |] eqn:Ea; cbn [bind] in H; try discriminate.
  destruct (nltb Rnum _ _); [discriminate|]. inversion H; subst th.
  destruct (F k Hper Hbase Hl eq_refl) as [F1 F2].
  constructor; auto; eapply create_threads_forall2; eauto.
Qed.

Lemma create_thread_exact : forall (lim : R) (t : ptask R) base,
  (0 <= lim)%R -> (0 < base)%R -> exact_multiples base t ->
  exists th, create_thread Rnum lim base t = Ok th.
Proof.
  intros lim t base Hl. revert base.
  induction t as [id per rt before after Hb Ha] using ptask_ind'.
  intros base Hbase Hex. inversion Hex as [? ? m ? ? ? Hm Eb Ea]; subst.
  assert (Hm0 : (0 < IZR m * base)%R).
  { apply Rmult_lt_0_compat; [apply IZR_lt; lia|assumption]. }
  change (ptask Rnum) with (ptask R) in *.
  rewrite create_thread_eq.
  assert (G : forall ts, Forall (fun t => forall base, (0 < base)%R -> exact_multiples base t ->
      exists th, create_thread Rnum lim base t = Ok th) ts ->
      Forall (exact_multiples (IZR m * base)) ts ->
      exists ys, create_threads Rnum lim (IZR m * base)%R ts = Ok ys).
  { clear - Hm0. induction ts as [|t ts IH]; intros H1 H2; [eexists; reflexivity|].
    inversion H1; subst; inversion H2; subst.
    destruct (IH H4 H6) as [ys E]. destruct (H3 _ Hm0 H5) as [th Et]. cbn.
    rewrite Et. cbn. rewrite E. eexists; reflexivity. }
  assert (F := factor_multiple m base lim Hm Hbase Hl). unfold harmonic_factor in F.
  destruct (to_int Rnum _) as [k| |]; cbn [bind] in *; try discriminate.
  destruct (G before Hb Eb) as [b ->]. destruct (G after Ha Ea) as [a ->]. cbn [bind].
  destruct (nltb Rnum _ _); [discriminate|]. eexists; reflexivity.
Qed.

(** ** clock *)
Lemma timespec_order : forall s1 n1 s2 n2,
  0 <= n1 < 1000000000 -> 0 <= n2 < 1000000000 ->
  0 <= s1 < 18000000000 -> 0 <= s2 < 18000000000 ->
  (timespec2nsec s1 n1 < timespec2nsec s2 n2 <-> s1 < s2 \/ (s1 = s2 /\ n1 < n2)).
Proof.
  intros s1 n1 s2 n2 H1 H2 H3 H4. unfold timespec2nsec.
  rewrite !Z.mod_small by lia. nia.
Qed.

(** ** Thread *)
Lemma thread_late_call : forall os, thread_runs (TConstructed :: os ++ [TCall]) =
  {| tclass_now := TDerived; tcalled := Some TDerived |}.
Proof.
  intros os. unfold thread_runs. cbn [fold_left]. rewrite fold_left_app. cbn [fold_left].
  assert (G : forall os s, tclass_now s = TDerived -> (tcalled s = None \/ tcalled s = Some TDerived) ->
    let s' := fold_left thread_step os s in
    tclass_now s' = TDerived /\ (tcalled s' = None \/ tcalled s' = Some TDerived)).
  { clear. induction os as [|o os IH]; intros s H1 H2; cbn; [auto|]. apply IH.
    - destruct o; cbn; [reflexivity|]. destruct (tcalled s); cbn; assumption.
    - destruct o; cbn; [assumption|]. destruct (tcalled s) eqn:E; cbn; [rewrite E; auto|rewrite H1; auto]. }
  destruct (G os (thread_step {| tclass_now := TBase; tcalled := None |} TConstructed) eq_refl
    ltac:(left; reflexivity)) as [G1 G2].
  destruct (fold_left thread_step os _) as [c d]; cbn in *. subst c. destruct G2 as [-> | ->]; reflexivity.
Qed.

(** priorities stay valid with at most 48 realtime tasks *)
Lemma priority_range : forall P (l : list (pinfo P)) x k,
  (length (filter prt l) <= 48)%nat -> In (x, k) (assign_nice 1 l) -> 1 <= sched_priority k <= 48.
Proof.
  intros P l x k Hl H. destruct (assign_nice_values P l 1) as [V _].
  apply (in_map snd) in H. cbn in H. rewrite V in H. apply in_map_iff in H.
  destruct H as (i & <- & Hi). apply in_seq in Hi. unfold sched_priority. lia.
Qed.
Lemma thread_late_call' : forall os,
  tcalled (thread_runs (TConstructed :: os ++ [TCall])) = Some TDerived.
Proof. intros os. rewrite thread_late_call. reflexivity. Qed.

Lemma stats_variance_nonneg : forall big low vs, vs <> [] ->
  (0 <= svar (stats_adds (stats_reset Rnum big low) vs))%R.
Proof.
  intros big low vs H. destruct (stats_correct big low vs H) as (_ & _ & V & _). rewrite V.
  apply variance_nonneg, H.
Qed.

Lemma pc_new_defined : forall period t0 : R,
  (20 / IZR (2 ^ 31 - 1) <= period)%R ->
  exists c, pc_new Rnum 20%R period t0 = Ok c.
Proof.
  intros period t0 H. unfold pc_new, to_int. cbn [ntrunc Rnum ndiv nofZ].
  assert (HM : (0 < IZR (2 ^ 31 - 1))%R) by (apply IZR_lt; reflexivity).
  assert (Hp : (0 < period)%R).
  { apply Rlt_le_trans with (2 := H). apply Rdiv_lt_0_compat; lra. }
  assert (Hq : (0 <= 20 / period <= IZR (2 ^ 31 - 1))%R).
  { split; [apply Rlt_le, Rdiv_lt_0_compat; lra|].
    apply Rmult_le_reg_r with period; [exact Hp|].
    replace (20 / period * period)%R with 20%R by (field; lra).
    apply Rmult_le_compat_r with (r := IZR (2 ^ 31 - 1)) in H; [|lra].
    replace (20 / IZR (2 ^ 31 - 1) * IZR (2 ^ 31 - 1))%R with 20%R in H by (field; lra). lra. }
  rewrite Ztrunc_floor by apply Hq.
  assert (Hz : 0 <= Zfloor (20 / period) <= 2 ^ 31 - 1).
  { split; [apply Zfloor_lub; apply Hq|].
    apply le_IZR. apply Rle_trans with (1 := Zfloor_lb _). apply Hq. }
  replace (int_range (Zfloor (20 / period))) with true by (symmetry; unfold int_range; lia).
  eexists; reflexivity.
Qed.

Lemma ctor_first : forall os,
  exists s, ctor_runs (0, 0)%nat ([CInit; CInit; CInit; CInit; CInit; CInit; CInit] ++ os) = Ok s.
Proof.
  intros os. cbn [app ctor_runs ctor_step bind length async_members].
  enough (G : forall u, exists s, ctor_runs (7%nat, u) os = Ok s) by apply (G 0%nat).
  induction os as [|o os IH]; intros u; [eexists; reflexivity|].
  cbn [ctor_runs]. destruct o.
  - apply IH.
  - unfold ctor_step.
    change (existsb (member_eqb MThread) (firstn 7 async_members)) with true. cbv iota.
    destruct (nth_error worker_uses u) as [m|]; cbn [bind].
    + assert (E : existsb (member_eqb m) (firstn 7 async_members) = true) by (destruct m; reflexivity).
      destruct m; exact (IH (S u)).
    + apply IH.
Qed.

Lemma async_posts_count : forall os,
  aPosts (async_runs async_new os) =
  Z.of_nat (length (filter (fun o => match o with APost => true | _ => false end) os)).
Proof.
  intros os.
  assert (G : forall os s, aPosts (async_runs s os) = aPosts s +
    Z.of_nat (length (filter (fun o => match o with APost => true | _ => false end) os))).
  { clear. induction os as [|o os IH]; intros s; [cbn; lia|].
    cbn [async_runs fold_left filter]. unfold async_runs in IH. rewrite IH. destruct o; cbn [async_step length aPosts].
    - lia.
    - lia.
    - destruct (aWorker s); cbn; try lia. destruct (aCounter s >? 0); cbn; try lia.
      destruct (aFinished s); cbn; lia. }
  rewrite G. reflexivity.
Qed.
Lemma async_at_most_posts : forall os,
  aRuns (async_runs async_new os) <=
  Z.of_nat (length (filter (fun o => match o with APost => true | _ => false end) os)).
Proof. intros os. rewrite <- async_posts_count. apply async_at_most_once. Qed.
Lemma async_all_posts : forall os,
  existsb (fun o => match o with AStop => true | _ => false end) os = false ->
  exists n, aRuns (async_runs async_new (os ++ repeat AWorker n)) =
  Z.of_nat (length (filter (fun o => match o with APost => true | _ => false end) os)).
Proof.
  intros os H. destruct (async_all_executed os H) as [n [H1 H2]]. exists n.
  cbv zeta in H1, H2. rewrite H1, H2. apply async_posts_count.
Qed.

Lemma occurs_traverse : forall P (ts : list (ptask P)) id per rt, occurs ts id per rt ->
  In {| pid := id; pperiod := per; prt := rt |} (traverse ts).
Proof.
  intros P ts id per rt H. induction H as [ts id per rt b a H|ts i p r b a id per rt H _ IH|ts i p r b a id per rt H _ IH];
    unfold traverse in *; apply in_flat_map; eexists; (split; [exact H|]); cbn [traverse1].
  - left. reflexivity.
  - right. apply in_or_app. left. exact IH.
  - right. apply in_or_app. right. exact IH.
Qed.
Lemma every_task_priority : forall P (ts : list (ptask P)) l n id per,
  Permutation (traverse ts) l -> occurs ts id per true -> exists k, In (id, k) (assign_nice n l) /\ n <= k.
Proof.
  intros P ts l n id per Hp Ho. apply occurs_traverse in Ho. apply (Permutation_in _ Hp) in Ho. clear Hp ts.
  revert n. induction l as [|t l IH]; intros n; [destruct Ho|]. cbn [assign_nice]. destruct Ho as [->|Ho].
  - cbn [prt pid]. exists n. split; [left; reflexivity|lia].
  - destruct (prt t).
    + destruct (IH Ho (n + 1)) as (k & Hk & Hn). exists k. split; [right; exact Hk|lia].
    + apply (IH Ho).
Qed.
