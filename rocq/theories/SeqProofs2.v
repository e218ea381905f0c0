From Coq Require Import ZifyBool ZifyNat Reals Lra Psatz String.
From Verif Require Import Prelude Num SeqModel SeqSpec SeqProofs.
Open Scope Z_scope.
Open Scope list_scope.

(** ** every log consists of lives *)
Lemma reached_inv : forall defs mons orc w, wf_config defs mons -> reached defs mons orc w ->
  G defs mons w /\ (forall q, qbusy (wq w q) = false) /\ (forall q, lives defs mons q [] (wlog w)).
Proof.
  intros defs mons orc w WF H. induction H as [|n s w w' r H IH Hs He].
  - split; [apply G_new|]. split; [reflexivity|]. intros q. constructor.
  - destruct IH as (HG & Hb & Hl). destruct (all_ok defs mons orc WF n) as (HE & _).
    destruct (HE s w w' r [] He HG Hs) as ((seg & L & K) & G1 & _); [intros q []|].
    split; [exact G1|]. split.
    + intros q. destruct (K q ltac:(discriminate)) as [[-> _] _]. apply Hb.
    + intros q. rewrite L. apply lives_app; [apply Hl|]. apply (K q ltac:(discriminate)). apply Hb.
Qed.

Lemma reached_lives : forall defs mons orc w, wf_config defs mons -> reached defs mons orc w ->
  forall q, lives defs mons q [] (wlog w) /\ qphase (wq w q) = Idle /\ qbusy (wq w q) = false.
Proof.
  intros defs mons orc w WF H q. destruct (reached_inv _ _ _ _ WF H) as ((_ & _ & _ & g4) & Hb & Hl).
  split; [apply Hl|]. split; [apply g4, Hb|apply Hb].
Qed.

(** ** consequences of [life] *)
Section Cons.
Variable mons : nat -> mondef.
Variable s : nat.
Let own := own_ev mons s.
Let st := astep mons s.
Let runs := aruns mons s.

Lemma quiet_step : forall a e, own e = false -> st a e = Some a.
Proof. intros a e H. apply own_irrelevant. exact H. Qed.

Lemma runs_snoc : forall a l e, runs a (l ++ [e]) = match runs a l with Some a' => st a' e | None => None end.
Proof.
  intros a l e. unfold runs. rewrite aruns_app. destruct (aruns mons s a l); [|reflexivity].
  cbn. unfold st. destruct (astep mons s a0 e); reflexivity.
Qed.

Ltac ownid H := unfold own, own_ev in H; apply Nat.eqb_eq in H; try subst.

Lemma filter_snoc : forall f (l : list ev) e, filter f (l ++ [e]) = filter f l ++ (if f e then [e] else []).
Proof. intros. rewrite filter_app. cbn. destruct (f e); reflexivity. Qed.

(** The last event that matters before a step must act is its true precondition. *)
Lemma mustact_pre : forall l a a', runs a l = Some a' -> aph a <> AMustAct -> aph a' = AMustAct ->
  exists k1 k2, l = k1 ++ VPre s true :: k2 /\ filter own k2 = [].
Proof.
  intros l; induction l as [|e l IH] using rev_ind; intros a a' R N M; [cbn in R; congruence|].
  rewrite runs_snoc in R. destruct (runs a l) as [a1|] eqn:R1; [|discriminate].
  destruct (own e) eqn:O.
  - unfold st in R. destruct e; cbn in R; try discriminate; unfold own in O; cbn in O; rewrite O in R;
      apply Nat.eqb_eq in O; subst; repeat match type of R with
        | match ?x with _ => _ end = _ => destruct x eqn:?; try discriminate
        | (if ?x then _ else _) = _ => destruct x eqn:?; try discriminate
        end; inversion R; subst; cbn in *; try congruence; try discriminate.
    + destruct b; [|discriminate]. exists l, []. auto.
    + destruct b; [|discriminate]. exists l, []. auto.
    + destruct b; discriminate.
  - rewrite quiet_step in R by exact O. inversion R; subst a1.
    destruct (IH a a' R1 N M) as (k1 & k2 & -> & F). exists k1, (k2 ++ [e]).
    rewrite <- app_assoc. split; [reflexivity|]. rewrite filter_snoc, F, O. reflexivity.
Qed.

Lemma done_reason : forall l a a', runs a l = Some a' -> aph a <> ADone -> aph a' = ADone ->
  exists k1 e k2, l = k1 ++ e :: k2 /\ (e = VPre s false \/ e = VExit s true) /\ filter own k2 = [].
Proof.
  intros l; induction l as [|e l IH] using rev_ind; intros a a' R N M; [cbn in R; congruence|].
  rewrite runs_snoc in R. destruct (runs a l) as [a1|] eqn:R1; [|discriminate].
  destruct (own e) eqn:O.
  - unfold st in R. destruct e; cbn in R; try discriminate; unfold own in O; cbn in O; rewrite O in R;
      apply Nat.eqb_eq in O; subst; repeat match type of R with
        | match ?x with _ => _ end = _ => destruct x eqn:?; try discriminate
        | (if ?x then _ else _) = _ => destruct x eqn:?; try discriminate
        end; inversion R; subst; cbn in *; try congruence; try discriminate.
    + destruct b; [discriminate|]. exists l, (VPre s false), []. auto.
    + destruct b; [discriminate|]. exists l, (VPre s false), []. auto.
    + destruct b; [|discriminate]. exists l, (VExit s true), []. auto.
  - rewrite quiet_step in R by exact O. inversion R; subst a1.
    destruct (IH a a' R1 N M) as (k1 & e' & k2 & -> & He' & F). exists k1, e', (k2 ++ [e]).
    rewrite <- app_assoc. split; [reflexivity|]. split; [exact He'|]. rewrite filter_snoc, F, O. reflexivity.
Qed.

Lemma runs_app : forall a l1 l2, runs a (l1 ++ l2) = match runs a l1 with Some a' => runs a' l2 | None => None end.
Proof. intros. apply aruns_app. Qed.

(** From [ADone] or [AEnded] hardly anything can follow. *)
Lemma after_ended : forall l a a', runs a l = Some a' -> aph a = AEnded -> filter own l = [] /\ a' = a.
Proof.
  intros l; induction l as [|e l IH]; intros a a' R E; [inversion R; auto|].
  cbn in R. destruct (own e) eqn:O.
  - unfold own in O. destruct e; cbn in *; try discriminate; rewrite O, E in R; discriminate.
  - rewrite (quiet_step a e O : astep mons s a e = Some a) in R. cbn. rewrite O. apply (IH a a' R E).
Qed.

Lemma after_done : forall l a r, runs a l = Some {| aph := AEnded; aret := r; apend := None |} -> aph a = ADone ->
  filter own l = [VEnd s r] /\ r = aret a.
Proof.
  intros l; induction l as [|e l IH]; intros a r R E; [inversion R; subst; discriminate|].
  cbn in R. destruct (own e) eqn:O.
  - cbn. rewrite O. unfold own in O. destruct e; cbn in *; try discriminate; rewrite O, E in R; try discriminate.
    destruct (is_pend a Restart); [discriminate|]. destruct (r0 =? aret a) eqn:Er; [|discriminate].
    apply Nat.eqb_eq in O. subst. apply Z.eqb_eq in Er.
    destruct (after_ended l _ _ R eq_refl) as [-> X]. inversion X; subst. auto.
  - rewrite (quiet_step a e O : astep mons s a e = Some a) in R. cbn. rewrite O. apply (IH a r R E).
Qed.

Lemma life_false_pre : forall l1 l2 r, life mons s (l1 ++ VPre s false :: l2) r ->
  filter own l2 = [VEnd s r].
Proof.
  intros l1 l2 r H. unfold life in H. rewrite aruns_app in H.
  destruct (aruns mons s ainit l1) as [a|]; [|discriminate]. cbn in H. rewrite Nat.eqb_refl in H.
  destruct (aph a); try discriminate; destruct (no_pend a); try discriminate.
  - apply (after_done l2 _ r H eq_refl).
  - apply (after_done l2 _ r H eq_refl).
Qed.

Lemma life_act_pre : forall l1 l2 r, life mons s (l1 ++ VAct s :: l2) r ->
  exists k1 k2, l1 = k1 ++ VPre s true :: k2 /\ filter own k2 = [].
Proof.
  intros l1 l2 r H. unfold life in H. rewrite aruns_app in H.
  destruct (aruns mons s ainit l1) as [a|] eqn:R; [|discriminate]. cbn in H. rewrite Nat.eqb_refl in H.
  destruct (aph a) eqn:E; try discriminate.
  apply (mustact_pre l1 ainit a R); [discriminate|exact E].
Qed.

(** The result is that of the last action, -1 without one. *)
Definition last_ret (l : list ev) : Z :=
  fold_left (fun r e => match e with VRet q x => if Nat.eqb q s then x else r | _ => r end) l (-1).
Lemma runs_ret : forall l a a', runs a l = Some a' ->
  aret a' = fold_left (fun r e => match e with VRet q x => if Nat.eqb q s then x else r | _ => r end) l (aret a).
Proof.
  intros l; induction l as [|e l IH]; intros a a' R; [inversion R; reflexivity|].
  cbn in R. destruct (astep mons s a e) as [a1|] eqn:E; [|discriminate].
  rewrite (IH _ _ R). cbn. f_equal.
  destruct e; cbn in E; repeat match type of E with
        | match ?x with _ => _ end = _ => destruct x eqn:?; try discriminate
        | (if ?x then _ else _) = _ => destruct x eqn:?; try discriminate
        end; inversion E; subst; cbn; auto.
  - apply Z.eqb_eq; assumption.
  - apply Z.eqb_eq; assumption.
  - apply Z.eqb_eq; assumption.
Qed.
Lemma life_result : forall l r, life mons s l r -> r = last_ret l.
Proof. intros l r H. apply (runs_ret l ainit _ H). Qed.

(** Restarts. *)
Definition b2n (b : bool) : nat := if b then 1%nat else 0%nat.
Lemma count_cons : forall f e l, count_ev f (e :: l) = (b2n (f e) + count_ev f l)%nat.
Proof. intros f e l. unfold count_ev. cbn. destruct (f e); reflexivity. Qed.

Lemma runs_restarts : forall l a a', runs a l = Some a' -> apend a <> Some Resume ->
  (b2n (is_pend a Restart) + count_ev (is_restart_of mons s) l =
   b2n (is_pend a' Restart) + count_ev (is_restart s) l)%nat.
Proof.
  intros l; induction l as [|e l IH]; intros a a' R Np; [inversion R; auto|].
  cbn in R. destruct (astep mons s a e) as [a1|] eqn:E; [|discriminate].
  assert (Np1 : apend a1 <> Some Resume).
  { destruct e; cbn in E; repeat match type of E with
        | match ?x with _ => _ end = _ => destruct x eqn:?; try discriminate
        | (if ?x then _ else _) = _ => destruct x eqn:?; try discriminate
        end; inversion E; subst; cbn; auto; try discriminate; destruct (mbeh (mons m)); discriminate. }
  pose proof (IH a1 a' R Np1) as H. rewrite !count_cons.
  enough (b2n (is_pend a Restart) + b2n (is_restart_of mons s e) =
          b2n (is_pend a1 Restart) + b2n (is_restart s e))%nat by lia.
  destruct e; cbn in E; cbn [is_restart is_restart_of]; repeat match type of E with
        | match ?x with _ => _ end = _ => destruct x eqn:?; try discriminate
        | (if ?x then _ else _) = _ => destruct x eqn:?; try discriminate
        end; inversion E; subst; cbn [andb];
    repeat match goal with H : no_pend ?a = true |- _ => unfold no_pend in H end;
    unfold is_pend in *; cbn [apend] in *;
    repeat match goal with |- context [match apend ?a with _ => _ end] => destruct (apend a) as [[]|] eqn:?; try discriminate end;
    cbn; auto; try (destruct (mbeh (mons m)); reflexivity).
Qed.
Lemma life_restarts : forall l r, life mons s l r ->
  count_ev (is_restart_of mons s) l = count_ev (is_restart s) l.
Proof.
  intros l r H. pose proof (runs_restarts l ainit _ H ltac:(discriminate)) as X. cbn in X. exact X.
Qed.

(** What the counters of preconditions and restarts say in each phase. *)
Lemma runs_pre : forall l a r, runs a l = Some {| aph := AEnded; aret := r; apend := None |} ->
  match aph a with
  | AFirst => (count_ev (is_restart s) l <= count_ev (is_pre s) l <= 1 + count_ev (is_restart s) l)%nat
  | AReady => count_ev (is_pre s) l = (1 + count_ev (is_restart s) l)%nat
  | _ => count_ev (is_pre s) l = count_ev (is_restart s) l
  end.
Proof.
  intros l; induction l as [|e l IH]; intros a r R; [inversion R; subst; reflexivity|].
  cbn in R. destruct (astep mons s a e) as [a1|] eqn:E; [|discriminate].
  pose proof (IH a1 r R) as H. clear IH R. rewrite !count_cons.
  destruct e; cbn in E; cbn [is_restart is_pre]; repeat match type of E with
        | match ?x with _ => _ end = _ => destruct x eqn:?; try discriminate
        | (if ?x then _ else _) = _ => destruct x eqn:?; try discriminate
        end; inversion E; subst; cbn [aph] in *;
    repeat match goal with H : aph ?a = _ |- _ => rewrite H in * end;
    repeat match goal with |- context [aph ?a] => destruct (aph a) eqn:? end;
    cbn [b2n] in *; try lia; destruct b; cbn in *; lia.
Qed.

Lemma runs_acts : forall l a r, runs a l = Some {| aph := AEnded; aret := r; apend := None |} ->
  count_ev (is_act s) l = (count_ev (is_pre_true s) l + (match aph a with AMustAct => 1 | _ => 0 end))%nat.
Proof.
  intros l; induction l as [|e l IH]; intros a r R; [inversion R; subst; reflexivity|].
  cbn in R. destruct (astep mons s a e) as [a1|] eqn:E; [|discriminate].
  pose proof (IH a1 r R) as H. clear IH R. rewrite !count_cons.
  destruct e; cbn in E; cbn [is_act is_pre_true]; repeat match type of E with
        | match ?x with _ => _ end = _ => destruct x eqn:?; try discriminate
        | (if ?x then _ else _) = _ => destruct x eqn:?; try discriminate
        end; inversion E; subst; cbn [aph] in *;
    repeat match goal with H : aph ?a = _ |- _ => rewrite H in * end;
    repeat match goal with |- context [aph ?a] => destruct (aph a) eqn:? end;
    cbn [b2n andb] in *; try lia; destruct b; cbn in *; lia.
Qed.

Lemma life_counts : forall l r, life mons s l r ->
  (count_ev (is_restart s) l <= count_ev (is_pre s) l <= 1 + count_ev (is_restart s) l)%nat /\
  count_ev (is_act s) l = count_ev (is_pre_true s) l.
Proof.
  intros l r H. split; [apply (runs_pre l ainit r H)|]. pose proof (runs_acts l ainit r H) as X. cbn in X. lia.
Qed.

(** Once the step was started (first precondition), every restart evaluates the precondition again. *)
Lemma life_counts_started : forall l1 b l2 r, life mons s (l1 ++ VPre s b :: l2) r ->
  count_ev (is_pre s) l2 = count_ev (is_restart s) l2.
Proof.
  intros l1 b l2 r H. unfold life in H. rewrite aruns_app in H.
  destruct (aruns mons s ainit l1) as [a|]; [|discriminate]. cbn in H. rewrite Nat.eqb_refl in H.
  destruct (aph a); try discriminate; destruct (no_pend a); try discriminate;
    pose proof (runs_pre l2 _ r H) as X; cbn in X; destruct b; exact X.
Qed.

(** A handled restart is followed by the restart and this by the precondition. *)
Lemma runs_ready : forall l a r, runs a l = Some {| aph := AEnded; aret := r; apend := None |} -> aph a = AReady ->
  exists k1 b k2, l = k1 ++ VPre s b :: k2 /\ filter own k1 = [].
Proof.
  intros l; induction l as [|e l IH]; intros a r R E; [inversion R; subst; discriminate|].
  cbn in R. destruct (own e) eqn:O.
  - unfold own in O. destruct e; cbn in *; try discriminate; rewrite O, E in R; try discriminate.
    apply Nat.eqb_eq in O. subst. exists [], b, l. auto.
  - rewrite (quiet_step a e O : astep mons s a e = Some a) in R.
    destruct (IH a r R E) as (k1 & b & k2 & -> & F). exists (e :: k1), b, k2. split; [reflexivity|].
    cbn. rewrite O. exact F.
Qed.
Lemma life_restart_pre : forall l1 l2 r, life mons s (l1 ++ VRestart s :: l2) r ->
  exists k1 b k2, l2 = k1 ++ VPre s b :: k2 /\ filter own k1 = [].
Proof.
  intros l1 l2 r H. unfold life in H. rewrite aruns_app in H.
  destruct (aruns mons s ainit l1) as [a|]; [|discriminate]. cbn in H. rewrite Nat.eqb_refl in H.
  destruct (aph a); try discriminate; destruct (is_pend a Restart); try discriminate;
    apply (runs_ready l2 _ r H eq_refl).
Qed.
End Cons.

Lemma life_reason : forall defs mons q pre l, lives defs mons q pre l ->
  forall l1 r l2, l = l1 ++ VEnd q r :: l2 ->
  exists pl b, l1 = pl ++ b /\ life mons q (b ++ [VEnd q r]) r /\
    ((exists k1 e k2, b = k1 ++ e :: k2 /\ (e = VPre q false \/ e = VExit q true) /\ filter (own_ev mons q) k2 = []) \/
     fired_above mons (sstack (defs q)) (pre ++ l1)).
Proof.
  intros defs mons q pre l H. induction H as [pre|pre e l He Hl IH|pre b a r l Ha Hlf Hj Hl IH]; intros l1 r' l2 E.
  - destruct l1; discriminate.
  - destruct l1 as [|e' l1]; inversion E; subst.
    + cbn in He. rewrite Nat.eqb_refl in He. discriminate.
    + destruct (IH l1 r' l2 eq_refl) as (pl & b & -> & Hb & Hr). exists (e' :: pl), b.
      split; [reflexivity|]. split; [exact Hb|]. rewrite <- app_assoc in Hr. exact Hr.
  - (* either the end of this life or a later one *)
    assert (HN : forall k1 x k2, b = k1 ++ VEnd q x :: k2 -> False).
    { intros k1 x k2 Eb. unfold life in Hlf. rewrite aruns_app in Hlf. rewrite Ha in Hlf.
      cbn [aruns] in Hlf. rewrite Eb, aruns_app in Ha.
      destruct (aruns mons q ainit k1) as [a1|]; [|discriminate]. cbn [aruns] in Ha.
      destruct (astep mons q a1 (VEnd q x)) as [a2|] eqn:E2; [|discriminate].
      assert (Ea2 : aph a2 = AEnded).
      { cbn in E2. rewrite Nat.eqb_refl in E2. destruct (aph a1); try discriminate;
          destruct (is_pend a1 Restart); try discriminate; destruct (x =? aret a1); try discriminate;
          inversion E2; reflexivity. }
      destruct (after_ended mons q k2 _ _ Ha Ea2) as [_ ->]. cbn in Hlf. rewrite Nat.eqb_refl, Ea2 in Hlf. discriminate. }
    assert (Hc : (l1 = b /\ r' = r /\ l2 = l) \/ exists l1', l1 = b ++ VEnd q r :: l1' /\ l = l1' ++ VEnd q r' :: l2).
    { clear - E HN. revert l1 E. induction b as [|e b IHb]; intros l1 E.
      - destruct l1 as [|e1 l1]; cbn in E; inversion E; subst; [left; auto|]. right. exists l1. auto.
      - destruct l1 as [|e1 l1]; cbn in E; inversion E; subst.
        + exfalso. apply (HN [] r' b). reflexivity.
        + destruct (IHb) with (l1 := l1) as [(-> & -> & ->)|(l1' & -> & ->)]; auto.
          * intros k1 x k2 Eb. apply (HN (e1 :: k1) x k2). rewrite Eb. reflexivity.
          * right. exists l1'. auto. }
    destruct Hc as [(-> & -> & ->)|(l1' & -> & ->)].
    + exists [], b. split; [reflexivity|]. split; [exact Hlf|]. destruct Hj as [Hj|Hj]; [left|right; exact Hj].
      apply (done_reason mons q b ainit a Ha); [discriminate|exact Hj].
    + destruct (IH l1' r' l2 eq_refl) as (pl & b' & -> & Hb & Hr). exists (b ++ VEnd q r :: pl), b'.
      split; [rewrite <- app_assoc; reflexivity|]. split; [exact Hb|].
      destruct Hr as [Hr|Hr]; [left; exact Hr|right]. rewrite <- !app_assoc in Hr. exact Hr.
Qed.

Lemma end_reason : forall defs mons orc w q l1 r l2, wf_config defs mons -> reached defs mons orc w ->
  wlog w = l1 ++ VEnd q r :: l2 ->
  exists pl b, l1 = pl ++ b /\ life mons q (b ++ [VEnd q r]) r /\
    ((exists k1 e k2, b = k1 ++ e :: k2 /\ (e = VPre q false \/ e = VExit q true) /\ filter (own_ev mons q) k2 = []) \/
     fired_above mons (sstack (defs q)) l1).
Proof.
  intros defs mons orc w q l1 r l2 WF H E. destruct (reached_lives _ _ _ _ WF H q) as [Hl _].
  apply (life_reason _ _ _ _ _ Hl l1 r l2 E).
Qed.

