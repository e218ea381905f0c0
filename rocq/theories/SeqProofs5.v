(** The consequences of the life cycle, stated on the logs of whole histories of runs. *)
From Verif Require Import Prelude SeqModel SeqSpec SeqProofs SeqProofs2.
Open Scope Z_scope.

Section Runs.
Context (mons : nat -> mondef) (s : nat).
Notation own := (own_ev mons s).
Notation ended r := {| aph := AEnded; aret := r; apend := None |}.

(** From the state [a] the next own event is [e]. *)
Lemma next_own : forall l a r, aruns mons s a l = Some (ended r) -> aph a <> AEnded ->
  exists k1 e k2, l = k1 ++ e :: k2 /\ filter own k1 = [] /\ own e = true /\
    exists a', astep mons s a e = Some a' /\ aruns mons s a' k2 = Some (ended r).
Proof.
  induction l as [|e l IH]; intros a r R N; [inversion R; subst; exfalso; now apply N|].
  destruct (own e) eqn:O.
  - exists [], e, l. repeat split; auto. cbn in R. destruct (astep mons s a e) as [a'|]; [|discriminate].
    exists a'. auto.
  - cbn in R. pose proof (quiet_step mons s a e O) as Q. cbn in Q. rewrite Q in R.
    destruct (IH a r R N) as (k1 & e' & k2 & -> & F & Oe & a' & Sa & R').
    exists (e :: k1), e', k2. repeat split; auto. { cbn. rewrite O. exact F. } exists a'; auto.
Qed.

Ltac runs_in H := repeat match type of H with
        | match ?x with _ => _ end = _ => destruct x eqn:?; try discriminate
        | (if ?x then _ else _) = _ => destruct x eqn:?; try discriminate
        end.

Lemma life_true_pre : forall l1 l2 r, life mons s (l1 ++ VPre s true :: l2) r ->
  exists k1 k2, l2 = k1 ++ VAct s :: k2 /\ filter own k1 = [].
Proof.
  intros l1 l2 r H. unfold life in H. rewrite aruns_app in H.
  destruct (aruns mons s ainit l1) as [a|]; [|discriminate]. cbn in H. rewrite Nat.eqb_refl in H.
  assert (exists b, aph b = AMustAct /\ aruns mons s b l2 = Some (ended r)) as (b & Eb & Rb).
  { destruct (aph a); try discriminate; destruct (no_pend a); try discriminate; eexists; split; [|exact H| |exact H]; reflexivity. }
  destruct (next_own l2 b r Rb) as (k1 & e & k2 & -> & F & O & a' & Sa & _); [congruence|].
  exists k1, k2. split; [|exact F]. f_equal. f_equal.
  destruct e; cbn in Sa, O; rewrite ?O, ?Eb in Sa; try discriminate. apply Nat.eqb_eq in O. now subst.
Qed.

Lemma life_handled : forall l1 m l2 r, life mons s (l1 ++ VHandled m :: l2) r -> mowner (mons m) = s ->
  mbeh (mons m) = Restart ->
  exists k1 k2, l2 = k1 ++ VRestart s :: k2 /\ (filter own k1 = [] \/ exists x, filter own k1 = [VRet s x]).
Proof.
  intros l1 m l2 r H Ow Be. unfold life in H. rewrite aruns_app in H.
  destruct (aruns mons s ainit l1) as [a|]; [|discriminate]. cbn in H. rewrite Ow, Nat.eqb_refl, Be in H.
  assert (exists b, (aph b = AFirst \/ aph b = AInAct \/ aph b = ARun) /\ apend b = Some Restart /\
    aruns mons s b l2 = Some (ended r)) as (b & Pb & Eb & Rb).
  { destruct (aph a) eqn:Ph; try discriminate; destruct (no_pend a); try discriminate; eexists; (split; [|split; [|exact H]]); cbn; auto. }
  clear H.
  assert (X : forall l b, (aph b = AFirst \/ aph b = ARun) -> apend b = Some Restart ->
     aruns mons s b l = Some (ended r) -> exists k1 k2, l = k1 ++ VRestart s :: k2 /\ filter own k1 = []).
  { clear. intros l b Pb Eb Rb.
    destruct (next_own l b r Rb) as (k1 & e & k2 & -> & F & O & a' & Sa & _); [destruct Pb; congruence|].
    exists k1, k2. split; [|exact F]. f_equal. f_equal.
    assert (Np : no_pend b = false) by (unfold no_pend; now rewrite Eb).
    assert (Ip : is_pend b Restart = true) by (unfold is_pend; now rewrite Eb).
    destruct Pb as [P|P]; destruct e; cbn in Sa, O; rewrite ?O, ?P, ?Np, ?Ip in Sa; try discriminate;
      apply Nat.eqb_eq in O; now subst. }
  destruct Pb as [P|[P|P]].
  - destruct (X l2 b (or_introl P) Eb Rb) as (k1 & k2 & -> & F). exists k1, k2. auto.
  - destruct (next_own l2 b r Rb) as (k1 & e & k2 & -> & F & O & a' & Sa & R'); [congruence|].
    assert (Np : no_pend b = false) by (unfold no_pend; now rewrite Eb).
    destruct e; cbn in Sa, O; rewrite ?O, ?P, ?Np in Sa; try discriminate.
    apply Nat.eqb_eq in O. subst s0. injection Sa as <-.
    destruct (X k2 {| aph := ARun; aret := r0; apend := apend b |} (or_intror eq_refl) Eb R') as (j1 & j2 & -> & F').
    exists (k1 ++ VRet s r0 :: j1), j2. split; [now rewrite <- app_assoc|]. right. exists r0.
    rewrite filter_app. cbn. rewrite Nat.eqb_refl, F, F'. reflexivity.
  - destruct (X l2 b (or_intror P) Eb Rb) as (k1 & k2 & -> & F). exists k1, k2. auto.
Qed.
End Runs.

(** Every event of a step in a log belongs to a life of the step. *)
Lemma app_cons_split : forall (b l1 l2 l : list ev) x e, b ++ x :: l = l1 ++ e :: l2 ->
  (exists b2, b ++ [x] = l1 ++ e :: b2 /\ l2 = b2 ++ l) \/ (exists l1', l1 = b ++ x :: l1' /\ l = l1' ++ e :: l2).
Proof.
  induction b as [|y b IH]; intros l1 l2 l x e H; destruct l1 as [|z l1]; cbn in H; injection H as -> H.
  - left. exists []. auto.
  - right. exists l1. auto.
  - left. exists (b ++ [x]). split; [reflexivity|]. now rewrite <- app_assoc.
  - destruct (IH _ _ _ _ _ H) as [(b2 & E & ->)|(l1' & -> & ->)].
    + left. exists b2. cbn. rewrite E. auto.
    + right. exists l1'. auto.
Qed.

Lemma lives_split : forall defs mons q pre l, lives defs mons q pre l ->
  forall l1 e l2, l = l1 ++ e :: l2 -> own_ev mons q e = true ->
  exists pl b1 b2 sl r, l1 = pl ++ b1 /\ l2 = b2 ++ sl /\ life mons q (b1 ++ e :: b2) r.
Proof.
  intros defs mons q pre l H. induction H as [pre|pre e l O H IH|pre b a r l R L F H IH]; intros l1 e' l2 E O'.
  - destruct l1; discriminate.
  - destruct l1 as [|x l1]; cbn in E; injection E as -> E; [congruence|].
    destruct (IH l1 e' l2 E O') as (pl & b1 & b2 & sl & r & -> & -> & L).
    exists (x :: pl), b1, b2, sl, r. auto.
  - destruct (app_cons_split _ _ _ _ _ _ E) as [(b2 & Eb & ->)|(l1' & -> & ->)].
    + exists [], l1, b2, l, r. rewrite <- Eb. auto.
    + destruct (IH l1' e' l2 eq_refl O') as (pl & b1 & b2 & sl & r' & -> & -> & L').
      exists (b ++ VEnd q r :: pl), b1, b2, sl, r'. rewrite <- app_assoc. auto.
Qed.

Section Reached.
Context (defs : nat -> seqdef) (mons : nat -> mondef) (orc : nat -> bool).
Hypothesis WF : wf_config defs mons.
Context (w : world) (H : reached defs mons orc w) (q : nat).

Lemma reached_split : forall l1 e l2, wlog w = l1 ++ e :: l2 -> own_ev mons q e = true ->
  exists pl b1 b2 sl r, l1 = pl ++ b1 /\ l2 = b2 ++ sl /\ life mons q (b1 ++ e :: b2) r.
Proof. destruct (reached_lives _ _ _ _ WF H q) as [L _]. exact (lives_split _ _ _ _ _ L). Qed.

Lemma run_act_pre : forall l1 l2, wlog w = l1 ++ VAct q :: l2 ->
  exists k1 k2, l1 = k1 ++ VPre q true :: k2 /\ filter (own_ev mons q) k2 = [].
Proof.
  intros l1 l2 E. destruct (reached_split _ _ _ E (Nat.eqb_refl q)) as (pl & b1 & b2 & sl & r & -> & -> & L).
  destruct (life_act_pre _ _ _ _ _ L) as (k1 & k2 & -> & F). exists (pl ++ k1), k2. now rewrite <- app_assoc.
Qed.

Lemma run_false_pre : forall l1 l2, wlog w = l1 ++ VPre q false :: l2 ->
  exists k1 r k2, l2 = k1 ++ VEnd q r :: k2 /\ filter (own_ev mons q) k1 = [].
Proof.
  intros l1 l2 E. destruct (reached_split _ _ _ E (Nat.eqb_refl q)) as (pl & b1 & b2 & sl & r & -> & -> & L).
  pose proof (life_false_pre _ _ _ _ _ L) as F. clear - F. revert F.
  induction b2 as [|e b2 IH]; cbn; [discriminate|]. destruct (own_ev mons q e) eqn:O; intros F.
  - injection F as -> _. exists [], r, (b2 ++ sl). auto.
  - destruct (IH F) as (k1 & r' & k2 & -> & F'). exists (e :: k1), r', k2. cbn. rewrite O. auto.
Qed.

Lemma run_true_pre : forall l1 l2, wlog w = l1 ++ VPre q true :: l2 ->
  exists k1 k2, l2 = k1 ++ VAct q :: k2 /\ filter (own_ev mons q) k1 = [].
Proof.
  intros l1 l2 E. destruct (reached_split _ _ _ E (Nat.eqb_refl q)) as (pl & b1 & b2 & sl & r & -> & -> & L).
  destruct (life_true_pre _ _ _ _ _ L) as (k1 & k2 & -> & F). exists k1, (k2 ++ sl). now rewrite <- app_assoc.
Qed.

Lemma run_restart : forall l1 m l2, wlog w = l1 ++ VHandled m :: l2 -> mowner (mons m) = q -> mbeh (mons m) = Restart ->
  exists k1 k2 b k3, l2 = k1 ++ VRestart q :: k2 ++ VPre q b :: k3 /\
    (filter (own_ev mons q) k1 = [] \/ exists x, filter (own_ev mons q) k1 = [VRet q x]) /\
    filter (own_ev mons q) k2 = [].
Proof.
  intros l1 m l2 E Ow Be.
  assert (O : own_ev mons q (VHandled m) = true) by (cbn; rewrite Ow; apply Nat.eqb_refl).
  destruct (reached_split _ _ _ E O) as (pl & b1 & b2 & sl & r & -> & -> & L).
  destruct (life_handled _ _ _ _ _ _ L Ow Be) as (k1 & k2 & -> & F).
  assert (L2 : life mons q ((b1 ++ VHandled m :: k1) ++ VRestart q :: k2) r) by (rewrite <- app_assoc; exact L).
  destruct (life_restart_pre _ _ _ _ _ L2) as (j1 & b & j2 & -> & F2).
  exists k1, j1, b, (j2 ++ sl). repeat split; auto. rewrite <- !app_assoc. cbn. now rewrite <- app_assoc.
Qed.
End Reached.
