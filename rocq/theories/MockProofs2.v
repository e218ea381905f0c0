From Coq Require Import QArith Lqa.
From Verif Require Import Prelude SafetyModel MockModel MockSpec MockProofs.
Local Open Scope Q_scope.

Lemma total : forall s0 ls, initial s0 -> exists s, steps ls s0 = Ok s.
Proof.
  intros s0 ls I. destruct (good_steps ls s0 _ _ (good_start s0 I)) as (s & c & n & E & _). exists s. exact E.
Qed.

Lemma cur_is : forall s c n l, good s c n -> level_at s l -> c = l.
Proof. intros s c n l [I _] E. destruct (i_sys _ _ _ I) as (F & _). unfold level_at in E. congruence. Qed.

Lemma levels : forall s, reach s -> level_at s slOff \/ level_at s slHoming \/ level_at s slReady \/ level_at s slMoving.
Proof.
  intros s R. destruct (good_reach s R) as (c & n & [I _]). destruct (i_sys _ _ _ I) as (F & _ & P).
  unfold level_at. pairs P; rewrite F; tauto.
Qed.

Lemma ready_homed : forall s, reach s -> level_at s slReady \/ level_at s slMoving -> homed s.
Proof.
  intros s R L. destruct (good_reach s R) as (c & n & G). destruct G as [I U].
  apply (i_hom _ _ _ I). unfold hm. destruct L as [L|L]; pose proof (cur_is _ _ _ _ (conj I U) L); tauto.
Qed.

Lemma selected : forall s, reach s -> sel s = true -> ~ level_at s slHoming /\ homed s.
Proof.
  intros s R S. destruct (good_reach s R) as (c & n & G). pose proof G as [I U].
  destruct (i_sel _ _ _ I S) as [A B]. split; [|exact B]. intro L. apply A. exact (cur_is _ _ _ _ G L).
Qed.

Lemma moving : forall s, reach s -> pfin s = false -> (level_at s slMoving \/ level_at s slOff) /\ sel s = true.
Proof.
  intros s R S. destruct (good_reach s R) as (c & n & G). pose proof G as [I U].
  destruct (i_fin _ _ _ I S) as [A B]. split; [|exact B].
  destruct (i_sys _ _ _ I) as (F & _). unfold level_at. rewrite F. destruct A as [->| ->]; tauto.
Qed.

Lemma setpoint_zero : forall s, reach s -> level_at s slReady \/ level_at s slMoving -> in_homing (at_ s) = false ->
  spv s = (0, 0).
Proof.
  intros s R L P. destruct (good_reach s R) as (c & n & G). pose proof G as [I U].
  apply (i_zero _ _ _ I); [|exact P]. unfold hm. destruct L as [L|L]; pose proof (cur_is _ _ _ _ G L); tauto.
Qed.

(** ** The interrupt *)
Definition not_safe (l : label) : Prop := l <> LSafe.

Lemma after_off : forall e c, pair_ok c slOff -> (e = evAbort \/ e = evHomingDone \/ e = evStartMoving) ->
  forall priv, after e priv c slOff = slOff.
Proof.
  intros e c P He priv. remember slOff as n eqn:En. revert En.
  pairs P; intro En; try discriminate En; destruct He as [->|[->| ->]]; destruct priv; reflexivity.
Qed.

Lemma abort_off : forall c n, pair_ok c n -> after evAbort true c n = slOff.
Proof. intros c n P. pairs P; reflexivity. Qed.

Lemma off_pending : forall l s c, good s c slOff ->
  exists s', step l s = Ok s' /\ good s' (next_c l c slOff) slOff.
Proof.
  intros l s c G. destruct (good_step l s c slOff G) as (s' & n' & E & G' & C). exists s'. split; [exact E|].
  destruct G as [I _]. destruct (i_sys _ _ _ I) as (_ & _ & P).
  replace n' with slOff in G'; [exact G'|].
  destruct C as [C|[[_ C]|[_ [C|C]]]]; rewrite C; [reflexivity| | |]; symmetry; apply after_off; tauto.
Qed.

Lemma off_pendings : forall ls s c, good s c slOff -> exists s' c', steps ls s = Ok s' /\ good s' c' slOff /\
  (c = slOff -> c' = slOff).
Proof.
  induction ls as [|l ls IH]; intros s c G.
  - exists s, c. split; [reflexivity|]. split; [exact G|auto].
  - destruct (off_pending l s c G) as (s1 & E1 & G1). destruct (IH _ _ G1) as (s2 & c2 & E2 & G2 & H2).
    exists s2, c2. split; [cbn [steps]; rewrite E1; exact E2|]. split; [exact G2|].
    intros ->. apply H2. destruct l; reflexivity.
Qed.

Lemma steps_app : forall a b s, steps (a ++ b) s = bind (steps a s) (steps b).
Proof.
  induction a as [|l a IH]; intros b s; cbn [steps app bind]; [reflexivity|].
  destruct (step l s); cbn [bind]; [apply IH|reflexivity|reflexivity].
Qed.

Lemma interrupt : forall s ls more s', reach s -> steps (LExit :: ls ++ LSafe :: more) s = Ok s' ->
  level_at s' slOff /\ stopped s' = true.
Proof.
  intros s ls more s' R E. destruct (good_reach s R) as (c & n & G).
  destruct (good_step LExit s c n G) as (s1 & n1 & E1 & G1 & C1).
  assert (N1 : exists s1, step LExit s = Ok s1 /\ good s1 c slOff).
  { destruct G as [I U]. destruct (inv_trig s c n evAbort true I) as (t & F & J & W); [tauto|discriminate|discriminate|].
    exists t. split; [exact F|]. destruct (i_sys _ _ _ I) as (_ & _ & P). rewrite (abort_off c n P) in J.
    split; [exact J|]. rewrite W. exact U. }
  clear s1 n1 E1 G1 C1. destruct N1 as (s1 & E1 & G1).
  cbn [steps] in E. rewrite E1 in E. cbn [bind] in E. rewrite steps_app in E.
  destruct (off_pendings ls s1 c G1) as (s2 & c2 & E2 & G2 & _). rewrite E2 in E. cbn [bind] in E.
  destruct (inv_safe s2 c2 slOff (proj1 G2)) as (s3 & E3 & I3 & W3).
  change (bind (step LSafe s2) (steps more) = Ok s') in E. rewrite E3 in E. cbn [bind] in E.
  assert (G3 : good s3 slOff slOff). { split; [exact I3|]. rewrite W3. exact (proj2 G2). }
  assert (S3 : stopped s3 = true).
  { rewrite W3. cbn. apply orb_true_r. }
  clear - G3 S3 E.
  assert (X : forall more s3, good s3 slOff slOff -> stopped s3 = true -> steps more s3 = Ok s' ->
              level_at s' slOff /\ stopped s' = true).
  { clear. induction more as [|l more IH]; intros s3 G3 S3 E.
    - injection E as <-. split; [|exact S3]. destruct (i_sys _ _ _ (proj1 G3)) as (F & _). exact F.
    - destruct (off_pending l s3 slOff G3) as (s4 & E4 & G4). cbn [steps] in E. rewrite E4 in E. cbn [bind] in E.
      apply (IH s4).
      + destruct l; exact G4.
      + clear - E4 S3. destruct l; cbn [step] in E4; try (injection E4 as <-; exact S3).
        * destruct (spo s3); injection E4 as <-; exact S3.
        * destruct (pfin s3); injection E4 as <-; exact S3.
        * unfold omap in E4. destruct (run H (ss s3) (fun _ => VBool false) []); try discriminate E4.
          injection E4 as <-. cbn. rewrite S3. reflexivity.
        * unfold trig, omap in E4. destruct (triggerEvent H (ss s3) evAbort true); try discriminate E4.
          injection E4 as <-. exact S3.
        * unfold seq in E4. destruct (at_ s3); try (injection E4 as <-; exact S3).
          -- destruct (ge1 v); injection E4 as <-; exact S3.
          -- destruct (ge1 w); injection E4 as <-; exact S3.
          -- destruct (ge1 v && ge1 w); [|injection E4 as <-; exact S3].
             unfold trig, omap in E4. destruct (triggerEvent H (ss s3) evHomingDone false); try discriminate E4.
             injection E4 as <-. exact S3.
          -- unfold trig, omap in E4. destruct (triggerEvent H (ss s3) evStartMoving false); try discriminate E4.
             injection E4 as <-. exact S3.
          -- destruct (fires s3 b); [injection E4 as <-; exact S3|]. destruct (pfin s3); injection E4 as <-; exact S3.
          -- destruct (fires s3 b); [injection E4 as <-; exact S3|]. destruct (pfin s3); injection E4 as <-; exact S3.
      + exact E. }
  exact (X more s3 G3 S3 E).
Qed.

(** Only the level off stops the executor. *)
Lemma stop_off : forall s, reach s -> stopped s = true -> level_at s slOff.
Proof.
  intros s R S. destruct (good_reach s R) as (c & n & [I U]). pose proof (i_stop _ _ _ I S) as ->.
  destruct (i_sys _ _ _ I) as (F & _). exact F.
Qed.

(** ** The end of the sequencer thread *)
Definition rank (p : pc) : nat :=
  match p with
  | PEnd => 0 | PTop => 1 | PWaitEnd => 2 | PHom => 3
  | PHomT true _ _ => 3 | PHomY true _ _ => 4 | PHomX true _ _ => 5 | PHomV1 true _ => 6 | PHomV0 true => 7
  | PHomMon => 8 | PHomAct => 9
  | PHomT false _ _ => 9 | PHomY false _ _ => 10 | PHomX false _ _ => 11 | PHomV1 false _ => 12 | PHomV0 false => 13
  | PTrig => 3 | PSw => 4 | PWaitR => 5 | PRead2 => 6
  | PUDLoop => 3 | PUD => 4 | PRead3 => 5 | PDn | PDnW => 4 | PUp | PUpW => 5
  end%nat.

Definition aborted (s : st) : Prop := ab s = 2%nat /\ running s = false.

Lemma seq_rank : forall b s s', aborted s -> seq b s = Ok s' -> aborted s' /\ (rank (at_ s') <= rank (at_ s) - 1)%nat.
Proof.
  intros b s s' [A R] E. unfold seq, fires in E. rewrite A, R in E. unfold aborted. 
  destruct (at_ s) eqn:P; cbn in E; try (injection E as <-; cbn; split; [split; assumption|cbn; lia]).
  - destruct f; injection E as <-; cbn; (split; [split; assumption|lia]).
  - destruct f; injection E as <-; cbn; (split; [split; assumption|lia]).
  - destruct f, (ge1 v); injection E as <-; cbn; (split; [split; assumption|lia]).
  - destruct f, (ge1 w); injection E as <-; cbn; (split; [split; assumption|lia]).
  - destruct (ge1 v && ge1 w).
    + unfold trig, omap in E. destruct (triggerEvent H (ss s) evHomingDone false); try discriminate E.
      injection E as <-. cbn. split; [split; assumption|]. destruct f; lia.
    + destruct f; injection E as <-; cbn; (split; [split; assumption|lia]).
  - destruct (level_is s slReady); injection E as <-; cbn; (split; [split; assumption|lia]).
  - unfold trig, omap in E. destruct (triggerEvent H (ss s) evStartMoving false); try discriminate E.
    injection E as <-. cbn. split; [split; assumption|lia].
  - destruct (level_is s slMoving); injection E as <-; cbn; (split; [split; assumption|lia]).
  - injection E as <-. rewrite P. cbn. split; [split; assumption|lia].
Qed.

Lemma other_rank : forall l s s', is_seq l = false -> aborted s -> step l s = Ok s' -> aborted s' /\ at_ s' = at_ s.
Proof.
  intros l s s' L [A R] E. unfold aborted. destruct l; cbn [step] in E; try discriminate L.
  - injection E as <-. cbn. tauto.
  - destruct (spo s); injection E as <-; cbn; tauto.
  - destruct (pfin s); injection E as <-; cbn; tauto.
  - injection E as <-. cbn. tauto.
  - unfold omap in E. destruct (run H (ss s) (fun _ => VBool false) []); try discriminate E.
    injection E as <-. cbn. tauto.
  - unfold trig, omap in E. destruct (triggerEvent H (ss s) evAbort true); try discriminate E.
    injection E as <-. cbn. tauto.
  - injection E as <-. cbn. rewrite A. cbn. tauto.
  - injection E as <-. cbn. tauto.
  - injection E as <-. cbn. tauto.
Qed.

Definition nseq (ls : list label) : nat := List.length (filter is_seq ls).

Lemma ends_gen : forall ls s s', aborted s -> steps ls s = Ok s' -> (rank (at_ s') <= rank (at_ s) - nseq ls)%nat.
Proof.
  induction ls as [|l ls IH]; intros s s' A E.
  - injection E as <-. unfold nseq. cbn. lia.
  - cbn [steps] in E. destruct (step l s) as [s1| |] eqn:E1; try discriminate E. cbn [bind] in E.
    unfold nseq. cbn [filter]. destruct (is_seq l) eqn:L.
    + destruct l; try discriminate L. destruct (seq_rank _ _ _ A E1) as [A1 H1].
      specialize (IH _ _ A1 E). unfold nseq in IH. cbn [List.length]. lia.
    + destruct (other_rank _ _ _ L A E1) as [A1 H1]. specialize (IH _ _ A1 E). rewrite H1 in IH. exact IH.
Qed.

Lemma rank_max : forall p, (rank p <= 13)%nat.
Proof. destruct p; cbn; try lia; destruct f; lia. Qed.

Lemma ends : forall ls s s', ab s = 2%nat -> running s = false -> steps ls s = Ok s' -> (13 <= nseq ls)%nat -> at_ s' = PEnd.
Proof.
  intros ls s s' A R E L. pose proof (ends_gen ls s s' (conj A R) E). pose proof (rank_max (at_ s)).
  assert (Z : rank (at_ s') = O) by lia. destruct (at_ s'); try destruct f; try discriminate Z. reflexivity.
Qed.

(** ** Witnesses *)
Definition demo0 : st := start 0 {| cur := Some slHoming; nxt := Some slHoming; nact := upd (fun _ => 0%Z) slHoming 0%Z |}.
Lemma demo_initial : initial demo0.
Proof. exists 0%N, (fun _ => 0%Z), {| cur := Some slHoming; nxt := Some slHoming; nact := upd (fun _ => 0%Z) slHoming 0%Z |}.
  split; reflexivity. Qed.
Definition upto (ls : list label) : st := match steps ls demo0 with Ok s => s | _ => demo0 end.
Lemma upto_ok : forall ls, steps ls demo0 = Ok (upto ls).
Proof. intro ls. unfold upto. destruct (total demo0 ls demo_initial) as [s E]. rewrite E. reflexivity. Qed.
Lemma upto_reach : forall ls, reach (upto ls).
Proof. intro ls. exists demo0, ls. split; [exact demo_initial|apply upto_ok]. Qed.
Lemma upto_step : forall ls l, step l (upto ls) = Ok (upto (ls ++ [l])).
Proof.
  intros ls l. pose proof (upto_ok (ls ++ [l])) as E. rewrite steps_app, upto_ok in E. cbn [bind steps] in E.
  destruct (step l (upto ls)); cbn [bind] in E; [|discriminate E|discriminate E]. injection E as E. f_equal. exact E.
Qed.

Lemma upto_steps : forall ls l2, steps l2 (upto ls) = Ok (upto (ls ++ l2)).
Proof.
  intros ls l2. pose proof (upto_ok (ls ++ l2)) as E. rewrite steps_app, upto_ok in E. cbn [bind] in E. exact E.
Qed.

(** Homing until the last check is done and homingDone is triggered. *)
Definition to_done : list label :=
  [LConst 0; LInt; LSeq false; LSeq false; LSeq false; LConst 13000000000; LInt; LSwitch;
   LSeq false; LSeq false; LSeq false; LSeq false; LSeq false; LSeq false].
(** Level ready, the sequencer thread waits for 2 s. *)
Definition to_ready : list label := to_done ++ [LSafe; LSeq true; LSeq false; LSeq false].
(** The switch is thrown. *)
Definition to_switched : list label := to_ready ++ [LPlan (0, 0) false; LSeq true; LSeq false].

Lemma jump_refuted : exists s s' v, reach s /\ level_at s slReady /\ pfin s = true /\ out s = Some v /\
  1 <= fst v /\ 1 <= snd v /\ step LSwitch s = Ok s' /\ out s' = Some (0, 0).
Proof.
  exists (upto to_switched), (upto (to_switched ++ [LSwitch])), (match out (upto to_switched) with Some v => v | None => (0, 0) end).
  split; [apply upto_reach|]. split; [vm_compute; reflexivity|]. split; [vm_compute; reflexivity|].
  split; [vm_compute; reflexivity|]. split; [apply Qle_bool_iff; vm_compute; reflexivity|].
  split; [apply Qle_bool_iff; vm_compute; reflexivity|]. split; [apply upto_step|]. vm_compute; reflexivity.
Qed.

Lemma switch_out : forall s s', step LSwitch s = Ok s' -> out s' = if sel s then ppos s else iout s.
Proof. intros s s' E. injection E as <-. reflexivity. Qed.

Definition to_aborted : list label := to_ready ++ [LExit; LAbort1; LAbort2; LAbort3].
Lemma abort_switches_refuted : exists s s', reach s /\ ab s = 2%nat /\ running s = false /\ nxt (ss s) = Some slOff /\
  sel s = false /\ steps [LSeq false; LSeq false] s = Ok s' /\ sel s' = true.
Proof.
  exists (upto to_aborted), (upto (to_aborted ++ [LSeq false; LSeq false])).
  split; [apply upto_reach|]. split; [vm_compute; reflexivity|]. split; [vm_compute; reflexivity|].
  split; [vm_compute; reflexivity|]. split; [vm_compute; reflexivity|].
  split; [apply upto_steps|].
  vm_compute; reflexivity.
Qed.

(** The switch moves only while the sequencer is at line 92. *)
Lemma sel_only : forall l s s', step l s = Ok s' -> sel s' <> sel s -> l <> LSwitch /\ is_seq l = true /\ at_ s = PSw.
Proof.
  intros l s s' E N. destruct l; cbn [step] in E; try (injection E as <-; destruct (N eq_refl)).
  - destruct (spo s); injection E as <-; destruct (N eq_refl).
  - destruct (pfin s); injection E as <-; destruct (N eq_refl).
  - unfold omap in E. destruct (run H (ss s) (fun _ => VBool false) []); try discriminate E.
    injection E as <-. destruct (N eq_refl).
  - unfold trig, omap in E. destruct (triggerEvent H (ss s) evAbort true); try discriminate E.
    injection E as <-. destruct (N eq_refl).
  - split; [discriminate|]. split; [reflexivity|]. unfold seq in E. destruct (at_ s); try reflexivity; exfalso;
      try (injection E as <-; exact (N eq_refl)).
    + destruct (ge1 v); injection E as <-; exact (N eq_refl).
    + destruct (ge1 w); injection E as <-; exact (N eq_refl).
    + destruct (ge1 v && ge1 w); [|injection E as <-; exact (N eq_refl)].
      unfold trig, omap in E. destruct (triggerEvent H (ss s) evHomingDone false); try discriminate E.
      injection E as <-. exact (N eq_refl).
    + unfold trig, omap in E. destruct (triggerEvent H (ss s) evStartMoving false); try discriminate E.
      injection E as <-. exact (N eq_refl).
    + destruct (fires s b); [injection E as <-; exact (N eq_refl)|]. destruct (pfin s); injection E as <-; exact (N eq_refl).
    + destruct (fires s b); [injection E as <-; exact (N eq_refl)|]. destruct (pfin s); injection E as <-; exact (N eq_refl).
Qed.

Definition to_again : list label := to_done ++ [LSeq true; LSeq false; LSeq false; LSeq false; LSafe].
Lemma moves_ready_refuted : exists s s' v v', reach s /\ level_at s slReady /\ iout s = Some v /\
  steps [LConst 10000000; LInt] s = Ok s' /\ level_at s' slReady /\ iout s' = Some v' /\ fst v < fst v'.
Proof.
  exists (upto to_again), (upto (to_again ++ [LConst 10000000; LInt])),
    (match iout (upto to_again) with Some v => v | None => (0, 0) end),
    (match iout (upto (to_again ++ [LConst 10000000; LInt])) with Some v => v | None => (0, 0) end).
  split; [apply upto_reach|]. split; [vm_compute; reflexivity|]. split; [vm_compute; reflexivity|].
  split; [apply upto_steps|].
  split; [vm_compute; reflexivity|]. split; [vm_compute; reflexivity|]. vm_compute. reflexivity.
Qed.
