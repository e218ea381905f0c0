From Coq Require Import QArith Lqa.
From Verif Require Import Prelude SafetyModel MockModel MockSpec.

(** ** The safety system on the four levels *)
Inductive pair_ok : lref -> lref -> Prop :=
| p_same : forall c, (c <= 3)%nat -> pair_ok c c
| p_12 : pair_ok slHoming slReady
| p_23 : pair_ok slReady slMoving
| p_10 : pair_ok slHoming slOff
| p_20 : pair_ok slReady slOff
| p_30 : pair_ok slMoving slOff.

Definition sys_ok (s : sys) (c n : lref) : Prop := cur s = Some c /\ nxt s = Some n /\ pair_ok c n.

Lemma le3 : forall c, (c <= 3)%nat -> c = slOff \/ c = slHoming \/ c = slReady \/ c = slMoving.
Proof. unfold slOff, slHoming, slReady, slMoving; intros; lia. Qed.

Definition after (e : evid) (priv : bool) (c n : lref) : lref :=
  match e, c with
  | 1%Z, 1%nat => if Nat.eqb n 1 then slReady else n
  | 2%Z, 2%nat => if Nat.eqb n 2 then slMoving else n
  | 0%Z, 1%nat | 0%Z, 2%nat | 0%Z, 3%nat => if priv then slOff else n
  | _, _ => n
  end.

Ltac pairs P := inversion P as [? L E1 E2| | | | |]; subst;
  [match goal with L : (_ <= 3)%nat |- _ => destruct (le3 _ L) as [->|[->|[->| ->]]] end| | | | |].

Definition lv (id : Z) (t : list (evid * (lref * bool))) (a : bool) : level :=
  {| lid := id; ltrans := t; lin := []; lout := []; lact := a |}.
Lemma H_off : H slOff = lv 0 [] true. Proof. vm_compute. reflexivity. Qed.
Lemma H_homing : H slHoming = lv 1 [(1%Z, (2%nat, false)); (0%Z, (0%nat, true))] false.
Proof. vm_compute. reflexivity. Qed.
Lemma H_ready : H slReady = lv 2 [(2%Z, (3%nat, false)); (0%Z, (0%nat, true))] false.
Proof. vm_compute. reflexivity. Qed.
Lemma H_moving : H slMoving = lv 3 [(0%Z, (0%nat, true))] false.
Proof. vm_compute. reflexivity. Qed.

Lemma trig_gen : forall h s c n e priv, h slOff = H slOff -> h slHoming = H slHoming -> h slReady = H slReady ->
  h slMoving = H slMoving -> sys_ok s c n -> (e = evAbort \/ e = evHomingDone \/ e = evStartMoving) ->
  exists s', triggerEvent h s e priv = Ok s' /\ sys_ok s' c (after e priv c n).
Proof.
  intros h [cu nx na] c n e priv A0 A1 A2 A3 (E1 & E2 & P) He. simpl in E1, E2. subst cu nx.
  rewrite H_off in A0. rewrite H_homing in A1. rewrite H_ready in A2. rewrite H_moving in A3.
  unfold slOff, slHoming, slReady, slMoving, evAbort, evHomingDone, evStartMoving in *.
  pairs P; unfold slOff, slHoming, slReady, slMoving in *; destruct He as [->|[->| ->]]; destruct priv;
    (eexists; split;
     [unfold triggerEvent; cbn [cur nxt nact]; rewrite ?A0, ?A1, ?A2, ?A3; cbn; rewrite ?A0, ?A1, ?A2, ?A3; cbn; reflexivity
     |split; [reflexivity|]; split; [reflexivity|]; cbn; constructor; lia]).
Qed.
Lemma trig_ok : forall s c n e priv, sys_ok s c n -> (e = evAbort \/ e = evHomingDone \/ e = evStartMoving) ->
  exists s', triggerEvent H s e priv = Ok s' /\ sys_ok s' c (after e priv c n).
Proof. intros. apply trig_gen; auto. Qed.

Lemma run_gen : forall h s c n, h slOff = H slOff -> h slHoming = H slHoming -> h slReady = H slReady ->
  h slMoving = H slMoving -> sys_ok s c n ->
  exists s' es, run h s (fun _ => VBool false) [] = Ok (s', es) /\ sys_ok s' n n /\ ran_off es = Nat.eqb n slOff.
Proof.
  intros h [cu nx na] c n A0 A1 A2 A3 (E1 & E2 & P). simpl in E1, E2. subst cu nx.
  rewrite H_off in A0. rewrite H_homing in A1. rewrite H_ready in A2. rewrite H_moving in A3.
  unfold slOff, slHoming, slReady, slMoving in *.
  pairs P; unfold slOff, slHoming, slReady, slMoving in *; (do 2 eexists; split;
    [unfold run, adopt; cbn [cur nxt nact]; rewrite ?A0, ?A1, ?A2, ?A3;
     cbn [lv lin lout lact checkInputs bind fst snd triggers setOutputs app nxt cur adopt]; reflexivity
    |split; [split; [reflexivity|]; split; [reflexivity|]; constructor; lia|reflexivity]]).
Qed.
Lemma run_ok : forall s c n, sys_ok s c n ->
  exists s' es, run H s (fun _ => VBool false) [] = Ok (s', es) /\ sys_ok s' n n /\ ran_off es = Nat.eqb n slOff.
Proof. intros. apply run_gen with c; auto. Qed.

(** ** The invariant *)
Local Open Scope Q_scope.
Definition nonneg (v : v2) : Prop := 0 <= fst v /\ 0 <= snd v.
Definition ole (v : option Q) (x : Q) : Prop := match v with Some y => y <= x | None => True end.

(** The levels where the robot must be homed, now or in the next cycle. *)
Definition hm (c n : lref) : Prop := n = slReady \/ n = slMoving \/ c = slReady \/ c = slMoving.

Definition pc_ok (s : st) (c n : lref) : Prop :=
  match at_ s with
  | PHom => hm c n -> spv s = (0, 0)
  | PHomV1 _ v => ole v (fst (iprev s)) /\ (ge1 v = true -> iout s <> None) /\ (hm c n -> ge1 v = true)
  | PHomX _ v w =>
      ole v (fst (iprev s)) /\ ole w (snd (iprev s)) /\ (ge1 v = true -> iout s <> None) /\
      (hm c n -> ge1 v = true /\ ge1 w = true)
  | PHomY _ v w =>
      ole v (fst (iprev s)) /\ ole w (snd (iprev s)) /\ (ge1 v = true -> iout s <> None) /\
      (hm c n -> ge1 v = true /\ ge1 w = true) /\ (ge1 v = true -> fst (spv s) = 0)
  | PHomT _ v w =>
      ole v (fst (iprev s)) /\ ole w (snd (iprev s)) /\ (ge1 v = true -> iout s <> None) /\
      (hm c n -> ge1 v = true /\ ge1 w = true) /\ (ge1 v = true -> fst (spv s) = 0) /\ (ge1 w = true -> snd (spv s) = 0)
  | PWaitR | PSw => c <> slHoming /\ homed s
  | PTrig => sel s = true
  | PUD | PUDLoop | PUp | PUpW | PDn | PDnW => c = slMoving \/ c = slOff
  | _ => True
  end.

Record inv (s : st) (c n : lref) : Prop := {
  i_sys : sys_ok (ss s) c n;
  i_spv : nonneg (spv s);
  i_spo : match spo s with Some v => nonneg v | None => True end;
  i_t1 : (spt s <= clk s)%Z;
  i_t2 : ifirst s = false -> (iprevt s <= spt s)%Z;
  i_first : iout s = None \/ iout s = Some (iprev s);
  i_hom : hm c n -> homed s;
  i_sel : sel s = true -> c <> slHoming /\ homed s;
  i_mov : (n = slMoving \/ c = slMoving) -> sel s = true;
  i_fin : pfin s = false -> (c = slMoving \/ c = slOff) /\ sel s = true;
  i_stop : stopped s = true -> c = slOff;
  i_zero : hm c n -> in_homing (at_ s) = false -> spv s = (0, 0);
  i_pc : pc_ok s c n }.

Lemma seconds_nonneg : forall z, (0 <= z)%Z -> 0 <= seconds z.
Proof.
  intros z Hz. unfold seconds. apply Qle_shift_div_l; [reflexivity|].
  rewrite Qmult_0_l. change 0 with (inject_Z 0). rewrite <- Zle_Qle. exact Hz.
Qed.

Lemma grow : forall p v t, 0 <= v -> 0 <= t -> p <= p + v * t.
Proof. intros p v t Hv Ht. pose proof (Qmult_le_0_compat _ _ Hv Ht). lra. Qed.

Lemma ole_trans : forall v x y, ole v x -> x <= y -> ole v y.
Proof. intros [v|] x y A B; simpl in *; [lra|exact I]. Qed.

Lemma ge1_le : forall v x, ge1 v = true -> ole v x -> 1 <= x.
Proof. intros [v|] x A B; simpl in *; [apply Qle_bool_iff in A; lra|discriminate]. Qed.

Lemma inv_start : forall s, initial s -> inv s slHoming slHoming.
Proof.
  intros s (t & n0 & s0 & E & ->).
  assert (F : setProperties robot_props n0 =
              Ok (Some {| cur := Some slHoming; nxt := Some slHoming; nact := upd n0 slHoming 0%Z |})) by reflexivity.
  rewrite F in E. injection E as <-.
  constructor; cbn; try exact I; try discriminate; try tauto.
  - split; [reflexivity|]. split; [reflexivity|]. constructor. unfold slHoming; lia.
  - split; apply Qle_refl.
  - lia.
  - unfold hm, slHoming, slReady, slMoving. intros [X|[X|[X|X]]]; discriminate X.
  - unfold slHoming, slMoving. intros [X|X]; discriminate X.
Qed.

Lemma inv_const : forall s c n d, inv s c n -> inv (w_const (clk s + Z.of_N d)%Z s) c n.
Proof.
  intros s c n d [A1 A2 A3 A4 A5 A6 A7 A8 A9 A10 A11 A13 A12].
  constructor; cbn; auto; try lia.
  intro F. specialize (A5 F). lia.
Qed.

Lemma inv_int : forall s c n v, inv s c n -> spo s = Some v ->
  inv (w_int (integrate (iprev s) v (if ifirst s then 0 else seconds (spt s - iprevt s))) (spt s) s) c n.
Proof.
  intros s c n v [A1 A2 A3 A4 A5 A6 A7 A8 A9 A10 A11 A13 A12] E.
  rewrite E in A3. destruct A3 as [V0 V1].
  assert (D : 0 <= (if ifirst s then 0 else seconds (spt s - iprevt s))).
  { destruct (ifirst s) eqn:F; [apply Qle_refl|]. apply seconds_nonneg. specialize (A5 eq_refl). lia. }
  set (dt := if ifirst s then 0 else seconds (spt s - iprevt s)) in *.
  pose proof (grow (fst (iprev s)) _ _ V0 D) as G0. pose proof (grow (snd (iprev s)) _ _ V1 D) as G1.
  assert (HH : homed s -> homed (w_int (integrate (iprev s) v dt) (spt s) s)).
  { unfold homed. cbn. destruct A6 as [A6|A6]; rewrite A6; [contradiction|]. intros [? ?]. split; lra. }
  constructor; cbn; auto; try lia.
  - rewrite E. split; assumption.
  - intro X. apply HH. apply A7. exact X.
  - intro X. destruct (A8 X) as [Y Z]. split; [exact Y|apply HH; exact Z].
  - unfold pc_ok in *. cbn. destruct (at_ s); auto;
      repeat match goal with A : _ /\ _ |- _ => destruct A end; try (split; [assumption|apply HH; assumption]);
      repeat split; auto; try discriminate;
      try (eapply ole_trans; eassumption); try (intros; match goal with A : hm _ _ -> _ /\ _ |- _ => apply A; assumption end).
Qed.

Lemma inv_keep : forall s s' c n, inv s c n ->
  ss s' = ss s -> spv s' = spv s -> spo s' = spo s -> spt s' = spt s -> clk s' = clk s -> ifirst s' = ifirst s ->
  iprevt s' = iprevt s -> iprev s' = iprev s -> iout s' = iout s -> sel s' = sel s ->
  (pfin s' = false -> pfin s = false) -> stopped s' = stopped s -> at_ s' = at_ s -> inv s' c n.
Proof.
  intros s s' c n [A1 A2 A3 A4 A5 A6 A7 A8 A9 A10 A11 A13 A12] E1 E2 E3 E4 E5 E6 E7 E8 E9 E10 E11 E12 E13.
  constructor; rewrite ?E1, ?E2, ?E3, ?E4, ?E5, ?E6, ?E7, ?E8, ?E9, ?E10, ?E12; auto.
  - unfold homed in *. rewrite E9. exact A7.
  - unfold homed in *. rewrite E9. exact A8.
  - rewrite E13. exact A13.
  - unfold pc_ok, homed in *. rewrite E13, E2, E8, E9, E10. exact A12.
Qed.

Lemma after_cases : forall e priv c n, pair_ok c n -> (e = evAbort \/ e = evHomingDone \/ e = evStartMoving) ->
  after e priv c n = n \/ after e priv c n = slOff \/
  (e = evHomingDone /\ c = slHoming /\ n = slHoming /\ after e priv c n = slReady) \/
  (e = evStartMoving /\ c = slReady /\ n = slReady /\ after e priv c n = slMoving).
Proof.
  intros e priv c n P He. pairs P; destruct He as [->|[->| ->]]; destruct priv; cbn; tauto.
Qed.

(** A trigger with its guard. *)
Lemma inv_trig : forall s c n e priv, inv s c n -> (e = evAbort \/ e = evHomingDone \/ e = evStartMoving) ->
  (e = evHomingDone -> homed s /\ in_homing (at_ s) = false /\ spv s = (0, 0)) -> (e = evStartMoving -> sel s = true) ->
  exists s', trig e priv s = Ok s' /\ inv s' c (after e priv c n) /\
    s' = w_ss (ss s') s.
Proof.
  intros s c n e priv [A1 A2 A3 A4 A5 A6 A7 A8 A9 A10 A11 A13 A12] He Gh Gs.
  destruct (trig_ok (ss s) c n e priv A1 He) as (x & E & S).
  exists (w_ss x s). unfold trig, omap. rewrite E. cbn [bind]. split; [reflexivity|]. split; [|reflexivity].
  destruct A1 as (_ & _ & P). pose proof (after_cases e priv c n P He) as C.
  assert (HM : hm c (after e priv c n) -> hm c n \/ e = evHomingDone).
  { unfold hm. intro X. destruct C as [C|[C|[C|C]]].
    - rewrite C in X. left; exact X.
    - rewrite C in X. destruct X as [X|[X|X]]; [discriminate X|discriminate X|left; tauto].
    - right; tauto.
    - left; tauto. }
  constructor; cbn; auto.
  - intro X. destruct (HM X) as [Y|Y]; [exact (A7 Y)|apply Gh; exact Y].
  - intro X. destruct C as [C|[C|[C|C]]].
    + apply A9. rewrite C in X. exact X.
    + apply A9. rewrite C in X. destruct X as [X|X]; [discriminate X|tauto].
    + destruct C as (_ & -> & -> & C). rewrite C in X. destruct X as [X|X]; discriminate X.
    + apply Gs. tauto.
  - intros X Y. destruct (HM X) as [Z|Z]; [exact (A13 Z Y)|apply Gh; exact Z].
  - unfold pc_ok in *. cbn. destruct (at_ s) eqn:At; auto;
      try exact A12; repeat match goal with A : _ /\ _ |- _ => destruct A end; repeat split; auto;
      try (intro X; destruct (HM X) as [Z|Z]; [|destruct (Gh Z) as (_ & W & _); discriminate W]; auto;
           match goal with A : hm _ _ -> _ /\ _ |- _ => apply A; exact Z end);
      match goal with X : hm _ _ |- _ => destruct (HM X) as [Z|Z]; [|destruct (Gh Z) as (_ & W & _); discriminate W] end;
      match goal with A : hm _ _ -> _ /\ _ |- _ => apply A; exact Z end.
Qed.

Lemma inv_safe : forall s c n, inv s c n ->
  exists s', step LSafe s = Ok s' /\ inv s' n n /\ s' = w_stop (stopped s || Nat.eqb n slOff) (w_ss (ss s') s).
Proof.
  intros s c n [A1 A2 A3 A4 A5 A6 A7 A8 A9 A10 A11 A13 A12].
  destruct (run_ok (ss s) c n A1) as (x & es & E & S & R). destruct A1 as (_ & _ & P).
  exists (w_stop (stopped s || Nat.eqb n slOff) (w_ss x s)).
  cbn [step]. unfold omap. rewrite E. cbn [bind fst snd]. rewrite R. split; [reflexivity|]. split; [|reflexivity].
  assert (HM : hm n n -> hm c n) by (unfold hm; tauto).
  constructor; cbn; auto.
  - intro X. destruct (A8 X) as [Y Z]. split; [|exact Z]. intros ->. inversion P; subst; congruence.
  - intro X. apply A9. tauto.
  - intro X. destruct (A10 X) as [Y Z]. split; [|exact Z]. destruct Y as [Y|Y]; subst c; inversion P; subst; tauto.
  - intro X. apply orb_true_iff in X. destruct X as [X|X].
    + specialize (A11 X). subst c. inversion P; subst; reflexivity.
    + apply Nat.eqb_eq. exact X.
  - unfold pc_ok in *. cbn. destruct (at_ s); auto;
      try (destruct A12 as [B|B]; subst c; inversion P; subst; tauto);
      try (destruct A12 as [B D]; split; [|exact D]; intros ->; apply B; inversion P; subst; reflexivity);
      repeat match goal with A : _ /\ _ |- _ => destruct A end; repeat split; auto;
      match goal with X : hm n n, A : hm _ _ -> _ /\ _ |- _ => apply A; exact (HM X) end.
Qed.

Lemma inv_goto : forall s c n p, inv s c n -> (hm c n -> in_homing p = false -> spv s = (0, 0)) ->
  pc_ok (goto p s) c n -> inv (goto p s) c n.
Proof.
  intros s c n p [A1 A2 A3 A4 A5 A6 A7 A8 A9 A10 A11 A13 A12] Hz Hp. constructor; cbn; auto.
Qed.
Lemma inv_spv : forall s c n x p, inv s c n -> nonneg x -> (hm c n -> in_homing p = false -> x = (0, 0)) ->
  pc_ok (goto p (w_spv x s)) c n -> inv (goto p (w_spv x s)) c n.
Proof. intros s c n x p [A1 A2 A3 A4 A5 A6 A7 A8 A9 A10 A11 A13 A12] Hx Hz Hp. constructor; cbn; auto. Qed.
Lemma inv_sel : forall s c n, inv s c n -> c <> slHoming -> homed s -> inv (w_sel true s) c n.
Proof.
  intros s c n [A1 A2 A3 A4 A5 A6 A7 A8 A9 A10 A11 A13 A12] Hx Hh. constructor; cbn; auto.
  - intro X. split; [apply A10; exact X|reflexivity].
  - unfold pc_ok in *. cbn. destruct (at_ s); tauto.
Qed.
Lemma inv_move : forall s c n b, inv s c n -> (c = slMoving \/ c = slOff) -> sel s = true ->
  inv (w_pp b (plast s) (ppos s) s) c n.
Proof.
  intros s c n b [A1 A2 A3 A4 A5 A6 A7 A8 A9 A10 A11 A13 A12] Hc Hs. constructor; cbn; auto.
Qed.

Lemma level_is_true : forall s c n l, inv s c n -> level_is s l = true -> c = l.
Proof.
  intros s c n l I E. destruct (i_sys _ _ _ I) as (F & _ & _). unfold level_is in E. rewrite F in E.
  apply Nat.eqb_eq. exact E.
Qed.

Lemma trig_goto : forall e priv p s, omap (goto p) (trig e priv s) = trig e priv (goto p s).
Proof. intros. unfold trig, omap. change (ss (goto p s)) with (ss s). destruct (triggerEvent H (ss s) e priv); reflexivity. Qed.

(** In the moving sequence at level off or moving the planner was selected before. *)
Definition upd_pc (p : pc) : bool :=
  match p with PUD | PUDLoop | PUp | PUpW | PDn | PDnW => true | _ => false end.

Lemma inv_seq : forall s c n b, inv s c n -> (upd_pc (at_ s) = true -> sel s = true) ->
  exists s' n', seq b s = Ok s' /\ inv s' c n' /\ (upd_pc (at_ s') = true -> sel s' = true) /\
    (n' = n \/ n' = after evHomingDone false c n \/ n' = after evStartMoving false c n).
Proof.
  intros s c n b I U. pose proof (i_pc _ _ _ I) as Hp. pose proof (i_zero _ _ _ I) as Hz.
  unfold pc_ok in Hp. unfold seq.
  destruct (at_ s) eqn:At; cbn [in_homing] in Hz; try (assert (Hy : hm c n -> spv s = (0, 0)) by (intro; apply Hz; auto)).
  - (* PTop *) exists (goto (if running s then if level_is s slHoming then PHom else PRead2 else PEnd) s), n.
    split; [reflexivity|]. split; [|split; [|left; reflexivity]].
    + apply inv_goto; [exact I|auto|]. unfold pc_ok; cbn. destruct (running s), (level_is s slHoming); auto; exact Logic.I.
    + cbn. destruct (running s), (level_is s slHoming); discriminate.
  - eexists _, n. split; [reflexivity|]. split; [|split; [|left; reflexivity]].
    + apply inv_goto; [exact I|auto|]. unfold pc_ok; cbn. destruct (fires s b); exact Logic.I.
    + cbn. destruct (fires s b); discriminate.
  - eexists _, n. split; [reflexivity|]. split; [|split; [|left; reflexivity]]; [|discriminate].
    apply inv_spv; [exact I|split; unfold Qle; cbn; lia|discriminate|exact Logic.I].
  - eexists _, n. split; [reflexivity|]. split; [|split; [|left; reflexivity]]; [|discriminate].
    apply inv_goto; [exact I|discriminate|exact Logic.I].
  - eexists _, n. split; [reflexivity|]. split; [|split; [|left; reflexivity]]; [|discriminate].
    apply inv_goto; [exact I|discriminate|]. unfold pc_ok; cbn.
    pose proof (i_hom _ _ _ I) as Hh. unfold homed in Hh.
    destruct (i_first _ _ _ I) as [E|E]; rewrite E in *; cbn.
    + split; [exact Logic.I|]. split; [discriminate|]. intro X. destruct (Hh X).
    + split; [apply Qle_refl|]. split; [discriminate|]. intro X. apply Qle_bool_iff. exact (proj1 (Hh X)).
  - eexists _, n. split; [reflexivity|]. split; [|split; [|left; reflexivity]]; [|discriminate].
    apply inv_goto; [exact I|discriminate|]. unfold pc_ok; cbn. destruct Hp as (B1 & B2 & B3). split; [exact B1|].
    pose proof (i_hom _ _ _ I) as Hh. unfold homed in Hh.
    destruct (i_first _ _ _ I) as [E|E]; rewrite E in *; cbn.
    + split; [exact Logic.I|]. split; [exact B2|]. intro X. destruct (Hh X).
    + split; [apply Qle_refl|]. split; [exact B2|]. intro X. split; [exact (B3 X)|].
      apply Qle_bool_iff. exact (proj2 (Hh X)).
  - eexists _, n. split; [reflexivity|]. split; [|split; [|left; reflexivity]]; [|discriminate].
    destruct Hp as (B1 & B2 & B3 & B4). destruct (ge1 v) eqn:G.
    + apply inv_spv; [exact I| |discriminate|].
      * destruct (i_spv _ _ _ I). split; [apply Qle_refl|assumption].
      * unfold pc_ok; cbn. rewrite G. repeat (split; [assumption|]). reflexivity.
    + apply inv_goto; [exact I|discriminate|]. unfold pc_ok; cbn. rewrite G. repeat (split; [assumption|]). discriminate.
  - eexists _, n. split; [reflexivity|]. split; [|split; [|left; reflexivity]]; [|discriminate].
    destruct Hp as (B1 & B2 & B3 & B4 & B5). destruct (ge1 w) eqn:G.
    + apply inv_spv; [exact I| |discriminate|].
      * destruct (i_spv _ _ _ I). split; [assumption|apply Qle_refl].
      * unfold pc_ok; cbn. rewrite G. repeat (split; [assumption|]). reflexivity.
    + apply inv_goto; [exact I|discriminate|]. unfold pc_ok; cbn. rewrite G. repeat (split; [assumption|]). discriminate.
  - destruct Hp as (B1 & B2 & B3 & B4 & B5 & B6). destruct (ge1 v && ge1 w) eqn:G.
    + apply andb_true_iff in G. destruct G as [G1 G2].
      rewrite trig_goto.
      assert (Hs : spv s = (0, 0)).
      { specialize (B5 G1). specialize (B6 G2). destruct (spv s) as [a d]. cbn in B5, B6. subst. reflexivity. }
      assert (Hh : homed s).
      { destruct (i_first _ _ _ I) as [E|E]; [destruct (B3 G1 E)|]. unfold homed. rewrite E.
        split; [exact (ge1_le _ _ G1 B1)|exact (ge1_le _ _ G2 B2)]. }
      destruct (inv_trig (goto PWaitEnd s) c n evHomingDone false) as (s' & E & I' & W).
      * apply inv_goto; [exact I|auto|exact Logic.I].
      * tauto.
      * intros _. split; [exact Hh|]. split; [reflexivity|exact Hs].
      * discriminate.
      * exists s', (after evHomingDone false c n). split; [exact E|]. split; [exact I'|]. split; [|tauto].
        rewrite W. discriminate.
    + eexists _, n. split; [reflexivity|]. split; [|split; [|left; reflexivity]].
      * apply inv_goto; [exact I| |].
        { intros X _. destruct (B4 X) as [G1 G2]. rewrite G1, G2 in G. discriminate G. }
        { unfold pc_ok; cbn. destruct f; exact Logic.I. }
      * cbn. destruct f; discriminate.
  - eexists _, n. split; [reflexivity|]. split; [|split; [|left; reflexivity]].
    + apply inv_goto; [exact I|auto|]. unfold pc_ok; cbn. destruct (level_is s slReady) eqn:L; [|exact Logic.I].
      pose proof (level_is_true _ _ _ _ I L) as ->. split; [discriminate|]. apply (i_hom _ _ _ I). unfold hm. tauto.
    + cbn. destruct (level_is s slReady); discriminate.
  - eexists _, n. split; [reflexivity|]. split; [|split; [|left; reflexivity]].
    + apply inv_goto; [exact I|auto|]. unfold pc_ok; cbn. destruct (fires s b || b); exact Hp.
    + cbn. destruct (fires s b || b); discriminate.
  - eexists _, n. split; [reflexivity|]. split; [|split; [|left; reflexivity]]; [|discriminate].
    destruct Hp as [B1 B2]. apply inv_goto; [apply inv_sel; assumption|auto|reflexivity].
  - rewrite trig_goto.
    destruct (inv_trig (goto PWaitEnd s) c n evStartMoving false) as (s' & E & I' & W).
    + apply inv_goto; [exact I|auto|exact Logic.I].
    + tauto.
    + discriminate.
    + intros _. exact Hp.
    + exists s', (after evStartMoving false c n). split; [exact E|]. split; [exact I'|]. split; [|tauto].
      rewrite W. discriminate.
  - eexists _, n. split; [reflexivity|]. split; [|split; [|left; reflexivity]].
    + apply inv_goto; [exact I|auto|]. unfold pc_ok; cbn. destruct (level_is s slMoving) eqn:L; [|exact Logic.I].
      pose proof (level_is_true _ _ _ _ I L) as ->. left; reflexivity.
    + cbn. destruct (level_is s slMoving) eqn:L; [|discriminate]. intros _.
      apply (i_mov _ _ _ I). right. exact (level_is_true _ _ _ _ I L).
  - eexists _, n. split; [reflexivity|]. split; [|split; [|left; reflexivity]].
    + apply inv_goto; [exact I|auto|]. unfold pc_ok; cbn. destruct (fires s b); [exact Logic.I|exact Hp].
    + cbn. intros _. apply U. reflexivity.
  - eexists _, n. split; [reflexivity|]. split; [|split; [|left; reflexivity]].
    + apply inv_goto; [exact I|auto|]. unfold pc_ok; cbn. destruct (running s); [exact Hp|exact Logic.I].
    + cbn. intros _. apply U. reflexivity.
  - eexists _, n. split; [reflexivity|]. split; [|split; [|left; reflexivity]].
    + destruct (fires s b).
      * apply inv_goto; [exact I|auto|]. exact Hp.
      * destruct (pfin s); (apply inv_goto; [|auto|exact Hp]); [apply inv_move; auto|exact I].
    + intros _. destruct (fires s b); cbn; [|destruct (pfin s); cbn]; apply U; reflexivity.
  - eexists _, n. split; [reflexivity|]. split; [|split; [|left; reflexivity]].
    + apply inv_goto; [exact I|auto|]. unfold pc_ok; cbn. destruct (fires s b || pfin s); exact Hp.
    + cbn. intros _. apply U. reflexivity.
  - eexists _, n. split; [reflexivity|]. split; [|split; [|left; reflexivity]].
    + destruct (fires s b).
      * apply inv_goto; [exact I|auto|]. exact Hp.
      * destruct (pfin s); (apply inv_goto; [|auto|exact Hp]); [apply inv_move; auto|exact I].
    + intros _. destruct (fires s b); cbn; [|destruct (pfin s); cbn]; apply U; reflexivity.
  - eexists _, n. split; [reflexivity|]. split; [|split; [|left; reflexivity]].
    + apply inv_goto; [exact I|auto|]. unfold pc_ok; cbn. destruct (fires s b || pfin s); exact Hp.
    + cbn. intros _. apply U. reflexivity.
  - eexists _, n. split; [reflexivity|]. split; [|split; [|left; reflexivity]].
    + apply inv_goto; [exact I|auto|]. unfold pc_ok; cbn. destruct (fires s b || b); exact Logic.I.
    + cbn. destruct (fires s b || b); discriminate.
  - exists s, n. split; [reflexivity|]. split; [exact I|]. split; [|left; reflexivity]. rewrite At. discriminate.
Qed.

Definition good (s : st) (c n : lref) : Prop := inv s c n /\ (upd_pc (at_ s) = true -> sel s = true).

(** Every label keeps the invariant; how the levels change. *)
Definition next_c (l : label) (c n : lref) : lref := match l with LSafe => n | _ => c end.

Lemma good_step : forall l s c n, good s c n ->
  exists s' n', step l s = Ok s' /\ good s' (next_c l c n) n' /\
    (n' = n \/ (l = LExit /\ n' = after evAbort true c n) \/
     (is_seq l = true /\ (n' = after evHomingDone false c n \/ n' = after evStartMoving false c n))).
Proof.
  intros l s c n [I U]. destruct l.
  - eexists _, n. split; [reflexivity|]. split; [|left; reflexivity]. split; [apply inv_const; exact I|exact U].
  - cbn [step]. destruct (spo s) as [v|] eqn:E.
    + eexists _, n. split; [reflexivity|]. split; [|left; reflexivity]. split; [apply inv_int; assumption|exact U].
    + exists s, n. split; [reflexivity|]. split; [split; assumption|left; reflexivity].
  - cbn [step]. destruct (pfin s) eqn:E.
    + eexists _, n. split; [reflexivity|]. split; [|left; reflexivity]. split; [|exact U].
      apply (inv_keep s); auto. discriminate.
    + eexists _, n. split; [reflexivity|]. split; [|left; reflexivity]. split; [|exact U].
      apply (inv_keep s); auto.
  - eexists _, n. split; [reflexivity|]. split; [|left; reflexivity]. split; [|exact U]. apply (inv_keep s); auto.
  - destruct (inv_safe s c n I) as (s' & E & I' & W). exists s', n. split; [exact E|]. split; [|left; reflexivity].
    split; [exact I'|]. rewrite W. exact U.
  - destruct (inv_trig s c n evAbort true I) as (s' & E & I' & W); [tauto|discriminate|discriminate|].
    exists s', (after evAbort true c n). split; [exact E|]. split; [|tauto]. split; [exact I'|]. rewrite W. exact U.
  - eexists _, n. split; [reflexivity|]. split; [|left; reflexivity]. split; [|exact U]. apply (inv_keep s); auto.
  - eexists _, n. split; [reflexivity|]. split; [|left; reflexivity]. split; [|exact U]. apply (inv_keep s); auto.
  - eexists _, n. split; [reflexivity|]. split; [|left; reflexivity]. split; [|exact U]. apply (inv_keep s); auto.
  - destruct (inv_seq s c n b I U) as (s' & n' & E & I' & U' & C). exists s', n'. split; [exact E|].
    split; [split; assumption|]. destruct C as [C|C]; [left; exact C|right; right; split; [reflexivity|exact C]].
Qed.

Lemma good_steps : forall ls s c n, good s c n -> exists s' c' n', steps ls s = Ok s' /\ good s' c' n'.
Proof.
  induction ls as [|l ls IH]; intros s c n G.
  - exists s, c, n. split; [reflexivity|exact G].
  - destruct (good_step l s c n G) as (s1 & n1 & E & G1 & _).
    destruct (IH _ _ _ G1) as (s2 & c2 & n2 & E2 & G2).
    exists s2, c2, n2. split; [cbn [steps]; rewrite E; exact E2|exact G2].
Qed.

Lemma good_start : forall s, initial s -> good s slHoming slHoming.
Proof.
  intros s I. split; [apply inv_start; exact I|]. destruct I as (t & n0 & s0 & _ & ->). discriminate.
Qed.

Lemma good_reach : forall s, reach s -> exists c n, good s c n.
Proof.
  intros s (s0 & ls & I & E). destruct (good_steps ls s0 _ _ (good_start s0 I)) as (s' & c & n & E' & G).
  rewrite E in E'. injection E' as <-. exists c, n. exact G.
Qed.
