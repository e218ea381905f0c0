From Verif Require Import Prelude SafetyModel Sys1Model Sys1Spec Sys1Proofs.
Local Open Scope Z_scope.

(** ** The output while the time domain is punctual and the restart is not disturbed *)
Definition rng (x : Z) : Prop := 0 <= x <= v19_9.
Definition rngw (x : Z) : Prop := 0 <= x < v20_1.

Definition tp_ok (s : st) : Prop :=
  match tp s with
  | TIdle | TSrc => rng (iprev s)
  | TInt => rng (iprev s) /\ (ifirst s = false -> forall t, src s = Some t -> t - iprevt s < 80000000)
  | TIntW v t => rngw v
  | TSw => iout s = Some (iprev s) /\ rngw (iprev s)
  | TSwC v => v = Some (iprev s) /\ iout s = Some (iprev s) /\ rngw (iprev s)
  | TSwO => iout s = Some (iprev s) /\ rng (iprev s)
  | TPer => rng (iprev s)
  | _ => False
  end.

Record ginv (s : st) : Prop := {
  g_w : Forall (between vm1_5 v19_9) (writes s);
  g_per : tp s = TPer -> between vm1_5 v19_9 (sout s);
  g_swo : tp s = TSwO -> between vm1_5 v19_9 (sw_in s);
  g_t1 : match src s with Some t => t <= clk s | None => True end;
  g_t2 : ifirst s = false -> match tp s with TIntW _ t => t <= clk s | _ => iprevt s <= clk s end;
  g_t3 : match tp s with TInt => forall t, src s = Some t -> t = clk s | _ => True end;
  g_pos : 0 <= iprev s /\ match tp s with TIntW v _ => 0 <= v | _ => True end;
  g_c2 : match tp s with TIdle | TSrc => True | _ => src s <> None end;
  g_mid : mid_restart (sp s) = true -> tp s = TIdle;
  g_set : match sp s with SArm1 | SArm2 => iprev s = 0 | _ => True end;
  g_arm2 : sp s = SArm2 -> armed s = true;
  g_sel : mid_restart (sp s) = false -> sel s = false -> armed s = true /\ switched s = false /\ tp_ok s }.

Lemma ginv_initial : forall s, initial s -> ginv s.
Proof.
  intros s (t & n0 & s0 & _ & ->). constructor; cbn; auto; try discriminate; try (intros; discriminate).
  - lia.
  - intros _ _. unfold rng, v19_9. cbn. split; [auto|]. split; [auto|]. unfold tp_ok, start. cbn. unfold rng, v19_9. lia.
Qed.

Definition good (l : label) (s : st) : Prop := punctual l s /\ undisturbed l s.

Lemma near_in : forall x, rngw x -> near (Some x) = false -> rng x.
Proof.
  intros x [A B] N. unfold near in N. unfold rng. split; [exact A|]. unfold v19_9, v20_1, switchLevel, delta in *.
  apply andb_false_iff in N. destruct N as [N|N]; [apply Z.ltb_ge in N|apply Z.ltb_ge in N]; lia.
Qed.

Lemma trig_same : forall e p s s', trig e p s = Ok s' -> exists x, s' = w_ss x s.
Proof.
  intros e p s s' X. unfold trig, omap, bind in X. destruct (triggerEvent H (ss s) e p); try discriminate.
  injection X as <-. eauto.
Qed.

Lemma ginv_ss : forall x s, ginv s -> ginv (w_ss x s).
Proof. intros x s []. constructor; auto. Qed.

Lemma ginv_td : forall d s s', ginv s -> good (LTd d) s -> td_step d s = Ok s' -> ginv s'.
Proof.
  intros d s s' G [P U] E. cbn in P, U. unfold td_step in E.
  destruct (tp s) eqn:T.
  - injection E as <-. destruct G as [W Pe So T1 T2 T3 Po C2 Mi St A2 Se]. rewrite T in *.
    constructor; sys_steps; auto; destruct (tdrun s); try discriminate; auto; try (rewrite U; discriminate);
    intros; destruct (Se U) as (A & B & C); auto; unfold tp_ok in *; rewrite T in *; auto.
  - injection E as <-. destruct G as [W Pe So T1 T2 T3 Po C2 Mi St A2 Se]. rewrite T in *.
    constructor; sys_steps; auto; try discriminate; try (rewrite U; discriminate).
    + lia.
    + intros F. specialize (T2 F). lia.
    + intros t X. injection X as <-. reflexivity.
    + intros _ S. destruct (Se U S) as (A & B & C). unfold tp_ok in *. rewrite T in *. cbn.
      split; [exact A|]. split; [exact B|]. split; [exact C|]. intros F t X. injection X as <-. auto.
  - destruct (src s) as [t|] eqn:Sr; [|injection E as <-; exact G].
    remember (slope * (if ifirst s then 0 else t - iprevt s)) as w eqn:Hw.
    injection E as <-. destruct G as [W Pe So T1 T2 T3 Po C2 Mi St A2 Se]. rewrite T, Sr in *.
    assert (D : 0 <= (if ifirst s then 0 else t - iprevt s)).
    { destruct (ifirst s); [lia|]. specialize (T2 eq_refl). specialize (T3 t eq_refl). lia. }
    constructor; sys_steps; rewrite ?Sr; auto; try discriminate; try (rewrite U; discriminate).
    + split; [tauto|]. unfold slope in Hw. lia.
    + intros _ S. destruct (Se U S) as (A & B & C). unfold tp_ok in *. rewrite T in *. cbn.
      split; [exact A|]. split; [exact B|]. destruct C as [C1 C3]. unfold rng, rngw, v19_9, v20_1, slope in *.
      destruct (ifirst s); [lia|]. specialize (C3 eq_refl t Sr). lia.
  - injection E as <-. destruct G as [W Pe So T1 T2 T3 Po C2 Mi St A2 Se]. rewrite T in *.
    constructor; sys_steps; auto; try discriminate; try (rewrite U; discriminate).
    + tauto.
    + destruct (sp s); auto; discriminate U.
    + intros _ S. destruct (Se U S) as (A & B & C). unfold tp_ok in *. rewrite T in *. cbn. auto.
  - injection E as <-. destruct G as [W Pe So T1 T2 T3 Po C2 Mi St A2 Se]. rewrite T in *.
    constructor; sys_steps; auto; try discriminate; try (rewrite U; discriminate).
    intros _ S. destruct (Se U S) as (A & B & C). unfold tp_ok in *. rewrite T in *. cbn. unfold sw_in. rewrite S.
    destruct C as [C1 C3]. auto.
  - destruct (armed s && negb (switched s) && near v)%bool eqn:Q; injection E as <-;
    destruct G as [W Pe So T1 T2 T3 Po C2 Mi St A2 Se]; rewrite T in *.
    + constructor; sys_steps; auto; try discriminate; try (rewrite U; discriminate).
    + constructor; sys_steps; auto; try discriminate; try (rewrite U; discriminate).
      * intros _. unfold sw_in. sys_steps. destruct (sel s) eqn:S.
        { destruct (src s); [cbn; unfold c2, vm1_5, v19_9; lia|congruence]. }
        destruct (Se U eq_refl) as (A & B & C). unfold tp_ok in C. rewrite T in C. destruct C as (-> & C4 & C5).
        rewrite A, B in Q. cbn [andb negb] in Q. pose proof (near_in _ C5 Q) as R. rewrite C4. cbn.
        unfold rng in R. unfold vm1_5. lia.
      * intros _ S. destruct (Se U S) as (A & B & C). unfold tp_ok in C. rewrite T in C. destruct C as (-> & C4 & C5).
        rewrite A, B in Q. cbn [andb negb] in Q. pose proof (near_in _ C5 Q) as R. unfold tp_ok. cbn. auto.
  - injection E as <-. destruct G as [W Pe So T1 T2 T3 Po C2 Mi St A2 Se]. rewrite T in *.
    constructor; sys_steps; auto; try discriminate; try (rewrite U; discriminate).
    intros _ S. destruct (Se U S) as (A & B & C). unfold tp_ok in C. rewrite T in C. destruct C.
  - injection E as <-. destruct G as [W Pe So T1 T2 T3 Po C2 Mi St A2 Se]. rewrite T in *.
    constructor; sys_steps; auto; try discriminate; try (rewrite U; discriminate).
    + intros X. rewrite X in U. discriminate U.
    + intros _ S. destruct (Se U S) as (A & B & C). unfold tp_ok in C. rewrite T in C. destruct C.
  - unfold omap, bind in E. destruct (trig evStop false s) eqn:X; try discriminate. injection E as <-.
    destruct (trig_same _ _ _ _ X) as (x & ->).
    destruct G as [W Pe So T1 T2 T3 Po C2 Mi St A2 Se]. rewrite T in *.
    constructor; sys_steps; auto; try discriminate; try (rewrite U; discriminate).
    + intros _. unfold sw_in. sys_steps. destruct (sel s) eqn:S.
      * destruct (src s); [cbn; unfold c2, vm1_5, v19_9; lia|congruence].
      * destruct (Se U eq_refl) as (A & B & C). unfold tp_ok in C. rewrite T in C. destruct C.
    + intros _ S. destruct (Se U S) as (A & B & C). unfold tp_ok in C. rewrite T in C. destruct C.
  - injection E as <-. destruct G as [W Pe So T1 T2 T3 Po C2 Mi St A2 Se]. rewrite T in *.
    constructor; sys_steps; auto; try discriminate; try (rewrite U; discriminate).
    intros _ S. destruct (Se U S) as (A & B & C). unfold tp_ok in *. rewrite T in *. cbn. tauto.
  - injection E as <-. destruct G as [W Pe So T1 T2 T3 Po C2 Mi St A2 Se]. rewrite T in *.
    specialize (Pe eq_refl). destruct (sout s) as [y|] eqn:O; [|destruct Pe].
    constructor; sys_steps; auto; try discriminate; try (rewrite U; discriminate).
    intros _ S. destruct (Se U S) as (A & B & C). unfold tp_ok in *. rewrite T in *. cbn. auto.
  - unfold omap, bind in E. destruct (trig evEmergency false s) eqn:X; try discriminate. injection E as <-.
    destruct (trig_same _ _ _ _ X) as (x & ->).
    destruct G as [W Pe So T1 T2 T3 Po C2 Mi St A2 Se]. rewrite T in *.
    constructor; sys_steps; auto; try discriminate; try (rewrite U; discriminate).
    intros _ S. destruct (Se U S) as (A & B & C). unfold tp_ok in C. rewrite T in C. destruct C.
Qed.

(** A step of the safety system that leaves the blocks alone. *)
Lemma ginv_sgo : forall s p b, ginv s -> mid_restart (sp s) = false -> mid_restart p = false -> ginv (sgo p (w_td b s)).
Proof.
  intros s p b [W Pe So T1 T2 T3 Po C2 Mi St A2 Se] M M'.
  constructor; sys_steps; auto; try (rewrite M'; discriminate).
  - destruct p; auto; discriminate M'.
  - intros X. rewrite X in M'. discriminate M'.
Qed.
Lemma sgo_td : forall s p, sgo p s = sgo p (w_td (tdrun s) s). Proof. reflexivity. Qed.

Lemma ginv_safe : forall s s', ginv s -> good LSafe s -> safe_step s = Ok s' -> ginv s'.
Proof.
  intros s s' G [_ U] E. cbn in U. unfold safe_step in E. destruct (sp s) eqn:S.
  - destruct (cur (adopt (ss s))) as [l|].
    + injection E as <-. rewrite sgo_td. apply ginv_sgo; [apply ginv_ss; exact G|cbn; rewrite S; reflexivity|].
      destruct l as [|[|[|[|l]]]]; reflexivity.
    + injection E as <-. apply ginv_ss. exact G.
  - injection E as <-. destruct (n =? 1).
    + apply ginv_sgo; [exact G|rewrite S; reflexivity|reflexivity].
    + rewrite sgo_td. apply ginv_sgo; [exact G|rewrite S; reflexivity|reflexivity].
  - injection E as <-. apply ginv_sgo; [exact G|rewrite S; reflexivity|destruct (init_done n); reflexivity].
  - unfold omap, bind in E. destruct (trig evStart true s) eqn:X; try discriminate. injection E as <-.
    destruct (trig_same _ _ _ _ X) as (x & ->).
    rewrite sgo_td. apply ginv_sgo; [apply ginv_ss; exact G|cbn; rewrite S; reflexivity|reflexivity].
  - injection E as <-. apply ginv_sgo; [exact G|rewrite S; reflexivity|reflexivity].
  - injection E as <-. rewrite sgo_td. apply ginv_sgo; [exact G|rewrite S; reflexivity|destruct (stop_done n); reflexivity].
  - injection E as <-. specialize (U eq_refl). destruct G as [W Pe So T1 T2 T3 Po C2 Mi St A2 Se]. rewrite U in *.
    constructor; sys_steps; rewrite ?U; auto; discriminate.
  - injection E as <-. destruct G as [W Pe So T1 T2 T3 Po C2 Mi St A2 Se]. rewrite S in *. specialize (Mi eq_refl). rewrite Mi in *.
    constructor; sys_steps; rewrite ?Mi; auto; try discriminate. lia.
  - injection E as <-. destruct G as [W Pe So T1 T2 T3 Po C2 Mi St A2 Se]. rewrite S in *. specialize (Mi eq_refl). rewrite Mi in *.
    constructor; sys_steps; rewrite ?Mi; auto; discriminate.
  - injection E as <-. destruct G as [W Pe So T1 T2 T3 Po C2 Mi St A2 Se]. rewrite S in *. specialize (Mi eq_refl). rewrite Mi in *.
    constructor; sys_steps; rewrite ?Mi; auto; try discriminate.
    intros _ _. split; [auto|]. split; [auto|]. unfold tp_ok. cbn. rewrite Mi, St. unfold rng, v19_9. lia.
  - unfold omap, bind in E. destruct (trig evRestart true s) eqn:X; try discriminate. injection E as <-.
    destruct (trig_same _ _ _ _ X) as (x & ->).
    rewrite sgo_td. apply ginv_sgo; [apply ginv_ss; exact G|cbn; rewrite S; reflexivity|reflexivity].
  - injection E as <-. rewrite sgo_td. apply ginv_sgo; [apply ginv_ss; exact G|cbn; rewrite S; reflexivity|reflexivity].
Qed.

Lemma ginv_steps : forall ls s s', ginv s -> along good ls s -> steps ls s = Ok s' -> ginv s'.
Proof.
  induction ls as [|l ls IH]; intros s s' G A E; cbn [steps along] in *.
  - injection E as <-. exact G.
  - destruct A as [A B]. destruct (step l s) as [s1| |] eqn:E1; try discriminate. cbn [bind] in E.
    apply (IH s1 s'); auto. destruct l as [d| |]; cbn [step] in E1.
    + eapply ginv_td; eauto.
    + eapply ginv_safe; eauto.
    + destruct (trig_same _ _ _ _ E1) as (x & ->). apply ginv_ss. exact G.
Qed.

Lemma limits : forall s, reach_with good s -> Forall (between vm1_5 v19_9) (writes s).
Proof.
  intros s (s0 & ls & I & A & E). apply (g_w s). eapply ginv_steps; [apply ginv_initial; exact I|exact A|exact E].
Qed.
Lemma thrown : forall s, reach_with good s -> tp s = TIdle -> mid_restart (sp s) = false -> v19_9 < iprev s -> sel s = true.
Proof.
  intros s (s0 & ls & I & A & E) T M V.
  assert (G : ginv s) by (eapply ginv_steps; [apply ginv_initial; exact I|exact A|exact E]).
  destruct (sel s) eqn:S; [reflexivity|]. destruct (g_sel s G M S) as (_ & _ & C). unfold tp_ok in C. rewrite T in C.
  unfold rng in C. lia.
Qed.
