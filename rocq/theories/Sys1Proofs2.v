From Verif Require Import Prelude SafetyModel Sys1Model Sys1Spec Sys1Proofs.
Local Open Scope Z_scope.

(** ** Values are never NaN *)
Lemma some_step : forall l s c n f s', inv s c n f -> Forall (fun w => w <> None) (writes s) -> step l s = Ok s' ->
  Forall (fun w => w <> None) (writes s').
Proof.
  intros l s c n f s' I F E.
  assert (T : forall e p x, trig e p s = Ok x -> writes x = writes s).
  { intros e p x X. unfold trig, omap, bind in X. destruct (triggerEvent H (ss s) e p); try discriminate. injection X as <-. reflexivity. }
  destruct l as [d| |]; cbn [step] in E.
  - unfold td_step in E. destruct (tp s) eqn:Tp; try (injection E as <-; exact F).
    + destruct (src s); injection E as <-; exact F.
    + destruct (armed s && negb (switched s) && near v)%bool; injection E as <-; exact F.
    + unfold omap, bind in E. destruct (trig evStop false s) eqn:X; try discriminate. injection E as <-.
      cbn [tgo writes]. rewrite (T _ _ _ X). exact F.
    + injection E as <-. cbn. constructor; [|exact F]. pose proof (i_per _ _ _ _ I) as P. rewrite Tp in P. exact P.
    + unfold omap, bind in E. destruct (trig evEmergency false s) eqn:X; try discriminate. injection E as <-.
      cbn [tgo writes]. rewrite (T _ _ _ X). exact F.
  - unfold safe_step in E. destruct (sp s) eqn:Sp; try (injection E as <-; exact F);
      try (unfold omap, bind in E; match type of E with context [trig ?a ?b ?c] => destruct (trig a b c) eqn:X end; try discriminate;
           injection E as <-; cbn [sgo writes]; rewrite (T _ _ _ X); exact F).
    + destruct (cur (adopt (ss s))); injection E as <-; exact F.
    + injection E as <-. destruct (n0 =? 1); exact F.
  - rewrite (T _ _ _ E). exact F.
Qed.
Lemma some_steps : forall ls s c n f s', inv s c n f -> Forall (fun w => w <> None) (writes s) -> steps ls s = Ok s' ->
  Forall (fun w => w <> None) (writes s').
Proof.
  induction ls as [|l ls IH]; intros s c n f s' I F E; cbn [steps] in E.
  - injection E as <-. exact F.
  - destruct (inv_step l s c n f I) as (s1 & c1 & n1 & f1 & E1 & J & _). rewrite E1 in E. cbn [bind] in E.
    eapply IH; [exact J| |exact E]. eapply some_step; [exact I|exact F|exact E1].
Qed.

Lemma no_emergency : forall s0 ls s, initial s0 -> steps ls s0 = Ok s -> existsb is_emergency ls = false ->
  ~ level_at s slEmergency /\ ~ next_is s slEmergency.
Proof.
  intros s0 ls s I0 E N. destruct (inv_steps ls s0 _ _ _ (inv_initial _ I0)) as (s' & c & n & f & E' & J & Z0).
  rewrite E in E'. injection E' as <-. unfold level_at, next_is, slEmergency. rewrite (i_sys _ _ _ _ J). cbn.
  assert (Hn : n <> 0%nat) by (intros X; destruct (Z0 X) as [A|A]; [discriminate A|congruence]).
  split; [|congruence]. intros X. injection X as X. pose proof (i_pair _ _ _ _ J) as P. rewrite X in P.
  inversion P; subst; [congruence|lia].
Qed.
Lemma numbers : forall s, reach s -> Forall (fun w => w <> None) (writes s).
Proof.
  intros s (s0 & ls & I0 & E). eapply some_steps; [exact (inv_initial _ I0)| |exact E].
  destruct I0 as (t & n0 & s1 & _ & ->). constructor.
Qed.

(** ** Emergency *)
Definition rank (p : spc) : nat :=
  match p with
  | SIdle => 2 | SEmer _ => 1 | SEnd => 3
  | SStopT => 4 | SArm2 => 5 | SArm1 => 6 | SSet => 7 | SSw => 8 | SStop _ => 9
  | SInitS => 4 | SInitT => 5 | SInit _ => 6
  end.

Lemma public_keep : forall s c f e, inv s c 0%nat f -> e = 1 \/ e = 3 ->
  exists f', trig e false s = Ok (w_ss (mksys c 0%nat f') s) /\ inv (w_ss (mksys c 0%nat f') s) c 0%nat f'.
Proof.
  intros s c f e I He. destruct (inv_public s c _ f e I He) as (n' & f' & E & J & _).
  destruct (pair_le _ _ (i_pair _ _ _ _ I)) as [Lc _].
  assert (n' = 0%nat).
  { rewrite (trig_eq s c 0%nat f e false (i_sys _ _ _ _ I) Lc) in E by (auto; lia).
    injection E as E. unfold after in E.
    destruct He as [->| ->]; destruct (le3 _ Lc) as [->|[->|[->| ->]]]; cbn in E; injection E as E; congruence. }
  subst n'. eauto.
Qed.

Lemma td_keep : forall d s c f s', inv s c 0%nat f -> td_step d s = Ok s' ->
  exists f', inv s' c 0%nat f' /\ sp s' = sp s /\ tdrun s' = tdrun s.
Proof.
  intros d s c f s' I E. destruct (inv_td d s c _ f I) as (s1 & n1 & f1 & E1 & J & _).
  rewrite E in E1. injection E1 as <-.
  assert (K : n1 = 0%nat /\ sp s' = sp s /\ tdrun s' = tdrun s).
  { assert (N : forall x, ss x = ss s -> s' = x -> n1 = 0%nat).
    { intros x A ->. pose proof (i_sys _ _ _ _ J) as B. rewrite A, (i_sys _ _ _ _ I) in B. injection B as B _. congruence. }
    assert (P : forall e, e = 1 \/ e = 3 -> forall y, omap (tgo y) (trig e false s) = Ok s' ->
                n1 = 0%nat /\ sp s' = sp s /\ tdrun s' = tdrun s).
    { intros e He y X. destruct (public_keep s c f e I He) as (f' & Y & _). rewrite Y in X. cbn in X. injection X as <-.
      pose proof (i_sys _ _ _ _ J) as B. cbn in B. injection B as B _. auto. }
    unfold td_step in E. destruct (tp s); try (injection E as <-; split; [eapply N; [|reflexivity]; reflexivity|auto]; fail).
    - destruct (src s); injection E as <-; (split; [eapply N; [|reflexivity]; reflexivity|auto]).
    - destruct (armed s && negb (switched s) && near v)%bool; injection E as <-; (split; [eapply N; [|reflexivity]; reflexivity|auto]).
    - apply (P 1 (or_introl eq_refl) _ E).
    - apply (P 3 (or_intror eq_refl) _ E). }
  destruct K as (-> & A & B). eauto.
Qed.

(** At level emergency with the time domain stopped. *)
Definition halted (s : st) (c n : lref) : Prop := c = 0%nat /\ n = 0%nat /\ tdrun s = false.

Lemma safe_emergency : forall s c f s', inv s c 0%nat f -> safe_step s = Ok s' ->
  exists c' f', inv s' c' 0%nat f' /\ (halted s c 0%nat -> halted s' c' 0%nat) /\
  (halted s' c' 0%nat \/ (rank (sp s') < rank (sp s))%nat).
Proof.
  intros s c f s' I E. destruct (inv_safe s c _ f I) as (s1 & c1 & n1 & f1 & E1 & J & _).
  rewrite E in E1. injection E1 as <-.
  destruct (pair_le _ _ (i_pair _ _ _ _ I)) as [Lc _].
  pose proof (i_sp _ _ _ _ I) as Sp. pose proof (i_sys _ _ _ _ J) as Sy.
  pose proof (i_td0 _ _ _ _ I) as T0. pose proof (i_sys _ _ _ _ I) as Sys.
  unfold safe_step in E. unfold halted.
  destruct (sp s) eqn:S; cbn [s_ok] in Sp.
  - rewrite Sys in E. cbn in E. injection E as <-. cbn in Sy. injection Sy as <- <- _.
    exists 0%nat, f1. split; [exact J|]. cbn. split; [tauto|right; lia].
  - injection E as <-. destruct Sp as [-> ->].
    destruct (f 0%nat =? 1) eqn:Q; cbn in Sy; rewrite Sys in Sy; injection Sy as <- <- _; exists 0%nat, f1; (split; [exact J|]); cbn.
    + auto 6.
    + split; [tauto|]. left. split; [auto|]. split; [auto|]. destruct (T0 eq_refl) as [X|[[X _]|X]]; [auto|discriminate|].
      injection X as X. rewrite X in Q. discriminate Q.
  - injection E as <-. destruct Sp as (-> & _). cbn in Sy; rewrite Sys in Sy; injection Sy as <- <- _.
    exists 1%nat, f1. split; [exact J|]. split; [intros (X & _); discriminate X|]. right. cbn. destruct (init_done n); cbn; lia.
  - destruct Sp as (-> & _). unfold evStart in E. rewrite (trig_eq s _ _ _ 0 true Sys) in E by (auto; lia).
    cbn in E. injection E as <-. cbn in Sy. injection Sy as <- <- _.
    exists 1%nat, f1. split; [exact J|]. split; [intros (X & _); discriminate X|]. right. cbn. lia.
  - injection E as <-. destruct Sp as (-> & _). cbn in Sy; rewrite Sys in Sy; injection Sy as <- <- _.
    exists 1%nat, f1. split; [exact J|]. split; [intros (X & _); discriminate X|]. right. cbn. lia.
  - injection E as <-. destruct Sp as (-> & _). cbn in Sy; rewrite Sys in Sy; injection Sy as <- <- _.
    exists 3%nat, f1. split; [exact J|]. split; [intros (X & _); discriminate X|]. right. cbn. destruct (stop_done n); cbn; lia.
  - injection E as <-. destruct Sp as (-> & _). cbn in Sy; rewrite Sys in Sy; injection Sy as <- <- _.
    exists 3%nat, f1. split; [exact J|]. split; [intros (X & _); discriminate X|]. right. cbn. lia.
  - injection E as <-. destruct Sp as (-> & _). cbn in Sy; rewrite Sys in Sy; injection Sy as <- <- _.
    exists 3%nat, f1. split; [exact J|]. split; [intros (X & _); discriminate X|]. right. cbn. lia.
  - injection E as <-. destruct Sp as (-> & _). cbn in Sy; rewrite Sys in Sy; injection Sy as <- <- _.
    exists 3%nat, f1. split; [exact J|]. split; [intros (X & _); discriminate X|]. right. cbn. lia.
  - injection E as <-. destruct Sp as (-> & _). cbn in Sy; rewrite Sys in Sy; injection Sy as <- <- _.
    exists 3%nat, f1. split; [exact J|]. split; [intros (X & _); discriminate X|]. right. cbn. lia.
  - destruct Sp as (-> & _). unfold evRestart in E. rewrite (trig_eq s _ _ _ 2 true Sys) in E by (auto; lia).
    cbn in E. injection E as <-. cbn in Sy. injection Sy as <- <- _.
    exists 3%nat, f1. split; [exact J|]. split; [intros (X & _); discriminate X|]. right. cbn. lia.
  - rewrite Sys in E. cbn in E. injection E as <-. cbn in Sy. injection Sy as <- <- _.
    exists 0%nat, f1. split; [exact J|]. cbn. split; [tauto|right; lia].
Qed.

Definition nsafe (ls : list label) : nat := length (filter is_safe ls).

Lemma emergency_steps : forall ls s c f s', inv s c 0%nat f -> steps ls s = Ok s' ->
  exists c' f', inv s' c' 0%nat f' /\ (halted s c 0%nat -> halted s' c' 0%nat) /\
  (halted s' c' 0%nat \/ (rank (sp s') + nsafe ls <= rank (sp s))%nat).
Proof.
  unfold nsafe. induction ls as [|l ls IH]; intros s c f s' I E.
  - cbn in *. injection E as <-. exists c, f. split; [auto|]. split; [auto|]. right. lia.
  - cbn [steps] in E. destruct (step l s) as [s1| |] eqn:E1; try discriminate. cbn [bind] in E.
    destruct l as [d| |]; cbn [step] in E1; cbn [filter is_safe].
    + destruct (td_keep d s c f s1 I E1) as (f1 & J & A & B). destruct (IH s1 c f1 s' J E) as (c' & f' & K & X & Y).
      exists c', f'. split; [exact K|]. unfold halted in *. rewrite A, B in *. auto.
    + destruct (safe_emergency s c f s1 I E1) as (c1 & f1 & J & A & B).
      destruct (IH s1 c1 f1 s' J E) as (c' & f' & K & X & Y).
      exists c', f'. split; [exact K|]. split; [auto|]. destruct Y as [Y|Y]; [auto|]. destruct B as [B|B]; [auto|].
      right. cbn [length]. lia.
    + destruct (public_keep s c f 3 I (or_intror eq_refl)) as (f1 & E2 & J). unfold evEmergency in E1. rewrite E2 in E1.
      injection E1 as <-. destruct (IH _ c f1 s' J E) as (c' & f' & K & X & Y). exists c', f'. auto.
Qed.

Lemma emergency_set : forall s c n f, inv s c n f -> exists s' f', step LEmergency s = Ok s' /\ inv s' c 0%nat f' /\ sp s' = sp s.
Proof.
  intros s c n f I. destruct (inv_public s c n f 3 I (or_intror eq_refl)) as (n' & f' & E & J & _).
  destruct (pair_le _ _ (i_pair _ _ _ _ I)) as [Lc Ln].
  assert (n' = 0%nat).
  { rewrite (trig_eq s c n f 3 false (i_sys _ _ _ _ I) Lc Ln) in E by auto.
    injection E as E. unfold after in E. pose proof (i_pair _ _ _ _ I) as P.
    inversion P as [c0 L X1 X2|X1 X2|X1 X2|X1 X2|c0 L X1 X2]; subst; cbn in E;
      try (destruct (le3 _ Lc) as [->|[->|[->| ->]]]); cbn in E; injection E as E; try congruence; try lia. }
  subst n'. eexists _, f'. split; [exact E|]. auto.
Qed.

Lemma rank_le : forall p, (1 <= rank p <= 9)%nat. Proof. destruct p; cbn; lia. Qed.

Lemma emergency : forall s ls s', reach s -> steps (LEmergency :: ls) s = Ok s' -> (9 <= nsafe ls)%nat ->
  level_at s' slEmergency /\ tdrun s' = false.
Proof.
  intros s ls s' R E L. destruct (inv_reach s R) as (c & n & f & I).
  destruct (emergency_set s c n f I) as (s1 & f1 & E1 & J & _). cbn [steps] in E. rewrite E1 in E. cbn [bind] in E.
  destruct (emergency_steps ls s1 c f1 s' J E) as (c' & f' & K & _ & [(-> & _ & T)|X]).
  - split; [|exact T]. unfold level_at. rewrite (i_sys _ _ _ _ K). reflexivity.
  - pose proof (rank_le (sp s')). pose proof (rank_le (sp s1)). lia.
Qed.

Definition busy (p : tpc) : nat := match p with TIdle | TCatch => 0%nat | _ => 1%nat end.
Lemma halted_step : forall l s c f s', inv s c 0%nat f -> halted s c 0%nat -> step l s = Ok s' ->
  (length (writes s') + busy (tp s') <= length (writes s) + busy (tp s))%nat.
Proof.
  intros l s c f s' I Hh E.
  assert (T : forall e p x, trig e p s = Ok x -> writes x = writes s /\ tp x = tp s).
  { intros e p x X. unfold trig, omap, bind in X. destruct (triggerEvent H (ss s) e p); try discriminate. injection X as <-. auto. }
  destruct l as [d| |]; cbn [step] in E.
  - unfold td_step in E. destruct (tp s) eqn:Tp; try (injection E as <-; cbn; lia).
    + injection E as <-. cbn. destruct Hh as (_ & _ & ->). cbn. lia.
    + destruct (src s); injection E as <-; cbn; rewrite ?Tp; cbn; lia.
    + destruct (armed s && negb (switched s) && near v)%bool; injection E as <-; cbn; lia.
    + unfold omap, bind in E. destruct (trig evStop false s) eqn:X; try discriminate. injection E as <-.
      destruct (T _ _ _ X) as [A B]. cbn. rewrite A. lia.
    + injection E as <-. cbn. destruct (sout s); cbn; lia.
    + unfold omap, bind in E. destruct (trig evEmergency false s) eqn:X; try discriminate. injection E as <-.
      destruct (T _ _ _ X) as [A B]. cbn. rewrite A. lia.
  - assert (K : writes s' = writes s /\ tp s' = tp s).
    { unfold safe_step in E. destruct (sp s) eqn:Sp; try (injection E as <-; auto; fail);
      try (unfold omap, bind in E; match type of E with context [trig ?a ?b ?c] => destruct (trig a b c) eqn:X end; try discriminate;
           injection E as <-; cbn; apply (T _ _ _ X)).
      + destruct (cur (adopt (ss s))); injection E as <-; auto.
      + injection E as <-. destruct (n =? 1); auto. }
    destruct K as [-> ->]. lia.
  - destruct (T _ _ _ E) as [-> ->]. lia.
Qed.
Lemma halted_steps : forall ls s c f s', inv s c 0%nat f -> halted s c 0%nat -> steps ls s = Ok s' ->
  (length (writes s') + busy (tp s') <= length (writes s) + busy (tp s))%nat.
Proof.
  induction ls as [|l ls IH]; intros s c f s' I Hh E; cbn [steps] in E.
  - injection E as <-. lia.
  - destruct (step l s) as [s1| |] eqn:E1; try discriminate. cbn [bind] in E.
    assert (E1' : steps [l] s = Ok s1) by (cbn [steps]; rewrite E1; reflexivity).
    destruct (emergency_steps [l] s c f s1 I E1') as (c1 & f1 & J & A & _).
    specialize (IH s1 c1 f1 s' J). specialize (A Hh).
    assert (c1 = 0%nat /\ c = 0%nat) as [-> ->] by (unfold halted in *; tauto).
    pose proof (halted_step l s 0%nat f s1 I Hh E1). specialize (IH A E). lia.
Qed.

Lemma halt : forall s ls s', reach s -> level_at s slEmergency -> tdrun s = false -> steps ls s = Ok s' ->
  level_at s' slEmergency /\ tdrun s' = false /\ (length (writes s') <= length (writes s) + 1)%nat.
Proof.
  intros s ls s' R L T E. destruct (inv_reach s R) as (c & n & f & I).
  assert (c = 0%nat) by (unfold level_at in L; rewrite (i_sys _ _ _ _ I) in L; cbn in L; injection L as ->; reflexivity). subst c.
  assert (n = 0%nat) by (pose proof (i_pair _ _ _ _ I) as P; inversion P; auto; lia). subst n.
  assert (Hh : halted s 0%nat 0%nat) by (unfold halted; auto).
  destruct (emergency_steps ls s 0%nat f s' I E) as (c' & f' & K & A & _).
  destruct (A Hh) as (-> & _ & T'). split; [unfold level_at; rewrite (i_sys _ _ _ _ K); reflexivity|]. split; [exact T'|].
  pose proof (halted_steps ls s 0%nat f s' I Hh E) as X. assert (busy (tp s) <= 1)%nat by (destruct (tp s); cbn; lia). lia.
Qed.
