From Verif Require Import Prelude SafetyModel SafetySpec.
From Coq Require Import Permutation ZifyBool.
Open Scope Z_scope.

Lemma getDest_leads : forall h c e p d,
  getDestLevelForEvent (h c) e p = Some d <-> leads h c e p d.
Proof.
  intros h c e p d; unfold getDestLevelForEvent, leads.
  destruct (tfind e (ltrans (h c))) as [[d0 priv]|].
  - destruct priv, p; cbn; split; intro H;
      try (inversion H; subst; eexists; split; [reflexivity|auto]; fail);
      try discriminate;
      destruct H as (pr & H1 & H2); inversion H1; subst; auto;
      destruct H2; discriminate.
  - split; [discriminate|]. intros (pr & H & _); discriminate.
Qed.

Lemma getDest_none : forall h c e p,
  getDestLevelForEvent (h c) e p = None <-> leads_nowhere h c e p.
Proof.
  intros h c e p; unfold leads_nowhere; split.
  - intros H d L. apply getDest_leads in L. congruence.
  - intros H. destruct (getDestLevelForEvent (h c) e p) as [d|] eqn:E; [|reflexivity].
    exfalso; apply (H d); apply getDest_leads; exact E.
Qed.

(** Simulation invariant between the model state and the automaton. *)
Definition sim (h : heap) (s : sys) (c : lref) (n : Z) (cand : list lref) : Prop :=
  cur s = Some c /\
  exists x, nxt s = Some x /\
    (cand = [] -> x = c) /\
    (cand <> [] -> In x cand /\ nact s x = 0) /\
    (nact s c = u32 n \/ (In c cand /\ nact s c = 0)) /\
    (~ In c cand -> forall d, In d cand -> lid (h x) <= lid (h d)).

Lemma sim_fresh : forall h s c n,
  cur s = Some c -> nxt s = Some c -> nact s c = u32 n -> sim h s c n [].
Proof.
  intros h s c n Hc Hn Ha. split; [exact Hc|]. exists c. split; [exact Hn|].
  split; [reflexivity|]. split; [congruence|]. split; [auto|]. intros _ d [].
Qed.

Lemma trigger_sim : forall h s c n cand e p,
  sim h s c n cand ->
  exists s', triggerEvent h s e p = Ok s' /\
    ((exists d, leads h c e p d /\ sim h s' c n (d :: cand)) \/
     (leads_nowhere h c e p /\ s' = s)).
Proof.
  intros h s c n cand e p (Hc & x & Hx & Hk & Hm & Hn & Hp).
  unfold triggerEvent; rewrite Hc.
  destruct (getDestLevelForEvent (h c) e p) as [d|] eqn:E.
  - assert (L := proj1 (getDest_leads h c e p d) E).
    rewrite Hx. destruct (Nat.eqb_spec x c) as [Exc|Nxc].
    + eexists; split; [reflexivity|]. left; exists d; split; [exact L|].
      split; [reflexivity|]. exists d; cbn [nxt nact cur].
      split; [reflexivity|]. split; [discriminate|].
      split. { intros _; split; [left; reflexivity|apply upd_same]. }
      split. { destruct (Nat.eq_dec c d) as [->|Ncd]; [right; rewrite upd_same; cbn; auto|].
               rewrite upd_other by exact Ncd. destruct Hn as [Hn|[Hn1 Hn2]]; [left; exact Hn|].
               right; split; [right; exact Hn1|exact Hn2]. }
      intros Hni d' [<-|Hin]; [lia|].
      destruct cand as [|y cand]; [destruct Hin|].
      exfalso. apply Hni; right. destruct (Hm ltac:(discriminate)) as [Hi _]. congruence.
    + assert (Hne : cand <> []) by (intro; apply Nxc; auto).
      destruct (Hm Hne) as [Hin Hz].
      destruct (lid (h d) <? lid (h x)) eqn:Elt.
      * eexists; split; [reflexivity|]. left; exists d; split; [exact L|].
        split; [reflexivity|]. exists d; cbn [nxt nact cur].
        split; [reflexivity|]. split; [discriminate|].
        split. { intros _; split; [left; reflexivity|apply upd_same]. }
        split. { destruct (Nat.eq_dec c d) as [->|Ncd]; [right; rewrite upd_same; cbn; auto|].
               rewrite upd_other by exact Ncd. destruct Hn as [Hn|[Hn1 Hn2]]; [left; exact Hn|].
               right; split; [right; exact Hn1|exact Hn2]. }
        intros Hni d' [<-|Hin']; [lia|].
        assert (lid (h x) <= lid (h d')) by (apply Hp; auto; intro; apply Hni; right; auto).
        lia.
      * eexists; split; [reflexivity|]. left; exists d; split; [exact L|].
        split; [exact Hc|]. exists x. split; [exact Hx|]. split; [discriminate|].
        split. { intros _; split; [right; exact Hin|exact Hz]. }
        split. { destruct Hn as [Hn|[Hn1 Hn2]]; [left; exact Hn|right; split; [right; exact Hn1|exact Hn2]]. }
        intros Hni d' [<-|Hin']; [lia|].
        apply Hp; auto; intro; apply Hni; right; auto.
  - exists s; split; [reflexivity|]. right; split; [|reflexivity].
    apply getDest_none; exact E.
Qed.

Ltac inv_ok := match goal with
  | [ H : Ok _ = Ok _ |- _ ] => inversion H; subst; clear H
  end.

Lemma triggers_sim : forall h ts s c n cand s' log,
  sim h s c n cand -> triggers h s ts = Ok (s', log) ->
  exists cand', sim h s' c n cand' /\
    forall k, allowed h c n cand' k -> allowed h c n cand (log ++ k).
Proof.
  intros h ts; induction ts as [|[e p] ts IH]; intros s c n cand s' log Hs H; cbn in H.
  - inv_ok. exists cand; split; auto.
  - destruct (trigger_sim h s c n cand e p Hs) as (s1 & E1 & Hcase).
    rewrite E1 in H; cbn in H.
    destruct (triggers h s1 ts) as [[s2 l2]| |] eqn:E2; cbn in H; try discriminate.
    inv_ok. destruct Hcase as [(d & L & Hs1)|[L ->]].
    + destruct (IH _ _ _ _ _ _ Hs1 E2) as (cand' & Hs' & Hal).
      exists cand'; split; [exact Hs'|]. intros k Hk; cbn.
      eapply al_trig; eauto.
    + destruct (IH _ _ _ _ _ _ Hs E2) as (cand' & Hs' & Hal).
      exists cand'; split; [exact Hs'|]. intros k Hk; cbn.
      eapply al_trig_none; eauto.
Qed.

Lemma triggers_total : forall h ts s c n cand,
  sim h s c n cand -> exists r, triggers h s ts = Ok r.
Proof.
  intros h ts; induction ts as [|[e p] ts IH]; intros s c n cand Hs; cbn; [eauto|].
  destruct (trigger_sim h s c n cand e p Hs) as (s1 & E1 & Hcase).
  rewrite E1; cbn.
  destruct Hcase as [(d & L & Hs1)|[L ->]];
    [destruct (IH _ _ _ _ Hs1) as [r E2]|destruct (IH _ _ _ _ Hs) as [r E2]];
    rewrite E2; cbn; eauto.
Qed.

Lemma checkInputs_sim : forall h env ias s c n cand s' log,
  sim h s c n cand -> checkInputs h s env ias = Ok (s', log) ->
  exists cand', sim h s' c n cand' /\
    forall k, allowed h c n cand' k -> allowed h c n cand (log ++ k).
Proof.
  intros h env ias; induction ias as [|[ia|] ias IH]; intros s c n cand s' log Hs H; cbn in H.
  - inv_ok. exists cand; split; auto.
  - destruct (ia_fire ia (env (ia_input ia))) as [e|] eqn:Ef.
    + destruct (trigger_sim h s c n cand e true Hs) as (s1 & E1 & Hcase).
      rewrite E1 in H; cbn in H.
      destruct (checkInputs h s1 env ias) as [[s2 l2]| |] eqn:E2; cbn in H; try discriminate.
      inv_ok. destruct Hcase as [(d & L & Hs1)|[L ->]].
      * destruct (IH _ _ _ _ _ _ Hs1 E2) as (cand' & Hs' & Hal).
        exists cand'; split; [exact Hs'|]. intros k Hk; cbn.
        apply al_check. eapply al_trig; eauto.
      * destruct (IH _ _ _ _ _ _ Hs E2) as (cand' & Hs' & Hal).
        exists cand'; split; [exact Hs'|]. intros k Hk; cbn.
        apply al_check. eapply al_trig_none; eauto.
    + destruct (checkInputs h s env ias) as [[s2 l2]| |] eqn:E2; cbn in H; try discriminate.
      inv_ok. destruct (IH _ _ _ _ _ _ Hs E2) as (cand' & Hs' & Hal).
      exists cand'; split; [exact Hs'|]. intros k Hk; cbn.
      apply al_check; auto.
  - eapply IH; eauto.
Qed.

Lemma checkInputs_total : forall h env ias s c n cand,
  sim h s c n cand -> exists r, checkInputs h s env ias = Ok r.
Proof.
  intros h env ias; induction ias as [|[ia|] ias IH]; intros s c n cand Hs; cbn.
  - eauto.
  - destruct (ia_fire ia (env (ia_input ia))) as [e|] eqn:Ef.
    + destruct (trigger_sim h s c n cand e true Hs) as (s1 & E1 & Hcase).
      rewrite E1; cbn.
      destruct Hcase as [(d & L & Hs1)|[L ->]];
        [destruct (IH _ _ _ _ Hs1) as [r E2]|destruct (IH _ _ _ _ Hs) as [r E2]];
        rewrite E2; cbn; eauto.
    + destruct (IH _ _ _ _ Hs) as [r E2]; rewrite E2; cbn; eauto.
  - eauto.
Qed.

Lemma setOutputs_allowed : forall h c n cand oas k,
  allowed h c n cand k -> allowed h c n cand (setOutputs oas ++ k).
Proof.
  intros h c n cand oas k Hk; induction oas as [|[oa|] oas IH]; cbn; auto.
  apply al_set; auto.
Qed.

Lemma u32_succ : forall n, u32 (u32 n + 1) = u32 (n + 1).
Proof. intros n; unfold u32. rewrite Zplus_mod_idemp_l. reflexivity. Qed.

(** One cycle: total, and its log is allowed with the state after it. *)
Lemma run_sim : forall h s c n cand env acts,
  sim h s c n cand ->
  exists s' log c' n', run h s env acts = Ok (s', log) /\ sim h s' c' n' [] /\
    forall k, allowed h c' n' [] k -> allowed h c n cand (log ++ k).
Proof.
  intros h s c n cand env acts (Hc & x & Hx & Hk & Hm & Hn & Hp).
  assert (Hstart : exists n1,
    sim h {| cur := Some x; nxt := Some x; nact := upd (nact s) x (u32 (nact s x + 1)) |}
        x n1 [] /\ (forall k, allowed h x n1 [] k -> allowed h c n cand (EExec x :: k))).
  { destruct cand as [|y cand].
    - exists (n + 1). rewrite (Hk eq_refl) in *. split.
      + apply sim_fresh; [reflexivity|reflexivity|]. cbn.
        rewrite upd_same. destruct Hn as [Hn|[[] _]]. rewrite Hn. apply u32_succ.
      + intros k Hal; apply al_exec_keep; exact Hal.
    - destruct (Hm ltac:(discriminate)) as [Hin Hz]. exists 1. split.
      + apply sim_fresh; [reflexivity|reflexivity|]. cbn. rewrite upd_same, Hz. reflexivity.
      + intros k Hal; eapply al_exec_move; eauto. }
  destruct Hstart as (n1 & Hs1 & Hal1).
  unfold run, adopt. rewrite Hx. cbn [cur nxt nact].
  set (s1 := {| cur := Some x; nxt := Some x; nact := _ |}) in *.
  destruct (checkInputs_total h env (lin (h x)) _ _ _ _ Hs1) as [[s2 l2] E2].
  destruct (checkInputs_sim _ _ _ _ _ _ _ _ _ Hs1 E2) as (cand2 & Hs2 & Hal2).
  rewrite E2; cbn [bind fst snd].
  assert (Hact : exists s3 l3 cand3,
     (if lact (h x) then bind (triggers h s2 acts)
                    (fun r => Ok (fst r, EAct x (nact s2 x) :: snd r)) else Ok (s2, []))
     = Ok (s3, l3) /\ sim h s3 x n1 cand3 /\
     forall k, allowed h x n1 cand3 k -> allowed h x n1 cand2 (l3 ++ k)).
  { destruct (lact (h x)).
    - destruct (triggers_total h acts _ _ _ _ Hs2) as [[s3 l3] E3].
      destruct (triggers_sim _ _ _ _ _ _ _ _ Hs2 E3) as (cand3 & Hs3 & Hal3).
      rewrite E3. exists s3, (EAct x (nact s2 x) :: l3), cand3. split; [reflexivity|].
      split; [exact Hs3|]. intros k Hk'; cbn. apply al_act; [|auto].
      destruct Hs2 as (_ & y & _ & _ & _ & Hn2 & _). exact Hn2.
    - exists s2, [], cand2. split; [reflexivity|]. split; auto. }
  destruct Hact as (s3 & l3 & cand3 & E3 & Hs3 & Hal3).
  rewrite E3; cbn [bind fst snd].
  destruct Hs3 as (Hc3 & y & Hy & Hk3 & Hm3 & Hn3 & Hp3).
  rewrite Hy.
  assert (Hend : exists n', sim h {| cur := Some y; nxt := Some y; nact := nact s3 |} y n' [] /\
     forall k, allowed h y n' [] k -> allowed h x n1 cand3 (EEnd :: k)).
  { destruct cand3 as [|z cand3].
    - exists n1. rewrite (Hk3 eq_refl) in *. split.
      + apply sim_fresh; [reflexivity|reflexivity|]. cbn. destruct Hn3 as [Hn3|[[] _]]. exact Hn3.
      + intros k Hal; apply al_end_keep; exact Hal.
    - destruct (Hm3 ltac:(discriminate)) as [Hin Hz]. exists 0. split.
      + apply sim_fresh; [reflexivity|reflexivity|exact Hz].
      + intros k Hal; eapply al_end_move; eauto. }
  destruct Hend as (n' & Hs' & Hal').
  eexists _, _, y, n'. split; [reflexivity|]. split; [exact Hs'|].
  intros k Hal. cbn [app]. rewrite <- !app_assoc.
  apply Hal1, Hal2, Hal3, setOutputs_allowed, Hal', Hal.
Qed.

Lemma sruns_sim : forall h os s c n cand,
  sim h s c n cand ->
  exists s' log, sruns h s os = Ok (s', log) /\ allowed h c n cand log.
Proof.
  intros h os; induction os as [|o os IH]; intros s c n cand Hs; cbn [sruns].
  - exists s, []; split; [reflexivity|constructor].
  - destruct o as [e p|env acts]; cbn [sstep].
    + destruct (trigger_sim h s c n cand e p Hs) as (s1 & E1 & Hcase).
      rewrite E1; cbn [bind fst snd].
      destruct Hcase as [(d & L & Hs1)|[L ->]].
      * destruct (IH _ _ _ _ Hs1) as (s2 & l2 & E2 & Hal).
        rewrite E2; cbn. eexists _, _; split; [reflexivity|]. eapply al_trig; eauto.
      * destruct (IH _ _ _ _ Hs) as (s2 & l2 & E2 & Hal).
        rewrite E2; cbn. eexists _, _; split; [reflexivity|]. eapply al_trig_none; eauto.
    + destruct (run_sim h s c n cand env acts Hs) as (s1 & l1 & c1 & n1 & E1 & Hs1 & Hal1).
      rewrite E1; cbn [bind fst snd].
      destruct (IH _ _ _ _ Hs1) as (s2 & l2 & E2 & Hal2).
      rewrite E2; cbn [bind fst snd]. eexists _, _; split; [reflexivity|]. auto.
Qed.

Lemma setProperties_init : forall p n0 s,
  setProperties p n0 = Ok (Some s) ->
  exists e, pentry p = Some e /\ sim (pheap p) s e 0 [].
Proof.
  intros p n0 s H. unfold setProperties in H.
  destruct (verify p) as [[|]| |]; cbn in H; try discriminate.
  destruct (pentry p) as [e|] eqn:Ee; [|discriminate].
  inversion H; subst. exists e; split; [reflexivity|].
  apply sim_fresh; [reflexivity|reflexivity|]. cbn. rewrite upd_same. reflexivity.
Qed.

(** C01/C02/C08 main lemma. *)
Lemma safety_log_allowed : forall p n0 s os,
  setProperties p n0 = Ok (Some s) ->
  exists e s' log, pentry p = Some e /\ sruns (pheap p) s os = Ok (s', log) /\
    allowed (pheap p) e 0 [] log.
Proof.
  intros p n0 s os H. destruct (setProperties_init _ _ _ H) as (e & He & Hs).
  destruct (sruns_sim _ os _ _ _ _ Hs) as (s' & log & E & Hal). eauto 10.
Qed.

(** C02: a trigger which leads nowhere does nothing. *)
Lemma trigger_nowhere : forall h s c e p,
  cur s = Some c -> leads_nowhere h c e p -> triggerEvent h s e p = Ok s.
Proof.
  intros h s c e p Hc Hl. unfold triggerEvent. rewrite Hc.
  rewrite (proj2 (getDest_none h c e p) Hl). reflexivity.
Qed.

Lemma trigger_private_outside : forall h s c e d,
  cur s = Some c -> tfind e (ltrans (h c)) = Some (d, true) ->
  triggerEvent h s e false = Ok s.
Proof.
  intros h s c e d Hc Hf. apply (trigger_nowhere h s c e false Hc).
  intros d' (priv & H1 & [H2|H2]); [|discriminate]. congruence.
Qed.

Lemma trigger_private_inside : forall h s c e d priv,
  cur s = Some c -> nxt s = Some c -> tfind e (ltrans (h c)) = Some (d, priv) ->
  exists s', triggerEvent h s e true = Ok s' /\ cur s' = Some c /\ nxt s' = Some d.
Proof.
  intros h s c e d priv Hc Hn Hf. unfold triggerEvent, getDestLevelForEvent.
  rewrite Hc, Hf, Hn. rewrite orb_true_r, Nat.eqb_refl. eexists; split; [reflexivity|].
  cbn; auto.
Qed.

(** C03: the lowest destination wins. *)
Lemma triggers_lowest : forall h s c ts,
  cur s = Some c -> nxt s = Some c ->
  exists s' log n, triggers h s ts = Ok (s', log) /\ cur s' = Some c /\ nxt s' = Some n /\
    ((forall d, ~ dest_of_some h c ts d) -> n = c) /\
    (~ dest_of_some h c ts c -> (exists d, dest_of_some h c ts d) ->
       dest_of_some h c ts n /\
       forall d, dest_of_some h c ts d -> lid (h n) <= lid (h d)).
Proof.
  intros h s c ts Hc Hn.
  assert (G : forall ts s (seen : list (evid * bool)) x,
    cur s = Some c -> nxt s = Some x ->
    ((forall d, ~ dest_of_some h c seen d) -> x = c) ->
    (~ dest_of_some h c seen c -> (exists d, dest_of_some h c seen d) ->
       dest_of_some h c seen x /\ forall d, dest_of_some h c seen d -> lid (h x) <= lid (h d)) ->
    (* decidability of emptiness of seen *)
    ((forall d, ~ dest_of_some h c seen d) \/ exists d, dest_of_some h c seen d) ->
    exists s' log n, triggers h s ts = Ok (s', log) /\ cur s' = Some c /\ nxt s' = Some n /\
      ((forall d, ~ dest_of_some h c (seen ++ ts) d) -> n = c) /\
      (~ dest_of_some h c (seen ++ ts) c -> (exists d, dest_of_some h c (seen ++ ts) d) ->
         dest_of_some h c (seen ++ ts) n /\
         forall d, dest_of_some h c (seen ++ ts) d -> lid (h n) <= lid (h d))).
  { clear s ts Hc Hn. intros ts; induction ts as [|[e p] ts IH]; intros s seen x Hc Hx H1 H2 H3.
    - exists s, [], x. rewrite app_nil_r. cbn; auto.
    - cbn [triggers].
      assert (Hgo : exists s1 x1, triggerEvent h s e p = Ok s1 /\ cur s1 = Some c /\
         nxt s1 = Some x1 /\
         ((forall d, ~ dest_of_some h c (seen ++ [(e,p)]) d) -> x1 = c) /\
         (~ dest_of_some h c (seen ++ [(e,p)]) c ->
          (exists d, dest_of_some h c (seen ++ [(e,p)]) d) ->
          dest_of_some h c (seen ++ [(e,p)]) x1 /\
          forall d, dest_of_some h c (seen ++ [(e,p)]) d -> lid (h x1) <= lid (h d)) /\
         ((forall d, ~ dest_of_some h c (seen ++ [(e,p)]) d) \/
          exists d, dest_of_some h c (seen ++ [(e,p)]) d)).
      { assert (Hext : forall d, dest_of_some h c (seen ++ [(e,p)]) d <->
                                 dest_of_some h c seen d \/ leads h c e p d).
        { intros d; unfold dest_of_some; split.
          - intros (e' & p' & Hi & L). apply in_app_or in Hi. destruct Hi as [Hi|[Hi|[]]].
            + left; eauto.
            + inversion Hi; subst; right; exact L.
          - intros [(e' & p' & Hi & L)|L].
            + exists e', p'; split; [apply in_or_app; auto|exact L].
            + exists e, p; split; [apply in_or_app; right; left; reflexivity|exact L]. }
        unfold triggerEvent. rewrite Hc.
        destruct (getDestLevelForEvent (h c) e p) as [d|] eqn:E.
        - assert (L := proj1 (getDest_leads h c e p d) E).
          assert (Hu : forall d', leads h c e p d' -> d' = d).
          { intros d' L'. apply getDest_leads in L'. congruence. }
          rewrite Hx. destruct (Nat.eqb_spec x c) as [Exc|Nxc].
          + eexists _, d. split; [reflexivity|]. cbn. split; [first [exact Hc|reflexivity]|]. split; [reflexivity|].
            split. { intros Hno. exfalso; apply (Hno d), Hext; right; exact L. }
            split.
            { intros Hnc _. split; [apply Hext; right; exact L|].
              intros d' Hd'. apply Hext in Hd'. destruct Hd' as [Hd'|Hd'].
              - exfalso. apply Hnc, Hext; left.
                destruct (H2 ltac:(intro; apply Hnc, Hext; left; auto) ltac:(eauto)) as [Hsx _].
                congruence.
              - rewrite (Hu _ Hd'). lia. }
            right; exists d; apply Hext; right; exact L.
          + assert (Hne : exists d, dest_of_some h c seen d).
            { destruct H3 as [H3|H3]; [exfalso; apply Nxc, H1, H3|exact H3]. }
            destruct (lid (h d) <? lid (h x)) eqn:Elt.
            * eexists _, d. split; [reflexivity|]. cbn. split; [first [exact Hc|reflexivity]|]. split; [reflexivity|].
              split. { intros Hno. exfalso; apply (Hno d), Hext; right; exact L. }
              split.
              { intros Hnc _. split; [apply Hext; right; exact L|].
                intros d' Hd'. apply Hext in Hd'. destruct Hd' as [Hd'|Hd'].
                - destruct (H2 ltac:(intro; apply Hnc, Hext; left; auto) Hne) as [_ Hmin].
                  specialize (Hmin _ Hd'). lia.
                - rewrite (Hu _ Hd'). lia. }
              right; exists d; apply Hext; right; exact L.
            * exists s, x. split; [reflexivity|]. split; [exact Hc|]. split; [exact Hx|].
              split. { intros Hno. exfalso; apply (Hno d), Hext; right; exact L. }
              split.
              { intros Hnc _.
                destruct (H2 ltac:(intro; apply Hnc, Hext; left; auto) Hne) as [Hin Hmin].
                split; [apply Hext; left; exact Hin|].
                intros d' Hd'. apply Hext in Hd'. destruct Hd' as [Hd'|Hd'].
                - apply Hmin, Hd'.
                - rewrite (Hu _ Hd'). lia. }
              right; exists d; apply Hext; right; exact L.
        - assert (L := proj1 (getDest_none h c e p) E).
          exists s, x. split; [reflexivity|]. split; [exact Hc|]. split; [exact Hx|].
          assert (Heq : forall d, dest_of_some h c (seen ++ [(e,p)]) d <-> dest_of_some h c seen d).
          { intros d; rewrite Hext. split; [intros [?|?]; auto; exfalso; eapply L; eauto|auto]. }
          split. { intros Hno; apply H1; intros d Hd; apply (Hno d), Heq, Hd. }
          split.
          { intros Hnc [d Hd].
            destruct (H2 ltac:(intro; apply Hnc, Heq; auto) ltac:(exists d; apply Heq, Hd))
              as [Hin Hmin].
            split; [apply Heq, Hin|]. intros d' Hd'; apply Hmin, Heq, Hd'. }
          destruct H3 as [H3|[d H3]]; [left|right].
          + intros d Hd; apply (H3 d), Heq, Hd.
          + exists d; apply Heq, H3. }
      destruct Hgo as (s1 & x1 & E1 & Hc1 & Hx1 & G1 & G2 & G3).
      rewrite E1; cbn [bind].
      destruct (IH s1 (seen ++ [(e,p)]) x1 Hc1 Hx1 G1 G2 G3)
        as (s2 & l2 & n2 & E2 & Hc2 & Hn2 & K1 & K2).
      rewrite E2; cbn [bind fst snd].
      rewrite <- app_assoc in K1, K2. cbn [app] in K1, K2.
      eexists _, _, n2. split; [reflexivity|]. auto. }
  destruct (G ts s [] c Hc Hn) as (s' & log & n & A1 & A2 & A3 & A4 & A5).
  - auto.
  - intros _ [d (e & p & [] & _)].
  - left. intros d (e & p & [] & _).
  - exists s', log, n. cbn [app] in A4, A5. auto.
Qed.

Lemma dest_of_some_perm : forall h c ts1 ts2 d,
  Permutation ts1 ts2 -> dest_of_some h c ts1 d -> dest_of_some h c ts2 d.
Proof.
  intros h c ts1 ts2 d HP (e & p & Hin & L).
  exists e, p; split; [eapply Permutation_in; eauto|exact L].
Qed.

Lemma dest_dec : forall h c ts,
  (forall d, ~ dest_of_some h c ts d) \/ exists d, dest_of_some h c ts d.
Proof.
  intros h c ts; induction ts as [|[e p] ts IH].
  - left; intros d (e & p & [] & _).
  - destruct (getDestLevelForEvent (h c) e p) as [d|] eqn:E.
    + right; exists d, e, p; split; [left; reflexivity|apply getDest_leads; exact E].
    + apply getDest_none in E. destruct IH as [IH|[d (e' & p' & Hi & L)]].
      * left. intros d (e' & p' & [Hi|Hi] & L).
        -- inversion Hi; subst. apply (E d L).
        -- apply (IH d). exists e', p'; auto.
      * right; exists d, e', p'; split; [right; exact Hi|exact L].
Qed.

Lemma triggers_order_irrelevant : forall h s c ts1 ts2 s1 l1 s2 l2,
  cur s = Some c -> nxt s = Some c ->
  ~ dest_of_some h c ts1 c ->
  (forall d d', dest_of_some h c ts1 d -> dest_of_some h c ts1 d' ->
     lid (h d) = lid (h d') -> d = d') ->
  Permutation ts1 ts2 ->
  triggers h s ts1 = Ok (s1, l1) -> triggers h s ts2 = Ok (s2, l2) ->
  nxt s1 = nxt s2.
Proof.
  intros h s c ts1 ts2 s1 l1 s2 l2 Hc Hn Hself Hinj HP E1 E2.
  destruct (triggers_lowest h s c ts1 Hc Hn) as (s1' & l1' & n1 & F1 & _ & N1 & A1 & B1).
  destruct (triggers_lowest h s c ts2 Hc Hn) as (s2' & l2' & n2 & F2 & _ & N2 & A2 & B2).
  rewrite E1 in F1; inversion F1; subst. rewrite E2 in F2; inversion F2; subst.
  rewrite N1, N2. f_equal.
  assert (P12 : forall d, dest_of_some h c ts1 d <-> dest_of_some h c ts2 d).
  { intro d; split; apply dest_of_some_perm; [exact HP|apply Permutation_sym, HP]. }
  destruct (dest_dec h c ts1) as [Hno|[d Hd]].
  - rewrite A1 by exact Hno. symmetry; apply A2. intros d Hd; apply (Hno d), P12, Hd.
  - destruct (B1 Hself ltac:(eauto)) as [I1 M1].
    destruct (B2 ltac:(intro; apply Hself, P12; auto) ltac:(exists d; apply P12, Hd)) as [I2 M2].
    apply Hinj; [exact I1|apply P12, I2|].
    assert (lid (h n1) <= lid (h n2)) by (apply M1, P12, I2).
    assert (lid (h n2) <= lid (h n1)) by (apply M2, P12, I1). lia.
Qed.

(** C04: the fixed sequence of a cycle. *)
Lemma filter_app_eff : forall (f : eff -> bool) l1 l2, filter f (l1 ++ l2) = filter f l1 ++ filter f l2.
Proof. intros f l1 l2; apply filter_app. Qed.

Lemma filter_keep : forall (f : eff -> bool) x l, f x = true -> filter f (x :: l) = x :: filter f l.
Proof. intros f x l H; cbn; rewrite H; reflexivity. Qed.

Lemma checkInputs_seq : forall h env ias s s' log,
  checkInputs h s env ias = Ok (s', log) ->
  filter (fun x => negb (is_trig x)) log = map (fun a => ECheck (ia_input a)) (non_null ias).
Proof.
  intros h env ias; induction ias as [|[ia|] ias IH]; intros s s' log H; cbn in H.
  - inv_ok. reflexivity.
  - destruct (ia_fire ia (env (ia_input ia))) as [e|] eqn:Ef.
    + destruct (triggerEvent h s e true) as [s1| |] eqn:E1; cbn in H; try discriminate.
      destruct (checkInputs h s1 env ias) as [[s2 l2]| |] eqn:E2; cbn in H; try discriminate.
      inv_ok. cbn. f_equal. eapply IH; eauto.
    + destruct (checkInputs h s env ias) as [[s2 l2]| |] eqn:E2; cbn in H; try discriminate.
      inv_ok. cbn. f_equal. eapply IH; eauto.
  - cbn. eapply IH; eauto.
Qed.

Lemma triggers_seq : forall h ts s s' log,
  triggers h s ts = Ok (s', log) -> filter (fun x => negb (is_trig x)) log = [].
Proof.
  intros h ts; induction ts as [|[e p] ts IH]; intros s s' log H; cbn in H.
  - inv_ok; reflexivity.
  - destruct (triggerEvent h s e p) as [s1| |] eqn:E1; cbn in H; try discriminate.
    destruct (triggers h s1 ts) as [[s2 l2]| |] eqn:E2; cbn in H; try discriminate.
    inv_ok; cbn. eapply IH; eauto.
Qed.

Lemma setOutputs_seq : forall oas,
  setOutputs oas = map (fun a => ESet (oa_id a) (oa_output a)) (non_null oas).
Proof. induction oas as [|[oa|] oas IH]; cbn; [reflexivity|f_equal; exact IH|exact IH]. Qed.

Lemma run_sequence : forall h s l env acts s' log,
  nxt s = Some l -> run h s env acts = Ok (s', log) ->
  exists n,
  filter (fun x => negb (is_trig x)) log =
    [EExec l] ++ map (fun a => ECheck (ia_input a)) (non_null (lin (h l)))
    ++ (if lact (h l) then [EAct l n] else [])
    ++ map (fun a => ESet (oa_id a) (oa_output a)) (non_null (lout (h l))) ++ [EEnd].
Proof.
  intros h s l env acts s' log Hn H.
  unfold run, adopt in H. rewrite Hn in H. cbn [cur nxt nact] in H.
  set (s1 := {| cur := Some l; nxt := _; nact := _ |}) in *.
  destruct (checkInputs h s1 env (lin (h l))) as [[s2 l2]| |] eqn:E2; cbn [bind fst snd] in H;
    try discriminate.
  apply checkInputs_seq in E2.
  exists (nact s2 l).
  assert (Eo : forall oas, filter (fun x => negb (is_trig x)) (setOutputs oas ++ [EEnd])
     = map (fun a => ESet (oa_id a) (oa_output a)) (non_null oas) ++ [EEnd]).
  { induction oas as [|[oa|] oas IH]; cbn; [reflexivity|f_equal; exact IH|exact IH]. }
  destruct (lact (h l)) eqn:Ea.
  - destruct (triggers h s2 acts) as [[s3 l3]| |] eqn:E3; cbn [bind fst snd] in H; try discriminate.
    apply triggers_seq in E3. inv_ok.
    rewrite filter_keep by reflexivity. rewrite filter_app, E2.
    rewrite filter_keep by reflexivity. rewrite filter_app, Eo, E3. reflexivity.
  - cbn [bind fst snd] in H. inv_ok.
    rewrite filter_keep by reflexivity. rewrite filter_app, E2, Eo. reflexivity.
Qed.

(** the level change takes effect only at the end *)
Lemma run_next : forall h s l env acts s' log,
  nxt s = Some l -> run h s env acts = Ok (s', log) -> cur s' = nxt s'.
Proof.
  intros h s l env acts s' log Hn H.
  unfold run, adopt in H. rewrite Hn in H. cbn [cur nxt nact] in H.
  set (s1 := {| cur := Some l; nxt := _; nact := _ |}) in *.
  assert (Hs1 : sim h s1 l (nact s1 l) [] \/ True) by (right; exact I).
  destruct (checkInputs h s1 env (lin (h l))) as [[s2 l2]| |] eqn:E2; cbn [bind fst snd] in H;
    try discriminate.
  match type of H with bind ?x _ = _ => destruct x as [[s3 l3]| |] eqn:E3 end;
    cbn [bind fst snd] in H; try discriminate.
  inv_ok.
  assert (K : forall s e p s', triggerEvent h s e p = Ok s' -> nxt s <> None -> nxt s' <> None).
  { clear. intros s e p s' H Hn. unfold triggerEvent in H.
    destruct (cur s); [|discriminate].
    destruct (getDestLevelForEvent _ _ _); [|inv_ok; exact Hn].
    destruct (nxt s) eqn:En; [|discriminate].
    destruct (Nat.eqb _ _); [inv_ok; cbn; discriminate|].
    destruct (_ <? _); inv_ok; cbn; congruence. }
  assert (KT : forall ts s s' l, triggers h s ts = Ok (s', l) -> nxt s <> None -> nxt s' <> None).
  { clear -K. intros ts; induction ts as [|[e p] ts IH]; intros s s' l H Hn; cbn in H.
    - inv_ok; exact Hn.
    - destruct (triggerEvent h s e p) as [s1| |] eqn:E1; cbn in H; try discriminate.
      destruct (triggers h s1 ts) as [[s2 l2]| |] eqn:E2; cbn in H; try discriminate.
      inv_ok. eapply IH; eauto. }
  assert (KC : forall env ias s s' l, checkInputs h s env ias = Ok (s', l) ->
                nxt s <> None -> nxt s' <> None).
  { clear -K. intros env ias; induction ias as [|[ia|] ias IH]; intros s s' l H Hn; cbn in H.
    - inv_ok; exact Hn.
    - destruct (ia_fire ia (env (ia_input ia))) as [e|].
      + destruct (triggerEvent h s e true) as [s1| |] eqn:E1; cbn in H; try discriminate.
        destruct (checkInputs h s1 env ias) as [[s2 l2]| |] eqn:E2; cbn in H; try discriminate.
        inv_ok. eapply IH; eauto.
      + destruct (checkInputs h s env ias) as [[s2 l2]| |] eqn:E2; cbn in H; try discriminate.
        inv_ok. eapply IH; eauto.
    - eapply IH; eauto. }
  assert (N2 : nxt s2 <> None) by (eapply KC; eauto; subst s1; cbn; discriminate).
  assert (N3 : nxt s3 <> None).
  { destruct (lact (h l)).
    - destruct (triggers h s2 acts) as [[s4 l4]| |] eqn:E4; cbn in E3; try discriminate.
      inv_ok. eapply KT; eauto.
    - inv_ok; exact N2. }
  destruct (nxt s3); [reflexivity|congruence].
Qed.

(** C05: verify. *)
Lemma eraseCovered_spec : forall (A : Type) (sig : A -> nat) acts crit r,
  eraseCovered sig acts crit = Ok r ->
  ~ In None acts /\ (forall c, In c r <-> In c crit /\ ~ exists a, In (Some a) acts /\ sig a = c).
Proof.
  intros A sig acts; induction acts as [|[a|] acts IH]; intros crit r H; cbn in H.
  - inv_ok. split; [intros []|]. intros c; split; [intros Hc; split; [exact Hc|intros (a & [] & _)]|tauto].
  - destruct (IH _ _ H) as [H1 H2]. split.
    + intros [E|E]; [discriminate|auto].
    + intros c. rewrite H2, filter_In. split.
      * intros [[Hc Hne] Hno]. split; [exact Hc|]. intros (a' & [E|Hin] & Hs).
        -- inversion E; subst. rewrite Nat.eqb_refl in Hne. discriminate.
        -- apply Hno; eauto.
      * intros [Hc Hno]. split; [split; [exact Hc|]|].
        -- destruct (Nat.eqb_spec c (sig a)) as [->|]; [|reflexivity].
           exfalso; apply Hno; exists a; split; [left; reflexivity|reflexivity].
        -- intros (a' & Hin & Hs); apply Hno; exists a'; split; [right; exact Hin|exact Hs].
  - discriminate.
Qed.

Lemma eraseCovered_ok : forall (A : Type) (sig : A -> nat) acts crit,
  ~ In None acts -> exists r, eraseCovered sig acts crit = Ok r.
Proof.
  intros A sig acts; induction acts as [|[a|] acts IH]; intros crit Hn; cbn.
  - eauto.
  - apply IH. intro; apply Hn; right; auto.
  - exfalso; apply Hn; left; reflexivity.
Qed.

Lemma verifyLevel_ok : forall p l,
  verifyLevel p l = Ok tt <-> no_null_actions p l /\ covers p l.
Proof.
  intros p l; unfold verifyLevel; split.
  - intro H.
    destruct (eraseCovered oa_output (lout (pheap p l)) (pcritOut p)) as [c1| |] eqn:E1;
      cbn in H; try discriminate.
    destruct c1; [|discriminate].
    destruct (eraseCovered ia_input (lin (pheap p l)) (pcritIn p)) as [c2| |] eqn:E2;
      cbn in H; try discriminate.
    destruct c2; [|discriminate].
    apply eraseCovered_spec in E1. apply eraseCovered_spec in E2.
    destruct E1 as [N1 C1], E2 as [N2 C2].
    split; [split; assumption|]. split.
    + intros o Ho.
      assert (D : (exists a, In (Some a) (lout (pheap p l)) /\ oa_output a = o) \/
                  ~ (exists a, In (Some a) (lout (pheap p l)) /\ oa_output a = o)).
      { clear. induction (lout (pheap p l)) as [|[a|] t IH].
        - right; intros (a & [] & _).
        - destruct (Nat.eq_dec (oa_output a) o) as [E|E].
          + left; exists a; split; [left; reflexivity|exact E].
          + destruct IH as [(b & Hb & Hs)|IH].
            * left; exists b; split; [right; exact Hb|exact Hs].
            * right; intros (b & [Hb|Hb] & Hs); [inversion Hb; subst; auto|apply IH; eauto].
        - destruct IH as [(b & Hb & Hs)|IH].
          + left; exists b; split; [right; exact Hb|exact Hs].
          + right; intros (b & [Hb|Hb] & Hs); [discriminate|apply IH; eauto]. }
      destruct D as [D|D]; [exact D|]. exfalso. apply (C1 o); split; assumption.
    + intros o Ho.
      assert (D : (exists a, In (Some a) (lin (pheap p l)) /\ ia_input a = o) \/
                  ~ (exists a, In (Some a) (lin (pheap p l)) /\ ia_input a = o)).
      { clear. induction (lin (pheap p l)) as [|[a|] t IH].
        - right; intros (a & [] & _).
        - destruct (Nat.eq_dec (ia_input a) o) as [E|E].
          + left; exists a; split; [left; reflexivity|exact E].
          + destruct IH as [(b & Hb & Hs)|IH].
            * left; exists b; split; [right; exact Hb|exact Hs].
            * right; intros (b & [Hb|Hb] & Hs); [inversion Hb; subst; auto|apply IH; eauto].
        - destruct IH as [(b & Hb & Hs)|IH].
          + left; exists b; split; [right; exact Hb|exact Hs].
          + right; intros (b & [Hb|Hb] & Hs); [discriminate|apply IH; eauto]. }
      destruct D as [D|D]; [exact D|]. exfalso. apply (C2 o); split; assumption.
  - intros [[N1 N2] [C1 C2]].
    destruct (eraseCovered_ok _ oa_output (lout (pheap p l)) (pcritOut p) N1) as [c1 E1].
    destruct (eraseCovered_ok _ ia_input (lin (pheap p l)) (pcritIn p) N2) as [c2 E2].
    rewrite E1; cbn. apply eraseCovered_spec in E1. destruct E1 as [_ S1].
    destruct c1 as [|x c1]; [|exfalso; destruct (proj1 (S1 x) ltac:(left; reflexivity)) as [A B]; auto].
    rewrite E2; cbn. apply eraseCovered_spec in E2. destruct E2 as [_ S2].
    destruct c2 as [|x c2]; [reflexivity|exfalso; destruct (proj1 (S2 x) ltac:(left; reflexivity)) as [A B]; auto].
Qed.

Lemma verifyLevels_ok : forall p ls,
  verifyLevels p ls = Ok tt <-> forall l, In l ls -> no_null_actions p l /\ covers p l.
Proof.
  intros p ls; induction ls as [|l ls IH]; cbn.
  - split; [intros _ l []|reflexivity].
  - split.
    + intro H. destruct (verifyLevel p l) as [[]| |] eqn:E; cbn in H; try discriminate.
      intros l' [<-|Hin]; [apply verifyLevel_ok; exact E|apply IH; auto].
    + intro H. rewrite (proj2 (verifyLevel_ok p l) (H l ltac:(left; reflexivity))). cbn.
      apply IH. intros l' Hl'; apply H; right; exact Hl'.
Qed.

Lemma verify_accepts : forall p,
  verify p = Ok true <->
  (exists e, pentry p = Some e) /\
  forall l, In l (plevels p) -> no_null_actions p l /\ covers p l.
Proof.
  intros p; unfold verify; split.
  - intro H. destruct (verifyLevels p (plevels p)) as [[]| |] eqn:E; cbn in H; try discriminate.
    split; [destruct (pentry p); [eauto|discriminate]|apply verifyLevels_ok; exact E].
  - intros [[e He] H]. rewrite (proj2 (verifyLevels_ok p (plevels p)) H). cbn. rewrite He. reflexivity.
Qed.

(** In an accepted configuration each cycle that executes a registered level drives every
    critical output and reads every critical input. *)
Lemma filter_in : forall log (x : eff), In x (filter (fun x => negb (is_trig x)) log) -> In x log.
Proof. intros log x H; apply filter_In in H; tauto. Qed.

Lemma cycle_covers : forall p s l env acts s' log,
  covers p l -> nxt s = Some l -> run (pheap p) s env acts = Ok (s', log) ->
  (forall o, In o (pcritOut p) -> exists a, In (ESet a o) log) /\
  (forall i, In i (pcritIn p) -> In (ECheck i) log).
Proof.
  intros p s l env acts s' log [Co Ci] Hn H.
  destruct (run_sequence _ _ _ _ _ _ _ Hn H) as [n E].
  assert (NN : forall (A : Type) (xs : list (option A)) a, In (Some a) xs -> In a (non_null xs)).
  { intros A xs a Hin. unfold non_null. apply in_flat_map. exists (Some a); split; [exact Hin|left; reflexivity]. }
  split.
  - intros o Ho. destruct (Co o Ho) as (a & Hin & Hs). exists (oa_id a). apply filter_in.
    rewrite E. apply in_or_app; right. apply in_or_app; right. apply in_or_app; right.
    apply in_or_app; left. apply in_map_iff. exists a. split; [congruence|apply NN, Hin].
  - intros i Hi. destruct (Ci i Hi) as (a & Hin & Hs). apply filter_in.
    rewrite E. apply in_or_app; right. apply in_or_app; left.
    apply in_map_iff. exists a. split; [congruence|apply NN, Hin].
Qed.

(** C06, C07 *)
Lemma tfind_app : forall k m1 m2, tfind k (m1 ++ m2) = match tfind k m1 with Some v => Some v | None => tfind k m2 end.
Proof.
  intros k m1; induction m1 as [|[k' v] m1 IH]; intros m2; cbn; [reflexivity|].
  destruct (k =? k'); [reflexivity|apply IH].
Qed.

Lemma tfind_insert : forall k v m k',
  tfind k' (tinsert k v m) =
  if Z.eqb k' k then (match tfind k m with Some w => Some w | None => Some v end) else tfind k' m.
Proof.
  intros k v m k'; unfold tinsert.
  destruct (Z.eqb_spec k' k) as [->|Hne].
  - destruct (tfind k m) as [w|] eqn:E; [exact E|].
    rewrite tfind_app, E. cbn. rewrite Z.eqb_refl. reflexivity.
  - destruct (tfind k m) as [w|] eqn:E; [reflexivity|].
    rewrite tfind_app. cbn. destruct (Z.eqb_spec k' k); [contradiction|].
    destruct (tfind k' m); reflexivity.
Qed.

Lemma addEventWhere_lid : forall ls h sel e d pr l, lid (addEventWhere h ls sel e d pr l) = lid (h l).
Proof.
  induction ls as [|x ls IH]; intros h sel e d pr l; cbn; [reflexivity|].
  rewrite IH. destruct (sel (lid (h x))); [|reflexivity].
  unfold upd. destruct (Nat.eqb_spec l x) as [->|]; reflexivity.
Qed.

Lemma addEventWhere_find : forall ls h sel e d pr l e',
  tfind e' (ltrans (addEventWhere h ls sel e d pr l)) =
  if Z.eqb e' e then
    match tfind e (ltrans (h l)) with
    | Some w => Some w
    | None => if in_dec Nat.eq_dec l ls then (if sel (lid (h l)) then Some (d, pr) else None) else None
    end
  else tfind e' (ltrans (h l)).
Proof.
  induction ls as [|x ls IH]; intros h sel e d pr l e'; cbn [addEventWhere].
  - destruct (in_dec Nat.eq_dec l []) as [[]|_].
    destruct (Z.eqb_spec e' e) as [->|]; [destruct (tfind e (ltrans (h l))); reflexivity|reflexivity].
  - rewrite IH.
    destruct (Nat.eq_dec l x) as [->|Hne].
    + assert (Hf : forall k, tfind k (ltrans ((if sel (lid (h x)) then upd h x (addEvent (h x) e d pr) else h) x))
        = if sel (lid (h x)) then tfind k (tinsert e (d,pr) (ltrans (h x))) else tfind k (ltrans (h x))).
      { intro k. destruct (sel (lid (h x))); [rewrite upd_same; reflexivity|reflexivity]. }
      assert (Hl : lid ((if sel (lid (h x)) then upd h x (addEvent (h x) e d pr) else h) x) = lid (h x)).
      { destruct (sel (lid (h x))); [rewrite upd_same; reflexivity|reflexivity]. }
      rewrite !Hf, Hl.
      destruct (in_dec Nat.eq_dec x (x :: ls)) as [_|Hc]; [|exfalso; apply Hc; left; reflexivity].
      destruct (sel (lid (h x))) eqn:Es.
      * rewrite !tfind_insert, Z.eqb_refl.
        destruct (Z.eqb_spec e' e) as [->|]; [|reflexivity].
        destruct (tfind e (ltrans (h x))); reflexivity.
      * destruct (Z.eqb_spec e' e) as [->|]; [|reflexivity].
        destruct (tfind e (ltrans (h x))); [reflexivity|].
        destruct (in_dec Nat.eq_dec x ls); reflexivity.
    + assert (Hl : (if sel (lid (h x)) then upd h x (addEvent (h x) e d pr) else h) l = h l).
      { destruct (sel (lid (h x))); [apply upd_other; exact Hne|reflexivity]. }
      rewrite Hl.
      destruct (Z.eqb_spec e' e) as [->|]; [|reflexivity].
      destruct (tfind e (ltrans (h l))); [reflexivity|].
      destruct (in_dec Nat.eq_dec l ls) as [Hi|Hi];
        destruct (in_dec Nat.eq_dec l (x :: ls)) as [Hi'|Hi']; try reflexivity.
      * exfalso; apply Hi'; right; exact Hi.
      * exfalso. destruct Hi' as [E|E]; [congruence|auto].
Qed.

(** C11 *)
Definition addLevels (p : props) (ls : list lref) : props := fold_left addLevel ls p.

Lemma addLevel_lid_other : forall p l l', l' <> l -> pheap (addLevel p l) l' = pheap p l'.
Proof. intros p l l' H; unfold addLevel; cbn. apply upd_other; exact H. Qed.

Lemma addLevels_other : forall ls p l, ~ In l ls -> pheap (addLevels p ls) l = pheap p l.
Proof.
  induction ls as [|x ls IH]; intros p l H; cbn; [reflexivity|].
  unfold addLevels in IH. rewrite IH by (intro; apply H; right; auto).
  apply addLevel_lid_other. intro; apply H; left; auto.
Qed.

Lemma addLevels_ids : forall ls p i l,
  NoDup ls -> nth_error ls i = Some l ->
  lid (pheap (addLevels p ls) l) = pcount p + Z.of_nat i.
Proof.
  induction ls as [|x ls IH]; intros p i l Hnd H; [destruct i; discriminate|].
  inversion Hnd as [|y ys Hx Hnd']; subst. destruct i as [|i]; cbn in H.
  - inversion H; subst. cbn. unfold addLevels in *.
    change (fold_left addLevel ls (addLevel p l)) with (addLevels (addLevel p l) ls).
    rewrite addLevels_other by exact Hx. unfold addLevel; cbn. rewrite upd_same. cbn. lia.
  - cbn. change (fold_left addLevel ls (addLevel p x)) with (addLevels (addLevel p x) ls).
    rewrite (IH (addLevel p x) i l Hnd' H). cbn. lia.
Qed.


(** C08 corollary of the log automaton: without triggers the same level is executed and its
    action observes the running number of cycles. *)
Lemma allowed_quiet : forall h c log1 n l m log2,
  allowed h c n [] (log1 ++ EAct l m :: log2) -> filter is_trig log1 = [] ->
  l = c /\ m = u32 (n + cycles_in log1).
Proof.
  intros h c log1; induction log1 as [|x log1 IH]; intros n l m log2 H Hq; cbn [app] in H.
  - inversion H as [| | | | | | | ? ? ? ? ? Hm Ha | |]; subst. split; [reflexivity|].
    destruct Hm as [->|[[] _]]. unfold cycles_in; cbn. f_equal; lia.
  - destruct x; cbn in Hq; try discriminate; inversion H; subst;
      try (match goal with [ HI : In _ [] |- _ ] => destruct HI end);
      match goal with [ HA : allowed _ _ _ _ (log1 ++ _) |- _ ] =>
        destruct (IH _ _ _ _ HA Hq) as [E1 E2] end;
      split; auto; rewrite E2; unfold cycles_in; cbn [filter length]; f_equal; lia.
Qed.

(** C08 on the runs of the model. *)
Lemma sruns_reach : forall h os s c n cand s' log,
  sim h s c n cand -> sruns h s os = Ok (s', log) -> exists c' n' cand', sim h s' c' n' cand'.
Proof.
  intros h os; induction os as [|o os IH]; intros s c n cand s' log Hs E; cbn [sruns] in E.
  - injection E as <- <-. eauto.
  - destruct o as [e p|env acts]; cbn [sstep] in E.
    + destruct (trigger_sim h s c n cand e p Hs) as (s1 & E1 & Hcase).
      rewrite E1 in E; cbn [bind fst snd] in E.
      destruct (sruns h s1 os) as [[s2 l2]| |] eqn:E2; cbn in E; try discriminate.
      injection E as <- <-.
      destruct Hcase as [(d & L & Hs1)|[L ->]]; [exact (IH _ _ _ _ _ _ Hs1 E2)|exact (IH _ _ _ _ _ _ Hs E2)].
    + destruct (run_sim h s c n cand env acts Hs) as (s1 & l1 & c1 & n1 & E1 & Hs1 & _).
      rewrite E1 in E; cbn [bind fst snd] in E.
      destruct (sruns h s1 os) as [[s2 l2]| |] eqn:E2; cbn in E; try discriminate.
      injection E as <- <-. exact (IH _ _ _ _ _ _ Hs1 E2).
Qed.

Lemma counts_from_start : forall p n0 s os s' log1 l m log2,
  setProperties p n0 = Ok (Some s) -> sruns (pheap p) s os = Ok (s', log1 ++ EAct l m :: log2) ->
  filter is_trig log1 = [] -> pentry p = Some l /\ m = u32 (cycles_in log1).
Proof.
  intros p n0 s os s' log1 l m log2 H E Hq.
  destruct (safety_log_allowed p n0 s os H) as (e & s1 & log & He & E1 & Ha).
  rewrite E in E1. injection E1 as <- <-.
  destruct (allowed_quiet _ _ _ _ _ _ _ Ha Hq) as [-> ->]. split; [exact He|reflexivity].
Qed.

Lemma allowed_entered : forall h c log1 n cand l m log2,
  allowed h c n cand (log1 ++ EAct l m :: log2) -> cand <> [] -> filter is_trig log1 = [] -> 0 < cycles_in log1 ->
  In l cand /\ m = u32 (cycles_in log1).
Proof.
  intros h c log1; induction log1 as [|x log1 IH]; intros n cand l m log2 H Hne Hq Hpos; cbn [app] in H.
  - cbn in Hpos. lia.
  - destruct x; cbn in Hq; try discriminate; inversion H; subst; try congruence;
      try (apply (IH _ _ _ _ _ ltac:(eassumption) Hne Hq); unfold cycles_in in *; cbn in Hpos; exact Hpos);
      match goal with [ HA : allowed _ _ _ _ (log1 ++ _) |- _ ] =>
        destruct (allowed_quiet _ _ _ _ _ _ _ HA Hq) as [-> ->] end;
      (split; [assumption|]); unfold cycles_in; cbn [filter length]; f_equal; lia.
Qed.

Lemma run_begins : forall h s env acts s' log x,
  nxt s = Some x -> run h s env acts = Ok (s', log) -> exists k, log = EExec x :: k.
Proof.
  intros h s env acts s' log x Hx E. unfold run, adopt in E. rewrite Hx in E. cbn [cur nxt nact] in E.
  match type of E with bind ?a _ = _ => destruct a; cbn [bind] in E; try discriminate end.
  match type of E with bind ?a _ = _ => destruct a; cbn [bind] in E; try discriminate end.
  injection E as <- <-. eexists; reflexivity.
Qed.

Lemma counts_from_entry : forall p n0 s os s1 log0 c e pr d os2 s2 log1 l m log2,
  setProperties p n0 = Ok (Some s) -> sruns (pheap p) s os = Ok (s1, log0) ->
  cur s1 = Some c -> leads (pheap p) c e pr d ->
  sruns (pheap p) s1 (Trigger e pr :: os2) = Ok (s2, ETrig e pr :: log1 ++ EAct l m :: log2) ->
  filter is_trig log1 = [] -> m = u32 (cycles_in log1).
Proof.
  intros p n0 s os s1 log0 c e pr d os2 s2 log1 l m log2 H E0 Hc L E Hq.
  destruct (setProperties_init _ _ _ H) as (en & _ & Hs).
  destruct (sruns_reach _ _ _ _ _ _ _ _ Hs E0) as (c1 & n1 & cand1 & Hs1).
  assert (c1 = c) as -> by (destruct Hs1 as (H1 & _); congruence).
  cbn [sruns sstep] in E.
  destruct (trigger_sim _ _ _ _ _ e pr Hs1) as (s3 & E3 & Hcase).
  rewrite E3 in E; cbn [bind fst snd] in E.
  destruct (sruns (pheap p) s3 os2) as [[s4 l4]| |] eqn:E4; cbn in E; try discriminate.
  injection E as <- ->.
  destruct Hcase as [(d' & _ & Hs3)|[Hn _]]; [|exfalso; exact (Hn _ L)].
  destruct (sruns_sim _ os2 _ _ _ _ Hs3) as (s5 & l5 & E5 & Ha). rewrite E4 in E5. injection E5 as <- <-.
  destruct os2 as [|o os2]; [cbn in E4; injection E4 as _ E4; destruct log1; discriminate|].
  assert (Hpos : 0 < cycles_in log1).
  { destruct o as [e' p'|env acts]; cbn [sruns sstep] in E4.
    - destruct (triggerEvent (pheap p) s3 e' p') as [s6| |]; cbn [bind fst snd] in E4; try discriminate.
      destruct (sruns (pheap p) s6 os2) as [[s7 l7]| |]; cbn in E4; try discriminate. injection E4 as _ E4.
      destruct log1 as [|x log1]; [discriminate|]. cbn in E4. injection E4 as <- _. cbn in Hq. discriminate.
    - destruct Hs3 as (Hc3 & x & Hx & _).
      destruct (run (pheap p) s3 env acts) as [[s6 l6]| |] eqn:E6; cbn [bind fst snd] in E4; try discriminate.
      destruct (run_begins _ _ _ _ _ _ _ Hx E6) as (k & ->).
      destruct (sruns (pheap p) s6 os2) as [[s7 l7]| |]; cbn [bind fst snd] in E4; try discriminate.
      injection E4 as _ E4. destruct log1 as [|y log1]; [discriminate|]. cbn in E4. injection E4 as <- _.
      unfold cycles_in; cbn [filter length]. lia. }
  exact (proj2 (allowed_entered _ _ _ _ _ _ _ _ Ha ltac:(discriminate) Hq Hpos)).
Qed.

(** C06 *)
Lemma addEventWhere_spec : forall p sel e d pr,
  event_added (pheap p) (addEventWhere (pheap p) (plevels p) sel e d pr)
    (fun l => In l (plevels p) /\ sel (lid (pheap p l)) = true) e d pr.
Proof.
  intros p sel e d pr l. split.
  - intros Hn. rewrite addEventWhere_find, Z.eqb_refl, Hn. split.
    + intros [Hin Hs]. destruct (in_dec Nat.eq_dec l (plevels p)); [|contradiction].
      rewrite Hs; reflexivity.
    + intros Hno. destruct (in_dec Nat.eq_dec l (plevels p)) as [Hin|]; [|reflexivity].
      destruct (sel (lid (pheap p l))) eqn:Es; [exfalso; auto|reflexivity].
  - intros e' He'. rewrite addEventWhere_find.
    destruct (Z.eqb_spec e' e) as [->|]; [|reflexivity].
    destruct He' as [He'|He']; [congruence|].
    destruct (tfind e (ltrans (pheap p l))); [reflexivity|congruence].
Qed.

Lemma event_added_ext : forall old new r1 r2 e d pr,
  (forall l, r1 l <-> r2 l) -> event_added old new r1 e d pr -> event_added old new r2 e d pr.
Proof.
  intros old new r1 r2 e d pr Hr H l. destruct (H l) as [H1 H2]. split; [|exact H2].
  intros Hn. destruct (H1 Hn) as [A B]. split; intros Hx; [apply A, Hr, Hx|apply B; intro; apply Hx, Hr; auto].
Qed.

Lemma addEvent_above : forall p lo e d pr,
  event_added (pheap p) (pheap (addEventToLevelAndAbove p lo e d pr))
    (fun l => In l (plevels p) /\ lid (pheap p lo) <= lid (pheap p l)) e d pr.
Proof.
  intros. eapply event_added_ext; [|apply addEventWhere_spec]. intros l; cbn. rewrite Z.geb_le. tauto.
Qed.
Lemma addEvent_below : forall p hi e d pr,
  event_added (pheap p) (pheap (addEventToLevelAndBelow p hi e d pr))
    (fun l => In l (plevels p) /\ lid (pheap p l) <= lid (pheap p hi)) e d pr.
Proof.
  intros. eapply event_added_ext; [|apply addEventWhere_spec]. intros l; cbn. rewrite Z.leb_le. tauto.
Qed.
Lemma addEvent_between : forall p lo hi e d pr,
  event_added (pheap p) (pheap (addEventToAllLevelsBetween p lo hi e d pr))
    (fun l => In l (plevels p) /\ lid (pheap p lo) <= lid (pheap p l) <= lid (pheap p hi)) e d pr.
Proof.
  intros. eapply event_added_ext; [|apply addEventWhere_spec]. intros l; cbn.
  rewrite andb_true_iff, Z.geb_le, Z.leb_le. tauto.
Qed.
Lemma addEvent_one : forall p l0 e d pr,
  event_added (pheap p) (pheap (addEventToLevel p l0 e d pr)) (fun l => l = l0) e d pr.
Proof.
  intros p l0 e d pr l. unfold addEventToLevel, with_heap; cbn [pheap].
  destruct (Nat.eq_dec l l0) as [->|Hne].
  - rewrite upd_same. unfold addEvent; cbn [ltrans]. split.
    + intros Hn. rewrite tfind_insert, Z.eqb_refl, Hn. split; [reflexivity|congruence].
    + intros e' He'. rewrite tfind_insert. destruct (Z.eqb_spec e' e) as [->|]; [|reflexivity].
      destruct He' as [He'|He']; [congruence|]. destruct (tfind e (ltrans (pheap p l0))); [reflexivity|congruence].
  - rewrite upd_other by exact Hne. split; [|reflexivity]. intros Hn; split; [congruence|auto].
Qed.

(** C11: registering events keeps the level numbers. *)
Lemma addEvents_keep_ids : forall p l l1 l2 e d pr x,
  lid (pheap (addEventToLevel p l e d pr) x) = lid (pheap p x) /\
  lid (pheap (addEventToLevelAndAbove p l e d pr) x) = lid (pheap p x) /\
  lid (pheap (addEventToLevelAndBelow p l e d pr) x) = lid (pheap p x) /\
  lid (pheap (addEventToAllLevelsBetween p l1 l2 e d pr) x) = lid (pheap p x).
Proof.
  intros. cbn. rewrite !addEventWhere_lid. repeat split.
  unfold upd. destruct (Nat.eqb_spec x l) as [->|]; reflexivity.
Qed.

(** C77: executed levels stay inside every set that contains the entry level and is closed
    under transitions. *)
Lemma allowed_closed : forall h (P : lref -> Prop) c n cand log,
  (forall l e p d, P l -> leads h l e p d -> P d) ->
  allowed h c n cand log -> P c -> (forall d, In d cand -> P d) ->
  forall l, In (EExec l) log -> P l.
Proof.
  intros h P c n cand log Hcl H. induction H as
    [c n cand|c n cand e p d log L H IH|c n cand e p log L H IH|c n log H IH
    |c n cand d log Hin Hmin H IH|c n log H IH|c n cand d log Hin Hmin H IH
    |c n cand m log Hm H IH|c n cand i log H IH|c n cand a o log H IH]; intros Hc Hd l Hl.
  - destruct Hl.
  - destruct Hl as [Hl|Hl]; [discriminate|]. apply IH; auto.
    intros d' [<-|Hd']; eauto.
  - destruct Hl as [Hl|Hl]; [discriminate|]. apply IH; auto.
  - destruct Hl as [Hl|Hl]; [inversion Hl; subst; exact Hc|]. apply IH; auto.
  - destruct Hl as [Hl|Hl]; [inversion Hl; subst; auto|]. apply IH; auto. intros d' [].
  - destruct Hl as [Hl|Hl]; [discriminate|]. apply IH; auto.
  - destruct Hl as [Hl|Hl]; [discriminate|]. apply IH; auto. intros d' [].
  - destruct Hl as [Hl|Hl]; [discriminate|]. apply IH; auto.
  - destruct Hl as [Hl|Hl]; [discriminate|]. apply IH; auto.
  - destruct Hl as [Hl|Hl]; [discriminate|]. apply IH; auto.
Qed.

Lemma executed_levels_covered : forall p n0 s os,
  setProperties p n0 = Ok (Some s) ->
  (forall e, pentry p = Some e -> In e (plevels p)) ->
  (forall l e pr d, In l (plevels p) -> leads (pheap p) l e pr d -> In d (plevels p)) ->
  exists s' log, sruns (pheap p) s os = Ok (s', log) /\
    forall l, In (EExec l) log -> covers p l.
Proof.
  intros p n0 s os H He Hcl.
  destruct (safety_log_allowed p n0 s os H) as (e & s' & log & E1 & E2 & Hal).
  exists s', log. split; [exact E2|]. intros l Hl.
  assert (Hv : verify p = Ok true).
  { unfold setProperties in H. destruct (verify p) as [[|]| |]; cbn in H; try discriminate. reflexivity. }
  apply verify_accepts in Hv. destruct Hv as [_ Hv].
  apply Hv. apply (allowed_closed (pheap p) (fun l => In l (plevels p)) e 0 [] log Hcl Hal (He _ E1)); auto.
  intros d [].
Qed.
