From Coq Require Import ZifyBool ZifyNat Reals Lra Psatz String.
From Verif Require Import Prelude Num SeqModel SeqSpec.
Open Scope Z_scope.
Open Scope list_scope.

Section Life.
Variable defs : nat -> seqdef.
Variable mons : nat -> mondef.
Variable orc : nat -> bool.

(** Unfolding equations. *)
Lemma loop_S : forall n s ret w, loop defs mons orc (S n) s ret w =
    match qphase (wq w s) with
    | Terminated => Fin (emit (lock (setphase w s Idle) s false) (VEnd s ret), ret)
    | Idle =>
      rbind (check defs mons orc n s (clear_active w s)) (fun w1 =>
      match qphase (wq w1 s) with
      | Aborting | Restarting => loop defs mons orc n s ret w1
      | _ => loop defs mons orc n s ret (setphase w1 s Starting)
      end)
    | Starting =>
      let (b, w1) := ask orc w (VPre s) in
      if b then
        rbind (runscript defs mons orc n (sbody (defs s)) (setphase (emit w1 (VAct s)) s Running)) (fun wr =>
        loop defs mons orc n s (snd wr) (emit (fst wr) (VRet s (snd wr))))
      else loop defs mons orc n s ret (setphase w1 s Terminated)
    | Running =>
      rbind (check defs mons orc n s w) (fun w1 =>
      match qphase (wq w1 s) with
      | Restarting => loop defs mons orc n s ret w1
      | _ =>
        let (b, w2) := ask orc w1 (VExit s) in
        loop defs mons orc n s ret (if b then setphase w2 s Terminated else w2)
      end)
    | Aborting => loop defs mons orc n s ret (setphase w s Terminated)
    | Restarting => loop defs mons orc n s ret (clear_active (setphase (emit w (VRestart s)) s Starting) s)
    end.
Proof. reflexivity. Qed.
Lemma runscript_S : forall n c w, runscript defs mons orc (S n) c w =
    match c with
    | Ret r => Fin (w, r)
    | Ask k => let (b, w1) := ask_silent orc w in runscript defs mons orc n (k b) w1
    | Call s k => rbind (exec defs mons orc n s w) (fun wr => runscript defs mons orc n (k (snd wr)) (fst wr))
    end.
Proof. reflexivity. Qed.
Lemma exec_S : forall n s w, exec defs mons orc (S n) s w =
    if qbusy (wq w s) then Stuck else loop defs mons orc n s (-1) (lock w s true).
Proof. reflexivity. Qed.
Lemma check_S : forall n s w, check defs mons orc (S n) s w =
    rbind (scan defs mons orc n (sstack (defs s)) None w) (fun wa =>
    match snd wa with
    | None => Fin (fst wa)
    | Some a =>
      match qactive (wq (fst wa) a) with
      | None => Stuck
      | Some m => Fin (propagate (sstack (defs s)) (mbeh (mons m)) (fst wa))
      end
    end).
Proof. reflexivity. Qed.
Lemma scan_S : forall n qs act w, scan defs mons orc (S n) qs act w =
    match qs with
    | [] => Fin (w, act)
    | q :: qs' =>
      if qinexc (wq w q) then scan defs mons orc n qs' act w
      else rbind (scan_mons defs mons orc n (smons (defs q)) act w) (fun wa => scan defs mons orc n qs' (snd wa) (fst wa))
    end.
Proof. reflexivity. Qed.
Lemma scan_mons_S : forall n ms act w, scan_mons defs mons orc (S n) ms act w =
    match ms with
    | [] => Fin (w, act)
    | m :: ms' =>
      let (b, w1) := ask orc w (VMon m) in
      if b then
        if qfired (wq w1 (mowner (mons m))) then scan_mons defs mons orc n ms' (Some (mowner (mons m))) w1
        else
          rbind (match mexc (mons m) with
                 | None => Fin (fire mons w1 m, 0)
                 | Some e => exec defs mons orc n e (fire mons w1 m)
                 end) (fun wr =>
          scan_mons defs mons orc n ms' (Some (mowner (mons m))) (handled mons (fst wr) m))
      else scan_mons defs mons orc n ms' act w1
    end.
Proof. reflexivity. Qed.

Hypothesis WF : wf_config defs mons.

(** ** invariants *)
Definition G (w : world) : Prop :=
  (forall q, qinexc (wq w q) = true -> qbusy (wq w q) = true /\ qfired (wq w q) = true) /\
  (forall q, qfired (wq w q) = true -> exists m, qactive (wq w q) = Some m /\ mowner (mons m) = q /\
     In (VFire m) (wlog w) /\ (qinexc (wq w q) = false -> mbeh (mons m) <> Resume)) /\
  (forall q, qphase (wq w q) = Aborting -> fired_above mons (sstack (defs q)) (wlog w)) /\
  (forall q, qbusy (wq w q) = false -> qphase (wq w q) = Idle).

Definition A (a : nat) (w : world) : Prop :=
  exists m, qactive (wq w a) = Some m /\ mowner (mons m) = a /\ In (VFire m) (wlog w) /\
    (mbeh (mons m) <> Resume -> qfired (wq w a) = true).

Definition nested (a : astate) : Prop := aph a = AFirst \/ aph a = AInAct \/ aph a = ARun.

Definition P (a : astate) (q : qstate) : Prop :=
  match apend a with
  | None => (qfired q = true -> qinexc q = true) /\ qphase q <> Restarting
  | Some Abort => qfired q = true /\ qphase q = Aborting /\ qinexc q = false
  | Some Restart => qfired q = true /\ qphase q = Restarting /\ qinexc q = false
  | Some Resume => False
  end /\
  match qphase q with
  | Idle => aph a = AFirst
  | Running | Aborting | Restarting => True
  | _ => False
  end.

Definition step_rel (q : nat) (seg : list ev) (s s' : qstate) : Prop :=
  forall a, nested a -> P a s ->
    exists a', aruns mons q a seg = Some a' /\ aph a' = aph a /\ aret a' = aret a /\ P a' s'.

Definition Post (ex : option nat) (w w' : world) : Prop :=
  exists seg, wlog w' = wlog w ++ seg /\
  forall q, ex <> Some q ->
    (qbusy (wq w' q) = qbusy (wq w q) /\
     (qbusy (wq w q) = false -> lives defs mons q (wlog w) seg)) /\
    (qbusy (wq w q) = true ->
       qinexc (wq w' q) = qinexc (wq w q) /\
       (qinexc (wq w q) = true -> wq w' q = wq w q) /\
       (A q w -> A q w') /\
       step_rel q seg (wq w q) (wq w' q)).

Lemma aruns_app : forall s l1 l2 a, aruns mons s a (l1 ++ l2) =
  match aruns mons s a l1 with Some a' => aruns mons s a' l2 | None => None end.
Proof.
  intros s l1; induction l1 as [|e l1 IH]; intros l2 a; cbn [app aruns]; [reflexivity|].
  destruct (astep mons s a e); [apply IH|reflexivity].
Qed.

Lemma step_rel_refl : forall q s, step_rel q [] s s.
Proof. intros q s a Ha HP. exists a. cbn. auto. Qed.

Lemma step_rel_trans : forall q g1 g2 s1 s2 s3,
  step_rel q g1 s1 s2 -> step_rel q g2 s2 s3 -> step_rel q (g1 ++ g2) s1 s3.
Proof.
  intros q g1 g2 s1 s2 s3 H1 H2 a Ha HP.
  destruct (H1 a Ha HP) as (a1 & R1 & E1 & F1 & P1).
  assert (Ha1 : nested a1) by (unfold nested in *; rewrite E1; exact Ha).
  destruct (H2 a1 Ha1 P1) as (a2 & R2 & E2 & F2 & P2).
  exists a2. rewrite aruns_app, R1. split; [exact R2|]. split; [congruence|]. split; [congruence|exact P2].
Qed.

Lemma lives_app : forall q pre l1 l2, lives defs mons q pre l1 -> lives defs mons q (pre ++ l1) l2 ->
  lives defs mons q pre (l1 ++ l2).
Proof.
  intros q pre l1 l2 H; revert l2. induction H as [pre|pre e l He Hl IH|pre b a r l Ha Hlf Hj Hl IH]; intros l2 H2.
  - rewrite app_nil_r in H2. exact H2.
  - cbn. apply lives_other; [exact He|]. apply IH. rewrite <- app_assoc. exact H2.
  - rewrite <- app_assoc. cbn. eapply lives_life; eauto. apply IH. rewrite <- !app_assoc. cbn.
    exact H2.
Qed.
Lemma own_irrelevant : forall q e a, own_ev mons q e = false -> astep mons q a e = Some a.
Proof. intros q e a H. destruct e; cbn in *; try reflexivity; rewrite H; reflexivity. Qed.
Lemma lives_others : forall q pre l, (forall e, In e l -> own_ev mons q e = false) -> lives defs mons q pre l.
Proof.
  intros q pre l; revert pre; induction l as [|e l IH]; intros pre H; [constructor|].
  apply lives_other; [apply H; left; reflexivity|]. apply IH. intros e' He'. apply H. right; exact He'.
Qed.

Lemma Post_refl : forall ex w, Post ex w w.
Proof.
  intros ex w. exists []. rewrite app_nil_r. split; [reflexivity|].
  intros q _. split; [split; [reflexivity|intros _; constructor]|]. intros _. repeat split; auto using step_rel_refl.
Qed.

Lemma Post_trans : forall ex w1 w2 w3, Post ex w1 w2 -> Post ex w2 w3 -> Post ex w1 w3.
Proof.
  intros ex w1 w2 w3 (g1 & L1 & H1) (g2 & L2 & H2).
  exists (g1 ++ g2). split; [rewrite L2, L1, app_assoc; reflexivity|].
  intros q Hq. destruct (H1 q Hq) as [[B1 V1] K1]. destruct (H2 q Hq) as [[B2 V2] K2].
  split; [split; [congruence|]|].
  { intros Hb. rewrite B1 in V2. rewrite L1 in V2. apply lives_app; auto. } intros Hb.
  destruct (K1 Hb) as (I1 & F1 & A1 & S1). rewrite B1 in K2. destruct (K2 Hb) as (I2 & F2 & A2 & S2).
  split; [congruence|]. split; [|split; [auto|eapply step_rel_trans; eauto]].
  intros Hi. rewrite F2 by congruence. auto.
Qed.

Lemma Post_weaken : forall s w w', Post None w w' -> Post (Some s) w w'.
Proof. intros s w w' (g & L & H). exists g. split; [exact L|]. intros q _. apply H. discriminate. Qed.

(** A world that differs only in the log by an event irrelevant to all automata but [ex]'s,
    or only at [ex]. *)
Definition irrelevant (q : nat) (e : ev) : Prop := own_ev mons q e = false.

Lemma A_log : forall q w w' seg, wlog w' = wlog w ++ seg -> wq w' q = wq w q -> A q w -> A q w'.
Proof.
  intros q w w' seg L E (m & H1 & H2 & H3 & H4). exists m. rewrite L, E.
  repeat split; auto. apply in_or_app; auto.
Qed.

Lemma Post_step : forall ex w w' es,
  wlog w' = wlog w ++ es ->
  (forall q, ex <> Some q -> wq w' q = wq w q) ->
  (forall q e, ex <> Some q -> In e es -> irrelevant q e) ->
  Post ex w w'.
Proof.
  intros ex w w' es L E Irr. exists es. split; [exact L|]. intros q Hq.
  rewrite (E q Hq). split; [split; [reflexivity|]|].
  { intros _. apply lives_others. intros e He. apply (Irr q e Hq He). }
  intros Hb. split; [reflexivity|]. split; [auto|].
  split; [eapply A_log; eauto|].
  intros a Ha HP. exists a. split; [|auto].
  clear - Irr Hq. induction es as [|e es IH]; [reflexivity|]. cbn.
  rewrite (own_irrelevant q e _ (Irr q e Hq (or_introl eq_refl))). apply IH. intros q' e' Hq' He'. apply Irr; [exact Hq'|right; exact He'].
Qed.

Lemma fired_above_app : forall st l1 l2, fired_above mons st l1 -> fired_above mons st (l1 ++ l2).
Proof. intros st l1 l2 (m & H1 & H2). exists m. split; [apply in_or_app; auto|exact H2]. Qed.

(** G survives adding events. *)
Lemma G_log : forall w w' es, wlog w' = wlog w ++ es -> (forall q, wq w' q = wq w q) -> G w -> G w'.
Proof.
  intros w w' es L E (g1 & g2 & g3 & g4). repeat split.
  - rewrite E in *. apply g1. assumption.
  - rewrite E in *. apply g1. assumption.
  - intros q Hf. rewrite E in *. destruct (g2 q Hf) as (m & H1 & H2 & H3 & H4).
    exists m. rewrite L. repeat split; auto. apply in_or_app; auto.
  - intros q Hp. rewrite E in Hp. rewrite L. apply fired_above_app, g3, Hp.
  - intros q Hb. rewrite E in *. auto.
Qed.

(** G survives changing one sequence. *)
Lemma G_upd : forall w w' s es,
  wlog w' = wlog w ++ es -> (forall q, q <> s -> wq w' q = wq w q) -> G w ->
  (qinexc (wq w' s) = true -> qbusy (wq w' s) = true /\ qfired (wq w' s) = true) ->
  (qfired (wq w' s) = true -> exists m, qactive (wq w' s) = Some m /\ mowner (mons m) = s /\
     In (VFire m) (wlog w') /\ (qinexc (wq w' s) = false -> mbeh (mons m) <> Resume)) ->
  (qphase (wq w' s) = Aborting -> fired_above mons (sstack (defs s)) (wlog w')) ->
  (qbusy (wq w' s) = false -> qphase (wq w' s) = Idle) ->
  G w'.
Proof.
  intros w w' s es L E (g1 & g2 & g3 & g4) h1 h2 h3 h4. split; [|split; [|split]].
  - intros q. destruct (Nat.eq_dec q s) as [->|N]; [exact h1|]. rewrite (E q N). apply g1.
  - intros q. destruct (Nat.eq_dec q s) as [->|N]; [exact h2|]. rewrite (E q N). intros Hf.
    destruct (g2 q Hf) as (m & H1 & H2 & H3 & H4). exists m. repeat split; auto. rewrite L. apply in_or_app; auto.
  - intros q. destruct (Nat.eq_dec q s) as [->|N]; [exact h3|]. rewrite (E q N), L. intros Hp.
    apply fired_above_app, g3, Hp.
  - intros q. destruct (Nat.eq_dec q s) as [->|N]; [exact h4|]. rewrite (E q N). apply g4.
Qed.

Definition busy_all (st : list nat) (w : world) : Prop := forall q, In q st -> qbusy (wq w q) = true.

Lemma busy_all_post : forall st w w', busy_all st w -> Post None w w' -> busy_all st w'.
Proof.
  intros st w w' H (g & L & K) q Hq. destruct (K q ltac:(discriminate)) as [[-> _] _]. apply H, Hq.
Qed.

(** Loop state *)
Definition Lrel (s : nat) (ret : Z) (w : world) (a : astate) : Prop :=
  qbusy (wq w s) = true /\ qinexc (wq w s) = false /\ aret a = ret /\
  match qphase (wq w s) with
  | Idle => aph a = AFirst /\ apend a = None
  | Starting => (aph a = AFirst \/ aph a = AReady) /\ apend a = None /\ qfired (wq w s) = false
  | Running => aph a = ARun /\ P a (wq w s)
  | Aborting | Restarting => (aph a = AFirst \/ aph a = ARun) /\ P a (wq w s)
  | Terminated => ((aph a = AFirst \/ aph a = ARun) /\ apend a <> Some Restart /\
                     fired_above mons (sstack (defs s)) (wlog w)) \/ (aph a = ADone /\ apend a <> Some Restart)
  end.

(** Result of a loop. *)
Definition Lpost (s : nat) (w w' : world) (a : astate) (r : Z) : Prop :=
  Post (Some s) w w' /\ G w' /\ qbusy (wq w' s) = false /\
  exists seg a1, wlog w' = wlog w ++ seg ++ [VEnd s r] /\
    aruns mons s a seg = Some a1 /\
    astep mons s a1 (VEnd s r) = Some {| aph := AEnded; aret := r; apend := None |} /\
    (aph a1 = ADone \/ fired_above mons (sstack (defs s)) (wlog w ++ seg)).

Lemma Lpost_cons : forall s w w1 w' a a1 r seg1,
  Post (Some s) w w1 -> wlog w1 = wlog w ++ seg1 -> aruns mons s a seg1 = Some a1 ->
  Lpost s w1 w' a1 r -> Lpost s w w' a r.
Proof.
  intros s w w1 w' a a1 r seg1 H1 L1 R1 (K1 & K2 & K3 & seg & a2 & L2 & R2 & E2 & F2).
  split; [eapply Post_trans; eauto|]. split; [exact K2|]. split; [exact K3|].
  exists (seg1 ++ seg), a2. split; [rewrite L2, L1, !app_assoc; reflexivity|].
  split; [rewrite aruns_app, R1; exact R2|]. split; [exact E2|]. rewrite app_assoc, <- L1. exact F2.
Qed.

Lemma upd_neq : forall w s q x, q <> s -> upd (wq w) s x q = wq w q.
Proof. intros. apply upd_other. assumption. Qed.

Definition Pexec n := forall s w w' r st,
  exec defs mons orc n s w = Fin (w', r) -> G w -> sstack (defs s) = s :: st -> busy_all st w ->
  Post None w w' /\ G w' /\
  (exists seg a1, wlog w' = wlog w ++ seg ++ [VEnd s r] /\
    aruns mons s ainit seg = Some a1 /\
    astep mons s a1 (VEnd s r) = Some {| aph := AEnded; aret := r; apend := None |} /\
    (aph a1 = ADone \/ fired_above mons (sstack (defs s)) (wlog w ++ seg))).
Definition Ploop n := forall s ret w w' r a,
  loop defs mons orc n s ret w = Fin (w', r) -> G w -> busy_all (sstack (defs s)) w -> Lrel s ret w a ->
  Lpost s w w' a r.
Definition Pscript n := forall s c w w' r,
  runscript defs mons orc n c w = Fin (w', r) -> calls_ok defs s c -> G w -> busy_all (sstack (defs s)) w ->
  Post None w w' /\ G w'.
Definition Pcheck n := forall s w w',
  check defs mons orc n s w = Fin w' -> G w -> busy_all (sstack (defs s)) w ->
  Post None w w' /\ G w'.
Definition Pscan n := forall st qs act w w' act',
  scan defs mons orc n qs act w = Fin (w', act') -> G w -> busy_all st w -> incl qs st ->
  (forall q, In q st -> incl (sstack (defs q)) st) ->
  (forall a, act = Some a -> In a st /\ A a w) ->
  Post None w w' /\ G w' /\ (forall a, act' = Some a -> In a st /\ A a w').
Definition Pmons n := forall st ms act w w' act' o,
  scan_mons defs mons orc n ms act w = Fin (w', act') -> G w -> busy_all st w -> In o st ->
  (forall q, In q st -> incl (sstack (defs q)) st) ->
  (forall m, In m ms -> mowner (mons m) = o) -> qinexc (wq w o) = false ->
  (forall a, act = Some a -> In a st /\ A a w) ->
  Post None w w' /\ G w' /\ (forall a, act' = Some a -> In a st /\ A a w').

Lemma wf_stack : forall s, exists st, sstack (defs s) = s :: st.
Proof. apply WF. Qed.
Lemma wf_suffix : forall q pre s suf, sstack (defs q) = pre ++ s :: suf -> sstack (defs s) = s :: suf.
Proof. apply WF. Qed.
Lemma wf_owner : forall s m, In m (smons (defs s)) -> mowner (mons m) = s.
Proof. apply WF. Qed.
Lemma wf_body : forall s, calls_ok defs s (sbody (defs s)).
Proof. apply WF. Qed.
Lemma wf_exc : forall m e, mexc (mons m) = Some e ->
     sstack (defs e) = [e] \/ sstack (defs e) = e :: sstack (defs (mowner (mons m))).
Proof. apply WF. Qed.

Lemma stack_closed : forall s q, In q (sstack (defs s)) -> incl (sstack (defs q)) (sstack (defs s)).
Proof.
  intros s q H. apply in_split in H. destruct H as (l1 & l2 & E). rewrite (wf_suffix _ _ _ _ E), E.
  intros x Hx. apply in_or_app. right. exact Hx.
Qed.

Lemma A_post : forall ex a w w', ex <> Some a -> qbusy (wq w a) = true -> A a w -> Post ex w w' -> A a w'.
Proof. intros ex a w w' Hx Hb HA (g & L & K). destruct (K a Hx) as [_ K1]. apply K1; assumption. Qed.

(** propagate *)
Lemma propagate_ok : forall qs pre b st w a,
  st = pre ++ qs ->
  (forall q pre s suf, sstack (defs q) = pre ++ s :: suf -> sstack (defs s) = s :: suf) ->
  (exists q0, sstack (defs q0) = st) ->
  G w -> busy_all st w -> In a qs \/ b = Resume ->
  (b <> Resume -> qfired (wq w a) = true /\ exists m, mowner (mons m) = a /\ In (VFire m) (wlog w) /\ mbeh (mons m) <> Resume) ->
  Post None w (propagate qs b w) /\ G (propagate qs b w).
Proof.
  intros qs; induction qs as [|s qs IH]; intros pre b st w a Est Hsuf (q0 & Eq0) HG Hb Hin Hm; cbn [propagate].
  - split; [apply Post_refl|exact HG].
  - destruct (qfired (wq w s)) eqn:Ef; [split; [apply Post_refl|exact HG]|].
    assert (Hst2 : st = (pre ++ [s]) ++ qs) by (rewrite Est, <- app_assoc; reflexivity).
    assert (Hd : b = Resume \/ b <> Resume) by (destruct b; auto; right; discriminate).
    destruct Hd as [->|Hbr].
    + eapply (IH (pre ++ [s])); eauto.
    + replace (match b with Resume => w | _ => setphase w s Aborting end) with (setphase w s Aborting)
        by (destruct b; congruence).
      destruct (Hm Hbr) as [Hfa (m & M1 & M2 & M3)].
      destruct Hin as [Hin|Hin]; [|congruence].
      assert (Nas : a <> s) by (intros ->; congruence).
      destruct Hin as [Hin|Hin]; [congruence|].
      set (w1 := setphase w s Aborting).
      assert (Hs1 : wq w1 s = {| qphase := Aborting; qfired := qfired (wq w s); qactive := qactive (wq w s);
                 qinexc := qinexc (wq w s); qbusy := qbusy (wq w s) |}) by apply upd_same.
      assert (Hq1 : forall q, q <> s -> wq w1 q = wq w q) by (intros; apply upd_other; assumption).
      assert (Hbs : qbusy (wq w s) = true) by (apply Hb; rewrite Est; apply in_or_app; right; left; reflexivity).
      assert (Hinx : qinexc (wq w s) = false).
      { destruct (qinexc (wq w s)) eqn:Ei; [|reflexivity]. destruct HG as (g1 & _).
        destruct (g1 s Ei). congruence. }
      assert (P1 : Post None w w1).
      { exists []. rewrite app_nil_r. split; [reflexivity|]. intros q _.
        destruct (Nat.eq_dec q s) as [->|N]; [|rewrite (Hq1 q N); split; [split; [reflexivity|intros _; constructor]|]; intros _;
          split; [reflexivity|]; split; [auto|]; split; [|apply step_rel_refl];
          intros (m' & A1 & A2 & A3 & A4); exists m'; rewrite (Hq1 q N); auto].
        rewrite Hs1; cbn. split; [split; [reflexivity|intros _; constructor]|]. intros _. split; [reflexivity|].
        split; [congruence|]. split.
        - intros (m' & A1 & A2 & A3 & A4). exists m'. rewrite Hs1; cbn. auto.
        - intros x Hx HP. exists x. split; [reflexivity|]. split; [reflexivity|]. split; [reflexivity|].
          unfold P in *. cbn. destruct (apend x) as [[]|]; cbn in *; try tauto.
          + destruct HP as [(H1 & _) _]; congruence.
          + destruct HP as [(H1 & H2) H3]. split; [split; [congruence|discriminate]|exact I]. }
      assert (G1 : G w1).
      { apply (G_upd w w1 s []); try (rewrite app_nil_r; reflexivity); auto; rewrite Hs1; cbn.
        - congruence.
        - congruence.
        - intros _. exists m. split; [exact M2|]. split; [|exact M3]. rewrite M1.
          rewrite (Hsuf q0 pre s qs) by (rewrite Eq0; exact Est). right. exact Hin.
        - congruence. }
      destruct (IH (pre ++ [s]) b st w1 a Hst2 Hsuf (ex_intro _ q0 Eq0) G1) as [P2 G2].
      * eapply busy_all_post; eauto.
      * left; exact Hin.
      * intros _. rewrite (Hq1 a Nas). split; [exact Hfa|]. exists m. auto.
      * split; [eapply Post_trans; eauto|exact G2].
Qed.

Lemma check_step : forall n, Pscan n -> Pcheck (S n).
Proof.
  intros n IH s w w' H HG Hb. rewrite check_S in H.
  destruct (scan defs mons orc n (sstack (defs s)) None w) as [[w1 act]| |] eqn:Es; cbn [rbind] in H; try discriminate.
  destruct (IH (sstack (defs s)) _ _ _ _ _ Es HG Hb (incl_refl _)) as (P1 & G1 & HA).
  { intros q Hq. apply stack_closed, Hq. }
  { discriminate. }
  cbn [fst snd] in H. destruct act as [a|]; [|inversion H; subst; auto].
  destruct (HA a eq_refl) as [Ha (m & M1 & M2 & M3 & M4)]. rewrite M1 in H. inversion H; subst w'; clear H.
  destruct (propagate_ok (sstack (defs s)) [] (mbeh (mons m)) (sstack (defs s)) w1 a eq_refl wf_suffix
     (ex_intro _ s eq_refl) G1) as [P2 G2].
  - eapply busy_all_post; eauto.
  - left; exact Ha.
  - intros Hr. split; [auto|]. exists m. auto.
  - split; [eapply Post_trans; eauto|exact G2].
Qed.

Lemma scan_step : forall n, Pscan n -> Pmons n -> Pscan (S n).
Proof.
  intros n IHs IHm st qs act w w' act' H HG Hb Hi Hc HA. rewrite scan_S in H.
  destruct qs as [|q qs]; [inversion H; subst; auto using Post_refl|].
  destruct (qinexc (wq w q)) eqn:Ei.
  - apply (IHs st qs act w w' act' H HG Hb); auto. intros x Hx. apply Hi. right; exact Hx.
  - destruct (scan_mons defs mons orc n (smons (defs q)) act w) as [[w1 a1]| |] eqn:Em; cbn [rbind] in H; try discriminate.
    cbn [fst snd] in H.
    destruct (IHm st _ _ _ _ _ q Em HG Hb ltac:(apply Hi; left; reflexivity) Hc (wf_owner q) Ei HA) as (P1 & G1 & A1).
    destruct (IHs st qs a1 w1 w' act' H G1 ltac:(eapply busy_all_post; eauto)) as (P2 & G2 & A2); auto.
    { intros x Hx. apply Hi. right; exact Hx. }
    split; [eapply Post_trans; eauto|]. auto.
Qed.

Lemma irr_mon : forall q m b, irrelevant q (VMon m b).
Proof. reflexivity. Qed.
Ltac irr_own := intros; unfold irrelevant; cbn; apply Nat.eqb_neq; congruence.
Lemma irr_handled : forall q m, q <> mowner (mons m) -> irrelevant q (VHandled m). Proof. irr_own. Qed.
Lemma irr_pre : forall q s b, q <> s -> irrelevant q (VPre s b). Proof. irr_own. Qed.
Lemma irr_act : forall q s, q <> s -> irrelevant q (VAct s). Proof. irr_own. Qed.
Lemma irr_ret : forall q s r, q <> s -> irrelevant q (VRet s r). Proof. irr_own. Qed.
Lemma irr_exit : forall q s b, q <> s -> irrelevant q (VExit s b). Proof. irr_own. Qed.
Lemma irr_restart : forall q s, q <> s -> irrelevant q (VRestart s). Proof. irr_own. Qed.
Lemma irr_end : forall q s r, q <> s -> irrelevant q (VEnd s r). Proof. irr_own. Qed.

(** A monitor that fires, its exception sequence and the handling. *)
Lemma fire_handled_ok : forall m o w w1,
  o = mowner (mons m) -> G w -> qbusy (wq w o) = true -> qinexc (wq w o) = false -> qfired (wq w o) = false ->
  Post None (fire mons w m) w1 -> G w1 ->
  Post None w (handled mons w1 m) /\ G (handled mons w1 m) /\ A o (handled mons w1 m).
Proof.
  intros m o w w1 Eo HG Hb Hi Hf (seg & L & K) G1.
  set (wf := fire mons w m) in *.
  assert (Ff : wq wf o = {| qphase := qphase (wq w o); qfired := true; qactive := Some m; qinexc := true; qbusy := true |}).
  { unfold wf, fire. rewrite <- Eo, Hb. cbn. apply upd_same. }
  assert (Fq : forall q, q <> o -> wq wf q = wq w q).
  { intros q N. unfold wf, fire. rewrite <- Eo. cbn. apply upd_other, N. }
  assert (Lf : wlog wf = wlog w ++ [VFire m]) by reflexivity.
  destruct (K o ltac:(discriminate)) as [[B1 _] K1]. rewrite Ff in B1, K1. cbn in B1, K1.
  destruct (K1 eq_refl) as (I1 & F1 & A1 & S1). specialize (F1 eq_refl).
  set (w2 := handled mons w1 m).
  assert (Hq : forall q, q <> o -> wq w2 q = wq w1 q).
  { intros q N. unfold w2, handled. rewrite <- Eo. cbn. apply upd_other, N. }
  assert (Ho : wq w2 o = match mbeh (mons m) with
    | Resume => {| qphase := Running; qfired := false; qactive := Some m; qinexc := false; qbusy := true |}
    | Abort => {| qphase := Aborting; qfired := true; qactive := Some m; qinexc := false; qbusy := true |}
    | Restart => {| qphase := Restarting; qfired := true; qactive := Some m; qinexc := false; qbusy := true |} end).
  { unfold w2, handled. rewrite <- Eo. cbn. rewrite upd_same, F1. reflexivity. }
  assert (L2 : wlog w2 = wlog w ++ (VFire m :: seg ++ [VHandled m])).
  { unfold w2, handled. cbn. rewrite L, Lf, <- !app_assoc. reflexivity. }
  assert (Hin : In (VFire m) (wlog w2)) by (rewrite L2; apply in_or_app; right; left; reflexivity).
  assert (HA2 : A o w2).
  { exists m. rewrite Ho. destruct (mbeh (mons m)) eqn:Em; cbn; repeat split; auto; congruence. }
  split; [|split; [|exact HA2]].
  - exists (VFire m :: seg ++ [VHandled m]). split; [exact L2|]. intros q _.
    destruct (Nat.eq_dec q o) as [->|N].
    + split; [split; [rewrite Ho, Hb; destruct (mbeh (mons m)); reflexivity|congruence]|]. intros _.
      split; [rewrite Ho, Hi; destruct (mbeh (mons m)); reflexivity|].
      split; [congruence|]. split; [auto|].
      intros a Ha HP.
      assert (Hp : apend a = None /\ qphase (wq w o) <> Restarting).
      { unfold P in HP. destruct (apend a) as [[]|]; try (destruct HP as [(X & _) _]; congruence); [destruct HP as [[] _]|].
        destruct HP as [(_ & X) _]. auto. }
      destruct Hp as [Hp Hp2].
      destruct (S1 a Ha) as (a' & R & E1 & E2 & P1).
      { unfold P in *. rewrite Hp in *. cbn. destruct HP as [_ HP]. auto. }
      rewrite F1 in P1.
      assert (Hp' : apend a' = None).
      { unfold P in P1. cbn in P1. destruct (apend a') as [[]|]; try reflexivity;
          (destruct P1 as [(_ & _ & X) _]; discriminate) || (destruct P1 as [[] _]). }
      exists {| aph := aph a'; aret := aret a'; apend := match mbeh (mons m) with Resume => None | b => Some b end |}.
      split.
      { cbn [aruns astep]. rewrite aruns_app, R. cbn. rewrite <- Eo, Nat.eqb_refl. unfold no_pend. rewrite Hp'.
        unfold nested in Ha. rewrite <- E1 in Ha.
        destruct Ha as [-> | [-> | ->]]; reflexivity. }
      split; [exact E1|]. split; [exact E2|]. rewrite Ho. unfold P; cbn.
      destruct (mbeh (mons m)); cbn; repeat split; congruence.
    + destruct (K q ltac:(discriminate)) as [[B2 V2] K2]. rewrite (Fq q N) in B2, V2, K2.
      rewrite (Hq q N). split; [split; [exact B2|]|].
      { intros Hbq. apply lives_other; [reflexivity|]. apply lives_app; [apply V2; exact Hbq|].
        apply lives_others. intros e [<-|[]]. apply irr_handled. congruence. } intros Hbq. destruct (K2 Hbq) as (I2 & F2 & A2 & S2).
      split; [exact I2|]. split; [exact F2|]. split.
      * intros HA. assert (X : A q wf) by (apply (A_log q w wf [VFire m]); auto). apply A2 in X.
        apply (A_log q w1 w2 [VHandled m]); auto.
      * apply (step_rel_trans q [VFire m] (seg ++ [VHandled m]) _ (wq w q)).
        { intros a Ha HP. exists a. auto. }
        apply (step_rel_trans q seg [VHandled m] _ (wq w1 q)); [exact S2|].
        intros a Ha HP. exists a. split; [|auto]. cbn [aruns].
        rewrite (own_irrelevant _ _ _ (irr_handled q m ltac:(congruence))). reflexivity.
  - apply (G_upd w1 w2 o [VHandled m]); auto.
    + rewrite Ho. destruct (mbeh (mons m)); cbn; discriminate.
    + intros Hff. exists m. rewrite Ho in *. destruct (mbeh (mons m)) eqn:Em; cbn in *; try discriminate;
        repeat split; auto; discriminate.
    + intros Ha. exists m. split; [exact Hin|]. split.
      * destruct (wf_stack o) as (st & E). rewrite E, <- Eo. left; reflexivity.
      * rewrite Ho in Ha. destruct (mbeh (mons m)); discriminate.
    + rewrite Ho. destruct (mbeh (mons m)); discriminate.
Qed.

Lemma fire_G : forall m o w, o = mowner (mons m) -> G w -> qbusy (wq w o) = true -> G (fire mons w m).
Proof.
  intros m o w Eo HG Hb.
  assert (Ff : wq (fire mons w m) o = {| qphase := qphase (wq w o); qfired := true; qactive := Some m; qinexc := true; qbusy := true |}).
  { unfold fire. rewrite <- Eo, Hb. cbn. apply upd_same. }
  apply (G_upd w _ o [VFire m]); auto.
  - intros q N. unfold fire. rewrite <- Eo. cbn. apply upd_other, N.
  - rewrite Ff. auto.
  - intros _. exists m. rewrite Ff. cbn. repeat split; auto; [|discriminate]. apply in_or_app. right; left; reflexivity.
  - rewrite Ff. cbn. intros Hp. apply fired_above_app. apply HG, Hp.
  - rewrite Ff. discriminate.
Qed.

Lemma mons_step : forall n, Pexec n -> Pmons n -> Pmons (S n).
Proof.
  intros n IHe IHm st ms act w w' act' o H HG Hb Ho Hc Hown Hi HA. rewrite scan_mons_S in H.
  destruct ms as [|m ms]; [inversion H; subst; auto using Post_refl|].
  cbn [ask] in H. set (w1 := {| wq := wq w; wpos := S (wpos w); wlog := wlog w ++ [VMon m (orc (wpos w))] |}) in *.
  assert (P1 : Post None w w1).
  { apply (Post_step None w w1 [VMon m (orc (wpos w))]); auto.
    intros q e _ [<-|[]]. apply irr_mon. }
  assert (G1 : G w1) by (apply (G_log w w1 [VMon m (orc (wpos w))]); auto).
  assert (Hb1 : busy_all st w1) by exact Hb.
  assert (HA1 : forall a, act = Some a -> In a st /\ A a w1).
  { intros a Ea. destruct (HA a Ea) as [X Y]. split; [exact X|]. apply (A_log a w w1 _ eq_refl eq_refl Y). }
  assert (Em : mowner (mons m) = o) by (apply Hown; left; reflexivity).
  assert (Hown' : forall m', In m' ms -> mowner (mons m') = o) by (intros m' Hm'; apply Hown; right; exact Hm').
  assert (Hi1 : qinexc (wq w1 o) = false) by exact Hi.
  destruct (orc (wpos w)).
  2:{ destruct (IHm st ms act w1 w' act' o H G1 Hb1 Ho Hc Hown' Hi1 HA1) as (P2 & G2 & A2).
      split; [eapply Post_trans; eauto|auto]. }
  rewrite Em in H. destruct (qfired (wq w1 o)) eqn:Ef.
  - assert (Ao : A o w1).
    { destruct G1 as (_ & g2 & _). destruct (g2 o Ef) as (m' & X1 & X2 & X3 & X4). exists m'. auto. }
    destruct (IHm st ms (Some o) w1 w' act' o H G1 Hb1 Ho Hc Hown' Hi1) as (P2 & G2 & A2).
    { intros a Ea. inversion Ea; subst a. auto. }
    split; [eapply Post_trans; eauto|auto].
  - assert (Hbo : qbusy (wq w1 o) = true) by (apply Hb1, Ho).
    assert (HX : exists w2 r, match mexc (mons m) with
                 | None => Fin (fire mons w1 m, 0)
                 | Some e => exec defs mons orc n e (fire mons w1 m)
                 end = Fin (w2, r) /\ scan_mons defs mons orc n ms (Some o) (handled mons w2 m) = Fin (w', act')).
    { destruct (mexc (mons m)) as [e|].
      - destruct (exec defs mons orc n e (fire mons w1 m)) as [[w2 r]| |]; cbn [rbind] in H; try discriminate.
        exists w2, r. auto.
      - exists (fire mons w1 m), 0. auto. }
    destruct HX as (w2 & r & HE & H2).
    assert (HP : Post None (fire mons w1 m) w2 /\ G w2).
    { pose proof (fire_G m o w1 (eq_sym Em) G1 Hbo) as Gf.
      destruct (mexc (mons m)) as [e|] eqn:Ee; [|inversion HE; subst w2; split; [apply Post_refl|exact Gf]].
      destruct (wf_exc m e Ee) as [Es|Es].
      - destruct (IHe e _ _ _ [] HE Gf Es) as (X1 & X2 & _); [intros q []|auto].
      - rewrite Em in Es. destruct (IHe e _ _ _ _ HE Gf Es) as (X1 & X2 & _); [|auto].
        intros q Hq. apply (Hc o Ho) in Hq. apply Hb1 in Hq. unfold fire. rewrite Em. cbn.
        destruct (Nat.eq_dec q o) as [->|N]; [rewrite upd_same; exact Hq|rewrite upd_other by exact N; exact Hq]. }
    destruct HP as [P2 G2].
    destruct (fire_handled_ok m o w1 w2 (eq_sym Em) G1 Hbo Hi1 Ef P2 G2) as (P3 & G3 & A3).
    destruct (IHm st ms (Some o) (handled mons w2 m) w' act' o H2 G3) as (P4 & G4 & A4); auto.
    { eapply busy_all_post; eauto. }
    { destruct P3 as (g & _ & K). destruct (K o ltac:(discriminate)) as [_ K1]. destruct (K1 Hbo) as [-> _]. exact Hi1. }
    { intros a Ea. inversion Ea; subst a. auto. }
    split; [|auto]. eapply Post_trans; [exact P1|]. eapply Post_trans; eauto.
Qed.

Lemma script_step : forall n, Pexec n -> Pscript n -> Pscript (S n).
Proof.
  intros n IHe IHs s c w w' r H Hc HG Hb. rewrite runscript_S in H. destruct c as [r0|q k|k].
  - inversion H; subst. split; [apply Post_refl|exact HG].
  - destruct (exec defs mons orc n q w) as [[w1 r1]| |] eqn:Ee; cbn [rbind fst snd] in H; try discriminate.
    inversion Hc as [| |q' k' Hq Hk]; subst.
    destruct (IHe q w w1 r1 _ Ee HG Hq Hb) as (P1 & G1 & _).
    destruct (IHs s (k r1) w1 w' r H (Hk r1) G1) as [P2 G2]; [eapply busy_all_post; eauto|].
    split; [eapply Post_trans; eauto|exact G2].
  - cbn [ask_silent] in H. inversion Hc as [|k' Hk|]; subst.
    set (w1 := {| wq := wq w; wpos := S (wpos w); wlog := wlog w |}) in *.
    destruct (IHs s (k (orc (wpos w))) w1 w' r H (Hk _)) as [P2 G2].
    { apply (G_log w w1 []); auto. cbn. rewrite app_nil_r. reflexivity. }
    { exact Hb. }
    split; [|exact G2]. eapply Post_trans; [|exact P2].
    apply (Post_step None w w1 []); auto; [cbn; rewrite app_nil_r; reflexivity|]. intros q e _ [].
Qed.

Lemma exec_step : forall n, Ploop n -> Pexec (S n).
Proof.
  intros n IH s w w' r st H HG Hst Hb. rewrite exec_S in H.
  destruct (qbusy (wq w s)) eqn:Eb; [discriminate|].
  set (w1 := lock w s true) in *.
  assert (Hs1 : wq w1 s = {| qphase := qphase (wq w s); qfired := qfired (wq w s); qactive := qactive (wq w s);
     qinexc := qinexc (wq w s); qbusy := true |}) by apply upd_same.
  assert (Hq1 : forall q, q <> s -> wq w1 q = wq w q) by (intros; apply upd_other; assumption).
  destruct HG as (g1 & g2 & g3 & g4) eqn:EG. clear EG.
  assert (Hidle : qphase (wq w s) = Idle) by (apply g4; exact Eb).
  assert (Hni : qinexc (wq w s) = false).
  { destruct (qinexc (wq w s)) eqn:Ei; [|reflexivity]. destruct (g1 s Ei). congruence. }
  assert (G1 : G w1).
  { apply (G_upd w w1 s []); auto; try rewrite Hs1; cbn; auto.
    all: try (rewrite app_nil_r; reflexivity); try congruence; try discriminate. }
  assert (P1 : Post (Some s) w w1).
  { apply (Post_step (Some s) w w1 []); [cbn; rewrite app_nil_r; reflexivity| |intros q e _ []].
    intros q Hq. apply Hq1. congruence. }
  destruct (IH s (-1) w1 w' r ainit H G1) as (P2 & G2 & B2 & seg & a1 & L2 & R2 & E2 & F2).
  { rewrite Hst. intros q [<-|Hq]; [rewrite Hs1; reflexivity|].
    destruct (Nat.eq_dec q s) as [->|N]; [rewrite Hs1; reflexivity|]. rewrite (Hq1 q N). apply Hb, Hq. }
  { unfold Lrel. rewrite Hs1. cbn. rewrite Hidle. auto. }
  split; [|split; [exact G2|exists seg, a1; auto]].
  pose proof (Post_trans _ _ _ _ P1 P2) as (g & L & K). exists g. split; [exact L|].
  intros q _. destruct (Nat.eq_dec q s) as [->|N]; [|apply K; congruence].
  split; [split; [congruence|]|congruence]. intros _.
  assert (Eg : g = seg ++ [VEnd s r]).
  { apply (app_inv_head (wlog w)). rewrite <- L, L2. reflexivity. }
  rewrite Eg. eapply lives_life; eauto; [|constructor].
  unfold life. rewrite aruns_app, R2. cbn [aruns]. rewrite E2. reflexivity.
Qed.

Lemma own_step : forall s w w1 w' a a1 r es,
  wlog w1 = wlog w ++ es -> (forall q, q <> s -> wq w1 q = wq w q) ->
  (forall q e, q <> s -> In e es -> irrelevant q e) ->
  aruns mons s a es = Some a1 -> Lpost s w1 w' a1 r -> Lpost s w w' a r.
Proof.
  intros s w w1 w' a a1 r es L E I R H. eapply Lpost_cons; [|exact L|exact R|exact H].
  apply (Post_step (Some s) w w1 es); [exact L| |].
  - intros q Hq. apply E. congruence.
  - intros q e Hq. apply I. congruence.
Qed.

Lemma nested_step : forall s w w1 a, Post None w w1 -> qbusy (wq w s) = true -> nested a -> P a (wq w s) ->
  exists a1, aph a1 = aph a /\ aret a1 = aret a /\ P a1 (wq w1 s) /\
    (forall w' r, Lpost s w1 w' a1 r -> Lpost s w w' a r).
Proof.
  intros s w w1 a HP Hb Ha Hp. pose proof HP as (seg & L & K).
  destruct (K s ltac:(discriminate)) as [_ K1]. destruct (K1 Hb) as (_ & _ & _ & S).
  destruct (S a Ha Hp) as (a1 & R & E1 & E2 & P1). exists a1. repeat (split; [assumption|]).
  intros w' r H. eapply Lpost_cons; eauto. apply Post_weaken, HP.
Qed.

Lemma post_busy : forall w w1 q, Post None w w1 -> qbusy (wq w1 q) = qbusy (wq w q).
Proof. intros w w1 q (g & _ & K). apply (K q). discriminate. Qed.
Lemma post_inexc : forall w w1 q, Post None w w1 -> qbusy (wq w q) = true -> qinexc (wq w1 q) = qinexc (wq w q).
Proof. intros w w1 q (g & _ & K) Hb. destruct (K q ltac:(discriminate)) as [_ K1]. apply K1, Hb. Qed.

(** The own sequence, not inside an exception, changes its phase or clears its monitor. *)
Lemma G_own : forall w w1 s es,
  wlog w1 = wlog w ++ es -> (forall q, q <> s -> wq w1 q = wq w q) -> G w ->
  qinexc (wq w1 s) = false -> qinexc (wq w s) = false ->
  (qfired (wq w1 s) = false \/ (qfired (wq w1 s) = qfired (wq w s) /\ qactive (wq w1 s) = qactive (wq w s))) ->
  (qphase (wq w1 s) <> Aborting \/ qphase (wq w1 s) = qphase (wq w s)) ->
  (qbusy (wq w1 s) = false -> qphase (wq w1 s) = Idle) -> G w1.
Proof.
  intros w w1 s es L E HG I1 I0 Hf Hp Hb. apply (G_upd w w1 s es); auto.
  - congruence.
  - intros F. destruct Hf as [Hf|[Hf Ha]]; [congruence|].
    destruct HG as (_ & g2 & _). rewrite Hf in F. destruct (g2 s F) as (m & X1 & X2 & X3 & X4).
    exists m. rewrite Ha, L. repeat split; auto. apply in_or_app; auto.
  - intros F. destruct Hp as [Hp|Hp]; [congruence|]. rewrite L. apply fired_above_app. apply HG. congruence.
Qed.

Lemma wq_setphase : forall w s p, wq (setphase w s p) s = {| qphase := p; qfired := qfired (wq w s); qactive := qactive (wq w s);
     qinexc := qinexc (wq w s); qbusy := qbusy (wq w s) |}.
Proof. intros. apply upd_same. Qed.
Lemma wq_setphase_o : forall w s p q, q <> s -> wq (setphase w s p) q = wq w q.
Proof. intros. apply upd_other. assumption. Qed.
Lemma wq_clear : forall w s, wq (clear_active w s) s = {| qphase := qphase (wq w s); qfired := false; qactive := None;
     qinexc := qinexc (wq w s); qbusy := qbusy (wq w s) |}.
Proof. intros. apply upd_same. Qed.
Lemma wq_clear_o : forall w s q, q <> s -> wq (clear_active w s) q = wq w q.
Proof. intros. apply upd_other. assumption. Qed.
Lemma wq_emit : forall w e, wq (emit w e) = wq w.
Proof. reflexivity. Qed.

Lemma busy_all_own : forall st w w1 s, busy_all st w -> (forall q, q <> s -> wq w1 q = wq w q) ->
  qbusy (wq w1 s) = true -> busy_all st w1.
Proof.
  intros st w w1 s H E Hs q Hq. destruct (Nat.eq_dec q s) as [->|N]; [exact Hs|]. rewrite (E q N). apply H, Hq.
Qed.

Lemma loop_step : forall n, Ploop n -> Pscript n -> Pcheck n -> Ploop (S n).
Proof.
  intros n IHl IHs IHc s ret w w' r a H HG Hb (Lb & Li & Lr & Lp). rewrite loop_S in H.
  destruct (qphase (wq w s)) eqn:Ep.
  - (* Idle *)
    destruct Lp as [Lp1 Lp2].
    destruct (check defs mons orc n s (clear_active w s)) as [w1| |] eqn:Ec; cbn [rbind] in H; try discriminate.
    set (w0 := clear_active w s) in *.
    pose proof (wq_clear w s) as E0. fold w0 in E0.
    assert (O0 : forall q, q <> s -> wq w0 q = wq w q) by (intros; apply wq_clear_o; assumption).
    assert (L0 : wlog w0 = wlog w ++ []) by (rewrite app_nil_r; reflexivity).
    assert (G0 : G w0).
    { apply (G_own w w0 s []); auto; rewrite ?E0; cbn; auto; try congruence. }
    assert (B0 : busy_all (sstack (defs s)) w0).
    { apply (busy_all_own _ w w0 s); auto. rewrite E0. exact Lb. }
    destruct (IHc s w0 w1 Ec G0 B0) as [P1 G1].
    apply (own_step s w w0 w' a a r []); auto; [intros q e _ []|].
    assert (Hb0 : qbusy (wq w0 s) = true) by (rewrite E0; exact Lb).
    destruct (nested_step s w0 w1 a P1 Hb0) as (a1 & A1 & A2 & A3 & K).
    { left. exact Lp1. }
    { rewrite E0. unfold P. cbn. rewrite Lp2, Ep. repeat split; auto; discriminate. }
    apply K. clear K.
    pose proof (post_busy w0 w1 s P1) as Hb1. pose proof (post_inexc w0 w1 s P1 Hb0) as Hi1.
    rewrite Hb0 in Hb1. rewrite E0 in Hi1. cbn in Hi1. rewrite Li in Hi1.
    assert (B1 : busy_all (sstack (defs s)) w1) by (eapply busy_all_post; eauto).
    assert (Hstart : (qphase (wq w1 s) = Idle \/ qphase (wq w1 s) = Running) ->
      loop defs mons orc n s ret (setphase w1 s Starting) = Fin (w', r) -> Lpost s w1 w' a1 r).
    { intros Hph H'.
      assert (Hn : apend a1 = None /\ qfired (wq w1 s) = false).
      { unfold P in A3. destruct (apend a1) as [[]|].
        - destruct A3 as [[] _].
        - destruct A3 as [(_ & X & _) _]. destruct Hph; congruence.
        - destruct A3 as [(_ & X & _) _]. destruct Hph; congruence.
        - destruct A3 as [(X & _) _]. split; [reflexivity|]. destruct (qfired (wq w1 s)); [|reflexivity].
          rewrite X in Hi1 by reflexivity. discriminate. }
      apply (own_step s w1 (setphase w1 s Starting) w' a1 a1 r []); auto.
      - rewrite app_nil_r. reflexivity.
      - intros; apply wq_setphase_o; assumption.
      - intros q e _ [].
      - apply (IHl s ret _ _ _ a1 H').
        + apply (G_own w1 _ s []); rewrite ?wq_setphase; cbn; auto.
          * rewrite app_nil_r; reflexivity.
          * intros; apply wq_setphase_o; assumption.
          * left. discriminate.
          * congruence.
        + apply (busy_all_own _ w1 _ s); auto; [intros; apply wq_setphase_o; assumption|]. rewrite wq_setphase. exact Hb1.
        + unfold Lrel. rewrite wq_setphase. cbn. rewrite A2, A1. split; [exact Hb1|]. split; [exact Hi1|].
          split; [exact Lr|]. split; [left; exact Lp1|]. exact Hn. }
    assert (Hgo : (qphase (wq w1 s) = Aborting \/ qphase (wq w1 s) = Restarting) ->
      loop defs mons orc n s ret w1 = Fin (w', r) -> Lpost s w1 w' a1 r).
    { intros Hph H'. apply (IHl s ret _ _ _ a1 H' G1 B1). unfold Lrel.
      split; [exact Hb1|]. split; [exact Hi1|]. split; [congruence|].
      destruct Hph as [Hph|Hph]; rewrite Hph; (split; [left; congruence|exact A3]). }
    destruct (qphase (wq w1 s)) eqn:Ep1; try (apply Hstart; auto; fail); try (apply Hgo; auto; fail).
    + unfold P in A3. rewrite Ep1 in A3. destruct A3 as [_ []].
    + unfold P in A3. rewrite Ep1 in A3. destruct A3 as [_ []].
  - (* Starting *)
    destruct Lp as (Lp1 & Lp2 & Lp3). cbn [ask] in H.
    set (w1 := {| wq := wq w; wpos := S (wpos w); wlog := wlog w ++ [VPre s (orc (wpos w))] |}) in *.
    assert (Hpre : forall b, astep mons s a (VPre s b) = Some {| aph := if b then AMustAct else ADone; aret := ret; apend := None |}).
    { intros b. cbn. rewrite Nat.eqb_refl. unfold no_pend. rewrite Lp2, Lr. destruct Lp1 as [-> | ->]; reflexivity. }
    destruct (orc (wpos w)) eqn:Eo.
    + set (w2 := setphase (emit w1 (VAct s)) s Running) in *.
      destruct (runscript defs mons orc n (sbody (defs s)) w2) as [[w3 r3]| |] eqn:Er; cbn [rbind fst snd] in H; try discriminate.
      assert (E2 : wq w2 s = {| qphase := Running; qfired := qfired (wq w s); qactive := qactive (wq w s);
           qinexc := qinexc (wq w s); qbusy := qbusy (wq w s) |}) by (unfold w2; rewrite wq_setphase; reflexivity).
      assert (O2 : forall q, q <> s -> wq w2 q = wq w q) by (intros; unfold w2; rewrite wq_setphase_o by assumption; reflexivity).
      assert (L2 : wlog w2 = wlog w ++ [VPre s true; VAct s]).
      { cbn. rewrite <- app_assoc. reflexivity. }
      assert (G2 : G w2).
      { apply (G_own w w2 s _ L2 O2 HG); rewrite ?E2; cbn; auto; try (left; discriminate); try congruence. }
      assert (B2 : busy_all (sstack (defs s)) w2) by (apply (busy_all_own _ w w2 s); auto; rewrite E2; exact Lb).
      destruct (IHs s _ _ _ _ Er (wf_body s) G2 B2) as [P3 G3].
      apply (own_step s w w2 w' a {| aph := AInAct; aret := ret; apend := None |} r [VPre s true; VAct s]); auto.
      { intros q e N [<-|[<-|[]]]; [apply irr_pre; exact N|apply irr_act; exact N]. }
      { cbn [aruns]. rewrite Hpre. cbn. rewrite Nat.eqb_refl. reflexivity. }
      assert (Hb2 : qbusy (wq w2 s) = true) by (rewrite E2; exact Lb).
      destruct (nested_step s w2 w3 {| aph := AInAct; aret := ret; apend := None |} P3 Hb2) as (a1 & A1 & A2 & A3 & K).
      { right; left; reflexivity. }
      { rewrite E2. unfold P; cbn. rewrite Lp3. repeat split; discriminate. }
      apply K. clear K. cbn in A1, A2.
      pose proof (post_busy w2 w3 s P3) as Hb3. pose proof (post_inexc w2 w3 s P3 Hb2) as Hi3.
      rewrite Hb2 in Hb3. rewrite E2 in Hi3. cbn in Hi3. rewrite Li in Hi3.
      assert (B3 : busy_all (sstack (defs s)) w3) by (eapply busy_all_post; eauto).
      apply (own_step s w3 (emit w3 (VRet s r3)) w' a1 {| aph := ARun; aret := r3; apend := apend a1 |} r [VRet s r3]); auto.
      { intros q e N [<-|[]]. apply irr_ret; exact N. }
      { cbn. rewrite Nat.eqb_refl, A1. reflexivity. }
      apply (IHl s r3 _ _ _ _ H).
      * apply (G_log w3 _ [VRet s r3]); auto.
      * exact B3.
      * unfold Lrel. rewrite wq_emit. split; [exact Hb3|]. split; [exact Hi3|]. split; [reflexivity|].
        unfold P in A3. unfold P; cbn. destruct (qphase (wq w3 s)) eqn:Ep3; try (destruct A3 as [_ X]; try rewrite A1 in X; try discriminate; destruct X; fail).
        -- destruct A3 as [A3 _]. split; [reflexivity|]. split; [exact A3|exact I].
        -- destruct A3 as [A3 _]. split; [right; reflexivity|]. split; [exact A3|exact I].
        -- destruct A3 as [A3 _]. split; [right; reflexivity|]. split; [exact A3|exact I].
    + set (w2 := setphase w1 s Terminated) in *.
      assert (E2 : wq w2 s = {| qphase := Terminated; qfired := qfired (wq w s); qactive := qactive (wq w s);
           qinexc := qinexc (wq w s); qbusy := qbusy (wq w s) |}) by (unfold w2; rewrite wq_setphase; reflexivity).
      assert (O2 : forall q, q <> s -> wq w2 q = wq w q) by (intros; unfold w2; rewrite wq_setphase_o by assumption; reflexivity).
      apply (own_step s w w2 w' a {| aph := ADone; aret := ret; apend := None |} r [VPre s false]); auto.
      { intros q e N [<-|[]]. apply irr_pre; exact N. }
      { cbn [aruns]. rewrite Hpre. reflexivity. }
      apply (IHl s ret _ _ _ _ H).
      * apply (G_own w w2 s [VPre s false] eq_refl O2 HG); rewrite ?E2; cbn; auto; try (left; discriminate); try congruence.
      * apply (busy_all_own _ w w2 s); auto; rewrite E2; exact Lb.
      * unfold Lrel. rewrite E2. cbn. split; [exact Lb|]. split; [exact Li|]. split; [reflexivity|].
        right. split; [reflexivity|discriminate].
  - (* Running *)
    destruct Lp as [Lp1 Lp2].
    destruct (check defs mons orc n s w) as [w1| |] eqn:Ec; cbn [rbind] in H; try discriminate.
    destruct (IHc s w w1 Ec HG Hb) as [P1 G1].
    destruct (nested_step s w w1 a P1 Lb) as (a1 & A1 & A2 & A3 & K); [right; right; exact Lp1|exact Lp2|].
    apply K. clear K. rewrite Lp1 in A1. rewrite Lr in A2.
    pose proof (post_busy w w1 s P1) as Hb1. pose proof (post_inexc w w1 s P1 Lb) as Hi1.
    rewrite Lb in Hb1. rewrite Li in Hi1.
    assert (B1 : busy_all (sstack (defs s)) w1) by (eapply busy_all_post; eauto).
    assert (Hexit : (qphase (wq w1 s) = Running \/ qphase (wq w1 s) = Aborting) ->
      (let (b, w2) := ask orc w1 (VExit s) in
       loop defs mons orc n s ret (if b then setphase w2 s Terminated else w2)) = Fin (w', r) -> Lpost s w1 w' a1 r).
    { intros Hph H'. cbn [ask] in H'.
      set (w2 := {| wq := wq w1; wpos := S (wpos w1); wlog := wlog w1 ++ [VExit s (orc (wpos w1))] |}) in *.
      assert (Hnr : is_pend a1 Restart = false /\ apend a1 <> Some Restart).
      { unfold is_pend. unfold P in A3. destruct (apend a1) as [[]|]; try (split; [reflexivity|discriminate]).
        destruct A3 as [(_ & X & _) _]. destruct Hph; congruence. }
      destruct Hnr as [Hnr Hnr2].
      set (b := orc (wpos w1)) in *.
      apply (own_step s w1 (if b then setphase w2 s Terminated else w2) w' a1
               {| aph := if b then ADone else ARun; aret := ret; apend := apend a1 |} r [VExit s b]).
      - destruct b; reflexivity.
      - intros q N. destruct b; [rewrite wq_setphase_o by exact N|]; reflexivity.
      - intros q e N [<-|[]]. apply irr_exit; exact N.
      - cbn. rewrite Nat.eqb_refl, A1, Hnr, A2. reflexivity.
      - apply (IHl s ret _ _ _ _ H').
        + destruct b.
          * apply (G_own w1 _ s [VExit s true]); auto; rewrite ?wq_setphase; cbn; auto.
            -- intros q N. rewrite upd_other by exact N. reflexivity.
            -- left; discriminate.
            -- congruence.
          * apply (G_log w1 _ [VExit s false]); auto.
        + destruct b; [|exact B1]. apply (busy_all_own _ w1 _ s); auto.
          * intros q N. rewrite wq_setphase_o by exact N. reflexivity.
          * rewrite wq_setphase. exact Hb1.
        + unfold Lrel. destruct b.
          * rewrite wq_setphase. cbn. split; [exact Hb1|]. split; [exact Hi1|]. split; [reflexivity|]. right. auto.
          * change (wq w2 s) with (wq w1 s). split; [exact Hb1|]. split; [exact Hi1|]. split; [reflexivity|].
            unfold P in *. destruct A3 as [A3 _].
            destruct Hph as [Hph|Hph]; rewrite Hph in *; cbn; (split; [auto|]); (split; [exact A3|exact I]). }
    destruct (qphase (wq w1 s)) eqn:Ep1; try (apply Hexit; auto; fail).
    + unfold P in A3. rewrite Ep1 in A3. destruct A3 as [_ X]. congruence.
    + unfold P in A3. rewrite Ep1 in A3. destruct A3 as [_ []].
    + unfold P in A3. rewrite Ep1 in A3. destruct A3 as [_ []].
    + apply (IHl s ret _ _ _ a1 H G1 B1). unfold Lrel. rewrite Ep1.
      split; [exact Hb1|]. split; [exact Hi1|]. split; [exact A2|]. split; [right; exact A1|exact A3].
  - (* Aborting *)
    destruct Lp as [Lp1 Lp2]. set (w1 := setphase w s Terminated) in *.
    pose proof (wq_setphase w s Terminated) as E1. fold w1 in E1.
    assert (O1 : forall q, q <> s -> wq w1 q = wq w q) by (intros; apply wq_setphase_o; assumption).
    assert (L1 : wlog w1 = wlog w ++ []) by (rewrite app_nil_r; reflexivity).
    apply (own_step s w w1 w' a a r []); auto; [intros q e _ []|].
    apply (IHl s ret _ _ _ a H).
    + apply (G_own w w1 s [] L1 O1 HG); rewrite ?E1; cbn; auto; try (left; discriminate); try congruence.
    + apply (busy_all_own _ w w1 s); auto; rewrite E1; exact Lb.
    + unfold Lrel. rewrite E1. cbn. split; [exact Lb|]. split; [exact Li|]. split; [exact Lr|]. left.
      split; [exact Lp1|]. split; [|apply HG; exact Ep].
      unfold P in Lp2. intros Ea. rewrite Ea in Lp2. destruct Lp2 as [(_ & X & _) _]. congruence.
  - (* Terminated *)
    inversion H; subst w' r; clear H.
    set (w1 := emit (lock (setphase w s Idle) s false) (VEnd s ret)).
    assert (E1 : wq w1 s = {| qphase := Idle; qfired := qfired (wq w s); qactive := qactive (wq w s);
           qinexc := qinexc (wq w s); qbusy := false |}).
    { unfold w1, lock. cbn. rewrite !upd_same. reflexivity. }
    assert (O1 : forall q, q <> s -> wq w1 q = wq w q) by (intros; unfold w1, lock; cbn; rewrite !upd_other by assumption; reflexivity).
    assert (L1 : wlog w1 = wlog w ++ [VEnd s ret]) by reflexivity.
    split; [|split; [|split]].
    + apply (Post_step (Some s) w w1 [VEnd s ret] L1); [intros; apply O1; congruence|].
      intros q e N [<-|[]]. apply irr_end. congruence.
    + apply (G_own w w1 s _ L1 O1 HG); rewrite ?E1; cbn; auto; try (left; discriminate).
    + rewrite E1. reflexivity.
    + exists [], a. split; [exact L1|]. split; [reflexivity|]. split.
      * cbn. rewrite Nat.eqb_refl. unfold is_pend.
        destruct Lp as [(Lp1 & Lp2 & _)|(Lp1 & Lp2)].
        -- destruct Lp1 as [-> | ->]; (destruct (apend a) as [[]|]; try congruence); rewrite Lr, Z.eqb_refl; reflexivity.
        -- rewrite Lp1. destruct (apend a) as [[]|]; try congruence; rewrite Lr, Z.eqb_refl; reflexivity.
      * destruct Lp as [(_ & _ & X)|(Lp1 & _)]; [|left; exact Lp1]. right. rewrite app_nil_r. exact X.
  - (* Restarting *)
    destruct Lp as [Lp1 Lp2]. set (w1 := clear_active (setphase (emit w (VRestart s)) s Starting) s) in *.
    assert (E1 : wq w1 s = {| qphase := Starting; qfired := false; qactive := None;
           qinexc := qinexc (wq w s); qbusy := qbusy (wq w s) |}).
    { unfold w1. rewrite wq_clear, wq_setphase. reflexivity. }
    assert (O1 : forall q, q <> s -> wq w1 q = wq w q).
    { intros. unfold w1. rewrite wq_clear_o, wq_setphase_o by assumption. reflexivity. }
    assert (Hpend : apend a = Some Restart).
    { unfold P in Lp2. destruct (apend a) as [[]|]; [destruct Lp2 as [[] _]| |reflexivity|].
      - destruct Lp2 as [(_ & X & _) _]; congruence.
      - destruct Lp2 as [(_ & X) _]; congruence. }
    apply (own_step s w w1 w' a {| aph := AReady; aret := ret; apend := None |} r [VRestart s]); auto.
    { intros q e N [<-|[]]. apply irr_restart; exact N. }
    { cbn. rewrite Nat.eqb_refl. unfold is_pend. rewrite Hpend, Lr. destruct Lp1 as [-> | ->]; reflexivity. }
    apply (IHl s ret _ _ _ _ H).
    + apply (G_own w w1 s [VRestart s] eq_refl O1 HG); rewrite ?E1; cbn; auto; try (left; discriminate); try congruence.
    + apply (busy_all_own _ w w1 s); auto; rewrite E1; exact Lb.
    + unfold Lrel. rewrite E1. cbn. split; [exact Lb|]. split; [exact Li|]. auto.
Qed.

Lemma all_ok : forall n, Pexec n /\ Ploop n /\ Pscript n /\ Pcheck n /\ Pscan n /\ Pmons n.
Proof.
  induction n as [|n (H1 & H2 & H3 & H4 & H5 & H6)].
  - unfold Pexec, Ploop, Pscript, Pcheck, Pscan, Pmons. repeat apply conj; intros; discriminate.
  - split; [apply exec_step; assumption|]. split; [apply loop_step; assumption|].
    split; [apply script_step; assumption|]. split; [apply check_step; assumption|].
    split; [apply scan_step; assumption|apply mons_step; assumption].
Qed.

Lemma G_new : G world_new.
Proof. repeat split; cbn; intros; try discriminate. Qed.

(** The life of a step that is run from a state in which no step runs. *)
Definition at_rest (w : world) : Prop := G w /\ forall q, qbusy (wq w q) = false.

Lemma exec_top : forall n s w w' r, sstack (defs s) = [s] -> G w ->
  exec defs mons orc n s w = Fin (w', r) ->
  G w' /\ (forall q, qbusy (wq w' q) = qbusy (wq w q)) /\
  exists seg a1, wlog w' = wlog w ++ seg ++ [VEnd s r] /\ aruns mons s ainit seg = Some a1 /\
    life mons s (seg ++ [VEnd s r]) r /\
    (aph a1 = ADone \/ fired_above mons (sstack (defs s)) (wlog w ++ seg)).
Proof.
  intros n s w w' r Hs HG H. destruct (all_ok n) as (HE & _).
  destruct (HE s w w' r [] H HG Hs) as (P1 & G1 & seg & a1 & L & R & E & F); [intros q []|].
  split; [exact G1|]. split; [intros q; apply post_busy, P1|].
  exists seg, a1. split; [exact L|]. split; [exact R|]. split; [|exact F].
  unfold life. rewrite aruns_app, R. cbn [aruns]. rewrite E. reflexivity.
Qed.
End Life.
