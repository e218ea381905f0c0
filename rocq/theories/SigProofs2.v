(** Proofs about signal handlers: witnesses, end of a handler, its effect. *)
From Verif Require Import Prelude SafetyModel SigModel SigSpec SigProofs.
Local Open Scope nat_scope.

Definition gooda (l : label) (s : st) : bool :=
  match l with LSig t => negb (locked (body (th s t))) && negb (inside (body (th s t))) | _ => true end.
Fixpoint goods h x ls s : option st :=
  match ls with
  | [] => Some s
  | l :: ls => if gooda l s then match step h x l s with Some (Ok s') => goods h x ls s' | _ => None end else None
  end.
Lemma goods_reach : forall h x ls s s', reach_good h x s -> goods h x ls s = Some s' -> reach_good h x s'.
Proof.
  intros h x ls. induction ls as [|l ls IH]; intros s s' R E; cbn in E.
  - injection E as <-. exact R.
  - destruct (gooda l s) eqn:G; [|discriminate]. destruct (step h x l s) as [[s1| |]|] eqn:S; try discriminate.
    apply (IH s1 s'); [|exact E]. apply (rg_step h x s l s1 R); [|exact S].
    destruct l; cbn in G |- *; auto. apply andb_prop in G as [G1 G2]. apply negb_true_iff in G1, G2. auto.
Qed.

(** The handler locks the mutex of the call it has interrupted. *)
Lemma self_lock : exists s, reach demo 0%Z s /\ own s = Some 0 /\ hnd (th s 0) = Some (PLock 0) /\ step demo 0%Z (LStep 0) s = Some UB.
Proof.
  eexists. split.
  - exists 1, [LCall 0 1%Z false; LStep 0; LStep 0; LSig 0; LStep 0]. cbn. reflexivity.
  - repeat split.
Qed.

(** The handler allocates memory while its thread does. *)
Lemma in_library : exists s, reach demo 0%Z s /\ own s = None /\ body (th s 0) = Some PIn /\ step demo 0%Z (LStep 0) s = Some UB.
Proof.
  eexists. split.
  - exists 1, [LLib 0; LSig 0; LStep 0; LStep 0; LStep 0; LStep 0; LStep 0]. cbn. reflexivity.
  - repeat split.
Qed.

(** No defined execution goes on from there. *)
Definition stuck (s : st) : Prop := inv s /\ own s = Some 0 /\ cur s = 1 /\ th s 0 = {| body := Some (PTest 2); hnd := Some (PLock 0) |}.
Lemma stuck_step : forall l s s', stuck s -> step demo 0%Z l s = Some (Ok s') -> stuck s'.
Proof.
  intros l s s' (I & O & C & T) E. assert (I' := inv_step _ _ _ _ _ I E). split; [exact I'|].
  destruct l as [t e p|t|t|t|]; cbn in E.
  - destruct (idle (th s t)) eqn:D; [|discriminate]. injection E as <-. split; [exact O|]. split; [exact C|].
    rewrite th_body. destruct (Nat.eqb_spec 0 t) as [<-|]; [rewrite T in D; discriminate|exact T].
  - destruct (idle (th s t)) eqn:D; [|discriminate]. injection E as <-. split; [exact O|]. split; [exact C|].
    rewrite th_body. destruct (Nat.eqb_spec 0 t) as [<-|]; [rewrite T in D; discriminate|exact T].
  - assert (N : t <> 0). { intros ->. rewrite T in E. cbn in E. rewrite O in E. discriminate E. }
    destruct I as [A _]. assert (At : hold s t = false).
    { destruct (hold s t) eqn:Q; [|reflexivity]. apply A in Q. congruence. }
    unfold hold in At. apply orb_false_elim in At as [At1 At2].
    destruct (hnd (th s t)) as [f|] eqn:Hn.
    + destruct (call_step demo t f (body (th s t)) s) as [[[s1 f1]| |]|] eqn:K; try discriminate. cbn in E. injection E as <-.
      apply call_own in K as (T1 & C1 & K). split; [|split; [cbn; congruence|]].
      * cbn [own w_hnd]. destruct K as [(K1 & _)|[(K1 & _)|(_ & K2 & _)]]; congruence.
      * rewrite th_hnd. destruct (Nat.eqb_spec 0 t); congruence.
    + destruct (body (th s t)) as [f|] eqn:Bo; [|discriminate].
      destruct (call_step demo t f None s) as [[[s1 f1]| |]|] eqn:K; try discriminate. cbn in E. injection E as <-.
      apply call_own in K as (T1 & C1 & K). split; [|split; [cbn; congruence|]].
      * cbn [own w_body]. destruct K as [(K1 & _)|[(K1 & _)|(_ & K2 & _)]]; congruence.
      * rewrite th_body. destruct (Nat.eqb_spec 0 t); congruence.
  - destruct (hnd (th s t)) eqn:D; [discriminate|]. injection E as <-. split; [exact O|]. split; [exact C|].
    rewrite th_hnd. destruct (Nat.eqb_spec 0 t) as [<-|]; [rewrite T in D; discriminate|exact T].
  - rewrite T in E. discriminate E.
Qed.

Lemma hangs : exists s, reach demo 0%Z s /\ hnd (th s 0) = Some (PLock 0) /\
  forall ls s', steps demo 0%Z ls s = Some (Ok s') -> hnd (th s' 0) = Some (PLock 0) /\ cur s' = cur s /\ own s' = Some 0.
Proof.
  eexists. split; [|split].
  - exists 1, [LCall 0 1%Z false; LStep 0; LStep 0; LSig 0; LStep 0]. cbn. reflexivity.
  - reflexivity.
  - intros ls s' E. assert (S : stuck s').
    { refine (steps_ind' demo 0%Z stuck stuck_step ls _ s' _ E). split; [|repeat split; reflexivity].
      apply (inv_reach demo 0%Z). exists 1, [LCall 0 1%Z false; LStep 0; LStep 0; LSig 0; LStep 0]. reflexivity. }
    destruct S as (_ & O & C & T). rewrite T. auto.
Qed.

(** *** The end of a handler *)
Definition rank (f : pos) : nat :=
  match f with PIn => 1 | PRead _ _ => 7 | PLock _ => 6 | PTest _ => 5 | PWrite _ _ => 4 | PUnlock => 3 | PLogB => 2 | PLogE => 1 end.

Lemma one_step : forall h x s t f, reach_good h x s -> hnd (th s t) = Some f -> own s = None \/ own s = Some t ->
  exists s', step h x (LStep t) s = Some (Ok s') /\ (own s' = None \/ own s' = Some t) /\
  (hnd (th s' t) = None \/ exists f', hnd (th s' t) = Some f' /\ rank f' < rank f).
Proof.
  intros h x s t f R Hn O. assert (NU := never_undefined h x (LStep t) s R). cbn in NU |- *. rewrite Hn in NU |- *.
  destruct f; cbn in NU |- *.
  - eexists. split; [reflexivity|]. split; [exact O|]. left. cbn; rewrite upd_same. reflexivity.
  - eexists. split; [reflexivity|]. split; [exact O|]. right. cbn; rewrite upd_same. cbn. eexists. split; [reflexivity|].
    destruct (getDestLevelForEvent _ _ _); cbn; lia.
  - destruct O as [O|O]; rewrite O in NU |- *.
    + cbn. eexists. split; [reflexivity|]. split; [right; reflexivity|]. right. cbn. cbn; rewrite upd_same. cbn. eexists. split; [reflexivity|cbn; lia].
    + rewrite Nat.eqb_refl in NU. cbn in NU. congruence.
  - eexists. split; [reflexivity|]. split; [exact O|]. right. cbn; rewrite upd_same. cbn. eexists. split; [reflexivity|cbn; lia].
  - eexists. split; [reflexivity|]. split; [destruct w; exact O|]. right. destruct w; cbn; rewrite upd_same; cbn; eexists; (split; [reflexivity|cbn; lia]).
  - eexists. split; [reflexivity|]. split; [left; reflexivity|]. right. cbn; rewrite upd_same. cbn. eexists. split; [reflexivity|cbn; lia].
  - destruct (body (th s t)) as [[]|]; cbn in NU; try congruence;
    (eexists; split; [reflexivity|]; split; [exact O|]; right; cbn; rewrite upd_same; cbn; eexists; split; [reflexivity|cbn; lia]).
  - eexists. split; [reflexivity|]. split; [exact O|]. left. cbn; rewrite upd_same. reflexivity.
Qed.

Lemma finish : forall h x t n s f, rank f <= n -> reach_good h x s -> hnd (th s t) = Some f -> own s = None \/ own s = Some t ->
  exists k s', k <= n /\ steps h x (repeat (LStep t) k) s = Some (Ok s') /\ hnd (th s' t) = None.
Proof.
  intros h x t n. induction n as [|n IH]; intros s f K R Hn O.
  - destruct f; cbn in K; lia.
  - destruct (one_step h x s t f R Hn O) as (s1 & S & O1 & [N|(f1 & F & L)]).
    + exists 1, s1. split; [lia|]. split; [cbn; cbn in S; rewrite S; reflexivity|exact N].
    + assert (R1 := rg_step h x s (LStep t) s1 R Logic.I S).
      destruct (IH s1 f1 ltac:(lia) R1 F O1) as (k & s' & K1 & E & N).
      exists (Datatypes.S k), s'. split; [lia|]. split; [|exact N]. cbn [repeat steps]. rewrite S. exact E.
Qed.

Definition lrank (f : option pos) : nat := match f with Some (PTest _) => 3 | Some (PWrite _ _) => 2 | Some PUnlock => 1 | _ => 0 end.

Lemma release_one : forall h x s o, reach_good h x s -> own s = Some o -> exists s', step h x (LStep o) s = Some (Ok s') /\
  (forall t, t <> o -> th s' t = th s t) /\
  (own s' = None \/ (own s' = Some o /\ lrank (body (th s' o)) + lrank (hnd (th s' o)) < lrank (body (th s o)) + lrank (hnd (th s o)))).
Proof.
  intros h x s o R O. assert (Iv := inv_reach _ _ _ (good_reach _ _ _ R)). destruct Iv as [A B].
  assert (L := proj2 (A o) O). unfold hold in L. assert (Q := quiet_good _ _ _ R o).
  cbn. destruct (hnd (th s o)) as [f|] eqn:Hn.
  - destruct (Q ltac:(discriminate)) as [Q1 _]. rewrite Q1 in L. cbn in L. destruct f; try discriminate L; cbn.
    + eexists. split; [reflexivity|]. split; [intros t N; cbn; apply upd_other, N|]. right. split; [exact O|].
      cbn. rewrite upd_same. cbn. lia.
    + eexists. split; [reflexivity|]. split; [intros t N; destruct w; cbn; apply upd_other, N|]. right.
      split; [destruct w; exact O|]. destruct w; cbn; rewrite upd_same; cbn; lia.
    + eexists. split; [reflexivity|]. split; [intros t N; cbn; apply upd_other, N|]. left. reflexivity.
  - cbn in L. rewrite orb_false_r in L. destruct (body (th s o)) as [f|] eqn:Bo; [|discriminate L]. destruct f; try discriminate L; cbn.
    + eexists. split; [reflexivity|]. split; [intros t N; cbn; apply upd_other, N|]. right. split; [exact O|].
      cbn. rewrite upd_same. cbn. rewrite Hn. cbn. lia.
    + eexists. split; [reflexivity|]. split; [intros t N; destruct w; cbn; apply upd_other, N|]. right.
      split; [destruct w; exact O|]. destruct w; cbn; rewrite upd_same; cbn; rewrite Hn; cbn; lia.
    + eexists. split; [reflexivity|]. split; [intros t N; cbn; apply upd_other, N|]. left. reflexivity.
Qed.

Lemma release : forall h x o n s, lrank (body (th s o)) + lrank (hnd (th s o)) <= n -> reach_good h x s -> own s = Some o ->
  exists k s', k <= S n /\ steps h x (repeat (LStep o) k) s = Some (Ok s') /\ reach_good h x s' /\ own s' = None /\
  forall t, t <> o -> th s' t = th s t.
Proof.
  intros h x o n. induction n as [|n IH]; intros s K R O;
    destruct (release_one h x s o R O) as (s1 & S & T & [N|(O1 & L)]); try lia;
    assert (R1 := rg_step h x s (LStep o) s1 R Logic.I S).
  - exists 1, s1. split; [lia|]. split; [cbn; cbn in S; rewrite S; reflexivity|]. auto.
  - exists 1, s1. split; [lia|]. split; [cbn; cbn in S; rewrite S; reflexivity|]. auto.
  - destruct (IH s1 ltac:(lia) R1 O1) as (k & s' & K1 & E & R2 & N & T2).
    exists (Datatypes.S k), s'. split; [lia|]. split; [cbn [repeat steps]; rewrite S; exact E|].
    split; [exact R2|]. split; [exact N|]. intros t D. rewrite T2, T; auto.
Qed.

Lemma rank7 : forall f, rank f <= 7.
Proof. intros []; cbn; lia. Qed.

Lemma handler_ends : forall h x s t, reach_good h x s -> hnd (th s t) <> None ->
  exists ls s', length ls <= 11 /\ Forall (fun l => l = LStep t \/ exists o, own s = Some o /\ l = LStep o) ls /\
  steps h x ls s = Some (Ok s') /\ hnd (th s' t) = None.
Proof.
  intros h x s t R N. destruct (hnd (th s t)) as [f|] eqn:Hn; [clear N|congruence].
  assert (D : (own s = None \/ own s = Some t) \/ exists o, own s = Some o /\ o <> t).
  { destruct (own s) as [o|]; [|auto]. destruct (Nat.eq_dec o t) as [->|]; [auto|right; eauto]. }
  destruct D as [D|(o & O & D)].
  - destruct (finish h x t 7 s f (rank7 f) R Hn D) as (k & s' & K & E & F).
    exists (repeat (LStep t) k), s'. rewrite repeat_length. split; [lia|]. split; [|auto].
    apply Forall_forall. intros l Q. apply repeat_spec in Q. auto.
  - assert (L3 : lrank (body (th s o)) + lrank (hnd (th s o)) <= 3).
    { destruct (inv_reach _ _ _ (good_reach _ _ _ R)) as [_ B]. specialize (B o).
      destruct (body (th s o)) as [[]|]; destruct (hnd (th s o)) as [[]|]; cbn in *; try discriminate; lia. }
    destruct (release h x o 3 s L3 R O) as (k & s1 & K & E & R1 & O1 & T).
    assert (H1 : hnd (th s1 t) = Some f) by (rewrite T; auto).
    destruct (finish h x t 7 s1 f (rank7 f) R1 H1 (or_introl O1)) as (k2 & s' & K2 & E2 & F).
    exists (repeat (LStep o) k ++ repeat (LStep t) k2), s'. rewrite app_length, !repeat_length. split; [lia|].
    split; [|split; [rewrite (steps_app _ _ _ _ _ _ E); exact E2|exact F]].
    apply Forall_app. split; apply Forall_forall; intros l Q; apply repeat_spec in Q; eauto.
Qed.

(** *** The effect *)
Definition writes (o : option pos) (b : Z) (h : heap) : Prop := match o with Some (PWrite d true) => (lid (h d) <= b)%Z | _ => True end.
Definition done h d s : Prop := (lid (h (nxt s)) <= lid (h d))%Z /\
  forall t, writes (body (th s t)) (lid (h d)) h /\ writes (hnd (th s t)) (lid (h d)) h.
Definition before h x d s : Prop :=
  hnd (th s 0) = Some (PRead x true) \/ hnd (th s 0) = Some (PLock d) \/ hnd (th s 0) = Some (PTest d) \/
  exists w, hnd (th s 0) = Some (PWrite d w) /\ (w = true \/ (lid (h (nxt s)) <= lid (h d))%Z).
Definition eff h x c d s : Prop := inv s /\ cur s = c /\ (before h x d s \/ done h d s).

Lemma writes_unlocked : forall o b h, locked o = false -> writes o b h.
Proof. intros [[]|] b h; cbn; intros; try discriminate; exact Logic.I. Qed.

Lemma eff_step : forall h x c d l s s', getDestLevelForEvent (h c) x true = Some d -> (lid (h d) < lid (h c))%Z ->
  eff h x c d s -> l <> LCycle -> step h x l s = Some (Ok s') -> eff h x c d s'.
Proof.
  intros h x c d l s s' G Lt (Iv & C & P) NL E. assert (I' := inv_step _ _ _ _ _ Iv E). split; [exact I'|].
  destruct Iv as [A B].
  destruct l as [t e p|t|t|t|]; cbn in E.
  - destruct (idle (th s t)) eqn:D; [|discriminate]. injection E as <-. apply idle_none in D as [D1 D2]. split; [exact C|].
    destruct P as [P|[P1 P2]].
    + left. unfold before in *. rewrite th_body. destruct (Nat.eqb_spec 0 t) as [<-|]; exact P.
    + right. split; [exact P1|]. intros u. rewrite th_body. destruct (Nat.eqb_spec u t) as [->|]; [|apply P2].
      cbn. split; [exact Logic.I|apply P2].
  - destruct (idle (th s t)) eqn:D; [|discriminate]. injection E as <-. apply idle_none in D as [D1 D2]. split; [exact C|].
    destruct P as [P|[P1 P2]].
    + left. unfold before in *. rewrite th_body. destruct (Nat.eqb_spec 0 t) as [<-|]; exact P.
    + right. split; [exact P1|]. intros u. rewrite th_body. destruct (Nat.eqb_spec u t) as [->|]; [|apply P2].
      cbn. split; [exact Logic.I|apply P2].
  - assert (HO : forall u, own s = Some t -> u <> t -> locked (body (th s u)) = false /\ locked (hnd (th s u)) = false).
    { intros u O N. destruct (hold s u) eqn:Q; [apply A in Q; congruence|]. apply orb_false_elim in Q. exact Q. }
    assert (NW : nxt s <> cur s \/ ~ done h d s).
    { destruct (Nat.eq_dec (nxt s) (cur s)) as [Q|Q]; [right|left; exact Q]. intros [D1 _]. rewrite Q, C in D1. lia. }
    destruct (hnd (th s t)) as [f|] eqn:Hn.
    + destruct (call_step h t f (body (th s t)) s) as [[[s1 f1]| |]|] eqn:K; try discriminate. cbn in E. injection E as <-.
      destruct (call_own _ _ _ _ _ _ _ K) as (T1 & C1 & _). split; [cbn; congruence|].
      assert (Own : locked (Some f) = true -> own s = Some t).
      { intros Q. apply A. unfold hold. rewrite Hn, Q. apply orb_true_r. }
      destruct P as [P|[P1 P2]].
      * destruct (Nat.eq_dec t 0) as [->|N0].
        -- unfold before in P. rewrite Hn in P. destruct P as [P|[P|[P|(w & P & W)]]]; injection P as ->; cbn in K.
           ++ injection K as <- <-. left. rewrite C, G. unfold before. rewrite th_hnd. cbn. auto.
           ++ destruct (own s) as [o|]; [destruct (Nat.eqb o 0); discriminate|]. injection K as <- <-.
              left. unfold before. rewrite th_hnd. cbn. auto.
           ++ injection K as <- <-. left. unfold before. rewrite th_hnd. cbn. right. right. right. eexists. split; [reflexivity|].
              destruct (Nat.eqb (nxt s) (cur s)); cbn; [auto|].
              destruct (Z.ltb_spec (lid (h d)) (lid (h (nxt s)))); auto.
           ++ injection K as <- <-. right. split.
              ** destruct w; cbn; [lia|]. destruct W as [W|W]; [discriminate|exact W].
              ** intros u. rewrite th_hnd, T1. destruct (Nat.eqb_spec u 0) as [->|Nu].
                 --- cbn. split; [|exact Logic.I]. apply writes_unlocked. specialize (B 0). rewrite Hn in B. cbn in B.
                     rewrite andb_true_r in B. exact B.
                 --- destruct (HO u (Own eq_refl) Nu). split; apply writes_unlocked; assumption.
        -- left. unfold before. rewrite th_hnd. destruct (Nat.eqb_spec 0 t) as [Q|_]; [congruence|]. rewrite T1.
           unfold before in P. destruct P as [P|[P|[P|(w & P & W)]]]; [auto|auto|auto|]. right. right. right. exists w. split; [exact P|].
           destruct W as [W|W]; [auto|right]. cbn. 
           assert (O0 : own s = Some 0). { apply A. unfold hold. rewrite P. apply orb_true_r. }
           destruct f; cbn in K; try (injection K as <- <-; exact W).
           ++ destruct (own s) as [o|]; [destruct (Nat.eqb o t); discriminate|discriminate].
           ++ specialize (Own eq_refl). congruence.
           ++ destruct (body (th s t)) as [[]|]; try discriminate; injection K as <- <-; exact W.
      * right. assert (P2t := P2 t). rewrite Hn in P2t. destruct P2t as [P3 P4].
        assert (NX : nxt s1 = nxt s \/ (lid (h (nxt s1)) <= lid (h d))%Z).
        { destruct f; cbn in K; try (injection K as <- <-; auto).
          - destruct (own s) as [o|]; [destruct (Nat.eqb o t); discriminate|injection K as <- <-; auto].
          - destruct w; cbn in P4 |- *; auto.
          - destruct (body (th s t)) as [[]|]; try discriminate; injection K as <- <-; auto. }
        split; [cbn; destruct NX as [->|NX]; assumption|].
        intros u. rewrite th_hnd, T1. destruct (Nat.eqb_spec u t) as [->|]; [|apply P2]. cbn. split; [exact P3|].
        destruct f; cbn in K; try (injection K as <- <-; exact Logic.I).
        -- injection K as <- <-. destruct (getDestLevelForEvent (h (cur s)) e priv); exact Logic.I.
        -- destruct (own s) as [o|]; [destruct (Nat.eqb o t); discriminate|injection K as <- <-; exact Logic.I].
        -- injection K as <- <-. destruct NW as [NW|NW]; [|exfalso; apply NW; split; assumption].
           apply Nat.eqb_neq in NW. cbn. rewrite NW. cbn. destruct (Z.ltb_spec (lid (h d0)) (lid (h (nxt s)))); [lia|exact Logic.I].
        -- destruct (body (th s t)) as [[]|]; try discriminate; injection K as <- <-; exact Logic.I.
    + destruct (body (th s t)) as [f|] eqn:Bo; [|discriminate].
      destruct (call_step h t f None s) as [[[s1 f1]| |]|] eqn:K; try discriminate. cbn in E. injection E as <-.
      destruct (call_own _ _ _ _ _ _ _ K) as (T1 & C1 & _). split; [cbn; congruence|].
      assert (Own : locked (Some f) = true -> own s = Some t).
      { intros Q. apply A. unfold hold. rewrite Bo, Q. reflexivity. }
      destruct P as [P|[P1 P2]].
      * assert (N0 : t <> 0). { intros ->. unfold before in P. rewrite Hn in P. destruct P as [P|[P|[P|(w & P & W)]]]; discriminate. }
        left. unfold before. rewrite th_body. destruct (Nat.eqb_spec 0 t) as [Q|_]; [congruence|]. rewrite T1.
        unfold before in P. destruct P as [P|[P|[P|(w & P & W)]]]; [auto|auto|auto|]. right. right. right. exists w. split; [exact P|].
        destruct W as [W|W]; [auto|right]. cbn. 
        assert (O0 : own s = Some 0). { apply A. unfold hold. rewrite P. apply orb_true_r. }
        destruct f; cbn in K; try (injection K as <- <-; exact W).
        -- destruct (own s) as [o|]; [destruct (Nat.eqb o t); discriminate|discriminate].
        -- specialize (Own eq_refl). congruence.
      * right. assert (P2t := P2 t). rewrite Bo in P2t. destruct P2t as [P3 P4].
        assert (NX : nxt s1 = nxt s \/ (lid (h (nxt s1)) <= lid (h d))%Z).
        { destruct f; cbn in K; try (injection K as <- <-; auto).
          - destruct (own s) as [o|]; [destruct (Nat.eqb o t); discriminate|injection K as <- <-; auto].
          - destruct w; cbn in P3 |- *; auto. }
        split; [cbn; destruct NX as [->|NX]; assumption|].
        intros u. rewrite th_body, T1. destruct (Nat.eqb_spec u t) as [->|]; [|apply P2]. cbn. split; [|exact P4].
        destruct f; cbn in K; try (injection K as <- <-; exact Logic.I).
        -- injection K as <- <-. destruct (getDestLevelForEvent (h (cur s)) e priv); exact Logic.I.
        -- destruct (own s) as [o|]; [destruct (Nat.eqb o t); discriminate|injection K as <- <-; exact Logic.I].
        -- injection K as <- <-. destruct NW as [NW|NW]; [|exfalso; apply NW; split; assumption].
           apply Nat.eqb_neq in NW. cbn. rewrite NW. cbn. destruct (Z.ltb_spec (lid (h d0)) (lid (h (nxt s)))); [lia|exact Logic.I].
  - destruct (hnd (th s t)) eqn:D; [discriminate|]. injection E as <-. split; [exact C|].
    destruct P as [P|[P1 P2]].
    + left. unfold before in *. rewrite th_hnd. destruct (Nat.eqb_spec 0 t) as [<-|]; [|exact P]. cbn. auto.
    + right. split; [exact P1|]. intros u. rewrite th_hnd. destruct (Nat.eqb_spec u t) as [->|]; [|apply P2].
      cbn. split; [apply P2|exact Logic.I].
  - congruence.
Qed.

Lemma taken : forall h x s s1 ls s' s'' d, reach h x s -> step h x (LSig 0) s = Some (Ok s1) ->
  getDestLevelForEvent (h (cur s)) x true = Some d -> (lid (h d) < lid (h (cur s)))%Z ->
  steps h x ls s1 = Some (Ok s') -> ~ In LCycle ls -> step h x LCycle s' = Some (Ok s'') ->
  (lid (h (cur s'')) <= lid (h d))%Z.
Proof.
  intros h x s s1 ls s' s'' d R S G Lt E NC L.
  assert (E1 : eff h x (cur s) d s1).
  { split; [apply (inv_step h x (LSig 0) s); [apply (inv_reach h x), R|exact S]|].
    cbn in S. destruct (hnd (th s 0)); [discriminate|]. injection S as <-. split; [reflexivity|]. left. left. reflexivity. }
  assert (E2 : eff h x (cur s) d s').
  { clear S L. revert s1 E E1. induction ls as [|l ls IH]; intros s1 E E1; cbn in E.
    - injection E as <-. exact E1.
    - destruct (step h x l s1) as [[s2| |]|] eqn:S; try discriminate. apply (IH ltac:(intros Q; apply NC; right; exact Q) s2 E).
      apply (eff_step h x (cur s) d l s1 s2 G Lt E1); [|exact S]. intros ->. apply NC. left. reflexivity. }
  destruct E2 as (_ & C & P). cbn in L. destruct (idle (th s' 0)) eqn:D; [|discriminate]. injection L as <-. cbn.
  apply idle_none in D as [_ D]. destruct P as [P|[P _]]; [|exact P].
  unfold before in P. rewrite D in P. destruct P as [P|[P|[P|(w & P & _)]]]; discriminate.
Qed.

(** A handler in another thread leads out of a level that has no way out. *)
Lemma stale : exists s s', reach_good demo 0%Z s /\ cur s = 0 /\ (forall d, ~ registered demo 0 d) /\
  step demo 0%Z LCycle s = Some (Ok s') /\ cur s' = 1.
Proof.
  pose (ls := [LSig 1; LStep 1; LCall 2 3%Z false; LStep 2; LStep 2; LStep 2; LStep 2; LStep 2; LStep 2; LStep 2; LCycle;
    LStep 1; LStep 1; LStep 1; LStep 1; LStep 1; LStep 1]).
  destruct (goods demo 0%Z ls (start 2)) as [s|] eqn:E; [|vm_compute in E; discriminate E].
  assert (R := goods_reach _ _ _ _ _ (rg_start demo 0%Z 2) E).
  exists s. eexists. split; [exact R|]. cbn in E. injection E as <-.
  split; [reflexivity|]. split; [intros d (e & p & Q); discriminate Q|]. split; [reflexivity|reflexivity].
Qed.
