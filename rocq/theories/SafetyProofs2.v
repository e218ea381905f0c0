(** Input and output actions, singleton bookkeeping, concurrency of the safety system. *)
From Verif Require Import Prelude SafetyModel SafetySpec SafetyActionModel SafetyRaceModel SafetyProofs.
From Coq Require Import ZifyBool Reals.
From Flocq Require Import Core.Raux Core.Defs IEEE754.BinarySingleNaN.
From Coq Require Import Floats.SpecFloat.
Import List ListNotations.
Open Scope Z_scope.

(** C09 *)
Lemma check_fires_bool : forall i v e x,
  ia_fire (check_action i (VBool v) e) (VBool x) = (if Bool.bool_dec x v then None else Some e).
Proof. intros i v e x; cbn. destruct x, v; reflexivity. Qed.

Lemma range_fires_int : forall i mn mx e x,
  (ia_fire (range_action i (VInt mn) (VInt mx) e false) (VInt x) = Some e <-> ~ (mn <= x <= mx)) /\
  (ia_fire (range_action i (VInt mn) (VInt mx) e true) (VInt x) = Some e <-> mn < x < mx).
Proof.
  intros i mn mx e x; cbn. split.
  - destruct (x <? mn) eqn:E1, (mx <? x) eqn:E2; cbn; split; intro H; try reflexivity;
      try discriminate; try lia; exfalso; apply H; lia.
  - destruct (mn <? x) eqn:E1, (x <? mx) eqn:E2; cbn; split; intro H; try reflexivity;
      try discriminate; lia.
Qed.

(** IEEE doubles: Flocq's binary64 format, [B2R] their real value, [B2SF] the datum. *)
Notation b64 := (binary_float 53 1024).

Lemma SFltb_real : forall x y : b64, is_finite x = true -> is_finite y = true ->
  SFltb (B2SF x) (B2SF y) = Rlt_bool (B2R x) (B2R y).
Proof.
  intros x y Hx Hy.
  change (SFltb (B2SF x) (B2SF y)) with (Bltb x y). apply Bltb_correct; assumption.
Qed.

Lemma range_fires_double : forall i e (mn mx x : b64),
  is_finite mn = true -> is_finite mx = true -> is_finite x = true ->
  (ia_fire (range_action i (VDouble (B2SF mn)) (VDouble (B2SF mx)) e false) (VDouble (B2SF x)) = Some e
     <-> ~ (B2R mn <= B2R x <= B2R mx)%R) /\
  (ia_fire (range_action i (VDouble (B2SF mn)) (VDouble (B2SF mx)) e true) (VDouble (B2SF x)) = Some e
     <-> (B2R mn < B2R x < B2R mx)%R).
Proof.
  intros i e mn mx x Hmn Hmx Hx. unfold range_action; cbn [ia_fire sv_lt].
  rewrite !SFltb_real by assumption.
  split.
  - destruct (Rlt_bool_spec (B2R x) (B2R mn)) as [H1|H1];
    destruct (Rlt_bool_spec (B2R mx) (B2R x)) as [H2|H2]; cbn; split; intro H;
      try reflexivity; try discriminate; try (intros [A B]; apply (Rlt_irrefl (B2R x));
      eauto using Rlt_le_trans, Rle_lt_trans; fail).
    exfalso; apply H; split; assumption.
  - destruct (Rlt_bool_spec (B2R mn) (B2R x)) as [H1|H1];
    destruct (Rlt_bool_spec (B2R x) (B2R mx)) as [H2|H2]; cbn; split; intro H;
      try reflexivity; try discriminate; try (split; assumption);
      destruct H as [A B]; exfalso; apply (Rlt_irrefl (B2R x));
      eauto using Rlt_le_trans, Rle_lt_trans.
Qed.

(** infinities are out of every finite range *)
Lemma range_fires_infinity : forall i e (mn mx : b64) s,
  is_finite mn = true -> is_finite mx = true ->
  ia_fire (range_action i (VDouble (B2SF mn)) (VDouble (B2SF mx)) e false)
          (VDouble (S754_infinity s)) = Some e.
Proof.
  intros i e mn mx s Hmn Hmx.
  destruct mn as [s1|s1| |s1 m1 e1 ?]; try discriminate;
  destruct mx as [s2|s2| |s2 m2 e2 ?]; try discriminate;
  destruct s; try destruct s1; try destruct s2; reflexivity.
Qed.

(** C10: a NaN reading never fires, whatever the range. *)
Lemma range_nan_silent : forall i mn mx e off,
  ia_fire (range_action i (VDouble mn) (VDouble mx) e off) (VDouble S754_nan) = None.
Proof.
  intros i mn mx e off; cbn. unfold SFltb, SFcompare.
  destruct off, mn, mx; reflexivity.
Qed.

(** the events triggered by the input phase of a cycle are those of the firing actions *)
Definition fired_events (env : nat -> sval) (ias : list (option iaction)) : list evid :=
  flat_map (fun a => match ia_fire a (env (ia_input a)) with Some e => [e] | None => [] end)
           (non_null ias).

Lemma checkInputs_events : forall h env ias s s' log,
  checkInputs h s env ias = Ok (s', log) ->
  filter is_trig log = map (fun e => ETrig e true) (fired_events env ias).
Proof.
  intros h env ias; induction ias as [|[ia|] ias IH]; intros s s' log H; cbn in H.
  - inv_ok; reflexivity.
  - unfold fired_events; cbn [non_null flat_map app].
    destruct (ia_fire ia (env (ia_input ia))) as [e|] eqn:Ef.
    + destruct (triggerEvent h s e true) as [s1| |] eqn:E1; cbn in H; try discriminate.
      destruct (checkInputs h s1 env ias) as [[s2 l2]| |] eqn:E2; cbn in H; try discriminate.
      inv_ok. cbn. f_equal. eapply IH; eauto.
    + destruct (checkInputs h s env ias) as [[s2 l2]| |] eqn:E2; cbn in H; try discriminate.
      inv_ok. cbn. eapply IH; eauto.
  - eapply IH; eauto.
Qed.

Lemma setOutputs_no_trig : forall oas, filter is_trig (setOutputs oas ++ [EEnd]) = [].
Proof. induction oas as [|[oa|] oas IH]; cbn; auto. Qed.

Lemma triggers_only : forall h ts s s' log,
  triggers h s ts = Ok (s', log) ->
  filter is_trig log = map (fun ep => ETrig (fst ep) (snd ep)) ts.
Proof.
  intros h ts; induction ts as [|[e p] ts IH]; intros s s' log H; cbn in H.
  - inv_ok; reflexivity.
  - destruct (triggerEvent h s e p) as [s1| |] eqn:E1; cbn in H; try discriminate.
    destruct (triggers h s1 ts) as [[s2 l2]| |] eqn:E2; cbn in H; try discriminate.
    inv_ok; cbn. f_equal. eapply IH; eauto.
Qed.

Lemma run_events : forall h s l env acts s' log,
  nxt s = Some l -> run h s env acts = Ok (s', log) ->
  filter is_trig log =
    map (fun e => ETrig e true) (fired_events env (lin (h l))) ++
    (if lact (h l) then map (fun ep => ETrig (fst ep) (snd ep)) acts else []).
Proof.
  intros h s l env acts s' log Hn H.
  unfold run, adopt in H. rewrite Hn in H. cbn [cur nxt nact] in H.
  set (s1 := {| cur := Some l; nxt := _; nact := _ |}) in *.
  destruct (checkInputs h s1 env (lin (h l))) as [[s2 l2]| |] eqn:E2; cbn [bind fst snd] in H;
    try discriminate.
  apply checkInputs_events in E2.
  destruct (lact (h l)) eqn:Ea.
  - destruct (triggers h s2 acts) as [[s3 l3]| |] eqn:E3; cbn [bind fst snd] in H; try discriminate.
    apply triggers_only in E3. inv_ok. cbn [filter is_trig].
    rewrite filter_app, E2. cbn [filter is_trig]. rewrite filter_app, E3, setOutputs_no_trig, app_nil_r.
    reflexivity.
  - cbn [bind fst snd] in H. inv_ok. cbn [filter is_trig].
    rewrite filter_app, E2, setOutputs_no_trig. reflexivity.
Qed.

(** Output actions *)
Lemma toggle_alternates : forall lo hi n,
  sv_eq lo lo = true -> sv_eq hi lo = false ->
  osets (OToggle lo lo hi) n =
  map (fun k => Some (if Nat.even k then lo else hi)) (seq 0 n).
Proof.
  intros lo hi n Hl Hh.
  assert (G : forall n k, osets (OToggle (if Nat.even k then lo else hi) lo hi) n =
     map (fun k => Some (if Nat.even k then lo else hi)) (seq k n)).
  { clear n; induction n as [|n IH]; intros k; cbn; [reflexivity|].
    f_equal. rewrite <- IH. f_equal. f_equal.
    rewrite Nat.even_succ, <- Nat.negb_even. destruct (Nat.even k); cbn; [rewrite Hl|rewrite Hh]; reflexivity. }
  apply (G n 0%nat).
Qed.

Lemma leave_silent : forall n, osets OLeave n = repeat None n.
Proof. induction n; cbn; congruence. Qed.
Lemma set_constant : forall v n, osets (OSetTo v) n = repeat (Some v) n.
Proof. intros v n; induction n as [|n IH]; cbn; congruence. Qed.

(** C12 *)
Definition constructs (os : list iop) : nat :=
  length (filter (fun o => match o with Construct _ => true | Destruct => false end) os).

Lemma iruns_app : forall a b s, iruns s (a ++ b) = iruns (iruns s a) b.
Proof. induction a as [|o a IH]; intros b s; cbn; [reflexivity|apply IH]. Qed.

(** At most one live system as long as fewer than 255 constructions were attempted. *)
Lemma iruns_at_most_one : forall os,
  (constructs os < 256)%nat -> (snd (iruns istart os) <= 1)%nat.
Proof.
  intros os.
  assert (G : forall os c live, 0 <= c -> Z.of_nat live <= c -> (live <= 1)%nat ->
     c + Z.of_nat (constructs os) < 256 -> (snd (iruns (c, live) os) <= 1)%nat).
  { clear os. intros os; induction os as [|o os IH]; intros c live Hc Hl H1 Hb; cbn [iruns].
    - exact H1.
    - unfold constructs in Hb. destruct o as [good|]; cbn [filter length istep] in *.
      + assert (Em : (c + 1) mod 256 = c + 1) by (apply Z.mod_small; lia).
        rewrite Em. destruct (c + 1 >? 1) eqn:Eg; cbn [fst].
        * apply IH; unfold constructs; try lia.
        * destruct good; cbn [fst]; apply IH; unfold constructs; try lia.
      + destruct live as [|n]; cbn [fst].
        * apply IH; unfold constructs; lia.
        * rewrite Z.mod_small by lia. apply IH; unfold constructs; lia. }
  intros H. apply G; lia.
Qed.

(** Without failed constructions, the next construction succeeds when none is alive. *)
Definition all_constructed (os : list iop) : Prop :=
  forall pre post g, os = pre ++ Construct g :: post -> snd (istep (iruns istart pre) (Construct g)) = Some true.
Lemma iruns_reconstruct : forall os,
  all_constructed os -> snd (iruns istart os) = O ->
  snd (istep (iruns istart os) (Construct true)) = Some true.
Proof.
  intros os Hall Hz.
  assert (G : forall post pre, os = pre ++ post ->
    (fst (iruns istart pre) = Z.of_nat (snd (iruns istart pre)) /\ (snd (iruns istart pre) <= 1)%nat) ->
    (fst (iruns istart os) = Z.of_nat (snd (iruns istart os)) /\ (snd (iruns istart os) <= 1)%nat)).
  { intros post; induction post as [|o post IH]; intros pre E [I1 I2].
    - rewrite app_nil_r in E; subst; auto.
    - apply (IH (pre ++ [o])); [rewrite <- app_assoc; exact E|].
      rewrite iruns_app. cbn [iruns].
      destruct (iruns istart pre) as [c live] eqn:Er. cbn [fst snd] in *. subst c.
      destruct o as [g|].
      + pose proof (Hall pre post g E) as Hs. rewrite Er in Hs.
        cbn [istep] in *. destruct live as [|[|live]]; try lia; cbn in *.
        * destruct g; cbn in *; [split; lia|discriminate].
        * discriminate.
      + cbn [istep]. destruct live as [|[|live]]; try lia; cbn; split; lia. }
  destruct (G os [] eq_refl) as [J1 J2]; [cbn; split; lia|].
  destruct (iruns istart os) as [c live]. cbn in *. subst. subst. reflexivity.
Qed.

(** Race model: every adopted level is the registered destination of an event triggered
    while some level that has been current was current. *)
Definition justified (h : heap) (entry : lref) (seen : list lref) (d : lref) : Prop :=
  d = entry \/ exists c e p, In c seen /\ leads h c e p d.

Definition call_dest (c : call) : lref := match c with Read d => d | Tested d _ => d end.

Definition race_inv (h : heap) (entry : lref) (s : rstate) : Prop :=
  In (rcur s) (rseen s) /\
  justified h entry (rseen s) (rcur s) /\
  justified h entry (rseen s) (rnxt s) /\
  (forall c, In c (rcalls s) -> justified h entry (rseen s) (call_dest c)) /\
  (forall d, In d (rseen s) -> justified h entry (rseen s) d).

Lemma justified_mono : forall h e seen d x, justified h e seen d -> justified h e (x :: seen) d.
Proof.
  intros h e seen d x [->|(c & ev & p & Hi & L)]; [left; reflexivity|].
  right; exists c, ev, p; split; [right; exact Hi|exact L].
Qed.

Lemma set_nth_in : forall (A : Type) (l : list A) i x y, In y (set_nth l i x) -> y = x \/ In y l.
Proof.
  induction l as [|a l IH]; intros i x y H; destruct i; cbn in H; try tauto.
  - destruct H as [->|H]; [left; reflexivity|right; right; exact H].
  - destruct H as [->|H]; [right; left; reflexivity|].
    destruct (IH _ _ _ H); [left|right; right]; assumption.
Qed.
Lemma del_nth_in : forall (A : Type) (l : list A) i y, In y (del_nth l i) -> In y l.
Proof.
  induction l as [|a l IH]; intros i y H; destruct i; cbn in H; try tauto.
  - right; exact H.
  - destruct H as [->|H]; [left; reflexivity|right; eapply IH; eauto].
Qed.

Lemma race_step_inv : forall h entry s o s',
  race_inv h entry s -> rstep h s o = Some s' -> race_inv h entry s'.
Proof.
  intros h entry s o s' (I1 & I2 & I3 & I4 & I5) H. destruct o as [e p|i|i|]; cbn in H.
  - destruct (getDestLevelForEvent (h (rcur s)) e p) as [d|] eqn:E; inversion H; subst.
    + unfold race_inv; cbn. do 3 (split; [assumption|]). split; [|assumption].
      intros c Hc. apply in_app_or in Hc. destruct Hc as [Hc|[<-|[]]]; [apply I4; exact Hc|].
      cbn. right. exists (rcur s), e, p. split; [exact I1|apply getDest_leads; exact E].
    + repeat (split; [assumption|]); assumption.
  - destruct (existsb is_tested (rcalls s)); [discriminate|].
    destruct (nth_error (rcalls s) i) as [[d|d w]|] eqn:E; try discriminate.
    inversion H; subst. unfold race_inv; cbn. do 3 (split; [assumption|]). split; [|assumption].
    intros c Hc. apply set_nth_in in Hc. destruct Hc as [->|Hc]; [|apply I4; exact Hc].
    cbn. apply (I4 (Read d)). eapply nth_error_In; eauto.
  - destruct (nth_error (rcalls s) i) as [[d|d w]|] eqn:E; try discriminate.
    inversion H; subst. unfold race_inv; cbn. do 2 (split; [assumption|]). split; [|split; [|assumption]].
    + destruct w; [|assumption]. apply (I4 (Tested d true)). eapply nth_error_In; eauto.
    + intros c Hc. apply I4. eapply del_nth_in; eauto.
  - inversion H; subst. unfold race_inv; cbn.
    split; [left; reflexivity|]. split; [apply justified_mono; exact I3|].
    split; [apply justified_mono; exact I3|]. split.
    + intros c Hc; apply justified_mono; auto.
    + intros d [<-|Hd]; apply justified_mono; auto.
Qed.

Lemma race_seen_justified : forall h entry os s,
  rruns h (rinit entry) os = Some s ->
  forall d, In d (rseen s) -> justified h entry (rseen s) d.
Proof.
  intros h entry os s.
  assert (G : forall os s0, race_inv h entry s0 -> rruns h s0 os = Some s -> race_inv h entry s).
  { clear os. intros os; induction os as [|o os IH]; intros s0 I H; cbn in H.
    - inversion H; subst; exact I.
    - destruct (rstep h s0 o) as [s1|] eqn:E; [|discriminate].
      eapply IH; [eapply race_step_inv; eauto|exact H]. }
  intros H. apply (G os (rinit entry)); [|exact H].
  unfold race_inv, rinit; cbn. split; [auto|]. split; [left; reflexivity|]. split; [left; reflexivity|].
  split; [intros c []|]. intros d [<-|[]]; left; reflexivity.
Qed.
