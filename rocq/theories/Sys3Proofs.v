(** Proofs about SystemTest3. *)
From Verif Require Import Prelude SafetyModel Sys3Model Sys3Spec.
Local Open Scope Z_scope.

Definition mksys (c n : lref) (f : lref -> Z) : sys := {| cur := Some c; nxt := Some n; nact := f |}.
Definition lv (id : Z) (t : list (evid * (lref * bool))) (a : bool) : level :=
  {| lid := id; ltrans := t; lin := []; lout := []; lact := a |}.
Lemma H_0 : H 0%nat = lv 0 [(0, (1%nat, true))] true. Proof. vm_compute. reflexivity. Qed.
Lemma H_1 : H 1%nat = lv 1 [(1, (0%nat, false))] false. Proof. vm_compute. reflexivity. Qed.

Lemma trig_up : forall s f, ss s = mksys 0 0 f -> trig evUp true s = Ok (w_ss (mksys 0 1 (upd f 1%nat 0)) s).
Proof. intros s f E. unfold trig. rewrite E. unfold mksys, triggerEvent. cbn [cur nxt nact]. rewrite H_0. reflexivity. Qed.
Lemma trig_reset : forall s f, ss s = mksys 1 1 f -> trig evReset false s = Ok (w_ss (mksys 1 0 (upd f 0%nat 0)) s).
Proof. intros s f E. unfold trig. rewrite E. unfold mksys, triggerEvent. cbn [cur nxt nact]. rewrite H_1. reflexivity. Qed.

(** Levels, threads and the flag of the checker. *)
Definition ok (c n : lref) (q : spc) (p : tpc) (fd : bool) : Prop :=
  match c, n with
  | O, O => q <> SReset /\ p <> TK2
  | O, S O => p <> TK2 /\ (q = SReset \/ (q = SEnd /\ fd = false /\ p <> TK3))
  | S O, S O => fd = false /\ p <> TK3 /\ (q = SIdle \/ q = SEnd)
  | S O, O => p <> TK2 /\ (fd = true \/ p = TK3) /\ (q = SIdle \/ q = SEnd)
  | _, _ => False
  end /\ (held p = true -> fd = false).

Definition inv (s : st) : Prop := exists c n f, ss s = mksys c n f /\ ok c n (sp s) (tp s) (fired s).

Lemma ok_cases : forall c n q p fd, ok c n q p fd ->
  (c = 0 /\ n = 0 \/ c = 0 /\ n = 1 \/ c = 1 /\ n = 1 \/ c = 1 /\ n = 0)%nat.
Proof.
  intros [|[|c]] [|[|n]] q p fd [K _]; cbn in K; try contradiction; auto.
Qed.

Ltac go := repeat match goal with
  | |- _ /\ _ => split
  | |- _ <> _ => discriminate
  end; auto; try discriminate; try congruence.

Lemma inv_td : forall s s', inv s -> td s = Ok s' -> inv s'.
Proof.
  intros s s' (c & n & f & E & K) T. assert (W := ok_cases _ _ _ _ _ K). destruct K as [K Hd]. unfold td in T.
  destruct (tp s) eqn:P.
  - injection T as <-. exists c, n, f. split; [exact E|]. cbn.
    destruct W as [[-> ->]|[[-> ->]|[[-> ->]|[-> ->]]]]; unfold ok; cbn in K |- *; intuition (try discriminate; auto).
  - injection T as <-. exists c, n, f. split; [exact E|]. cbn.
    destruct W as [[-> ->]|[[-> ->]|[[-> ->]|[-> ->]]]]; unfold ok; cbn in K |- *; intuition (try discriminate; auto).
  - injection T as <-. exists c, n, f. split; [exact E|]. cbn.
    destruct W as [[-> ->]|[[-> ->]|[[-> ->]|[-> ->]]]]; unfold ok; cbn in K |- *; intuition (try discriminate; auto).
  - injection T as <-. exists c, n, f. split; [exact E|]. cbn.
    destruct W as [[-> ->]|[[-> ->]|[[-> ->]|[-> ->]]]]; unfold ok; cbn in K |- *; intuition (try discriminate; auto).
  - injection T as <-. exists c, n, f. split; [exact E|]. cbn. destruct (fired s); cbn;
    [|destruct (exceeded (iout s)); cbn];
    destruct W as [[-> ->]|[[-> ->]|[[-> ->]|[-> ->]]]]; unfold ok; cbn in K |- *; intuition (try discriminate; auto).
  - injection T as <-. exists c, n, f. split; [exact E|]. cbn. unfold level_is. rewrite E. cbn [cur mksys].
    destruct W as [[-> ->]|[[-> ->]|[[-> ->]|[-> ->]]]]; unfold ok; cbn in K |- *; intuition (try discriminate; auto; try congruence).
  - assert (c = 1%nat /\ n = 1%nat) as [-> ->].
    { destruct W as [[-> ->]|[[-> ->]|[[-> ->]|[-> ->]]]]; cbn in K; intuition congruence. }
    rewrite (trig_reset s f E) in T. injection T as <-. exists 1%nat, 0%nat, (upd f 0%nat 0). split; [reflexivity|]. unfold ok; cbn in K |- *.
    intuition (try discriminate; auto).
  - injection T as <-. exists c, n, f. split; [exact E|]. cbn.
    destruct W as [[-> ->]|[[-> ->]|[[-> ->]|[-> ->]]]]; unfold ok; cbn in K |- *; intuition (try discriminate; auto; try congruence).
Qed.

Lemma adopt_mk : forall c n f, adopt (mksys c n f) = mksys n n f.
Proof. reflexivity. Qed.

Lemma inv_safe : forall s s', inv s -> safe s = Ok s' -> inv s'.
Proof.
  intros s s' (c & n & f & E & K) T. assert (W := ok_cases _ _ _ _ _ K). destruct K as [K Hd]. unfold safe in T.
  destruct (sp s) eqn:P.
  - rewrite E, adopt_mk in T. cbn [cur mksys nxt nact] in T.
    destruct W as [[-> ->]|[[-> ->]|[[-> ->]|[-> ->]]]]; rewrite ?H_0, ?H_1 in T; cbn -[upd] in T; injection T as <-;
      cbn in K; (eexists _, _, _; split; [reflexivity|]); unfold ok; cbn; intuition (try discriminate; auto; try congruence).
  - assert (c = 0%nat /\ n = 0%nat) as [-> ->].
    { destruct W as [[-> ->]|[[-> ->]|[[-> ->]|[-> ->]]]]; cbn in K; intuition congruence. }
    injection T as <-. exists 0%nat, 0%nat, f. split; [exact E|]. unfold ok; cbn in K |- *. destruct (long_enough n0);
    intuition (try discriminate; auto).
  - assert (c = 0%nat /\ n = 0%nat) as [-> ->].
    { destruct W as [[-> ->]|[[-> ->]|[[-> ->]|[-> ->]]]]; cbn in K; intuition congruence. }
    rewrite (trig_up s f E) in T. injection T as <-. exists 0%nat, 1%nat, (upd f 1%nat 0). split; [reflexivity|]. unfold ok; cbn in K |- *.
    intuition (try discriminate; auto).
  - assert (c = 0%nat /\ n = 1%nat) as [-> ->].
    { destruct W as [[-> ->]|[[-> ->]|[[-> ->]|[-> ->]]]]; cbn in K; intuition congruence. }
    injection T as <-. exists 0%nat, 1%nat, f. cbn in K. destruct (held (tp s)) eqn:Hh.
    + split; [exact E|]. unfold ok. cbn. rewrite P, Hh. intuition.
    + split; [exact E|]. unfold ok. cbn. rewrite Hh. intuition (try discriminate; auto). right. split; [auto|]. split; [auto|].
      intros Q. rewrite Q in Hh. discriminate.
  - rewrite E, adopt_mk in T. injection T as <-. exists n, n, f. split; [reflexivity|]. cbn.
    destruct W as [[-> ->]|[[-> ->]|[[-> ->]|[-> ->]]]]; unfold ok; cbn in K |- *; intuition (try discriminate; auto; try congruence).
Qed.

Lemma inv_step : forall l s s', inv s -> step l s = Ok s' -> inv s'.
Proof.
  intros [| |d] s s' I E; cbn in E; [apply (inv_td s), E; exact I|apply (inv_safe s), E; exact I|].
  injection E as <-. destruct I as (c & n & f & A & B). exists c, n, f. split; [exact A|exact B].
Qed.

Lemma set_props : forall n0 x, setProperties test_props n0 = Ok (Some x) -> x = mksys 0 0 (upd n0 0%nat 0).
Proof.
  intros n0 x E. assert (K : setProperties test_props n0 = Ok (Some (mksys 0 0 (upd n0 0%nat 0)))) by (vm_compute; reflexivity).
  congruence.
Qed.

Lemma inv_initial : forall s, initial s -> inv s.
Proof.
  intros s (n0 & s0 & t & E & _ & ->). apply set_props in E as ->. exists 0%nat, 0%nat, (upd n0 0%nat 0). split; [reflexivity|].
  unfold ok. cbn. intuition discriminate.
Qed.

Lemma inv_steps : forall ls s s', inv s -> steps ls s = Ok s' -> inv s'.
Proof.
  induction ls as [|l ls IH]; intros s s' A E; cbn in E; [injection E as <-; exact A|].
  destruct (step l s) as [s1| |] eqn:S; try discriminate. apply (IH s1); [apply (inv_step l s); assumption|exact E].
Qed.
Lemma inv_reach : forall s, reach s -> inv s.
Proof. intros s (s0 & ls & I & E). apply (inv_steps ls s0); [apply inv_initial, I|exact E]. Qed.

(** The checker is armed in every ramp that is not over. *)
Lemma armed : forall s, reach s -> level_at s slRamp -> next_is s slRamp -> fired s = false.
Proof.
  intros s R C N. apply inv_reach in R as (c & n & f & E & K). unfold level_at, next_is in *. rewrite E in C, N.
  injection C as ->. injection N as ->. destruct K as [(K & _) _]. exact K.
Qed.

(** What it reports leads back to the level start at the next step of the safety system, and nothing else does. *)
Lemma fires : forall s s', reach s -> tp s = TK2 -> step LTd s = Ok s' -> level_at s slRamp /\ level_at s' slRamp /\ next_is s' slStart.
Proof.
  intros s s' R P E. apply inv_reach in R as (c & n & f & S & K). assert (W := ok_cases _ _ _ _ _ K). rewrite P in K.
  assert (c = 1%nat /\ n = 1%nat) as [-> ->].
  { destruct W as [[-> ->]|[[-> ->]|[[-> ->]|[-> ->]]]]; destruct K as [K _]; cbn in K; intuition congruence. }
  cbn in E. unfold td in E. rewrite P, (trig_reset s f S) in E. injection E as <-. unfold level_at, next_is. rewrite S. auto.
Qed.

Lemma back : forall s s', reach s -> level_at s slRamp -> next_is s slStart -> step LSafe s = Ok s' -> level_at s' slStart /\ next_is s' slStart.
Proof.
  intros s s' R C N E. apply inv_reach in R as (c & n & f & S & K). unfold level_at, next_is in *. rewrite S in C, N.
  injection C as ->. injection N as ->. destruct K as [(_ & _ & Q) _]. cbn in E. unfold safe in E. rewrite S, adopt_mk in E.
  destruct Q as [Q|Q]; rewrite Q in E; cbn -[upd] in E.
  - injection E as <-. auto.
  - injection E as <-. auto.
Qed.

(* "reported" means: the value was outside in a run that found the checker armed *)
Lemma caught : forall s s', reach s -> level_at s slRamp -> next_is s slRamp -> tp s = TK0 -> exceeded (iout s) = true ->
  steps [LTd; LTd; LTd] s = Ok s' -> next_is s' slStart.
Proof.
  intros s s' R C N P X E. assert (F := armed s R C N). apply inv_reach in R as (c & n & f & S & K).
  unfold level_at, next_is in *. rewrite S in C, N. injection C as ->. injection N as ->.
  cbn [steps step bind] in E. unfold td in E at 1. rewrite P, F, X in E. cbn [negb andb bind] in E.
  unfold td in E at 1. cbn [tp tgo] in E. unfold level_is in E. cbn [ss tgo] in E. rewrite S in E. cbn [cur mksys slRamp Nat.eqb bind] in E.
  unfold td in E. cbn [tp tgo] in E. erewrite (trig_reset _ f) in E by (cbn; exact S). cbn in E. injection E as <-. reflexivity.
Qed.

(** ** The integrator, when some cycle finds the time domain idle *)
Definition times (s : st) : Prop := iprevt s <= src s <= clk s /\ match tp s with TI2 _ t => t = src s | _ => True end.
Definition zero (s : st) : Prop := iprev s = Some 0 /\
  match tp s with
  | TI1 en => en = false
  | TI2 v _ => v = Some 0
  | TK0 => iout s = Some 0
  | TK1 | TK2 | TK3 => False
  | _ => True
  end.
Definition ramp (s : st) (t : Z) : Prop := exists v, iprev s = Some v /\ 0 <= v <= iprevt s - t /\
  match tp s with
  | TI2 x _ => exists u, x = Some u /\ 0 <= u <= src s - t
  | TK0 => iout s = Some v
  | TK1 | TK2 => iout s = Some v /\ upper <= v
  | _ => True
  end.
Definition ginv (s : st) (b : bool) (t : Z) : Prop := times s /\
  exists c n f, ss s = mksys c n f /\ ok c n (sp s) (tp s) (fired s) /\
  match c, n with
  | O, O => b = true -> zero s
  | O, _ => b = true /\ zero s
  | _, _ => ramp s t
  end.

Lemma g_td : forall s s' b t, ginv s b t -> td s = Ok s' ->
  ginv s' (if at_level s slRamp && at_level s' slStart then false else b || false) (if at_level s slStart && at_level s' slRamp then iprevt s else t).
Proof.
  intros s s' b t ((T1 & T2) & c & n & f & E & K & G) T.
  assert (IV : inv s') by (apply (inv_td s); [exists c, n, f; auto|exact T]).
  assert (W := ok_cases _ _ _ _ _ K).
  assert (CN : cur (ss s') = Some c).
  { unfold td in T. destruct (tp s) eqn:P; try (injection T as <-; cbn; rewrite E; reflexivity).
    assert (c = 1%nat /\ n = 1%nat) as [-> ->].
    { destruct W as [[-> ->]|[[-> ->]|[[-> ->]|[-> ->]]]]; destruct K as [K _]; cbn in K; intuition congruence. }
    rewrite (trig_reset s f E) in T. injection T as <-. reflexivity. }
  assert (A1 : at_level s slRamp && at_level s' slStart = false).
  { unfold at_level. rewrite E, CN. cbn [cur mksys]. destruct c as [|[|c]]; reflexivity. }
  assert (A2 : at_level s slStart && at_level s' slRamp = false).
  { unfold at_level. rewrite E, CN. cbn [cur mksys]. destruct c as [|[|c]]; reflexivity. }
  rewrite A1, A2, orb_false_r.
  assert (TM : times s').
  { unfold td in T. unfold times. destruct (tp s) eqn:P; try (injection T as <-; cbn; split; [lia|auto]).
    - destruct (_ && _); exact Logic.I.
    - destruct (level_is s slRamp); exact Logic.I.
    - destruct (trig evReset false s) as [x| |] eqn:Q; try discriminate. injection T as <-. unfold trig in Q.
      destruct (triggerEvent _ _ _ _); try discriminate. injection Q as <-. cbn. auto. }
  split; [exact TM|].
  destruct IV as (c' & n' & f' & E' & K'). exists c', n', f'. split; [exact E'|]. split; [exact K'|].
  rewrite E' in CN. injection CN as ->.
  assert (NN : n' = n \/ (c = 1%nat)).
  { unfold td in T. destruct (tp s) eqn:P; try (injection T as <-; cbn in E'; rewrite E in E'; injection E' as <-; auto).
    right. destruct W as [[-> ->]|[[-> ->]|[[-> ->]|[-> ->]]]]; destruct K as [K _]; cbn in K; intuition congruence. }
  destruct W as [[-> ->]|[[-> ->]|[[-> ->]|[-> ->]]]].
  - destruct NN as [->|NN]; [|discriminate]. intros B. specialize (G B). destruct G as [G1 G2].
    unfold td in T. destruct (tp s) eqn:P; try contradiction; injection T as <-; cbn.
    + split; [exact G1|exact Logic.I].
    + unfold level_is. rewrite E. split; [exact G1|reflexivity].
    + split; [exact G1|]. cbn. unfold integrated. rewrite G1, G2. reflexivity.
    + split; [cbn; exact G2|exact G2].
    + rewrite G2. cbn. rewrite andb_false_r. split; [exact G1|exact Logic.I].
  - destruct NN as [->|NN]; [|discriminate]. destruct G as (B & G1 & G2). split; [exact B|].
    unfold td in T. destruct (tp s) eqn:P; try contradiction; injection T as <-; cbn.
    + split; [exact G1|exact Logic.I].
    + unfold level_is. rewrite E. split; [exact G1|reflexivity].
    + split; [exact G1|]. cbn. unfold integrated. rewrite G1, G2. reflexivity.
    + split; [cbn; exact G2|exact G2].
    + rewrite G2. cbn. rewrite andb_false_r. split; [exact G1|exact Logic.I].
  - destruct G as (v & G1 & G2 & G3). cut (ramp s' t). { intros X. destruct n' as [|[|n']]; exact X. } unfold td in T. destruct (tp s) eqn:P.
    + injection T as <-. exists v. cbn. auto.
    + injection T as <-. exists v. cbn. auto.
    + injection T as <-. exists v. cbn. split; [exact G1|]. split; [exact G2|]. unfold integrated. rewrite G1. eexists. split; [reflexivity|].
      destruct (ifirst s), en; lia.
    + injection T as <-. destruct G3 as (u & -> & G3). subst t0. exists u. cbn. auto.
    + injection T as <-. exists v. cbn. split; [exact G1|]. split; [exact G2|].
      destruct (fired s); cbn; [exact Logic.I|]. rewrite G3. destruct (exceeded (Some v)) eqn:X; [|exact Logic.I].
      split; [reflexivity|]. unfold exceeded in X. apply negb_true_iff, andb_false_iff in X.
      destruct X as [X|X]; apply Z.ltb_ge in X; unfold lower, upper in *; lia.
    + injection T as <-. exists v. cbn. split; [exact G1|]. split; [exact G2|]. destruct (level_is s slRamp); [exact G3|exact Logic.I].
    + rewrite (trig_reset s f E) in T. injection T as <-. exists v. cbn. auto.
    + injection T as <-. exists v. cbn. auto.
  - destruct G as (v & G1 & G2 & G3). cut (ramp s' t). { intros X. destruct n' as [|[|n']]; exact X. } unfold td in T. destruct (tp s) eqn:P.
    + injection T as <-. exists v. cbn. auto.
    + injection T as <-. exists v. cbn. auto.
    + injection T as <-. exists v. cbn. split; [exact G1|]. split; [exact G2|]. unfold integrated. rewrite G1. eexists. split; [reflexivity|].
      destruct (ifirst s), en; lia.
    + injection T as <-. destruct G3 as (u & -> & G3). subst t0. exists u. cbn. auto.
    + injection T as <-. exists v. cbn. split; [exact G1|]. split; [exact G2|].
      destruct (fired s); cbn; [exact Logic.I|]. rewrite G3. destruct (exceeded (Some v)) eqn:X; [|exact Logic.I].
      split; [reflexivity|]. unfold exceeded in X. apply negb_true_iff, andb_false_iff in X.
      destruct X as [X|X]; apply Z.ltb_ge in X; unfold lower, upper in *; lia.
    + injection T as <-. exists v. cbn. split; [exact G1|]. split; [exact G2|]. destruct (level_is s slRamp); [exact G3|exact Logic.I].
    + exfalso. destruct K as [K _]. cbn in K. destruct K as [K _]. congruence.
    + injection T as <-. exists v. cbn. auto.
Qed.

Lemma zero_ramp : forall s, times s -> zero s -> ramp s (iprevt s).
Proof.
  intros s [T _] [Z1 Z2]. exists 0. split; [exact Z1|]. split; [lia|]. destruct (tp s); auto; try contradiction.
  exists 0. split; [exact Z2|lia].
Qed.

Lemma g_safe : forall s s' b t, ginv s b t -> (sp s = STrig -> b = true) -> safe s = Ok s' ->
  ginv s' (if at_level s slRamp && at_level s' slStart then false else b || clean LSafe s)
          (if at_level s slStart && at_level s' slRamp then iprevt s else t).
Proof.
  intros s s' b t (TM & c & n & f & E & K & G) Al T.
  assert (IV : inv s') by (apply (inv_safe s); [exists c, n, f; auto|exact T]).
  assert (W := ok_cases _ _ _ _ _ K).
  assert (TM' : times s').
  { unfold safe in T. destruct (sp s) eqn:P.
    - rewrite E, adopt_mk in T. cbn [cur mksys] in T. injection T as <-. exact TM.
    - injection T as <-. exact TM.
    - unfold trig in T. destruct (triggerEvent _ _ _ _); try discriminate. injection T as <-. exact TM.
    - injection T as <-. destruct (held (tp s)); exact TM.
    - injection T as <-. exact TM. }
  split; [exact TM'|]. destruct IV as (c' & n' & f' & E' & K'). exists c', n', f'. split; [exact E'|]. split; [exact K'|]. clear K'.
  unfold at_level. rewrite E, E'. cbn [cur mksys].
  unfold safe in T. unfold clean. destruct (sp s) eqn:P.
  - rewrite E, adopt_mk in T. cbn [cur mksys nxt nact] in T. rewrite orb_false_r.
    destruct W as [[-> ->]|[[-> ->]|[[-> ->]|[-> ->]]]]; injection T as <-; cbn in E'; injection E' as <- <- <-; cbn.
    + exact G.
    + exfalso. destruct K as [K _]. cbn in K. intuition congruence.
    + exact G.
    + intros Q. discriminate.
  - assert (c = 0%nat /\ n = 0%nat) as [-> ->].
    { destruct W as [[-> ->]|[[-> ->]|[[-> ->]|[-> ->]]]]; destruct K as [K _]; cbn in K; intuition congruence. }
    injection T as <-. cbn in E'. rewrite E in E'. injection E' as <- <- <-. cbn. intros B.
    destruct (tp s) eqn:Q; try (rewrite orb_false_r in B; specialize (G B); destruct G as [G1 G2]; split; [reflexivity|]; cbn; rewrite Q in *; exact G2).
    split; [reflexivity|]. cbn. rewrite Q. exact Logic.I.
  - assert (c = 0%nat /\ n = 0%nat) as [-> ->].
    { destruct W as [[-> ->]|[[-> ->]|[[-> ->]|[-> ->]]]]; destruct K as [K _]; cbn in K; intuition congruence. }
    rewrite (trig_up s f E) in T. injection T as <-. cbn in E'. injection E' as <- <- <-. cbn. rewrite (Al eq_refl) in *. split; [reflexivity|apply G; reflexivity].
  - assert (c = 0%nat /\ n = 1%nat) as [-> ->].
    { destruct W as [[-> ->]|[[-> ->]|[[-> ->]|[-> ->]]]]; destruct K as [K _]; cbn in K; intuition congruence. }
    injection T as <-. assert (D : ss (if held (tp s) then s else sgo SEnd (w_fired false s)) = ss s) by (destruct (held (tp s)); reflexivity).
    rewrite D, E in E'. injection E' as <- <- <-. cbn. destruct G as [-> G]. split; [reflexivity|]. destruct (held (tp s)); exact G.
  - rewrite E, adopt_mk in T. injection T as <-. cbn in E'. injection E' as <- <- <-. rewrite orb_false_r.
    destruct W as [[-> ->]|[[-> ->]|[[-> ->]|[-> ->]]]]; cbn.
    + exact G.
    + apply (zero_ramp s TM), G.
    + exact G.
    + intros Q. discriminate.
Qed.

Lemma g_run : forall s b t, run_g s b t -> ginv s b t.
Proof.
  intros s b t R. induction R as [s I|l s s' b t R IH Al E].
  - assert (V := inv_initial s I). destruct I as (n0 & s0 & t & E & T & ->). apply set_props in E as ->. split; [unfold times; cbn; split; [lia|exact Logic.I]|].
    exists 0%nat, 0%nat, (upd n0 0%nat 0). split; [reflexivity|]. split; [unfold ok; cbn; intuition discriminate|]. intros Q. discriminate.
  - destruct l as [| |d]; cbn in E.
    + apply (g_td s s' b t IH E).
    + apply (g_safe s s' b t IH (Al eq_refl) E).
    + injection E as <-. assert (A : at_level s slRamp && at_level (w_clk (clk s + Z.pos d) s) slStart = false).
      { unfold at_level. cbn [ss w_clk]. destruct (cur (ss s)) as [[|[|]]|]; reflexivity. }
      assert (A' : at_level s slStart && at_level (w_clk (clk s + Z.pos d) s) slRamp = false).
      { unfold at_level. cbn [ss w_clk]. destruct (cur (ss s)) as [[|[|]]|]; reflexivity. }
      rewrite A, A'. cbn [clean]. rewrite orb_false_r. destruct IH as ((T1 & T2) & c & n & f & S & K & G). split.
      * split; [cbn; lia|exact T2].
      * exists c, n, f. split; [exact S|]. split; [exact K|exact G].
Qed.

Lemma from_zero : forall s b t s', run_g s b t -> level_at s slStart -> step LSafe s = Ok s' -> level_at s' slRamp ->
  iprev s' = Some 0 /\ fired s' = false /\ match tp s' with TI2 v _ => v = Some 0 | TK1 | TK2 | TK3 => False | _ => True end.
Proof.
  intros s b t s' R C E C'. apply g_run in R as (_ & c & n & f & S & K & G). unfold level_at in *. rewrite S in C. injection C as ->.
  assert (W := ok_cases _ _ _ _ _ K). cbn in E. unfold safe in E. destruct (sp s) eqn:P.
  - exfalso. rewrite S, adopt_mk in E. cbn [cur mksys nxt nact] in E. destruct W as [[_ ->]|[[_ ->]|[[Q _]|[Q _]]]]; try discriminate.
    + injection E as <-. discriminate.
    + destruct K as [K _]. cbn in K. intuition congruence.
  - exfalso. injection E as <-. cbn in C'. rewrite S in C'. discriminate.
  - exfalso. destruct W as [[_ ->]|[[_ ->]|[[Q _]|[Q _]]]]; try discriminate; [|destruct K as [K _]; cbn in K; intuition congruence].
    rewrite (trig_up s f S) in E. injection E as <-. discriminate.
  - exfalso. injection E as <-. destruct (held (tp s)); cbn in C'; rewrite S in C'; discriminate.
  - rewrite S, adopt_mk in E. injection E as <-. cbn in C'. injection C' as ->. destruct G as (_ & G1 & G2).
    destruct K as [(_ & [K|(_ & K & _)]) _]; [discriminate|]. cbn. split; [exact G1|]. split; [exact K|].
    destruct (tp s); auto.
Qed.

Lemma ten_seconds : forall s b t, run_g s b t -> tp s = TK2 -> exists v, iout s = Some v /\ upper <= v <= iprevt s - t.
Proof.
  intros s b t R P. apply g_run in R as (_ & c & n & f & S & K & G). assert (W := ok_cases _ _ _ _ _ K). rewrite P in K.
  assert (c = 1%nat /\ n = 1%nat) as [-> ->].
  { destruct W as [[-> ->]|[[-> ->]|[[-> ->]|[-> ->]]]]; destruct K as [K _]; cbn in K; intuition congruence. }
  destruct G as (v & G1 & G2 & G3). rewrite P in G3. exists v. split; [tauto|lia].
Qed.

(** ** Concrete executions *)
Fixpoint grun (ls : list label) (s : st) (b : bool) (t : Z) : option (st * bool * Z) :=
  match ls with
  | [] => Some (s, b, t)
  | l :: ls =>
    if match l, sp s with LSafe, STrig => b | _, _ => true end then
      match step l s with
      | Ok s' => grun ls s' (if at_level s slRamp && at_level s' slStart then false else b || clean l s)
                            (if at_level s slStart && at_level s' slRamp then iprevt s else t)
      | _ => None
      end
    else None
  end.
Lemma grun_ok : forall ls s b t s' b' t', run_g s b t -> grun ls s b t = Some (s', b', t') -> run_g s' b' t'.
Proof.
  induction ls as [|l ls IH]; intros s b t s' b' t' R E; cbn in E; [injection E as <- <- <-; exact R|].
  destruct (match l, sp s with LSafe, STrig => b | _, _ => true end) eqn:A; [|discriminate].
  destruct (step l s) as [x| |] eqn:X; try discriminate. refine (IH _ _ _ _ _ _ _ E). refine (g_step l s x b t R _ X).
  intros -> Q. rewrite Q in A. exact A.
Qed.

Lemma steps_app : forall a b s, steps (a ++ b) s = bind (steps a s) (steps b).
Proof. induction a as [|l a IH]; intros b s; cbn; [reflexivity|]. destruct (step l s); cbn; [apply IH|reflexivity|reflexivity]. Qed.
Lemma reach_steps : forall s ls s', reach s -> steps ls s = Ok s' -> reach s'.
Proof. intros s ls s' (s0 & l0 & I & E) F. exists s0, (l0 ++ ls). split; [exact I|]. rewrite steps_app, E. exact F. Qed.

Definition mk (f : lref -> Z) (q : spc) (fi : bool) (ip : option Z) (p : tpc) : st :=
  {| ss := mksys 0 0 f; clk := 0; src := 0; ifirst := fi; iprev := ip; iprevt := 0; iout := None; fired := false; tp := p; sp := q |}.

Lemma cyc_begin : forall f fi ip p, step LSafe (mk f SIdle fi ip p) = Ok (mk (upd f 0%nat (u32 (f 0%nat + 1))) (SSet (u32 (f 0%nat + 1))) fi ip p).
Proof. reflexivity. Qed.
Lemma cyc_short : forall f n fi ip p, long_enough n = false -> steps [LSafe; LSafe] (mk f (SSet n) fi ip p) = Ok (mk f SIdle fi (Some 0) p).
Proof. intros f n fi ip p E. cbn [steps bind step safe sp mk]. rewrite E. reflexivity. Qed.

Lemma u32_small : forall k, 0 <= k < 1000 -> u32 k = k.
Proof. intros k B. unfold u32. apply Z.mod_small. lia. Qed.

Lemma initial_mk : exists f, f 0%nat = 0 /\ initial (mk f SIdle true None TC).
Proof.
  exists (upd (fun _ => 0) 0%nat 0). split; [reflexivity|]. exists (fun _ => 0), (mksys 0 0 (upd (fun _ => 0) 0%nat 0)), 0.
  split; [vm_compute; reflexivity|]. split; [lia|reflexivity].
Qed.

(** [p] is where the time domain has stopped. *)
Lemma stays : forall p fi (k : nat), (k <= 300)%nat -> (exists f, f 0%nat = 0 /\ reach (mk f SIdle fi None p)) ->
  exists f ip, f 0%nat = Z.of_nat k /\ reach (mk f SIdle fi ip p).
Proof.
  intros p fi k B (f0 & F0 & R0). induction k as [|k IH].
  - exists f0, None. split; [exact F0|exact R0].
  - destruct IH as (f & ip & F & R); [lia|]. exists (upd f 0%nat (Z.of_nat (S k))), (Some 0). split; [reflexivity|].
    apply (reach_steps _ [LSafe; LSafe; LSafe] _ R). change [LSafe; LSafe; LSafe] with ([LSafe] ++ [LSafe; LSafe]). rewrite steps_app.
    cbn [steps]. rewrite cyc_begin. cbn [bind]. rewrite F.
    replace (u32 (Z.of_nat k + 1)) with (Z.of_nat (S k)) by (rewrite u32_small; lia).
    apply cyc_short. unfold long_enough. apply Z.ltb_ge. lia.
Qed.

(** The time domain has read prev before the first setInitCondition and goes on after the last one. *)
Lemma overtaken : exists f ip, f 0%nat = 300 /\ reach (mk f SIdle false ip (TI2 None 0)).
Proof.
  apply (stays (TI2 None 0) false 300 (le_n _)). destruct initial_mk as (f & F & I). exists f. split; [exact F|].
  exists (mk f SIdle true None TC), [LTd; LTd; LTd]. split; [exact I|]. reflexivity.
Qed.

Lemma late : forall f ip, f 0%nat = 300 -> exists s, steps [LSafe; LSafe; LTd; LSafe; LSafe; LSafe] (mk f SIdle false ip (TI2 None 0)) = Ok s /\
  level_at s slRamp /\ next_is s slRamp /\ iprev s = None /\ iout s = None /\ tp s = TK0 /\ fired s = false.
Proof.
  intros f ip F. change [LSafe; LSafe; LTd; LSafe; LSafe; LSafe] with ([LSafe] ++ [LSafe; LTd; LSafe; LSafe; LSafe]). rewrite steps_app.
  cbn [steps]. rewrite cyc_begin. cbn [bind]. rewrite F. eexists. split; [vm_compute; reflexivity|]. repeat split.
Qed.

Lemma nan_ramp : exists s s', reach s /\ level_at s slStart /\ step LSafe s = Ok s' /\ level_at s' slRamp /\ iprev s' = None.
Proof.
  destruct overtaken as (f & ip & F & R).
  assert (X : exists s, steps [LSafe; LSafe; LTd; LSafe; LSafe] (mk f SIdle false ip (TI2 None 0)) = Ok s /\
    level_at s slStart /\ exists s', step LSafe s = Ok s' /\ level_at s' slRamp /\ iprev s' = None).
  { change [LSafe; LSafe; LTd; LSafe; LSafe] with ([LSafe] ++ [LSafe; LTd; LSafe; LSafe]). rewrite steps_app.
    cbn [steps]. rewrite cyc_begin. cbn [bind]. rewrite F. eexists. split; [vm_compute; reflexivity|]. split; [reflexivity|].
    eexists. split; [vm_compute; reflexivity|]. split; reflexivity. }
  destruct X as (s & E & C & s' & X). exists s, s'. split; [exact (reach_steps _ _ _ R E)|]. tauto.
Qed.

Lemma nan_reset : exists s, reach s /\ tp s = TK2 /\ iout s = None.
Proof.
  destruct overtaken as (f & ip & F & R). destruct (late f ip F) as (s & E & C & N & A & B & P & D).
  apply (reach_steps _ _ _ R) in E. destruct s; cbn in *. subst. unfold level_at in C. cbn in C.
  eexists. split; [apply (reach_steps _ [LTd; LTd] _ E); cbn; unfold td; cbn; unfold level_is; cbn; rewrite C; reflexivity|].
  split; reflexivity.
Qed.

(** A ramp as intended. *)
Lemma gstays : forall k : nat, (k <= 300)%nat -> exists f ip b, f 0%nat = Z.of_nat k /\ run_g (mk f SIdle true ip TC) b 0.
Proof.
  induction k as [|k IH]; intros B.
  - destruct initial_mk as (f & F & I). exists f, None, false. split; [exact F|]. apply g_start, I.
  - destruct IH as (f & ip & b & F & R); [lia|]. exists (upd f 0%nat (Z.of_nat (S k))), (Some 0), true. split; [reflexivity|].
    refine (grun_ok [LSafe; LSafe; LSafe] _ _ _ _ _ _ R _). cbn -[u32 Z.of_nat]. rewrite F.
    replace (u32 (Z.of_nat k + 1)) with (Z.of_nat (S k)) by (rewrite u32_small; lia).
    assert (L : long_enough (Z.of_nat (S k)) = false) by (unfold long_enough; apply Z.ltb_ge; lia). rewrite L.
    cbn -[u32 Z.of_nat]. rewrite !orb_false_r, orb_true_r. reflexivity.
Qed.

Lemma gramp : exists s b s', run_g s b 0 /\ level_at s slStart /\ step LSafe s = Ok s' /\ level_at s' slRamp /\ tp s' = TC.
Proof.
  destruct (gstays 300 (le_n _)) as (f & ip & b & F & R).
  assert (X : exists s, grun [LSafe; LSafe; LSafe; LSafe] (mk f SIdle true ip TC) b 0 = Some (s, true, 0) /\ level_at s slStart /\
    exists s', step LSafe s = Ok s' /\ level_at s' slRamp /\ tp s' = TC).
  { cbn -[u32 grun upd]. cbn [grun]. cbn -[u32 grun upd]. rewrite F. change (u32 (300 + 1)) with 301.
    rewrite orb_false_r. cbn -[upd]. rewrite orb_true_r. eexists. split; [cbn -[upd]; reflexivity|]. split; [reflexivity|].
    eexists. split; [reflexivity|]. split; reflexivity. }
  destruct X as (s & X & C & s' & Y). exists s, true, s'. split; [exact (grun_ok _ _ _ _ _ _ _ R X)|]. tauto.
Qed.

Lemma greset : exists s b, run_g s b 0 /\ tp s = TK2.
Proof.
  destruct (gstays 300 (le_n _)) as (f & ip & b & F & R).
  assert (X : exists s, grun ([LSafe; LSafe; LSafe; LSafe; LSafe] ++ repeat LTd 5 ++ [LTime 10000000000] ++ repeat LTd 6)
    (mk f SIdle true ip TC) b 0 = Some (s, true, 0) /\ tp s = TK2).
  { cbn [app repeat grun]. cbn -[u32 grun upd]. cbn [grun]. rewrite F. change (u32 (300 + 1)) with 301.
    rewrite orb_false_r. destruct b; (eexists; split; [vm_compute; reflexivity|reflexivity]). }
  destruct X as (s & X & P). exists s, true. split; [exact (grun_ok _ _ _ _ _ _ _ R X)|exact P].
Qed.

Lemma goes_on : forall s l, reach s -> exists s', step l s = Ok s'.
Proof.
  intros s l R. apply inv_reach in R as (c & n & f & E & K). assert (W := ok_cases _ _ _ _ _ K). destruct l as [| |d]; cbn.
  - unfold td. destruct (tp s) eqn:P; try (eexists; reflexivity).
    assert (c = 1%nat /\ n = 1%nat) as [-> ->].
    { destruct W as [[-> ->]|[[-> ->]|[[-> ->]|[-> ->]]]]; destruct K as [K _]; cbn in K; intuition congruence. }
    rewrite (trig_reset s f E). eexists; reflexivity.
  - unfold safe. destruct (sp s) eqn:P; try (eexists; reflexivity).
    + rewrite E, adopt_mk. cbn [cur mksys]. eexists; reflexivity.
    + assert (c = 0%nat /\ n = 0%nat) as [-> ->].
      { destruct W as [[-> ->]|[[-> ->]|[[-> ->]|[-> ->]]]]; destruct K as [K _]; cbn in K; intuition congruence. }
      rewrite (trig_up s f E). eexists; reflexivity.
  - eexists; reflexivity.
Qed.
Lemma caught_example : exists s, reach s /\ level_at s slRamp /\ next_is s slRamp /\ tp s = TK0 /\ exceeded (iout s) = true.
Proof.
  destruct overtaken as (f & ip & F & R). destruct (late f ip F) as (s & E & C & N & A & B & P & D).
  exists s. split; [exact (reach_steps _ _ _ R E)|]. rewrite B. auto.
Qed.
Lemma back_example : exists s, reach s /\ level_at s slRamp /\ next_is s slStart.
Proof.
  destruct nan_reset as (s & R & P & _). destruct (goes_on s LTd R) as (s' & E). exists s'.
  destruct (fires s s' R P E) as (_ & C & N). split; [|auto]. apply (reach_steps s [LTd] s' R). cbn in E |- *. rewrite E. reflexivity.
Qed.
