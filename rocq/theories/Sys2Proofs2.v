(** More proofs about SystemTest2. *)
From Verif Require Import Prelude SafetyModel SafetyActionModel Sys2Model Sys2Spec Sys2Proofs.
Local Open Scope Z_scope.

Ltac p1_case s T X c n f E Lc Ln :=
  destruct (Z.eq_dec (cnt s) 2147483647) as [X|X]; [unfold p1 in T; rewrite X in T; discriminate|];
  rewrite (p1_eq c n f s E Lc Ln X) in T; injection T as <-.

(** An initial state. *)
Lemma some_initial : exists s, initial s.
Proof.
  eexists. exists (fun _ => 0). eexists. eexists. split; [vm_compute; reflexivity|]. split; [|reflexivity].
  unfold triggerEvent. cbn [cur]. rewrite H_0. cbn -[upd]. reflexivity.
Qed.

(** ** Without interrupts there is no end *)
Definition free (s : st) : Prop := inv s /\ stopped s = false /\ exists c n f, ss s = mksys c n f /\ (2 <= n)%nat.
Lemma free_step : forall l s s', free s -> l <> LInt -> step l s = Ok s' -> free s'.
Proof.
  intros l s s' (I & D & c & n & f & E & L) N T. split; [apply (inv_step l s); assumption|].
  destruct I as (B & c' & n' & f' & E' & K). rewrite E in E'. injection E' as <- <- <-.
  assert (Q := pok_pair _ _ _ _ _ K). destruct (pair_le _ _ Q) as [Lc Ln].
  destruct l as [v| |]; cbn in T; [| |congruence].
  - rewrite (safe_eq v c n f s E Lc Ln) in T. injection T as <-. unfold safe'. destruct (sp s) eqn:P.
    + rewrite D. split; [exact D|]. exists n, n. eexists. split; [reflexivity|exact L].
    + split; [exact D|]. destruct Q, v; cbn in L |- *; try lia; (eexists _, _, _; split; [reflexivity|lia]).
    + destruct Q; cbn in L, K |- *; try lia; try (destruct (5 <? _)); cbn; try (split; [exact D|]; eexists _, _, _; split; [exact E|lia]).
      all: exfalso; intuition congruence.
    + unfold output_action. destruct (Nat.eqb c slRunning); cbn; (split; [exact D|]; exists c, n, f; auto).
    + split; [exact D|]. exists n, n, f. auto.
  - p1_case s T X c n f E Lc Ln. destruct (cnt s =? 5); cbn; (split; [exact D|]).
    + destruct Q; cbn in L |- *; try lia; (eexists _, _, _; split; [reflexivity|lia]).
    + exists c, n, f. auto.
Qed.
Lemma free_steps : forall ls s s', free s -> ~ In LInt ls -> steps ls s = Ok s' -> free s'.
Proof.
  induction ls as [|l ls IH]; intros s s' F N E; cbn in E; [injection E as <-; exact F|].
  destruct (step l s) as [s1| |] eqn:S; try discriminate. apply (IH s1); [|intros Q; apply N; right; exact Q|exact E].
  apply (free_step l s); [exact F|intros ->; apply N; left; reflexivity|exact S].
Qed.

Lemma interrupt_lost : exists s s1, reach s /\ step LInt s = Ok s1 /\
  forall ls s', ~ In LInt ls -> steps ls s1 = Ok s' -> stopped s' = false.
Proof.
  destruct some_initial as (s & I). exists s, s.
  assert (J := inv_initial s I). assert (A := I). apply initial_eq in A as (f & E & O & T & C & D & W & P).
  split; [exists s, []; split; [exact I|reflexivity]|]. split.
  - cbn. rewrite (trig_eq s 0 2 f evShutDown E) by (unfold evShutDown; lia). cbn. rewrite <- E. destruct s; reflexivity.
  - intros ls s' N F. assert (X : free s) by (split; [exact J|]; split; [exact D|]; exists 0%nat, 2%nat, f; auto).
    apply (free_steps ls s s' X N F).
Qed.
Lemma interrupt_example : exists s, reach s /\ ~ (level_at s slOff /\ next_is s slInitializing).
Proof.
  destruct some_initial as (s & I). assert (R : reach s) by (exists s, []; split; [exact I|reflexivity]).
  apply initial_eq in I as (f & E & O & T & C & D & W & P).
  destruct (safe_eq false 0 2 f s E) as []; [lia|lia|]. unfold safe' in *.
  eexists. split; [apply (reach_step s (LSafe false) _ R); cbn; rewrite (safe_eq false 0 2 f s E) by lia; reflexivity|].
  unfold safe'. rewrite P, D. unfold level_at. cbn. intros [Q _]. discriminate.
Qed.

(** ** The report of p1 *)
Definition early (s : st) : Prop := inv s /\ 6 <= cnt s /\ exists c n f, ss s = mksys c n f /\ (c <= 2)%nat /\ (n <= 2)%nat.
Lemma early_step : forall l s s', early s -> step l s = Ok s' -> early s'.
Proof.
  intros l s s' (I & C & c & n & f & E & L1 & L2) T. split; [apply (inv_step l s); assumption|].
  destruct I as (B & c' & n' & f' & E' & K). rewrite E in E'. injection E' as <- <- <-.
  assert (Q := pok_pair _ _ _ _ _ K). destruct (pair_le _ _ Q) as [Lc Ln].
  destruct l as [v| |]; cbn in T.
  - rewrite (safe_eq v c n f s E Lc Ln) in T. injection T as <-. unfold safe'. destruct (sp s) eqn:P.
    + destruct (stopped s); cbn; (split; [exact C|]).
      * exists c, n, f. auto.
      * exists n, n. eexists. split; [reflexivity|]. auto.
    + split; [exact C|]. destruct Q, v; cbn in L1, L2 |- *; try lia; (eexists _, _, _; split; [reflexivity|lia]).
    + destruct Q; cbn in L1, L2 |- *; try lia; (split; [exact C|]); (eexists _, _, _; split; [first [exact E|reflexivity]|lia]).
    + unfold output_action. destruct (Nat.eqb c slRunning); cbn; (split; [exact C|]; exists c, n, f; auto).
    + split; [exact C|]. exists n, n, f. auto.
  - p1_case s T X c n f E Lc Ln. destruct (cnt s =? 5) eqn:Y; [apply Z.eqb_eq in Y; lia|]. cbn. split; [lia|]. exists c, n, f. auto.
  - rewrite (trig_eq s c n f evShutDown E Lc Ln) in T by (unfold evShutDown; lia). injection T as <-. split; [exact C|].
    destruct Q; cbn in L1, L2 |- *; try lia; (eexists _, _, _; split; [reflexivity|lia]).
Qed.
Lemma early_steps : forall ls s s', early s -> steps ls s = Ok s' -> early s'.
Proof.
  induction ls as [|l ls IH]; intros s s' F E; cbn in E; [injection E as <-; exact F|].
  destruct (step l s) as [s1| |] eqn:S; try discriminate. apply (IH s1); [apply (early_step l s); assumption|exact E].
Qed.

Lemma count_up : forall (k : nat) s, inv s -> (exists f, ss s = mksys 0 2 f) -> cnt s + Z.of_nat k <= 2147483647 ->
  exists s', steps (repeat LP1 k) s = Ok s' /\ cnt s' = cnt s + Z.of_nat k /\ ss s' = ss s.
Proof.
  induction k as [|k IH]; intros s I (f & E) B; cbn [repeat steps].
  - exists s. split; [reflexivity|]. split; [lia|reflexivity].
  - assert (T : exists s1, step LP1 s = Ok s1 /\ cnt s1 = cnt s + 1 /\ ss s1 = ss s).
    { cbn [step]. rewrite (p1_eq 0 2 f s E) by lia. eexists. split; [reflexivity|]. destruct (cnt s =? 5); cbn; rewrite ?E; auto. }
    destruct T as (s1 & T & C1 & S1). rewrite T. cbn [bind].
    destruct (IH s1) as (s' & F & C & S'); [apply (inv_step LP1 s); assumption|exists f; congruence|lia|].
    exists s'. split; [exact F|]. split; [lia|congruence].
Qed.

Lemma report_lost : exists s, reach s /\ 6 <= cnt s /\
  forall ls s', steps ls s = Ok s' -> ~ level_at s' slInitialized /\ ~ level_at s' slRunning.
Proof.
  destruct some_initial as (s0 & I). assert (A := I). apply initial_eq in A as (f & E & O & T & C & D & W & P).
  destruct (count_up 6 s0 (inv_initial _ I) (ex_intro _ f E)) as (s & F & C1 & S1); [lia|].
  assert (R : reach s) by (exists s0, (repeat LP1 6); auto). exists s. split; [exact R|]. split; [lia|].
  intros ls s' G. assert (X : early s).
  { split; [apply inv_reach, R|]. split; [lia|]. exists 0%nat, 2%nat, f. split; [congruence|lia]. }
  destruct (early_steps ls s s' X G) as (_ & _ & c & n & f' & E' & L & _). unfold level_at. rewrite E'. cbn.
  split; intros Q; injection Q as ->; unfold slInitialized, slRunning in L; lia.
Qed.

Lemma g_reach : forall s, reach_g s -> reach s.
Proof. intros s R. induction R as [s I|l s s' R IH G E]; [exists s, []; split; [exact I|reflexivity]|apply (reach_step s l); assumption]. Qed.
Lemma report_taken : forall s, reach_g s -> 6 <= cnt s -> ~ next_is s slInitializing.
Proof.
  intros s R. induction R as [s I|l s s' R IH G T]; intros C.
  - apply initial_eq in I as (f & _ & _ & _ & Z & _). lia.
  - assert (V := inv_reach s (g_reach s R)). destruct V as (B & c & n & f & E & K).
    assert (Q := pok_pair _ _ _ _ _ K). destruct (pair_le _ _ Q) as [Lc Ln]. unfold next_is, level_at, slInitializing in *. rewrite E in G. cbn in G.
    rewrite E in IH. cbn in IH.
    destruct l as [v| |]; cbn in T.
    + rewrite (safe_eq v c n f s E Lc Ln) in T. injection T as <-. unfold safe' in C |- *.
      assert (C6 : 6 <= cnt s).
      { destruct (sp s); cbn in C; auto; try (destruct (stopped s); exact C).
        - destruct Q; cbn in C; try (destruct (5 <? _)); exact C.
        - unfold output_action in C. destruct (Nat.eqb c slRunning); exact C. }
      specialize (IH C6). destruct (sp s) eqn:P.
      * destruct (stopped s); cbn; [rewrite E|]; exact IH.
      * destruct Q, v; cbn in IH |- *; congruence.
      * destruct Q; cbn in IH |- *; try (destruct (5 <? _)); cbn; rewrite ?E; cbn; congruence.
      * unfold output_action. destruct (Nat.eqb c slRunning); cbn; rewrite E; exact IH.
      * exact IH.
    + p1_case s T X c n f E Lc Ln. destruct (cnt s =? 5) eqn:Y; cbn in C |- *.
      * apply Z.eqb_eq in Y. specialize (G eq_refl Y). injection G as ->. inversion Q; subst; cbn; discriminate.
      * apply Z.eqb_neq in Y. rewrite E. apply IH. lia.
    + rewrite (trig_eq s c n f evShutDown E Lc Ln) in T by (unfold evShutDown; lia). injection T as <-. cbn in C. specialize (IH C).
      destruct Q; cbn in IH |- *; congruence.
Qed.
Lemma reported_before : forall s, reach s -> level_at s slInitialized \/ level_at s slRunning -> 6 <= cnt s.
Proof.
  intros s R L. apply inv_reach in R as (B & c & n & f & E & K). assert (Q := pok_pair _ _ _ _ _ K). unfold level_at in L. rewrite E in L. cbn in L.
  destruct L as [L|L]; injection L as ->; inversion Q; subst; cbn in K; tauto.
Qed.

(** ** The output *)
Definition wok (s : st) : Prop :=
  (forall l b, In (l, b) (writes s) -> l <> slRunning -> b = false) /\ alternating (at_running s) /\
  tog s = match at_running s with [] => false | x :: _ => negb x end.
Lemma wok_same : forall s s', writes s' = writes s -> tog s' = tog s -> wok s -> wok s'.
Proof. intros s s' A B W. unfold wok, at_running in *. rewrite A, B. exact W. Qed.
Lemma wok_step : forall l s s', inv s -> wok s -> step l s = Ok s' -> wok s'.
Proof.
  intros l s s' (B & c & n & f & E & K) W T. assert (Q := pok_pair _ _ _ _ _ K). destruct (pair_le _ _ Q) as [Lc Ln].
  destruct l as [v| |]; cbn in T.
  - rewrite (safe_eq v c n f s E Lc Ln) in T. injection T as <-. unfold safe'. destruct (sp s) eqn:P.
    + destruct (stopped s); [exact W|]. apply (wok_same s); auto.
    + apply (wok_same s); auto.
    + apply (wok_same s); auto; destruct Q; cbn; try (destruct (5 <? _)); reflexivity.
    + destruct W as (W1 & W2 & W3). unfold output_action. destruct (Nat.eqb c slRunning) eqn:R; split; cbn; auto.
      * intros l b [A|A] N; [injection A as <- <-; apply Nat.eqb_eq in R; congruence|apply (W1 l b A N)].
      * unfold at_running. cbn. rewrite R. cbn. split; [split; [exact W3|exact W2]|reflexivity].
      * intros l b [A|A] N; [injection A as <- <-; reflexivity|apply (W1 l b A N)].
      * unfold at_running. cbn. rewrite R. split; [exact W2|exact W3].
    + apply (wok_same s); auto.
  - p1_case s T X c n f E Lc Ln. destruct (cnt s =? 5); apply (wok_same s); auto.
  - rewrite (trig_eq s c n f evShutDown E Lc Ln) in T by (unfold evShutDown; lia). injection T as <-. apply (wok_same s); auto.
Qed.
Lemma wok_reach : forall s, reach s -> wok s.
Proof.
  intros s (s0 & ls & I & E). assert (J := inv_initial _ I). assert (W : wok s0).
  { apply initial_eq in I as (f & _ & _ & T & _ & _ & W & _). unfold wok, at_running. rewrite W, T. cbn. intuition. }
  clear I. revert s0 J W E. induction ls as [|l ls IH]; intros s0 J W E; cbn in E; [injection E as <-; exact W|].
  destruct (step l s0) as [s1| |] eqn:S; try discriminate.
  apply (IH s1); [apply (inv_step l s0); assumption|apply (wok_step l s0); assumption|exact E].
Qed.
Lemma out_off : forall s l b, reach s -> In (l, b) (writes s) -> l <> slRunning -> b = false.
Proof. intros s l b R. apply (wok_reach s R). Qed.
Lemma out_alternates : forall s, reach s -> alternating (at_running s).
Proof. intros s R. apply (wok_reach s R). Qed.
(** Every cycle writes, at the level it runs. *)
Lemma out_written : forall s v s' c, reach s -> sp s = SOut -> level_at s c -> step (LSafe v) s = Ok s' ->
  exists b, writes s' = (c, b) :: writes s /\ sp s' = SEnd.
Proof.
  intros s v s' c R P L T. apply inv_reach in R as (B & c' & n & f & E & K). assert (Q := pok_pair _ _ _ _ _ K). destruct (pair_le _ _ Q) as [Lc Ln].
  unfold level_at in L. rewrite E in L. injection L as ->. cbn in T. rewrite (safe_eq v c n f s E Lc Ln) in T. injection T as <-.
  unfold safe'. rewrite P. unfold output_action. destruct (Nat.eqb c slRunning); eexists; split; reflexivity.
Qed.

(** ** When running begins and ends *)
Lemma run_begins : forall s l s', reach s -> step l s = Ok s' -> level_at s slInitialized -> ~ next_is s slRunning -> next_is s' slRunning ->
  sp s = SIn /\ l = LSafe true.
Proof.
  intros s l s' R T L N M. apply inv_reach in R as (B & c & n & f & E & K). assert (Q := pok_pair _ _ _ _ _ K). destruct (pair_le _ _ Q) as [Lc Ln].
  unfold level_at, next_is, slInitialized, slRunning, slShuttingDown in *. rewrite E in L, N. injection L as ->. cbn in N.
  destruct l as [v| |]; cbn in T.
  - rewrite (safe_eq v _ n f s E Lc Ln) in T. injection T as <-. unfold safe' in M. destruct (sp s) eqn:P.
    + exfalso. destruct (stopped s); cbn in M; [rewrite E in M; cbn in M|]; congruence.
    + split; [reflexivity|]. destruct v; [reflexivity|]. exfalso. inversion Q; subst; cbn in *; congruence.
    + exfalso. cbn in M. destruct (5 <? _); cbn in M; rewrite E in M; cbn in M; congruence.
    + exfalso. cbn in M. rewrite E in M. cbn in M. congruence.
    + exfalso. cbn in M. congruence.
  - exfalso. p1_case s T X 3%nat n f E Lc Ln. destruct (cnt s =? 5); cbn in M; [|rewrite E in M; cbn in M; congruence].
    inversion Q; subst; cbn in *; congruence.
  - exfalso. rewrite (trig_eq s _ n f evShutDown E Lc Ln) in T by (unfold evShutDown; lia). injection T as <-.
    inversion Q; subst; cbn in *; congruence.
Qed.
Lemma run_ends : forall s l s', reach s -> step l s = Ok s' -> level_at s slRunning -> next_is s slRunning -> ~ next_is s' slRunning ->
  sp s = SIn /\ l = LSafe false /\ next_is s' slInitialized \/ l = LInt /\ next_is s' slShuttingDown.
Proof.
  intros s l s' R T L N M. apply inv_reach in R as (B & c & n & f & E & K). assert (Q := pok_pair _ _ _ _ _ K). destruct (pair_le _ _ Q) as [Lc Ln].
  unfold level_at, next_is, slInitialized, slRunning, slShuttingDown in *. rewrite E in L, N. injection L as ->. injection N as ->.
  destruct l as [v| |]; cbn in T.
  - left. rewrite (safe_eq v _ _ f s E Lc Ln) in T. injection T as <-. unfold safe' in M |- *. destruct (sp s) eqn:P.
    + exfalso. destruct (stopped s); cbn in M; [rewrite E in M; cbn in M|]; congruence.
    + split; [reflexivity|]. destruct v; cbn in *; [congruence|]. split; reflexivity.
    + exfalso. cbn in M. destruct (5 <? _); cbn in M; rewrite E in M; cbn in M; congruence.
    + exfalso. cbn in M. rewrite E in M. cbn in M. congruence.
    + exfalso. cbn in M. congruence.
  - exfalso. p1_case s T X 4%nat 4%nat f E Lc Ln. destruct (cnt s =? 5); cbn in M; [|rewrite E in M; cbn in M]; congruence.
  - right. rewrite (trig_eq s _ _ f evShutDown E Lc Ln) in T by (unfold evShutDown; lia). injection T as <-. split; reflexivity.
Qed.
Lemma off_ends : forall s s', reach s -> level_at s slRunning -> sp s = SIn -> step (LSafe false) s = Ok s' ->
  next_is s' slInitialized \/ next_is s' slShuttingDown.
Proof.
  intros s s' R L P T. apply inv_reach in R as (B & c & n & f & E & K). assert (Q := pok_pair _ _ _ _ _ K). destruct (pair_le _ _ Q) as [Lc Ln].
  unfold level_at, next_is, slInitialized, slRunning, slShuttingDown in *. rewrite E in L. injection L as ->. cbn in T. rewrite (safe_eq false _ n f s E Lc Ln) in T. injection T as <-.
  unfold safe'. rewrite P in *. inversion Q; subst; cbn in K |- *; auto.
Qed.
Lemma on_starts : forall s s', reach s -> level_at s slInitialized -> sp s = SIn -> step (LSafe true) s = Ok s' ->
  next_is s' slRunning \/ next_is s' slShuttingDown.
Proof.
  intros s s' R L P T. apply inv_reach in R as (B & c & n & f & E & K). assert (Q := pok_pair _ _ _ _ _ K). destruct (pair_le _ _ Q) as [Lc Ln].
  unfold level_at, next_is, slInitialized, slRunning, slShuttingDown in *. rewrite E in L. injection L as ->. cbn in T. rewrite (safe_eq true _ n f s E Lc Ln) in T. injection T as <-.
  unfold safe'. rewrite P in *. inversion Q; subst; cbn in K |- *; auto.
Qed.

(** ** The counter of p1 *)
Lemma overflow : exists s, reach s /\ step LP1 s = UB.
Proof.
  destruct some_initial as (s0 & I). assert (A := I). apply initial_eq in A as (f & E & O & T & C & D & W & P).
  destruct (count_up (Z.to_nat 2147483647) s0 (inv_initial _ I) (ex_intro _ f E)) as (s & F & C1 & S1); [rewrite Z2Nat.id by lia; lia|].
  exists s. split; [exists s0, (repeat LP1 (Z.to_nat 2147483647)); auto|]. cbn. unfold p1. rewrite C1, C, Z2Nat.id by lia. reflexivity.
Qed.
Lemma defined : forall s l, reach s -> cnt s < 2147483647 -> exists s', step l s = Ok s'.
Proof.
  intros s l R N. apply inv_reach in R as (B & c & n & f & E & K). assert (Q := pok_pair _ _ _ _ _ K). destruct (pair_le _ _ Q) as [Lc Ln].
  destruct l as [v| |]; cbn.
  - rewrite (safe_eq v c n f s E Lc Ln). eexists; reflexivity.
  - rewrite (p1_eq c n f s E Lc Ln) by lia. eexists; reflexivity.
  - rewrite (trig_eq s c n f evShutDown E Lc Ln) by (unfold evShutDown; lia). eexists; reflexivity.
Qed.
Lemma count_steps : forall ls s s', steps ls s = Ok s' -> inv s -> cnt s <= cnt s' <= cnt s + Z.of_nat (length ls).
Proof.
  induction ls as [|l ls IH]; intros s s' E I; cbn in E; [injection E as <-; cbn; lia|].
  destruct (step l s) as [s1| |] eqn:S; try discriminate. assert (I1 := inv_step l s s1 I S). specialize (IH s1 s' E I1).
  assert (cnt s <= cnt s1 <= cnt s + 1).
  { destruct I as (B & c & n & f & Q & K). assert (W := pok_pair _ _ _ _ _ K). destruct (pair_le _ _ W) as [Lc Ln].
    destruct l as [v| |]; cbn in S.
    - rewrite (safe_eq v c n f s Q Lc Ln) in S. injection S as <-. unfold safe'. destruct (sp s); cbn; try lia.
      + destruct (stopped s); cbn; lia.
      + destruct W; cbn; try (destruct (5 <? _)); cbn; lia.
      + unfold output_action. destruct (Nat.eqb c slRunning); cbn; lia.
    - p1_case s S X c n f Q Lc Ln. destruct (cnt s =? 5); cbn; lia.
    - rewrite (trig_eq s c n f evShutDown Q Lc Ln) in S by (unfold evShutDown; lia). injection S as <-. cbn. lia. }
  cbn [length]. lia.
Qed.

(** ** With the device reflect *)
Definition refl (c n : lref) (f : lref -> Z) (p : spc) (o : bool) : Prop :=
  match c, n with
  | 0%nat, 2%nat | 2%nat, 2%nat => o = false
  | 2%nat, 3%nat => o = false /\ f 3%nat = 0
  | 3%nat, 3%nat =>
    match p with
    | SIdle => 0 <= f 3%nat <= 6 /\ o = (6 <=? f 3%nat)
    | SIn => 1 <= f 3%nat <= 7 /\ o = (7 <=? f 3%nat)
    | SAct => 1 <= f 3%nat <= 6 /\ o = false
    | _ => 1 <= f 3%nat <= 6 /\ o = (6 <=? f 3%nat)
    end
  | 3%nat, 4%nat => f 4%nat = 0 /\ f 3%nat = 7 /\ o = true
  | 4%nat, 4%nat =>
    match p with
    | SIdle => 0 <= f 4%nat <= 6 /\ o = negb (6 <=? f 4%nat)
    | SIn => 1 <= f 4%nat <= 7 /\ o = negb (7 <=? f 4%nat)
    | SAct => 1 <= f 4%nat <= 6 /\ o = true
    | _ => 1 <= f 4%nat <= 6 /\ o = negb (6 <=? f 4%nat)
    end
  | 4%nat, 3%nat => f 3%nat = 0 /\ f 4%nat = 7 /\ o = false
  | _, _ => False
  end.

Lemma r_reach : forall s, reach_r s -> reach s.
Proof.
  intros s R. induction R as [s I|s s' R IH T|s s' R IH T].
  - exists s, []. split; [exact I|reflexivity].
  - apply (reach_step s (LSafe (outT s))); assumption.
  - apply (reach_step s LP1); assumption.
Qed.
Lemma u32_small : forall k, 0 <= k < 1000 -> u32 k = k.
Proof. intros k B. unfold u32. apply Z.mod_small. lia. Qed.
Lemma seven : forall k, 0 <= k <= 6 -> (7 <=? u32 (k + 1)) = (6 <=? k) /\ 1 <= u32 (k + 1) <= 7.
Proof.
  intros k B. rewrite u32_small by lia. split; [|lia]. destruct (6 <=? k) eqn:Q; [apply Z.leb_le in Q; apply Z.leb_le; lia|apply Z.leb_gt in Q; apply Z.leb_gt; lia].
Qed.
Lemma six : forall k, (5 <? k) = (6 <=? k).
Proof. intros k. destruct (6 <=? k) eqn:Q; [apply Z.leb_le in Q; apply Z.ltb_lt; lia|apply Z.leb_gt in Q; apply Z.ltb_ge; lia]. Qed.

Lemma refl_reach : forall s, reach_r s -> stopped s = false /\ exists c n f, ss s = mksys c n f /\ refl c n f (sp s) (outT s).
Proof.
  intros s R. induction R as [s I|s s' R IH T|s s' R IH T].
  - apply initial_eq in I as (f & E & O & _ & _ & D & _ & _). split; [exact D|]. exists 0%nat, 2%nat, f. split; [exact E|exact O].
  - assert (I := inv_reach s (r_reach s R)). destruct I as (B & c & n & f & E & K). destruct IH as (D & c' & n' & f' & E' & F).
    rewrite E in E'. injection E' as <- <- <-. assert (Q := pok_pair _ _ _ _ _ K). destruct (pair_le _ _ Q) as [Lc Ln].
    cbn in T. rewrite (safe_eq (outT s) c n f s E Lc Ln) in T. injection T as <-. unfold safe'. destruct (sp s) eqn:P.
    + rewrite D. split; [exact D|]. exists n, n. eexists. split; [reflexivity|].
      destruct Q; cbn in F, K |- *; try contradiction; auto.
      * destruct F as [-> F]. rewrite F. vm_compute. intuition discriminate.
      * destruct (seven _ (proj1 F)) as [A1 A2]. split; [exact A2|]. rewrite A1. tauto.
      * exfalso. intuition congruence.
      * destruct (seven _ (proj1 F)) as [A1 A2]. split; [exact A2|]. rewrite A1. tauto.
      * exfalso. intuition congruence.
    + split; [exact D|]. destruct Q; cbn in F, K; try contradiction; try (exfalso; intuition congruence).
      * exists 2%nat, 2%nat, f. split; [reflexivity|exact F].
      * exists 2%nat, 3%nat, f. split; [reflexivity|exact F].
      * destruct F as [F1 F2]. destruct (7 <=? f 3%nat) eqn:S; cbn; rewrite F2; cbn; (eexists _, _, _; split; [reflexivity|]); cbn.
        -- apply Z.leb_le in S. split; [reflexivity|]. split; [|reflexivity]. unfold upd; cbn; lia.
        -- apply Z.leb_gt in S. split; [lia|reflexivity].
      * destruct F as [F1 F2]. destruct (7 <=? f 4%nat) eqn:S; cbn in F2; cbn; rewrite F2; cbn; (eexists _, _, _; split; [reflexivity|]); cbn.
        -- apply Z.leb_le in S. split; [reflexivity|]. split; [|reflexivity]. unfold upd; cbn; lia.
        -- apply Z.leb_gt in S. split; [lia|reflexivity].
    + destruct Q; cbn in F, K; try contradiction; try (exfalso; intuition congruence); cbn.
      * split; [exact D|]. exists 2%nat, 2%nat, f. split; [exact E|exact F].
      * split; [exact D|]. exists 2%nat, 3%nat, f. split; [exact E|exact F].
      * rewrite six. destruct (6 <=? f 3%nat) eqn:S; cbn; (split; [exact D|]); exists 3%nat, 3%nat, f; (split; [exact E|]); cbn; rewrite S; tauto.
      * destruct F as (F1 & F2 & F3). rewrite F2. cbn. split; [exact D|]. exists 3%nat, 4%nat, f. split; [exact E|]. cbn. auto.
      * rewrite six. destruct (6 <=? f 4%nat) eqn:S; cbn; (split; [exact D|]); exists 4%nat, 4%nat, f; (split; [exact E|]); cbn; rewrite S; tauto.
      * destruct F as (F1 & F2 & F3). rewrite F2. cbn. split; [exact D|]. exists 4%nat, 3%nat, f. split; [exact E|]. cbn. auto.
    + unfold output_action. destruct (Nat.eqb c slRunning); cbn; (split; [exact D|]); exists c, n, f; (split; [exact E|]); destruct Q; exact F.
    + split; [exact D|]. exists n, n, f. split; [reflexivity|]. cbn. destruct Q; cbn in F, K |- *; try contradiction; auto.
      * destruct F as [-> F]. rewrite F. split; [lia|reflexivity].
      * split; [lia|tauto].
      * destruct F as (F1 & F2 & ->). rewrite F1. split; [lia|reflexivity].
      * split; [lia|tauto].
      * destruct F as (F1 & F2 & ->). rewrite F1. split; [lia|reflexivity].
  - assert (I := inv_reach s (r_reach s R)). destruct I as (B & c & n & f & E & K). destruct IH as (D & c' & n' & f' & E' & F).
    rewrite E in E'. injection E' as <- <- <-. assert (Q := pok_pair _ _ _ _ _ K). destruct (pair_le _ _ Q) as [Lc Ln].
    cbn in T. p1_case s T X c n f E Lc Ln. destruct (cnt s =? 5) eqn:Y; cbn; (split; [exact D|]).
    + apply Z.eqb_eq in Y. destruct Q; cbn in F, K; try contradiction; try lia; cbn; (eexists _, _, _; split; [reflexivity|]); cbn; auto.
    + exists c, n, f. auto.
Qed.

Lemma stays_7 : forall s, reach_r s -> sp s = SEnd ->
  (level_at s slInitialized -> 1 <= cycles s slInitialized <= 6 /\ next_is s slInitialized \/ cycles s slInitialized = 7 /\ next_is s slRunning) /\
  (level_at s slRunning -> 1 <= cycles s slRunning <= 6 /\ next_is s slRunning \/ cycles s slRunning = 7 /\ next_is s slInitialized).
Proof.
  intros s R P. destruct (refl_reach s R) as (D & c & n & f & E & F). unfold level_at, next_is, cycles. rewrite E. rewrite P in F. cbn.
  split; intros L; injection L as ->; unfold slInitialized, slRunning in *.
  - destruct n as [|[|[|[|[|n]]]]]; cbn in F; try contradiction; [left|right]; tauto.
  - destruct n as [|[|[|[|[|n]]]]]; cbn in F; try contradiction; [right|left]; tauto.
Qed.

(** ** Paths *)
Definition run_all (ls : list label) : option st :=
  match setProperties test_props (fun _ => 0) with
  | Ok (Some s0) =>
    match triggerEvent H s0 evStartInit false with
    | Ok s1 => match steps ls {| ss := s1; outT := false; tog := false; cnt := 0; stopped := false; writes := []; sp := SIdle |} with
               | Ok s => Some s | _ => None end
    | _ => None
    end
  | _ => None
  end.
Lemma run_reach : forall ls s, run_all ls = Some s -> reach s.
Proof.
  intros ls s E. unfold run_all in E. destruct (setProperties test_props (fun _ => 0)) as [[s0|]| |] eqn:A; try discriminate.
  destruct (triggerEvent H s0 evStartInit false) as [s1| |] eqn:B; try discriminate.
  destruct (steps ls _) as [x| |] eqn:F; try discriminate. injection E as <-. eexists. exists ls. split; [|exact F].
  exists (fun _ => 0), s0, s1. auto.
Qed.
Definition cyc (v : bool) : list label := repeat (LSafe v) 5.
Definition up : list label := repeat LP1 5 ++ cyc false ++ [LP1] ++ cyc false.
Lemma test_reach : forall ls (P : st -> bool), match run_all ls with Some s => P s | None => false end = true -> exists s, reach s /\ P s = true.
Proof. intros ls P E. destruct (run_all ls) as [s|] eqn:R; [|discriminate]. exists s. split; [apply (run_reach ls), R|exact E]. Qed.

Definition heads (a b : lref * bool) (s : st) : bool :=
  match writes s with
  | (x, u) :: (y, w) :: _ => Nat.eqb x (fst a) && Bool.eqb u (snd a) && Nat.eqb y (fst b) && Bool.eqb w (snd b)
  | _ => false
  end.
Lemma heads_ok : forall a b s, heads a b s = true -> exists r, writes s = a :: b :: r.
Proof.
  intros [a u] [b w] s E. unfold heads in E. destruct (writes s) as [|[x x'] [|[y y'] r]]; try discriminate. cbn in E.
  apply andb_true_iff in E as [E E4]. apply andb_true_iff in E as [E E3]. apply andb_true_iff in E as [E1 E2].
  apply Nat.eqb_eq in E1, E3. apply Bool.eqb_prop in E2, E4. subst. exists r. reflexivity.
Qed.
Lemma begins_on : exists s r, reach s /\ writes s = (slRunning, true) :: (slInitialized, false) :: r.
Proof.
  destruct (test_reach (up ++ cyc true ++ cyc false ++ cyc true ++ cyc true) (heads (slRunning, true) (slInitialized, false))) as (s & R & E).
  - vm_compute. reflexivity.
  - apply heads_ok in E as (r & E). exists s, r. auto.
Qed.
Lemma first_off : forall s b r, reach s -> writes s = (slRunning, b) :: r -> (forall x, ~ In (slRunning, x) r) -> b = false.
Proof.
  intros s b r R E N. assert (A := out_alternates s R). unfold at_running in A. rewrite E in A. cbn in A. destruct A as [A _].
  destruct (map snd (filter (fun w => Nat.eqb (fst w) slRunning) r)) as [|y m] eqn:M; [exact A|]. exfalso.
  assert (In y (map snd (filter (fun w => Nat.eqb (fst w) slRunning) r))) as J by (rewrite M; left; reflexivity).
  apply in_map_iff in J as ([l x] & _ & J). apply filter_In in J as [J Q]. cbn in Q. apply Nat.eqb_eq in Q. subst l. apply (N x J).
Qed.
Lemma running_example : exists s b r, reach s /\ writes s = (slRunning, b) :: (slInitialized, false) :: r.
Proof. destruct begins_on as (s & r & R & E). exists s, true, r. auto. Qed.

(** The device reflect *)
Fixpoint rrun (ls : list bool) (s : st) : outcome st :=
  match ls with [] => Ok s | b :: ls => bind (step (if b then LSafe (outT s) else LP1) s) (rrun ls) end.
Lemma rrun_reach : forall ls s s', reach_r s -> rrun ls s = Ok s' -> reach_r s'.
Proof.
  induction ls as [|b ls IH]; intros s s' R E; cbn in E; [injection E as <-; exact R|].
  destruct (step (if b then LSafe (outT s) else LP1) s) as [s1| |] eqn:S; try discriminate. apply (IH s1); [|exact E].
  destruct b; [apply (r_safe s)|apply (r_p1 s)]; assumption.
Qed.
Definition reflect_path : list bool := repeat false 5 ++ repeat true 5 ++ [false] ++ repeat true (5 + 5 * 7 + 4).
Lemma reflect_example : exists s, reach_r s /\ sp s = SEnd /\ level_at s slRunning.
Proof.
  destruct some_initial as (s0 & I0).
  assert (X : exists s0, initial s0 /\ match rrun reflect_path s0 with Ok s => match sp s, cur (ss s) with SEnd, Some 4%nat => true | _, _ => false end | _ => false end = true).
  { eexists. split.
    - exists (fun _ => 0). eexists. eexists. split; [vm_compute; reflexivity|]. split; [|reflexivity].
      unfold triggerEvent. cbn [cur]. rewrite H_0. cbn -[upd]. reflexivity.
    - vm_compute. reflexivity. }
  destruct X as (s1 & I & X). destruct (rrun reflect_path s1) as [s| |] eqn:E; try discriminate. exists s.
  split; [apply (rrun_reach reflect_path s1); [apply r_start, I|exact E]|]. destruct (sp s); try discriminate. split; [reflexivity|].
  unfold level_at. destruct (cur (ss s)) as [[|[|[|[|[|]]]]]|]; try discriminate. reflexivity.
Qed.
Lemma guard_example : exists s, reach_g s /\ 6 <= cnt s.
Proof.
  destruct some_initial as (s0 & I). assert (A := I). apply initial_eq in A as (f & E & O & T & C & D & W & P).
  set (s1 := w_cnt 1 s0). set (x := fun k => w_cnt k (sgo SIn (w_ss (mksys 2 2 (upd f 2%nat (u32 (f 2%nat + 1)))) s0))).
  assert (R0 : reach_g (x 0)).
  { assert (S : step (LSafe false) s0 = Ok (x 0)).
    { cbn. rewrite (safe_eq false 0 2 f s0 E) by lia. unfold safe'. rewrite P, D. unfold x. destruct s0; cbn in *; subst; reflexivity. }
    apply (g_step (LSafe false) s0); [apply g_start, I|discriminate|exact S]. }
  assert (R5 : forall k : nat, (k <= 5)%nat -> reach_g (x (Z.of_nat k))).
  { induction k as [|k IH]; intros L; [exact R0|]. apply (g_step LP1 (x (Z.of_nat k))); [apply IH; lia|intros _ Q; reflexivity|].
    cbn [step]. erewrite (p1_eq 2 2); [|reflexivity|lia|lia|cbn; lia]. cbn [cnt x w_cnt].
    assert (Q : (Z.of_nat k =? 5) = false) by (apply Z.eqb_neq; lia). rewrite Q. replace (Z.of_nat (S k)) with (Z.of_nat k + 1) by lia. reflexivity. }
  eexists. split; [refine (g_step LP1 (x 5) _ (R5 5%nat (le_n _)) (fun _ _ => eq_refl) _)|].
  - cbn [step]. erewrite (p1_eq 2 2); [|reflexivity|lia|lia|cbn; lia]. reflexivity.
  - cbn. lia.
Qed.
Lemma at_running_example : exists s, reach s /\ level_at s slRunning /\ sp s = SIn.
Proof.
  destruct (test_reach (up ++ cyc true ++ [LSafe true]) (fun s => match sp s, cur (ss s) with SIn, Some 4%nat => true | _, _ => false end)) as (s & R & E).
  - vm_compute. reflexivity.
  - exists s. split; [exact R|]. destruct (sp s); try discriminate. unfold level_at.
    destruct (cur (ss s)) as [[|[|[|[|[|]]]]]|]; try discriminate. auto.
Qed.
Lemma at_initialized_example : exists s, reach s /\ level_at s slInitialized /\ sp s = SIn.
Proof.
  destruct (test_reach (up ++ [LSafe true]) (fun s => match sp s, cur (ss s) with SIn, Some 3%nat => true | _, _ => false end)) as (s & R & E).
  - vm_compute. reflexivity.
  - exists s. split; [exact R|]. destruct (sp s); try discriminate. unfold level_at.
    destruct (cur (ss s)) as [[|[|[|[|]]]]|]; try discriminate. auto.
Qed.
