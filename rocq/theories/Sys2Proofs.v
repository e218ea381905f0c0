(** Proofs about SystemTest2. *)
From Verif Require Import Prelude SafetyModel SafetyActionModel Sys2Model Sys2Spec.
Local Open Scope Z_scope.

(** ** Events *)
Definition mksys (c n : lref) (f : lref -> Z) : sys := {| cur := Some c; nxt := Some n; nact := f |}.
Definition dest (e : evid) (c : lref) : option lref :=
  match e, c with
  | 1, 2%nat => Some 3%nat
  | 2, 3%nat => Some 4%nat
  | 3, 2%nat | 3, 3%nat | 3, 4%nat => Some 1%nat
  | 4, 4%nat => Some 3%nat
  | 5, 1%nat => Some 0%nat
  | _, _ => None
  end.
Definition after (e : evid) (c n : lref) (f : lref -> Z) : sys :=
  match dest e c with
  | None => mksys c n f
  | Some d => if Nat.eqb n c || Nat.ltb d n then mksys c d (upd f d 0) else mksys c n f
  end.

Definition lv (l : lref) (id : Z) (t : list (evid * (lref * bool))) (a : bool) : level :=
  {| lid := id; ltrans := t; lin := [Some (input_of l)]; lout := [Some {| oa_output := outp; oa_id := l |}]; lact := a |}.
Lemma H_0 : H 0%nat = lv 0 0 [(0, (2%nat, false))] true. Proof. vm_compute. reflexivity. Qed.
Lemma H_1 : H 1%nat = lv 1 1 [(5, (0%nat, true))] true. Proof. vm_compute. reflexivity. Qed.
Lemma H_2 : H 2%nat = lv 2 2 [(1, (3%nat, false)); (3, (1%nat, false))] false. Proof. vm_compute. reflexivity. Qed.
Lemma H_3 : H 3%nat = lv 3 3 [(2, (4%nat, false)); (3, (1%nat, false))] true. Proof. vm_compute. reflexivity. Qed.
Lemma H_4 : H 4%nat = lv 4 4 [(4, (3%nat, true)); (3, (1%nat, false))] true. Proof. vm_compute. reflexivity. Qed.

Lemma le4 : forall c, (c <= 4)%nat -> c = 0%nat \/ c = 1%nat \/ c = 2%nat \/ c = 3%nat \/ c = 4%nat. Proof. intros; lia. Qed.

Lemma trig_gen : forall h c n f e, h 0%nat = H 0%nat -> h 1%nat = H 1%nat -> h 2%nat = H 2%nat -> h 3%nat = H 3%nat -> h 4%nat = H 4%nat ->
  (c <= 4)%nat -> (n <= 4)%nat -> e = 1 \/ e = 2 \/ e = 3 \/ e = 4 \/ e = 5 ->
  triggerEvent h (mksys c n f) e true = Ok (after e c n f).
Proof.
  intros h c n f e A0 A1 A2 A3 A4 Hc Hn He. rewrite H_0 in A0. rewrite H_1 in A1. rewrite H_2 in A2. rewrite H_3 in A3. rewrite H_4 in A4.
  unfold after, mksys, triggerEvent. cbn [cur nxt nact].
  destruct (le4 _ Hc) as [->|[->|[->|[->| ->]]]]; rewrite ?A0, ?A1, ?A2, ?A3, ?A4;
    destruct He as [->|[->|[->|[->| ->]]]];
    cbn -[upd]; try reflexivity;
    destruct (le4 _ Hn) as [->|[->|[->|[->| ->]]]]; cbn -[upd]; rewrite ?A0, ?A1, ?A2, ?A3, ?A4; cbn -[upd]; reflexivity.
Qed.
Lemma trig_public : forall h c n f, h 0%nat = H 0%nat -> h 1%nat = H 1%nat -> h 2%nat = H 2%nat -> h 3%nat = H 3%nat -> h 4%nat = H 4%nat ->
  (c <= 4)%nat -> (n <= 4)%nat -> triggerEvent h (mksys c n f) 1 false = Ok (after 1 c n f).
Proof.
  intros h c n f A0 A1 A2 A3 A4 Hc Hn. rewrite H_0 in A0. rewrite H_1 in A1. rewrite H_2 in A2. rewrite H_3 in A3. rewrite H_4 in A4.
  unfold after, mksys, triggerEvent. cbn [cur nxt nact].
  destruct (le4 _ Hc) as [->|[->|[->|[->| ->]]]]; rewrite ?A0, ?A1, ?A2, ?A3, ?A4;
    cbn -[upd]; try reflexivity;
    destruct (le4 _ Hn) as [->|[->|[->|[->| ->]]]]; cbn -[upd]; rewrite ?A0, ?A1, ?A2, ?A3, ?A4; cbn -[upd]; reflexivity.
Qed.
Lemma trig_eq : forall s c n f e, ss s = mksys c n f -> (c <= 4)%nat -> (n <= 4)%nat -> e = 1 \/ e = 2 \/ e = 3 \/ e = 4 \/ e = 5 ->
  trig e true s = Ok (w_ss (after e c n f) s).
Proof. intros s c n f e E Hc Hn He. unfold trig. rewrite E, (trig_gen H) by auto. reflexivity. Qed.

(** What the input actions do. *)
Definition read (v : bool) (c n : lref) (f : lref -> Z) : sys :=
  match c, v with 3%nat, true => after 2 3 n f | 4%nat, false => after 4 4 n f | _, _ => mksys c n f end.
Lemma lin_gen : forall c, (c <= 4)%nat -> lin (H c) = [Some (input_of c)].
Proof. intros c L. destruct (le4 _ L) as [->|[->|[->|[->| ->]]]]; [rewrite H_0|rewrite H_1|rewrite H_2|rewrite H_3|rewrite H_4]; reflexivity. Qed.
Lemma check_eq : forall v c n f, (c <= 4)%nat -> (n <= 4)%nat ->
  exists es, checkInputs H (mksys c n f) (fun _ => VBool v) (lin (H c)) = Ok (read v c n f, es).
Proof.
  intros v c n f Lc Ln. rewrite (lin_gen c Lc).
  assert (T : forall e, e = 1 \/ e = 2 \/ e = 3 \/ e = 4 \/ e = 5 -> triggerEvent H (mksys c n f) e true = Ok (after e c n f))
    by (intros e Q; apply (trig_gen H); auto).
  destruct (le4 _ Lc) as [->|[->|[->|[->| ->]]]]; try (eexists; reflexivity).
  - destruct v; [|eexists; reflexivity]. cbn [checkInputs input_of check_action ia_fire sv_eq Bool.eqb negb]. unfold evStartRun.
    rewrite (T 2) by auto. eexists. reflexivity.
  - destruct v; [eexists; reflexivity|]. cbn [checkInputs input_of check_action ia_fire sv_eq Bool.eqb negb]. unfold evStopRun.
    rewrite (T 4) by auto. eexists. reflexivity.
Qed.

(** ** The steps as equations *)
Definition safe' (v : bool) (c n : lref) (f : lref -> Z) (s : st) : st :=
  match sp s with
  | SIdle => if stopped s then s else sgo SIn (w_ss (mksys n n (upd f n (u32 (f n + 1)))) s)
  | SIn => sgo SAct (w_ss (read v c n f) s)
  | SAct => sgo SOut (match c with
      | 0%nat => w_stop s
      | 1%nat => w_ss (after 5 1 n f) s
      | 3%nat => if 5 <? f 3%nat then w_outT true s else s
      | 4%nat => if 5 <? f 4%nat then w_outT false s else s
      | _ => s end)
  | SOut => sgo SEnd (output_action c s)
  | SEnd => sgo SIdle (w_ss (mksys n n f) s)
  end.
Lemma safe_eq : forall v c n f s, ss s = mksys c n f -> (c <= 4)%nat -> (n <= 4)%nat -> safe v s = Ok (safe' v c n f s).
Proof.
  intros v c n f s E Lc Ln. unfold safe, safe'. destruct (sp s) eqn:P.
  - rewrite E. destruct (stopped s); reflexivity.
  - rewrite E. destruct (check_eq v c n f Lc Ln) as (es & Q). cbn [cur mksys] in *. rewrite Q. reflexivity.
  - rewrite E. cbn [cur mksys]. unfold level_action.
    destruct (le4 _ Lc) as [->|[->|[->|[->| ->]]]].
    + reflexivity.
    + rewrite (trig_eq s _ _ _ evSwitchOff E) by (auto; unfold evSwitchOff; lia). reflexivity.
    + reflexivity.
    + rewrite E. reflexivity.
    + rewrite E. reflexivity.
  - rewrite E. reflexivity.
  - rewrite E. reflexivity.
Qed.
Lemma p1_eq : forall c n f s, ss s = mksys c n f -> (c <= 4)%nat -> (n <= 4)%nat -> cnt s <> 2147483647 ->
  p1 s = Ok (w_cnt (cnt s + 1) (if cnt s =? 5 then w_ss (after 1 c n f) s else s)).
Proof.
  intros c n f s E Lc Ln Q. unfold p1. apply Z.eqb_neq in Q. rewrite Q. destruct (cnt s =? 5); [|reflexivity].
  unfold trig. cbn [ss w_cnt]. rewrite E. unfold evInitDone. rewrite (trig_public H) by auto. reflexivity.
Qed.

(** ** The invariant of all interleavings *)
Definition pok (c n : lref) (p : spc) (k : Z) (sd : bool) : Prop :=
  match c, n with
  | 0, 2 => p = SIdle /\ sd = false
  | 0, 0 => p = SOut \/ p = SEnd -> sd = true
  | 1, 1 => (p = SIdle \/ p = SIn \/ p = SAct) /\ sd = false
  | 1, 0 => (p = SOut \/ p = SEnd) /\ sd = false
  | 2, 2 | 2, 1 => sd = false
  | 2, 3 | 3, 3 | 3, 1 | 4, 4 | 4, 1 => (6 <= k)%Z /\ sd = false
  | 3, 4 | 4, 3 => (6 <= k)%Z /\ sd = false /\ (p = SAct \/ p = SOut \/ p = SEnd)
  | _, _ => False
  end%nat.
Inductive pair : lref -> lref -> Prop :=
| q02 : pair 0 2 | q00 : pair 0 0 | q11 : pair 1 1 | q10 : pair 1 0 | q22 : pair 2 2 | q21 : pair 2 1 | q23 : pair 2 3
| q33 : pair 3 3 | q31 : pair 3 1 | q34 : pair 3 4 | q44 : pair 4 4 | q41 : pair 4 1 | q43 : pair 4 3.
Lemma pok_pair : forall c n p k sd, pok c n p k sd -> pair c n.
Proof.
  intros c n p k sd K. destruct c as [|[|[|[|[|c]]]]]; destruct n as [|[|[|[|[|n]]]]]; cbn in K; try contradiction; constructor.
Qed.
Lemma pair_le : forall c n, pair c n -> (c <= 4)%nat /\ (n <= 4)%nat.
Proof. intros c n []; split; auto with arith. Qed.

Definition inv (s : st) : Prop := 0 <= cnt s <= 2147483647 /\
  exists c n f, ss s = mksys c n f /\ pok c n (sp s) (cnt s) (stopped s).

Lemma inv_safe : forall v s s', inv s -> safe v s = Ok s' -> inv s'.
Proof.
  intros v s s' (B & c & n & f & E & K) T. assert (Q := pok_pair _ _ _ _ _ K). destruct (pair_le _ _ Q) as [Lc Ln].
  rewrite (safe_eq v c n f s E Lc Ln) in T. injection T as <-. unfold safe'. destruct (sp s) eqn:P.
  - destruct (stopped s) eqn:D.
    + split; [exact B|]. exists c, n, f. rewrite P, D. auto.
    + split; [exact B|]. exists n, n, (upd f n (u32 (f n + 1))). split; [reflexivity|]. cbn. rewrite D.
      destruct Q; cbn in K |- *; intuition (try congruence).
  - split; [exact B|]. destruct Q, v; cbn; (eexists _, _, _; split; [reflexivity|]); cbn in K |- *; intuition (try congruence).
  - destruct Q; (split; [cbn; try (destruct (5 <? _)); exact B|]); cbn; try (destruct (5 <? _)); cbn;
      (eexists _, _, _; split; [first [exact E|reflexivity]|]); cbn in K |- *; intuition (try congruence).
  - unfold output_action. destruct Q; cbn; (split; [exact B|]); (eexists _, _, _; split; [exact E|]); cbn in K |- *; intuition (try congruence).
  - split; [exact B|]. exists n, n, f. split; [reflexivity|]. destruct Q; cbn in K |- *; intuition (try congruence).
Qed.

Lemma inv_p1 : forall s s', inv s -> p1 s = Ok s' -> inv s'.
Proof.
  intros s s' (B & c & n & f & E & K) T. assert (Q := pok_pair _ _ _ _ _ K). destruct (pair_le _ _ Q) as [Lc Ln].
  destruct (Z.eq_dec (cnt s) 2147483647) as [X|X]; [unfold p1 in T; rewrite X in T; discriminate|].
  rewrite (p1_eq c n f s E Lc Ln X) in T. injection T as <-. split; [destruct (cnt s =? 5); cbn; lia|].
  destruct (cnt s =? 5) eqn:Y.
  - apply Z.eqb_eq in Y. destruct Q; cbn; (eexists _, _, _; split; [reflexivity|]); cbn in K |- *; rewrite Y in *; intuition (try congruence; try lia).
  - exists c, n, f. split; [exact E|]. destruct Q; cbn in K |- *; intuition (try congruence; try lia).
Qed.

Lemma inv_int : forall s s', inv s -> trig evShutDown true s = Ok s' -> inv s'.
Proof.
  intros s s' (B & c & n & f & E & K) T. assert (Q := pok_pair _ _ _ _ _ K). destruct (pair_le _ _ Q) as [Lc Ln].
  rewrite (trig_eq s c n f evShutDown E Lc Ln) in T by (unfold evShutDown; lia). injection T as <-. split; [exact B|].
  destruct Q; cbn; (eexists _, _, _; split; [reflexivity|]); cbn in K |- *; intuition (try congruence).
Qed.

Lemma inv_step : forall l s s', inv s -> step l s = Ok s' -> inv s'.
Proof. intros [v| |] s s' I E; cbn in E; [apply (inv_safe v s)|apply (inv_p1 s)|apply (inv_int s)]; assumption. Qed.

Lemma initial_eq : forall s, initial s -> exists f, ss s = mksys 0 2 f /\ outT s = false /\ tog s = false /\ cnt s = 0 /\
  stopped s = false /\ writes s = [] /\ sp s = SIdle.
Proof.
  intros s (n0 & s0 & s1 & E & T & ->). assert (K : setProperties test_props n0 = Ok (Some (mksys 0 0 (upd n0 0%nat 0)))) by (vm_compute; reflexivity).
  rewrite K in E. injection E as <-. unfold triggerEvent in T. cbn [cur mksys] in T. rewrite H_0 in T. cbn -[upd] in T. injection T as <-.
  eexists. repeat split.
Qed.
Lemma inv_initial : forall s, initial s -> inv s.
Proof.
  intros s I. apply initial_eq in I as (f & E & _ & _ & C & D & _ & P). split; [lia|]. exists 0%nat, 2%nat, f. rewrite P, D. cbn. auto.
Qed.
Lemma inv_steps : forall ls s s', inv s -> steps ls s = Ok s' -> inv s'.
Proof.
  induction ls as [|l ls IH]; intros s s' A E; cbn in E; [injection E as <-; exact A|].
  destruct (step l s) as [s1| |] eqn:S; try discriminate. apply (IH s1); [apply (inv_step l s); assumption|exact E].
Qed.
Lemma inv_reach : forall s, reach s -> inv s.
Proof. intros s (s0 & ls & I & E). apply (inv_steps ls s0); [apply inv_initial, I|exact E]. Qed.
Lemma steps_app : forall a b s, steps (a ++ b) s = bind (steps a s) (steps b).
Proof. induction a as [|l a IH]; intros b s; cbn; [reflexivity|]. destruct (step l s); cbn; [apply IH|reflexivity|reflexivity]. Qed.
Lemma reach_steps : forall s ls s', reach s -> steps ls s = Ok s' -> reach s'.
Proof. intros s ls s' (s0 & l0 & I & E) F. exists s0, (l0 ++ ls). split; [exact I|]. rewrite steps_app, E. exact F. Qed.
Lemma reach_step : forall s l s', reach s -> step l s = Ok s' -> reach s'.
Proof. intros s l s' R E. apply (reach_steps s [l] s' R). cbn. rewrite E. reflexivity. Qed.

(** ** Shutting down *)
Definition rk (c : lref) (p : spc) : nat :=
  match c with
  | 0 => match p with SIdle => 3 | SIn => 2 | SAct => 1 | _ => 0 end
  | 1 => match p with SIdle => 8 | SIn => 7 | SAct => 6 | SOut => 5 | SEnd => 4 end
  | _ => match p with SIdle => 8 | SIn => 12 | SAct => 11 | SOut => 10 | SEnd => 9 end
  end%nat.
Definition going (s : st) (k : nat) : Prop := inv s /\
  (stopped s = true \/ exists c n f, ss s = mksys c n f /\ (c = 0 /\ n = 0 \/ c = 1 \/ n = 1)%nat /\ (1 <= rk c (sp s) <= k)%nat).

Lemma stopped_stays : forall l s s', inv s -> step l s = Ok s' -> stopped s = true -> stopped s' = true.
Proof.
  intros l s s' (B & c & n & f & E & K) T D. assert (Q := pok_pair _ _ _ _ _ K). destruct (pair_le _ _ Q) as [Lc Ln].
  destruct l as [v| |]; cbn in T.
  - rewrite (safe_eq v c n f s E Lc Ln) in T. injection T as <-. unfold safe'. destruct (sp s); cbn; try exact D.
    + rewrite D. exact D.
    + destruct Q; cbn; try (destruct (5 <? _)); first [exact D|reflexivity].
    + unfold output_action. destruct (Nat.eqb c slRunning); exact D.
  - destruct (Z.eq_dec (cnt s) 2147483647) as [X|X]; [unfold p1 in T; rewrite X in T; discriminate|].
    rewrite (p1_eq c n f s E Lc Ln X) in T. injection T as <-. destruct (cnt s =? 5); exact D.
  - rewrite (trig_eq s c n f evShutDown E Lc Ln) in T by (unfold evShutDown; lia). injection T as <-. exact D.
Qed.

Lemma going_step : forall l s s' k, going s k -> step l s = Ok s' -> going s' (k - nsafe [l]).
Proof.
  intros l s s' k [I G] T. split; [apply (inv_step l s); assumption|].
  destruct G as [D|(c & n & f & E & W & R)]; [left; apply (stopped_stays l s); assumption|].
  destruct I as (B & c' & n' & f' & E' & K). rewrite E in E'. injection E' as <- <- <-.
  assert (Q := pok_pair _ _ _ _ _ K). destruct (pair_le _ _ Q) as [Lc Ln].
  destruct l as [v| |]; cbn in T.
  - rewrite (safe_eq v c n f s E Lc Ln) in T. injection T as <-. unfold safe'. destruct (sp s) eqn:P.
    + destruct (stopped s) eqn:D; [left; exact D|]. right. exists n, n, (upd f n (u32 (f n + 1))). split; [reflexivity|].
      destruct Q; cbn in W, R, K |- *; intuition (try congruence; try lia).
    + right. destruct Q, v; cbn in W, R, K |- *; (eexists _, _, _; split; [reflexivity|]); cbn; intuition (try congruence; try lia).
    + destruct Q; cbn in W, R, K |- *; try (left; reflexivity); right; try (destruct (5 <? _)); cbn;
        (eexists _, _, _; split; [first [exact E|reflexivity]|]); cbn; intuition (try congruence; try lia).
    + right. unfold output_action. destruct Q; cbn in W, R, K |- *; (eexists _, _, _; split; [exact E|]); cbn; intuition (try congruence; try lia).
    + right. exists n, n, f. split; [reflexivity|]. destruct Q; cbn in W, R, K |- *; intuition (try congruence; try lia).
  - destruct (Z.eq_dec (cnt s) 2147483647) as [X|X]; [unfold p1 in T; rewrite X in T; discriminate|].
    rewrite (p1_eq c n f s E Lc Ln X) in T. injection T as <-. right. cbn [nsafe]. rewrite Nat.sub_0_r.
    destruct (cnt s =? 5); [|exists c, n, f; auto].
    destruct Q; cbn in W, R |- *; (eexists _, _, _; split; [reflexivity|]); cbn; intuition (try congruence; try lia).
  - rewrite (trig_eq s c n f evShutDown E Lc Ln) in T by (unfold evShutDown; lia). injection T as <-. right. cbn [nsafe]. rewrite Nat.sub_0_r.
    destruct Q; cbn in W, R |- *; (eexists _, _, _; split; [reflexivity|]); cbn; intuition (try congruence; try lia).
Qed.
Lemma going_steps : forall ls s s' k, going s k -> steps ls s = Ok s' -> going s' (k - nsafe ls).
Proof.
  induction ls as [|l ls IH]; intros s s' k G E; cbn [steps] in E; [injection E as <-; cbn; rewrite Nat.sub_0_r; exact G|].
  destruct (step l s) as [s1| |] eqn:S; try discriminate. apply (going_step l s s1 k G) in S. apply (IH s1 s' _ S) in E.
  replace (k - nsafe (l :: ls))%nat with (k - nsafe [l] - nsafe ls)%nat; [exact E|]. destruct l; cbn; lia.
Qed.

Lemma interrupt_ends : forall s s1 ls s', reach s -> ~ (level_at s slOff /\ next_is s slInitializing) -> step LInt s = Ok s1 ->
  steps ls s1 = Ok s' -> (12 <= nsafe ls)%nat -> stopped s' = true.
Proof.
  intros s s1 ls s' R N T F L. apply inv_reach in R. assert (I := R). assert (I1 : inv s1) by (apply (inv_int s); assumption).
  destruct R as (B & c & n & f & E & K). assert (Q := pok_pair _ _ _ _ _ K). destruct (pair_le _ _ Q) as [Lc Ln].
  assert (G : going s1 12).
  { split; [exact I1|]. unfold level_at, next_is in N. rewrite E in N. cbn in T. rewrite (trig_eq s c n f evShutDown E Lc Ln) in T by (unfold evShutDown; lia).
    injection T as <-. cbn. destruct (stopped s) eqn:D; [left; reflexivity|].
    destruct Q; cbn in N, K |- *; try (exfalso; apply N; split; reflexivity).
    all: right; (eexists _, _, _; split; [reflexivity|]); cbn; destruct (sp s); cbn; intuition (try congruence; try lia). }
  destruct (going_steps ls s1 s' 12 G F) as [_ [D|(c' & n' & f' & _ & _ & X)]]; [exact D|lia].
Qed.
