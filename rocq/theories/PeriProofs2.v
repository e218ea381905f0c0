(** Proofs of C344-C350: witnesses and the program PeriodicExample3. *)
From Coq Require Import Lia Arith.
From Verif Require Import Prelude Num NumDbl TaskModel PeriModel PeriSpec PeriProofs.
Local Open Scope nat_scope.

(** ** The example *)
Definition threads3 : list thr := [Thr 1 1 [] [Thr 2 2 [] [Thr 2 4 [] []]; Thr 5 3 [] []]; Thr 3 5 [] []].
Lemma built : map (fun t => create_thread Dnum (dlit 1 100) (dofZ 1) (ptask_of Dnum t)) (config example3) = map Ok threads3.
Proof. vm_compute. reflexivity. Qed.

Definition prog3 := prog_of threads3.
Definition table3 : list (nat * nat * item) :=
  [(0, 0, Sub 1 1); (0, 1, Sub 5 3); (0, 2, Own); (1, 0, Own); (1, 1, Sub 2 2); (1, 2, Sub 3 5); (2, 0, Own); (2, 1, Sub 4 2);
   (3, 0, Own); (4, 0, Own); (5, 0, Own)].
Lemma nil_at : forall i (x : item), nth_error [] i = Some x -> False.
Proof. intros [|i] x H; discriminate. Qed.
Lemma at3 : forall n i x, at_ prog3 n i x -> In (n, i, x) table3.
Proof.
  intros n i x H. unfold at_, prog3, prog_of in H. do 6 (destruct n as [|n]; [cbn in H; do 4 (destruct i as [|i]; cbn in H; [try (inversion H; subst; cbn; tauto); try discriminate|]); try (apply nil_at in H; contradiction); destruct i; discriminate|]).
  cbn in H. apply nil_at in H. contradiction.
Qed.
Ltac tab H := apply at3 in H; cbn in H; repeat (destruct H as [H|H]; [inversion H; subst|]); try contradiction.
Lemma wf3 : wf prog3.
Proof.
  constructor.
  - intros p i j A B. tab A; tab B; reflexivity.
  - intros p q i j c k k' A B. tab A; tab B; auto.
  - intros p i c k A. tab A; lia.
Qed.
Lemma e3 : forall p i c k, nth_error (prog3 p) i = Some (Sub c k) -> edge prog3 p c k.
Proof. intros. exists i. auto. Qed.

Lemma rates3 : forall s, reach prog3 s -> quiet s ->
  fin s 1 = fin s 0 /\ fin s 2 = fin s 0 / 2 /\ fin s 3 = fin s 0 / 5 /\ fin s 4 = fin s 0 / 4 /\ fin s 5 = fin s 0 / 3.
Proof.
  intros s R Q. assert (O : at_ prog3 0 2 Own) by reflexivity.
  assert (P1 : path prog3 1 (1 * 1)) by (eapply path_s; [apply path_0|apply (e3 0 0); reflexivity]).
  assert (P2 : path prog3 2 (1 * 1 * 2)) by (eapply path_s; [exact P1|apply (e3 1 1); reflexivity]).
  assert (P3 : path prog3 3 (1 * 1 * 5)) by (eapply path_s; [exact P1|apply (e3 1 2); reflexivity]).
  assert (P4 : path prog3 4 (1 * 1 * 2 * 2)) by (eapply path_s; [exact P2|apply (e3 2 1); reflexivity]).
  assert (P5 : path prog3 5 (1 * 3)) by (eapply path_s; [apply path_0|apply (e3 0 1); reflexivity]).
  pose proof (fun n K H o => quiet_runs prog3 s n K o 2 wf3 R Q H) as G.
  rewrite <- (Nat.div_1_r (fin s 0)) at 1.
  repeat split; [apply (G 1 _ P1 0)|apply (G 2 _ P2 0)|apply (G 3 _ P3 0)|apply (G 4 _ P4 0)|apply (G 5 _ P5 0)]; reflexivity.
Qed.
Lemma order3 : forall s, reach prog3 s -> 2 * beg s 2 <= fin s 1 /\ 5 * beg s 3 <= fin s 1 /\ 2 * beg s 4 <= fin s 2.
Proof.
  intros s R. pose proof (inv_reach _ _ wf3 R) as I.
  assert (A : after prog3 1 2 2) by (exists 0, 1; repeat split; auto).
  assert (B : after prog3 1 3 5) by (exists 0, 2; repeat split; auto).
  assert (C : after prog3 2 4 2) by (exists 0, 1; repeat split; auto).
  pose proof (after_ok _ _ _ _ _ wf3 R A). pose proof (after_ok _ _ _ _ _ wf3 R B). pose proof (after_ok _ _ _ _ _ wf3 R C).
  pose proof (ent_beg _ _ 2 0 I eq_refl). pose proof (ent_beg _ _ 3 0 I eq_refl). pose proof (ent_beg _ _ 4 0 I eq_refl). lia.
Qed.

(** C343 in terms of runs begun. *)
Lemma after_begun : forall prog s p c k o, wf prog -> reach prog s -> after prog p c k -> at_ prog c o Own -> k * beg s c <= fin s p.
Proof.
  intros prog s p c k o W R A O. pose proof (after_ok _ _ _ _ _ W R A). pose proof (ent_beg _ _ _ _ (inv_reach _ _ W R) O).
  assert (k * beg s c <= k * ent s c) by (apply Nat.mul_le_mono_l; lia). lia.
Qed.

(** A cycle in which every thread is quick: the executor, then threads 1, 2, 4, 3, 5. *)
Definition exec_cycle := repeat 0 6.
Definition t1 := repeat 1 6. 
Lemma after_example : exists s, reach prog3 s /\ after prog3 1 2 2 /\ beg s 2 = 1 /\ fin s 1 = 2.
Proof.
  exists (steps prog3 (exec_cycle ++ t1 ++ exec_cycle ++ t1 ++ [2; 2]) init).
  split; [eexists; reflexivity|]. split; [exists 0, 1; repeat split; auto|]. split; reflexivity.
Qed.
Lemma quiet_example : exists s, reach prog3 s /\ quiet s /\ fin s 0 = 2 /\ fin s 2 = 1.
Proof.
  exists (steps prog3 (exec_cycle ++ t1 ++ exec_cycle ++ t1 ++ repeat 2 5) init).
  split; [eexists; reflexivity|]. split; [|split; reflexivity].
  intros n. do 6 (destruct n as [|n]; [split; [reflexivity|intros _; reflexivity]|]). split; [reflexivity|intros _; reflexivity].
Qed.

(** ** Before *)
Definition progb := prog_of [Thr 1 1 [Thr 1 2 [] []] []].
Lemma atb : forall n i x, at_ progb n i x -> In (n, i, x) [(0, 0, Sub 1 1); (0, 1, Own); (1, 0, Sub 2 1); (1, 1, Own); (2, 0, Own)].
Proof.
  intros n i x H. unfold at_, progb, prog_of in H. do 3 (destruct n as [|n]; [cbn in H; do 3 (destruct i as [|i]; cbn in H; [try (inversion H; subst; cbn; tauto); try discriminate|]); try (apply nil_at in H; contradiction); destruct i; discriminate|]).
  cbn in H. apply nil_at in H. contradiction.
Qed.
Ltac tabb H := apply atb in H; cbn in H; repeat (destruct H as [H|H]; [inversion H; subst|]); try contradiction.
Lemma wfb : wf progb.
Proof.
  constructor.
  - intros p i j A B. tabb A; tabb B; reflexivity.
  - intros p q i j c k k' A B. tabb A; tabb B; auto.
  - intros p i c k A. tabb A; lia.
Qed.
Lemma not_before : exists prog s, wf prog /\ before prog 1 2 1 /\ reach prog s /\ fin s 1 = 1 /\ beg s 2 = 0.
Proof.
  exists progb, (steps progb (repeat 0 2 ++ repeat 1 4) init). split; [exact wfb|].
  split; [exists 1, 0; repeat split; auto|]. split; [eexists; reflexivity|]. split; reflexivity.
Qed.
Lemma main_before : exists s, reach prog3 s /\ before prog3 0 1 1 /\ fin s 0 = 1 /\ beg s 1 = 0.
Proof.
  exists (steps prog3 exec_cycle init). split; [eexists; reflexivity|]. split; [exists 2, 0; repeat split; auto|].
  split; reflexivity.
Qed.

(** ** Overlapping and waiting runs *)
Lemma overlap : exists s, reach prog3 s /\ after prog3 1 2 2 /\ working s 1 /\ working s 2 /\ working s 0.
Proof.
  exists (steps prog3 (exec_cycle ++ t1 ++ exec_cycle ++ t1 ++ [2; 2] ++ repeat 0 4 ++ [1; 1]) init).
  split; [eexists; reflexivity|]. split; [exists 0, 1; repeat split; auto|].
  split; [exists 0; reflexivity|]. split; [exists 0; reflexivity|exists 2; reflexivity].
Qed.
Lemma no_self : forall prog s n o, wf prog -> reach prog s -> at_ prog n o Own ->
  fin s n <= beg s n <= fin s n + 1 /\ (beg s n = fin s n + 1 <-> working s n).
Proof.
  intros prog s n o W R O. pose proof (inv_reach _ _ W R) as I. pose proof (i_beg _ _ I n o O) as B.
  pose proof (i_fin _ _ I n o O) as F. unfold not_begun, not_past, working in *. destruct (pc s n) as [|i b] eqn:P.
  - split; [lia|]. split; [lia|]. intros (i & H). discriminate.
  - destruct b.
    + pose proof (i_busy _ _ I n i P) as O'. rewrite (wf_own _ W _ _ _ O' O) in *. rewrite Nat.ltb_irrefl, Nat.eqb_refl in B.
      rewrite Nat.leb_refl in F. cbn in B. split; [lia|]. split; [intros _; exists o; reflexivity|lia].
    + assert (E : beg s n = fin s n).
      { destruct (Nat.ltb_spec i o); destruct (Nat.leb_spec i o); destruct (Nat.eqb_spec i o); cbn in *; lia. }
      split; [lia|]. split; [lia|]. intros (i' & H'). discriminate.
Qed.

Definition moves (x y : pos) (d : nat) : Prop :=
  forall s, pc s 0 = x -> pc (step prog3 0 s) 0 = y /\ sem (step prog3 0 s) 1 = d + sem s 1.
Lemma moves_all : moves Wait (At 0 false) 0 /\ moves (At 0 false) (At 1 false) 1 /\ moves (At 1 false) (At 2 false) 0 /\
  moves (At 2 false) (At 2 true) 0 /\ moves (At 2 true) (At 3 false) 0 /\ moves (At 3 false) Wait 0.
Proof.
  unfold moves. repeat split; unfold step; rewrite H; cbn; try reflexivity; destruct (cnt s 5) as [|[|]]; reflexivity.
Qed.
Lemma cycle0 : forall s, pc s 0 = Wait -> pc (steps prog3 exec_cycle s) 0 = Wait /\ sem (steps prog3 exec_cycle s) 1 = S (sem s 1).
Proof.
  intros s P0. destruct moves_all as (M1 & M2 & M3 & M4 & M5 & M6). cbn [exec_cycle repeat steps].
  destruct (M1 _ P0) as [P1 S1]. destruct (M2 _ P1) as [P2 S2]. destruct (M3 _ P2) as [P3 S3]. destruct (M4 _ P3) as [P4 S4].
  destruct (M5 _ P4) as [P5 S5]. destruct (M6 _ P5) as [P6 S6]. split; [exact P6|].
  change (steps prog3 exec_cycle s) with
    (step prog3 0 (step prog3 0 (step prog3 0 (step prog3 0 (step prog3 0 (step prog3 0 s)))))). lia.
Qed.
Fixpoint cycles (n : nat) : list nat := match n with 0 => [] | S m => exec_cycle ++ cycles m end.
Lemma steps_app : forall prog a b s, steps prog (a ++ b) s = steps prog b (steps prog a s).
Proof. induction a; cbn; auto. Qed.
Lemma backlog_n : forall n s, pc s 0 = Wait -> sem (steps prog3 (cycles n) s) 1 = n + sem s 1.
Proof.
  induction n; intros s P; cbn [cycles]; [reflexivity|]. rewrite steps_app. destruct (cycle0 s P) as [A B].
  rewrite IHn, B by exact A. lia.
Qed.
Lemma backlog : exists f : nat -> st, forall n, reach prog3 (f n) /\ sem (f n) 1 = n.
Proof.
  exists (fun n => steps prog3 (cycles n) init). intros n. split; [eexists; reflexivity|].
  rewrite backlog_n by reflexivity. cbn. lia.
Qed.
Lemma one_waiting : forall prog s p c k, wf prog -> reach prog s -> edge prog p c k -> ent s p < k * (ent s c + 2) -> sem s c <= 1.
Proof.
  intros prog s p c k W R E H. pose proof (not_lost _ _ _ _ _ W R E) as [L _]. destruct (Nat.le_gt_cases (sem s c) 1) as [|G]; auto.
  exfalso. assert (k * (ent s c + 2) <= k * (ent s c + sem s c)) by (apply Nat.mul_le_mono_l; lia). lia.
Qed.
Lemma waiting_example : exists s, reach prog3 s /\ edge prog3 1 2 2 /\ ent s 1 < 2 * (ent s 2 + 2) /\ sem s 2 = 1.
Proof.
  exists (steps prog3 (exec_cycle ++ t1 ++ exec_cycle ++ t1) init). split; [eexists; reflexivity|].
  split; [exists 1; reflexivity|]. split; [|reflexivity]. apply Nat.leb_le. reflexivity.
Qed.

(** ** Monitors *)
Lemma lost_monitors : exists os id, In (id, 0) (flat_map monitored (config os)) /\ pushed os id = 1.
Proof. exists example3, 4. split; [cbn; tauto|reflexivity]. Qed.
Lemma monitors3 : flat_map monitored (config example3) = [(1, 1); (2, 1); (4, 0); (3, 0); (5, 1)] /\
  map (pushed example3) [1; 2; 3; 4; 5] = [1; 1; 1; 1; 1].
Proof. split; reflexivity. Qed.

Definition start : cst := {| vars := fun i => Per i 0 0 []; tasks := [] |}.
Lemma phase1 : forall os s m, Forall early os -> tasks s = [] -> (forall i, exists p, vars s i = Per i p (m i) []) ->
  tasks (fold_left cstep os s) = [] /\
  forall i, exists p, vars (fold_left cstep os s) i = Per i p (fold_left (fun m o => match o with CNew j _ => if j =? i then 0 else m
    | CMon j => if j =? i then S m else m | _ => m end) os (m i)) [].
Proof.
  induction os as [|o os IH]; intros s m F T V; [cbn; auto|]. inversion F as [|? ? E F']; subst. cbn [fold_left].
  destruct o as [j p|j|j c|j]; cbn in E; try contradiction.
  - apply (IH (cstep s (CNew j p)) (fun i => if j =? i then 0 else m i)); auto.
    intros i. cbn. unfold upd. rewrite (Nat.eqb_sym i j). destruct (Nat.eqb_spec j i); subst; eauto.
  - apply (IH (cstep s (CMon j)) (fun i => if j =? i then S (m i) else m i)); auto; cbn; destruct (V j) as (p & Q); rewrite Q; cbn; auto.
    intros i. unfold upd. rewrite (Nat.eqb_sym i j). destruct (Nat.eqb_spec j i); subst; eauto.
Qed.
Lemma phase2 : forall (m : nat -> nat) os s, Forall copying os ->
  (forall i, exists p a, vars s i = Per i p (m i) a) ->
  (forall i j x, In (j, x) (monitored (vars s i)) -> x = m j) -> (forall j x, In (j, x) (flat_map monitored (tasks s)) -> x = m j) ->
  forall j x, In (j, x) (flat_map monitored (tasks (fold_left cstep os s))) -> x = m j.
Proof.
  induction os as [|o os IH]; intros s F V A T; [exact T|]. inversion F as [|? ? E F']; subst. cbn [fold_left].
  destruct o as [j p|j|j c|j]; cbn in E; try contradiction; apply IH; auto.
  - intros i. cbn. destruct (V j) as (p & a & Q). rewrite Q. cbn. unfold upd. destruct (Nat.eqb_spec i j); subst; eauto.
  - intros i n x. cbn. destruct (V j) as (p & a & Q). rewrite Q. cbn. unfold upd. destruct (Nat.eqb_spec i j); subst; [|apply A].
    pose proof (A j) as Aj. rewrite Q in Aj. cbn in Aj |- *. rewrite flat_map_app. intros [H|H]; [apply Aj; auto|].
    apply in_app_or in H as [H|H]; [apply Aj; auto|]. cbn in H. rewrite app_nil_r in H. apply (A c); auto.
  - cbn. destruct (V j) as (p & a & Q). rewrite Q. exact T.
  - intros n x. cbn. rewrite flat_map_app. intros H. apply in_app_or in H as [H|H]; [auto|]. cbn in H. rewrite app_nil_r in H. eauto.
Qed.
Lemma kept_monitors : forall os1 os2 id m, Forall early os1 -> Forall copying os2 ->
  In (id, m) (flat_map monitored (config (os1 ++ os2))) -> m = pushed (os1 ++ os2) id.
Proof.
  intros os1 os2 id m F1 F2. unfold config. rewrite fold_left_app. fold start.
  destruct (phase1 os1 start (fun _ => 0) F1 eq_refl) as [T V]; [intros i; exists 0%Z; reflexivity|].
  assert (P : pushed (os1 ++ os2) id = pushed os1 id).
  { unfold pushed. rewrite fold_left_app. generalize (fold_left (fun m o => match o with CNew i _ => if i =? id then 0 else m
      | CMon i => if i =? id then S m else m | _ => m end) os1 0). clear - F2. induction F2 as [|o os E F IH]; intros z; [reflexivity|].
    destruct o; cbn in E; try contradiction; cbn; apply IH. }
  rewrite P. apply (phase2 (pushed os1) os2 (fold_left cstep os1 start)); auto.
  - intros i. destruct (V i) as (p & Q). rewrite Q. exists p, []. reflexivity.
  - intros i j x. destruct (V i) as (p & Q). rewrite Q. cbn. intros [H|[]]. inversion H; subst. reflexivity.
  - rewrite T. intros j x [].
Qed.

(** ** Copies *)
Lemma lost_task : exists os p c, In (CAfter p c) os /\ In p (created os) /\ ~ In c (created os).
Proof.
  exists [CNew 1 1; CNew 2 2; CNew 4 4; CAfter 1 2; CAfter 2 4; CAdd 1], 2, 4. split; [cbn; tauto|]. split; [cbn; tauto|].
  cbn. intros [H|[H|[]]]; discriminate.
Qed.
Lemma created3 : created example3 = [1; 2; 4; 3; 5].
Proof. reflexivity. Qed.
