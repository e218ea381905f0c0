(** Proofs of C351-C356. *)
From Coq Require Import Lia Arith.
From Verif Require Import Prelude Can1Model Can1Spec.
Local Open Scope nat_scope.

Lemma steps_app : forall a b s, steps (a ++ b) s = steps b (steps a s).
Proof. induction a; cbn; auto. Qed.
Lemma reach_steps : forall s ls, reach s -> reach (steps ls s).
Proof. intros s ls (l & ->). exists (l ++ ls). rewrite steps_app. reflexivity. Qed.
Lemma reach_ind' : forall (P : st -> Prop), P init -> (forall s l, P s -> P (step l s)) -> forall s, reach s -> P s.
Proof.
  intros P I S s (ls & ->). revert I. generalize init. induction ls; cbn; intros; auto.
Qed.

(** Which position belongs to which point of the sequence. *)
Definition pos_of (p : spc) : position := match p with Q101 | Q102 => P1 | Q103 | Q104 => P2 | _ => P0 end.
(** The sequence has passed the test of the level. *)
Definition moved (p : spc) : bool := match p with Q100 | Q101 | Q102 | Q103 | Q104 | Q105 => true | _ => false end.
Definition pre (p : mpc) : bool := match p with M0 | M1 => true | _ => false end.

(** The main thread and the safety system. *)
Definition inv1 (m : mpc) (c n : level) (x : bool) : bool :=
  match m, c, n, x with
  | (M0 | M1 | M2), Init, Init, false => true
  | (A0 | A1 | A2), Init, Init, false => true
  | (A0 | A1 | A2), Shut, Shut, false => true
  | (A0 | A1 | A2 | A3), Moving, (Moving | Shut), false => true
  | A3, Init, Moving, false => true
  | (A3 | A0 | M4 | M5), Shut, Shut, true => true
  | _, _, _, _ => false
  end.
(** The sequence. *)
Definition started (q : spc) : bool := match q with Q0 => false | _ => true end.
Definition q_spd (q : spc) : bool := match q with Q0 | Q95 => false | _ => true end.
Definition q_sen (q : spc) : bool := match q with Q0 | Q95 | Q96 => false | _ => true end.
Record Inv (s : st) : Prop := {
  i_safe : inv1 (mp s) (cur s) (next s) (stopped s) = true;
  i_pos : pos s = pos_of (sp s);
  i_q0 : started (sp s) = negb (pre (mp s));
  i_spd : spd s = q_spd (sp s);
  i_sen : sen s = q_sen (sp s);
  i_bus : Forall (fun f => exists p, f = Some (p, true)) (bus s);
  i_out : td s = true -> out s <> None;
  i_init : cur s = Init -> moved (sp s) = false;
  i_m5 : mp s = M5 -> sp s = QEnd }.

Lemma inv_init : Inv init.
Proof. constructor; cbn; auto; discriminate. Qed.
Lemma inv_main : forall s, Inv s -> Inv (main s).
Proof.
  intros [m c n x r q p o sd se bu t h] [B1 B2 B3 B4 B5 B6 B7 B8 B9]. cbn in *.
  destruct m; destruct c; try discriminate B1; destruct n; try discriminate B1; destruct x; try discriminate B1; cbn in *;
    try (constructor; cbn; auto; fail); try (constructor; cbn; auto; discriminate).
  all: destruct q; try discriminate B3; cbn in *; subst; constructor; cbn; auto; try discriminate; intros; try discriminate; auto.
  all: specialize (B9 eq_refl); discriminate.
Qed.
Lemma inv_seq : forall b s, Inv s -> Inv (seq b s).
Proof.
  intros b [m c n x r q p o sd se bu t h] [B1 B2 B3 B4 B5 B6 B7 B8 B9]. cbn in *.
  assert (W : forall y, pos_of y = pos_of q -> started y = started q -> q_spd y = q_spd q -> q_sen y = q_sen q ->
    (moved q = false -> moved y = false) -> (m = M5 -> y = QEnd) ->
    Inv {| mp := m; cur := c; next := n; stopped := x; running := r; sp := y; pos := p; out := o; spd := sd; sen := se; bus := bu;
           td := t; hp := h |}).
  { intros y E1 E2 E3 E4 E5 E6. constructor; cbn; auto; congruence. }
  assert (V : q = QEnd \/ (m = M5 -> False)) by (destruct q; auto; right; intros H; specialize (B9 H); discriminate).
  destruct V as [V|V]; [subst q; cbn; apply W; auto|].
  destruct q; cbn in *; try (apply W; auto; fail); try (destruct (b || negb r); apply W; auto; contradiction).
  all: try (destruct r; apply W; auto; contradiction).
  all: try (destruct c; cbn; try (apply W; auto; contradiction)).
  all: subst; constructor; cbn; auto; try discriminate; try contradiction; intros; try discriminate; try contradiction.
Qed.
Lemma inv_domain : forall s, Inv s -> Inv (domain s).
Proof.
  intros [m c n x r q p o sd se bu t h] [B1 B2 B3 B4 B5 B6 B7 B8 B9]. unfold domain. cbn in *. destruct (in_loop m); cbn; [|constructor; cbn; auto].
  destruct t; constructor; cbn; auto; try discriminate.
  destruct se; auto. constructor; auto. destruct o as [y|]; [|exfalso; apply B7; auto]. exists y. cbn. subst.
  destruct q; try discriminate B5; reflexivity.
Qed.
Lemma inv_int : forall r h s, Inv s -> Inv (w_int r h s).
Proof. intros r h s [B1 B2 B3 B4 B5 B6 B7 B8 B9]. constructor; cbn; auto. Qed.
Lemma inv_trigger : forall s, Inv s -> Inv (trigger EShut s).
Proof.
  intros [m c n x r q p o sd se bu t h] [B1 B2 B3 B4 B5 B6 B7 B8 B9]. cbn in *. unfold trigger. cbn.
  destruct c; try (constructor; cbn; auto; fail). destruct n; cbn; try (constructor; cbn; auto; fail).
  all: try (destruct m; discriminate B1).
  all: constructor; cbn; auto; destruct m; try discriminate B1; destruct x; try discriminate B1; reflexivity.
Qed.
Lemma inv_step : forall s l, Inv s -> Inv (step l s).
Proof.
  intros s l I. destruct l; cbn; [apply inv_main|apply inv_seq|apply inv_domain| |]; auto.
  - destruct (hp s); auto. apply inv_int; auto.
  - destruct (hp s); auto. apply inv_int. destruct (mp s); auto using inv_trigger.
Qed.
Lemma inv_reach : forall s, reach s -> Inv s.
Proof. apply reach_ind'; [exact inv_init|intros; apply inv_step; auto]. Qed.

(** ** C351: interrupts *)
(** While nobody interrupts, a level other than shut stays other than shut. *)
Lemma quiet_step : forall l s, is_int l = false -> hp s = false -> cur s <> Shut -> next s <> Shut -> stopped s = false ->
  hp (step l s) = false /\ cur (step l s) <> Shut /\ next (step l s) <> Shut /\ stopped (step l s) = false.
Proof.
  intros l [m c n x r q p o sd se bu t h] I H C N X. cbn in *. subst h x. destruct l as [|b| | |]; try discriminate I; cbn.
  - destruct m; cbn; auto. + destruct c; cbn; auto; try (destruct n; cbn; auto; repeat split; auto; discriminate). contradiction.
    + destruct q; cbn; auto.
  - destruct q; cbn; auto; destruct (b || negb r); cbn; auto.
  - unfold domain; cbn. destruct (in_loop m); cbn; auto. destruct t; cbn; auto.
  - auto.
Qed.
Lemma quiet_steps : forall ls s, existsb is_int ls = false -> hp s = false -> cur s <> Shut -> next s <> Shut -> stopped s = false ->
  stopped (steps ls s) = false.
Proof.
  induction ls as [|l ls IH]; cbn; intros s E H C N X; auto. apply Bool.orb_false_iff in E as [E1 E2].
  destruct (quiet_step l s E1 H C N X) as (A & B & D & F). apply IH; auto.
Qed.
Lemma not_left : forall s, reach s -> stopped s = false -> ~ left_loop s.
Proof.
  intros s R F [L|L]; pose proof (i_safe _ (inv_reach _ R)) as I; rewrite F, L in I; destruct (cur s), (next s); discriminate I.
Qed.
Lemma ignored_gen : forall s, reach s -> hp s = false -> cur s <> Shut -> next s <> Shut -> stopped s = false ->
  forall ls, existsb is_int ls = false -> stopped (steps ls s) = false /\ ~ left_loop (steps ls s).
Proof.
  intros s R H C N X ls E. assert (F : stopped (steps ls s) = false) by (apply quiet_steps; auto).
  split; [exact F|]. apply not_left; auto. apply reach_steps; auto.
Qed.
Lemma ignored : exists s, reach s /\ mp s = M2 /\ cur s = Init /\ hp s = false /\ running s = false /\
  forall ls, existsb is_int ls = false -> stopped (steps ls s) = false /\ ~ left_loop (steps ls s).
Proof.
  exists (steps [LMain; LMain; LInt; LExit] init). split; [eexists; reflexivity|].
  repeat (split; [reflexivity|]). apply ignored_gen; [eexists; reflexivity|reflexivity| | |reflexivity]; vm_compute; discriminate.
Qed.

(** Once shut is the next level the loop ends after at most seven steps. *)
Definition rank (s : st) : nat :=
  match mp s with
  | A0 => if stopped s then 1 else 5
  | A1 => 4
  | A2 => match cur s with Shut => 3 | _ => 7 end
  | A3 => if stopped s then 2 else 6
  | _ => 0
  end.
Definition ending (s : st) : Prop := Inv s /\ next s = Shut.
Lemma ending_step : forall s l, ending s -> ending (step l s) /\
  (if is_main l then rank (step l s) <= pred (rank s) else rank (step l s) <= rank s).
Proof.
  intros s l [I N]. pose proof (inv_step s l I) as I'. split; [split; [exact I'|]|].
  - destruct s as [m c n x r q p o sd se bu t h]. cbn in *. subst n. destruct l as [|b| | |]; cbn.
    + destruct m; cbn; auto; try (destruct c; cbn; auto; fail). destruct q; auto.
    + destruct q; cbn; auto; destruct (b || negb r); auto.
    + unfold domain; cbn. destruct (in_loop m); cbn; auto. destruct t; auto.
    + destruct h; auto.
    + destruct h; cbn; auto. destruct m; cbn; auto; destruct c; auto.
  - pose proof (i_safe _ I) as B. clear I I'. destruct s as [m c n x r q p o sd se bu t h]. cbn in *. subst n. destruct l as [|b| | |]; cbn.
    + destruct m, c, x; try discriminate B; cbn; try lia; destruct q; cbn; lia.
    + destruct q; cbn; auto; destruct (b || negb r); cbn; auto.
    + unfold domain; cbn. destruct (in_loop m); cbn; auto. destruct t; auto.
    + destruct h; auto.
    + destruct h; cbn; auto. destruct m, c; cbn; auto.
Qed.
Lemma ending_steps : forall ls s, ending s -> ending (steps ls s) /\ rank (steps ls s) <= rank s - length (filter is_main ls).
Proof.
  induction ls as [|l ls IH]; cbn; intros s E; [split; auto; lia|]. destruct (ending_step s l E) as [E' R].
  destruct (IH _ E') as [E'' R']. split; auto. destruct (is_main l); cbn; lia.
Qed.
Lemma rank0 : forall s, ending s -> rank s = 0 -> left_loop s.
Proof.
  intros s [I N] R. pose proof (i_safe _ I) as B. rewrite N in B. unfold rank, left_loop in *.
  destruct (mp s), (cur s), (stopped s); try discriminate B; try discriminate R; auto.
Qed.
Lemma rank7 : forall s, rank s <= 7.
Proof. intros s. unfold rank. destruct (mp s), (cur s), (stopped s); lia. Qed.
Lemma interrupted : forall s ls, reach s -> cur s = Moving -> hp s = true -> 7 <= length (filter is_main ls) ->
  left_loop (steps (LExit :: ls) s).
Proof.
  intros s ls R C H L. pose proof (inv_reach s R) as I. assert (E : ending (step LExit s)).
  { split; [apply inv_step; auto|]. pose proof (i_safe _ I) as B. destruct s as [m c n x r q p o sd se bu t h]. cbn in *. subst.
    destruct m, n, x; try discriminate B; reflexivity. }
  cbn [steps]. destruct (ending_steps ls _ E) as [E' R']. apply rank0; auto. pose proof (rank7 (step LExit s)). lia.
Qed.
Lemma moving_example : exists s, reach s /\ cur s = Moving /\ hp s = true.
Proof. exists (steps (repeat LMain 8 ++ [LInt]) init). split; [eexists; reflexivity|]. split; reflexivity. Qed.

(** ** C352: the sequence ends after an interrupt, and the program when the loop was left *)
Definition qrank (q : spc) : nat :=
  match q with Q0 => 0 | Q95 => 3 | Q96 => 2 | Q98 => 1 | Q99 => 8 | Q100 => 7 | Q101 => 6 | Q102 => 5 | Q103 => 4 | Q104 => 3 | Q105 => 2
  | QEnd => 0 end.
Lemma qstep : forall l s, running s = false -> sp s <> Q0 -> running (step l s) = false /\ sp (step l s) <> Q0 /\
  (if is_seq l then qrank (sp (step l s)) <= pred (qrank (sp s)) else sp (step l s) = sp s \/ mp s = M1).
Proof.
  intros l [m c n x r q p o sd se bu t h] R Q. cbn in *. subst r. destruct l as [|b| | |]; cbn.
  - destruct m; cbn; auto. + repeat split; auto; discriminate. + destruct c; cbn; auto. destruct n; cbn; auto. + destruct q; cbn; auto.
  - destruct q; cbn; try rewrite Bool.orb_true_r; cbn; repeat split; auto; try discriminate; try contradiction; destruct c; cbn; try discriminate; lia.
  - unfold domain; cbn. destruct (in_loop m); cbn; auto. destruct t; auto.
  - destruct h; auto.
  - destruct h; cbn; auto. destruct m; cbn; auto; unfold trigger; cbn; destruct c; cbn; auto; destruct n; cbn; auto.
Qed.
Lemma seq_ends : forall ls s, reach s -> running s = false -> sp s <> Q0 -> 8 <= length (filter is_seq ls) ->
  sp (steps ls s) = QEnd /\ pos (steps ls s) = P0.
Proof.
  assert (G : forall ls s, Inv s -> running s = false -> sp s <> Q0 -> sp (steps ls s) <> Q0 /\
    qrank (sp (steps ls s)) <= qrank (sp s) - length (filter is_seq ls)).
  { induction ls as [|l ls IH]; intros s I R Q; cbn [steps filter length]; [split; auto; lia|]. destruct (qstep l s R Q) as (A & B & C).
    destruct (IH _ (inv_step s l I) A B) as [D E]. split; auto. destruct (is_seq l); cbn [length]; [lia|].
    destruct C as [C|C]; [rewrite C in E; lia|]. pose proof (i_q0 _ I) as Q0'. rewrite C in Q0'. destruct (sp s); try discriminate Q0'. contradiction. }
  intros ls s R RU Q L. destruct (G ls s (inv_reach s R) RU Q) as [A B]. assert (qrank (sp s) <= 8) by (destruct (sp s); cbn; lia).
  assert (E : sp (steps ls s) = QEnd) by (destruct (sp (steps ls s)); cbn in B; try lia; congruence).
  split; [exact E|]. rewrite (i_pos _ (inv_reach _ (reach_steps s ls R))), E. reflexivity.
Qed.
Lemma interrupted_example : exists s, reach s /\ running s = false /\ sp s = Q101.
Proof. exists (steps (repeat LMain 8 ++ repeat (LSeq false) 5 ++ [LInt]) init). split; [eexists; reflexivity|]. split; reflexivity. Qed.
Lemma program_ends : forall s, left_loop s -> sp s = QEnd -> mp (step LMain s) = M5.
Proof. intros s [L|L] Q; cbn; unfold main; rewrite L; [rewrite Q; reflexivity|exact L]. Qed.

(** ** C353: the end of the program *)
Definition walk : list label := repeat LMain 8 ++ repeat (LSeq false) 5.
Definition finish : list label := [LInt; LExit] ++ repeat LMain 7 ++ repeat (LSeq false) 8 ++ [LMain].
Lemma not_home : exists s, reach s /\ mp s = M5 /\ hd_error (bus s) = Some (Some (P1, true)).
Proof. exists (steps (walk ++ [LTd; LTd] ++ finish) init). split; [eexists; reflexivity|]. split; reflexivity. Qed.
Lemma enabled_end : forall s, reach s -> mp s = M5 -> sen s = true /\ pos s = P0.
Proof.
  intros s R M. pose proof (inv_reach s R) as I. pose proof (i_m5 _ I M) as Q. rewrite (i_sen _ I), (i_pos _ I), Q. auto.
Qed.
Lemma enabled_exists : exists s, reach s /\ mp s = M5 /\ sen s = true.
Proof. exists (steps (walk ++ finish) init). split; [eexists; reflexivity|]. split; reflexivity. Qed.

(** ** C354: positions after an interrupt *)
Lemma goes_on : exists s s' ls, reach s /\ running s = false /\ hp s = false /\ bus s = [Some (P1, true)] /\ cur s = Moving /\
  s' = steps ls s /\ bus s' = [Some (P0, true); Some (P2, true); Some (P1, true)] /\ sp s' = QEnd.
Proof.
  exists (steps (walk ++ [LTd; LTd; LInt; LExit]) init). eexists. exists (repeat (LSeq false) 2 ++ [LTd; LTd] ++ repeat (LSeq false) 4 ++ [LTd; LTd]).
  split; [eexists; reflexivity|]. split; [reflexivity|]. split; [reflexivity|]. split; [reflexivity|]. split; [reflexivity|].
  split; [reflexivity|]. split; reflexivity.
Qed.
Lemma ended_stays : forall s ls, reach s -> sp s = QEnd -> sp (steps ls s) = QEnd /\ pos (steps ls s) = P0.
Proof.
  intros s ls R Q. assert (G : forall ls s, Inv s -> sp s = QEnd -> sp (steps ls s) = QEnd).
  { induction ls0 as [|l ls0 IH]; cbn; intros t I E; auto. apply IH; [apply inv_step; auto|]. pose proof (i_q0 _ I) as Z.
    destruct t as [m c n x r q p o sd se bu d h]. cbn in *. subst q. destruct l as [|b| | |]; cbn; auto.
    - destruct m; try discriminate Z; cbn; auto. destruct c; cbn; auto. unfold trigger; cbn. destruct n; auto.
    - unfold domain; cbn. destruct (in_loop m); cbn; auto. destruct d; auto.
    - destruct h; auto.
    - destruct h; cbn; auto. destruct m; cbn; auto; unfold trigger; cbn; destruct c; cbn; auto; destruct n; cbn; auto. }
  pose proof (G ls s (inv_reach s R) Q) as E. split; auto. rewrite (i_pos _ (inv_reach _ (reach_steps s ls R))), E. reflexivity.
Qed.

(** ** C355 and C356: frames and levels *)
Lemma frames : forall s f, reach s -> In f (bus s) -> exists p, f = Some (p, true).
Proof. intros s f R H. pose proof (i_bus _ (inv_reach s R)) as B. rewrite Forall_forall in B. auto. Qed.
Lemma init_rests : forall s, reach s -> cur s = Init -> pos s = P0.
Proof.
  intros s R C. pose proof (inv_reach s R) as I. rewrite (i_pos _ I). pose proof (i_init _ I C) as M.
  destruct (sp s); try discriminate M; reflexivity.
Qed.
Lemma moves_in_shut : exists s, reach s /\ cur s = Shut /\ mp s = A2 /\ pos s = P0 /\ pos (step (LSeq false) s) = P1.
Proof.
  exists (steps (repeat LMain 8 ++ repeat (LSeq false) 4 ++ [LInt; LExit] ++ repeat LMain 1) init).
  split; [eexists; reflexivity|]. repeat split; reflexivity.
Qed.
Lemma handler_ends : forall ls s, reach s -> sp s <> Q0 -> hp s = false -> 8 <= length (filter is_seq ls) ->
  sp (steps (LInt :: ls) s) = QEnd /\ pos (steps (LInt :: ls) s) = P0.
Proof.
  intros ls s R Q H L. cbn [steps]. apply seq_ends; auto.
  - apply (reach_steps s [LInt] R).
  - cbn. rewrite H. reflexivity.
  - cbn. rewrite H. exact Q.
Qed.
