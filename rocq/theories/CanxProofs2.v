From Verif Require Import Prelude SafetyModel CanxModel CanxSpec CanxProofs.
Local Open Scope Z_scope.

Definition next_n (l : label) (s : st) (c n n' : lref) : Prop :=
  match l with
  | LTd | LSafe => n' = n
  | LExit => n' = after 2 c n
  | LSeq _ => n' = match at_ s with PI6 => after 0 c n | PTrig => after 1 c n | _ => n end
  end.
Definition next_c (l : label) (c n : lref) : lref := match l with LSafe => n | _ => c end.

Lemma inv_step : forall l s c n s', inv s c n -> step l s = Ok s' -> exists n', inv s' (next_c l c n) n' /\ next_n l s c n n'.
Proof.
  intros l s c n s' I E. destruct l as [| | |b]; cbn [step next_c next_n] in *.
  - exists n. split; [eapply inv_td; eauto|reflexivity].
  - destruct (inv_safe s c n I) as (x & F & G). cbn [step] in F. rewrite F in E. injection E as <-. exists n. auto.
  - destruct (inv_trig s c n evShutDown true I) as (x & F & G & _); [unfold an_event, evShutDown; auto|].
    rewrite F in E. injection E as <-. exists (after 2 c n). auto.
  - destruct (inv_seq b s c n I) as (x & n' & F & G & N). rewrite F in E. injection E as <-. exists n'. auto.
Qed.

Lemma steps_app : forall a b s, steps (a ++ b) s = bind (steps a s) (steps b).
Proof.
  induction a as [|l a IH]; intros b s; cbn [steps app bind]; [reflexivity|].
  destruct (step l s); cbn [bind]; [apply IH|reflexivity|reflexivity].
Qed.

Lemma inv_steps : forall ls s c n s', inv s c n -> steps ls s = Ok s' -> exists c' n', inv s' c' n'.
Proof.
  induction ls as [|l ls IH]; intros s c n s' I E; cbn [steps] in E.
  - injection E as <-. eauto.
  - destruct (step l s) as [s1| |] eqn:F; cbn [bind] in E; try discriminate E.
    destruct (inv_step l s c n s1 I F) as (n1 & I1 & _). eapply IH; eauto.
Qed.
Lemma inv_reach : forall s, reach s -> exists c n, inv s c n.
Proof. intros s (s0 & ls & A & E). eapply inv_steps; [apply inv_start; exact A|exact E]. Qed.

Lemma at_cur : forall s c n l, inv s c n -> level_at s l -> c = l.
Proof. intros s c n l I L. destruct (i_sys _ _ _ I) as (A & _). unfold level_at in L. congruence. Qed.
Lemma at_nxt : forall s c n l, inv s c n -> next_is s l -> n = l.
Proof. intros s c n l I L. destruct (i_sys _ _ _ I) as (_ & A & _). unfold next_is in L. congruence. Qed.
Lemma cur_at : forall s c n, inv s c n -> level_at s c.
Proof. intros s c n I. destruct (i_sys _ _ _ I) as (A & _). exact A. Qed.
Lemma nxt_at : forall s c n, inv s c n -> next_is s n.
Proof. intros s c n I. destruct (i_sys _ _ _ I) as (_ & A & _). exact A. Qed.

(** ** Velocities *)
Lemma frames : forall s, reach s -> Forall sound (bus s).
Proof. intros s R. destruct (inv_reach s R) as (c & n & I). apply (i_bus _ _ _ I). Qed.

Lemma only_big : forall s l, reach s ->
  (exists s', step l s = Ok s') \/
  (l = LTd /\ step l s = UB /\ ((tp s = TP0 /\ o0 s = Some 4294967295) \/ (tp s = TP1 /\ o1 s = Some 4294967295))).
Proof.
  intros s l R. destruct (inv_reach s R) as (c & n & I). destruct l as [| | |b]; cbn [step].
  - unfold td. destruct (tp s) eqn:T; try (left; eexists; reflexivity).
    + pose proof (i_n0 _ _ _ I) as N. pose proof (i_o0 _ _ _ I) as O. destruct (o0 s) as [v|]; [|specialize (N eq_refl); congruence].
      destruct O as ([->|[->| ->]] & _); [left; eexists; reflexivity|left; eexists; reflexivity|right; auto].
    + pose proof (i_n1 _ _ _ I) as N. pose proof (i_o1 _ _ _ I) as O. destruct (o1 s) as [v|]; [|destruct (N eq_refl); congruence].
      destruct O as ([->|[->| ->]] & _); [left; eexists; reflexivity|left; eexists; reflexivity|right; auto].
  - left. destruct (inv_safe s c n I) as (x & F & _). eexists. exact F.
  - left. destruct (inv_trig s c n evShutDown true I) as (x & F & _); [unfold an_event, evShutDown; auto|]. eexists. exact F.
  - left. destruct (inv_seq b s c n I) as (x & n' & F & _). eexists. exact F.
Qed.

Lemma at_rest : forall s, reach s -> level_at s slInit \/ level_at s slReady ->
  v0 s = 0 /\ v1 s = 0 /\ (o0 s = None \/ o0 s = Some 0) /\ (o1 s = None \/ o1 s = Some 0).
Proof.
  intros s R L. destruct (inv_reach s R) as (c & n & I).
  assert (G : ~ going c).
  { unfold going. destruct L as [L|L]; rewrite (at_cur _ _ _ _ I L); intros [X|X]; discriminate X. }
  assert (Z : forall v, (v <> 0 -> going c) -> v = 0).
  { intros v X. destruct (Z.eq_dec v 0) as [E|E]; [exact E|]. elim G. auto. }
  split; [apply Z; apply (i_v0 _ _ _ I)|]. split; [apply Z; apply (i_v1 _ _ _ I)|].
  pose proof (i_o0 _ _ _ I) as O0. pose proof (i_o1 _ _ _ I) as O1.
  split.
  - destruct (o0 s) as [v|]; [right|auto]. f_equal. apply Z. apply O0.
  - destruct (o1 s) as [v|]; [right|auto]. f_equal. apply Z. apply O1.
Qed.

(** ** The interrupt *)
Lemma stop_stays : forall ls s s', inv s 3%nat 3%nat -> steps ls s = Ok s' -> inv s' 3%nat 3%nat.
Proof.
  induction ls as [|l ls IH]; intros s s' I E; cbn [steps] in E.
  - injection E as <-. exact I.
  - destruct (step l s) as [s1| |] eqn:F; cbn [bind] in E; try discriminate E.
    destruct (inv_step l s 3%nat 3%nat s1 I F) as (n1 & I1 & _).
    replace (next_c l 3%nat 3%nat) with 3%nat in I1 by (destruct l; reflexivity).
    destruct (i_sys _ _ _ I1) as (_ & _ & P). rewrite (stop_after _ P) in I1. eapply IH; eauto.
Qed.

Lemma stop_inv : forall s, reach s -> level_at s slStop -> inv s 3%nat 3%nat.
Proof.
  intros s R L. destruct (inv_reach s R) as (c & n & I). rewrite (at_cur _ _ _ _ I L) in I.
  destruct (i_sys _ _ _ I) as (_ & _ & P). rewrite (stop_after _ P) in I. exact I.
Qed.

(** From moving, once stop is pending, it stays pending. *)
Lemma pending : forall ls s c s', inv s c 3%nat -> going c -> steps ls s = Ok s' -> exists c', inv s' c' 3%nat /\ going c'.
Proof.
  induction ls as [|l ls IH]; intros s c s' I G E; cbn [steps] in E.
  - injection E as <-. eauto.
  - destruct (step l s) as [s1| |] eqn:F; cbn [bind] in E; try discriminate E.
    destruct (inv_step l s c 3%nat s1 I F) as (n1 & I1 & N).
    assert (X : n1 = 3%nat).
    { destruct l; cbn in N; auto; destruct G as [->| ->]; cbn in N; auto; destruct (at_ s); auto. }
    subst n1. apply (IH s1 (next_c l c 3%nat)); auto. destruct l; cbn; auto. right. reflexivity.
Qed.

Lemma interrupt_moving : forall s ls more s', reach s -> level_at s slMoving ->
  steps (LExit :: ls ++ LSafe :: more) s = Ok s' -> level_at s' slStop.
Proof.
  intros s ls more s' R L E. destruct (inv_reach s R) as (c & n & I). rewrite (at_cur _ _ _ _ I L) in I. clear L R c.
  cbn [steps] in E. destruct (step LExit s) as [s1| |] eqn:F; cbn [bind] in E; try discriminate E.
  destruct (inv_step LExit s _ _ _ I F) as (n1 & I1 & N). cbn in N, I1. subst n1.
  rewrite steps_app in E. destruct (steps ls s1) as [s2| |] eqn:F2; cbn [bind] in E; try discriminate E.
  destruct (pending ls s1 slMoving s2 I1) as (c2 & I2 & G2); [left; reflexivity|exact F2|].
  cbn [steps] in E. destruct (step LSafe s2) as [s3| |] eqn:F3; cbn [bind] in E; try discriminate E.
  destruct (inv_step LSafe s2 _ _ _ I2 F3) as (n3 & I3 & N3). cbn in N3, I3. subst n3.
  apply (cur_at s' 3%nat 3%nat). eapply stop_stays; eauto.
Qed.

Lemma interrupt_ready : forall s more s', reach s -> level_at s slReady -> next_is s slReady ->
  steps (LExit :: LSafe :: more) s = Ok s' -> level_at s' slStop.
Proof.
  intros s more s' R L N0 E. destruct (inv_reach s R) as (c & n & I). rewrite (at_nxt _ _ _ _ I N0) in I.
  rewrite (at_cur _ _ _ _ I L) in I. clear L R c n N0.
  cbn [steps] in E. destruct (step LExit s) as [s1| |] eqn:F; cbn [bind] in E; try discriminate E.
  destruct (inv_step LExit s _ _ _ I F) as (n1 & I1 & N). cbn in N, I1. subst n1.
  destruct (step LSafe s1) as [s3| |] eqn:F3; cbn [bind] in E; try discriminate E.
  destruct (inv_step LSafe s1 _ _ _ I1 F3) as (n3 & I3 & N3). cbn in N3, I3. subst n3.
  apply (cur_at s' 3%nat 3%nat). eapply stop_stays; eauto.
Qed.

(** ** The end *)
Definition rank (s : st) : nat :=
  match at_ s with
  | PEnd => 0
  | PTop => if running s then 17 else 1
  | PWaitEnd => if running s then 18 else 2
  | PS6 => 3
  | PS5 => 4
  | PS4 => 5
  | PS3 n => 6 + n
  | PS2 => 11
  | PS1 => 12
  | PS0 => 13
  | PRd4 => 14
  | PRd3 => 15
  | PRd2 => 16
  | PTrig | PI6 | PMvL _ => 19
  | PWaitR | PMv _ => 20
  | PMvW _ => 21
  | PMv1 _ => 22
  | PMv0 _ => 23
  | PI5 n => 20 + n
  | PI4 => 25
  | PI3 => 26
  | PI2 => 27
  | PI1 n => 28 + n
  | PI0 => 49
  end.

Lemma level_at_stop : forall s l, inv s 3%nat 3%nat -> level_is s l = Nat.eqb 3 l.
Proof. intros s l I. destruct (i_sys _ _ _ I) as (A & _). unfold level_is. rewrite A. reflexivity. Qed.

Lemma rank_step : forall l s s', inv s 3%nat 3%nat -> step l s = Ok s' ->
  (rank s' <= rank s)%nat /\ (works l = true -> at_ s = PEnd \/ (rank s' < rank s)%nat).
Proof.
  intros l s s' I E.
  assert (K : forall t, at_ t = at_ s -> running t = running s -> rank t = rank s) by (intros t A B; unfold rank; rewrite A, B; reflexivity).
  destruct l as [| | |b]; cbn [works].
  - assert (X : at_ s' = at_ s /\ running s' = running s).
    { cbn [step] in E. unfold td in E. destruct (tp s); try (injection E as <-; auto).
      - destruct (scaled (o0 s) 50); cbn in E; try discriminate E. injection E as <-. auto.
      - destruct (scaled (o1 s) 200); cbn in E; try discriminate E. injection E as <-. auto. }
    rewrite (K s'); try tauto. split; [lia|discriminate].
  - destruct (inv_safe s _ _ I) as (x & F & _). rewrite F in E. injection E as <-. rewrite (K (w_ss x s)); auto. split; [lia|discriminate].
  - cbn [step] in E. destruct (inv_trig s 3%nat 3%nat evShutDown true I) as (x & F & _); [unfold an_event, evShutDown; auto|].
    rewrite F in E. injection E as <-. rewrite (K (w_ss x s)); auto. split; [lia|discriminate].
  - assert (TR : forall e, an_event e -> exists x, trig e false s = Ok (w_ss x s)).
    { intros e He. destruct (inv_trig s 3%nat 3%nat e false I He) as (x & F & _). eauto. }
    pose proof (i_pc _ _ _ I) as P. pose proof (i_halt _ _ _ I) as Ht. unfold pc_ok in P. cbn [step] in E. unfold seq in E. unfold rank.
    rewrite ?level_at_stop in E by exact I.
    pose proof (run_true s 3%nat Ht) as RT.
    destruct (at_ s) eqn:T;
      try (specialize (RT _ eq_refl); lapply RT; [clear RT; intros RT|repeat split; discriminate]); cbn in E;
      try (destruct (TR evInitDone) as (x & F); [unfold an_event, evInitDone; auto|]; rewrite F in E; cbn in E);
      try (destruct (TR evStartMoving) as (x' & F'); [unfold an_event, evStartMoving; auto|]; rewrite F' in E; cbn in E);
      try destruct n; try destruct b; cbn in E;
      try (injection E as <-; cbn; rewrite ?RT; cbn; split; [lia|intros _; right; lia]);
      try (injection E as <-; cbn; rewrite ?RT; cbn; split; [lia|discriminate]).
    all: try (injection E as <-; cbn; destruct (running s) eqn:Rn; cbn; rewrite ?Rn; cbn; split; [lia|try discriminate; intros _; right; lia]).
    all: try (rewrite RT in E; injection E as <-; cbn; rewrite ?RT; cbn; split; [lia|try discriminate; intros _; right; lia]).
    all: try (destruct P as (_ & _ & _ & P); injection E as <-; cbn; rewrite ?P; cbn; split; [lia|try discriminate; intros _; right; lia]).
    all: destruct (running s) eqn:Rn; injection E as E; subst s'; cbn; rewrite ?Rn, ?T; cbn; split; try lia; try discriminate;
      intros _; first [left; reflexivity|right; lia].
Qed.

Lemma rank_steps : forall ls s s', inv s 3%nat 3%nat -> steps ls s = Ok s' ->
  (length (filter works ls) <= rank s - rank s')%nat \/ rank s' = 0%nat.
Proof.
  induction ls as [|l ls IH]; intros s s' I E; cbn [steps] in E.
  - injection E as <-. left. cbn. lia.
  - destruct (step l s) as [s1| |] eqn:F; cbn [bind] in E; try discriminate E.
    destruct (rank_step l s s1 I F) as (A & B).
    assert (I1 : inv s1 3%nat 3%nat) by (apply (stop_stays [l] s s1 I); cbn [steps]; rewrite F; reflexivity).
    destruct (IH s1 s' I1 E) as [X|X]; [|auto].
    assert (M : (rank s' <= rank s1)%nat).
    { clear - I1 E. revert s1 I1 E. induction ls as [|l ls IH]; intros s1 I1 E; cbn [steps] in E.
      - injection E as <-. lia.
      - destruct (step l s1) as [s2| |] eqn:F; cbn [bind] in E; try discriminate E.
        destruct (rank_step l s1 s2 I1 F) as (A & _).
        assert (I2 : inv s2 3%nat 3%nat) by (apply (stop_stays [l] s1 s2 I1); cbn [steps]; rewrite F; reflexivity).
        specialize (IH s2 I2 E). lia. }
    cbn [filter]. destruct (works l) eqn:W; cbn [length]; [|left; lia].
    destruct (B eq_refl) as [T|T]; [|left; lia].
    right. unfold rank in A at 2. rewrite T in A. lia.
Qed.

Lemma rank_le : forall s c n, inv s c n -> (rank s <= 49)%nat.
Proof.
  intros s c n I. pose proof (i_pc _ _ _ I) as P. unfold rank, pc_ok in *. destruct (at_ s); try destruct (running s); try lia.
Qed.

Lemma ends : forall s ls s', reach s -> level_at s slStop -> steps ls s = Ok s' -> (49 < length (filter works ls))%nat ->
  at_ s' = PEnd /\ running s' = false /\ stopped s' = true /\ sen s' = false /\ ren s' = false.
Proof.
  intros s ls s' R L E N. pose proof (stop_inv s R L) as I. pose proof (rank_le _ _ _ I).
  pose proof (stop_stays ls s s' I E) as I'.
  assert (Z : rank s' = 0%nat) by (destruct (rank_steps ls s s' I E); [lia|assumption]).
  assert (T : at_ s' = PEnd).
  { unfold rank in Z. destruct (at_ s'); try (destruct (running s'); discriminate Z); try discriminate Z; reflexivity. }
  pose proof (i_pc _ _ _ I') as P. unfold pc_ok in P. rewrite T in P.
  destruct (i_halt _ _ _ I' P) as (A & B & _ & [(X & _)|(_ & Y)]); [congruence|]. auto.
Qed.

(** ** No process data after the end of sending *)
Definition left (s : st) : nat := match tp s with TSync => 3 | TP0 => 2 | TP1 => 1 | _ => 0 end.
Definition over (s : st) : Prop := sen s = false /\ (disabled_by_stop (at_ s) = true \/ running s = false).

Lemma over_step : forall l s c n s', inv s c n -> over s -> step l s = Ok s' ->
  over s' /\ (count is_process (bus s') + left s' <= count is_process (bus s) + left s)%nat.
Proof.
  intros l s c n s' I (A & B) E. destruct l as [| | |b]; cbn [step] in E.
  - unfold td in E. unfold left, over, count. destruct (tp s) eqn:T; try rewrite A in E.
    + injection E as <-. cbn. split; [auto|lia].
    + injection E as <-. cbn. split; [auto|lia].
    + injection E as <-. cbn. split; [auto|lia].
    + injection E as <-. cbn. split; [auto|lia].
    + destruct (scaled (o0 s) 50); cbn in E; try discriminate E. injection E as <-. cbn. split; [auto|lia].
    + destruct (scaled (o1 s) 200); cbn in E; try discriminate E. injection E as <-. cbn. split; [auto|lia].
  - destruct (inv_safe s _ _ I) as (x & F & _). cbn [step] in F. rewrite F in E. injection E as <-.
    split; [split; auto|]. apply Nat.le_refl.
  - destruct (inv_trig s c n evShutDown true I) as (x & F & _); [unfold an_event, evShutDown; auto|].
    rewrite F in E. injection E as <-. split; [split; auto|]. apply Nat.le_refl.
  - unfold over, left, count. pose proof (i_halt _ _ _ I) as Ht. unfold halted in Ht.
    unfold seq in E.
    destruct B as [B|B].
    + pose proof (i_pc _ _ _ I) as P. unfold pc_ok in P.
      destruct (at_ s); try discriminate B; try destruct n0; try destruct b; injection E as <-; cbn; (split; [tauto|lia]).
    + destruct (Ht B) as (_ & _ & _ & [(X & _)|([X|[X|X]] & _)]); rewrite X in E; try rewrite B in E; try rewrite orb_true_r in E;
        injection E as E; subst s'; cbn; split; auto; lia.
Qed.

Lemma over_steps : forall ls s c n s', inv s c n -> over s -> steps ls s = Ok s' ->
  (count is_process (bus s') + left s' <= count is_process (bus s) + left s)%nat.
Proof.
  induction ls as [|l ls IH]; intros s c n s' I O E; cbn [steps] in E.
  - injection E as <-. lia.
  - destruct (step l s) as [s1| |] eqn:F; cbn [bind] in E; try discriminate E.
    destruct (over_step l s c n s1 I O F) as (O1 & L1). destruct (inv_step l s c n s1 I F) as (n1 & I1 & _).
    specialize (IH s1 _ _ s' I1 O1 E). lia.
Qed.

Lemma quiet : forall s ls s', reach s -> disabled_by_stop (at_ s) = true -> steps ls s = Ok s' ->
  (count is_process (bus s') <= count is_process (bus s) + 3)%nat.
Proof.
  intros s ls s' R D E. destruct (inv_reach s R) as (c & n & I).
  assert (O : over s).
  { split; [|auto]. pose proof (i_pc _ _ _ I) as P. unfold pc_ok in P. destruct (at_ s); try discriminate D; tauto. }
  pose proof (over_steps ls s c n s' I O E). unfold left in *. destruct (tp s); lia.
Qed.
