From Verif Require Import Prelude SafetyModel CanxModel CanxSpec CanxProofs CanxProofs2.
Local Open Scope Z_scope.

(** ** One initialization, when the safety system is in time *)
Definition early (p : pc) : bool := match p with PI0 | PI1 _ | PI2 => true | _ => false end.
Definition late (p : pc) : bool := match p with PI3 | PI4 | PI5 _ | PI6 => true | _ => false end.
Definition once (s : st) (c n : lref) : Prop :=
  (count is_start (bus s) <= 1)%nat /\
  (early (at_ s) = true -> c = 0%nat /\ n = 0%nat /\ sen s = false /\ count is_start (bus s) = 0%nat) /\
  (late (at_ s) = true -> c = 0%nat /\ n = 0%nat) /\
  (c = 0%nat -> n = 0%nat -> late (at_ s) = false -> sen s = false /\ count is_start (bus s) = 0%nat).

Lemma once_step : forall l s c n s', inv s c n -> once s c n -> timely l s -> step l s = Ok s' ->
  exists c' n', inv s' c' n' /\ once s' c' n'.
Proof.
  intros l s c n s' I (A & B & C & D) T E. destruct (inv_step l s c n s' I E) as (n' & I' & N).
  exists (next_c l c n), n'. split; [exact I'|]. destruct (i_sys _ _ _ I) as (S1 & S2 & P).
  destruct l as [| | |b]; cbn [next_c] in *.
  - cbn in N. subst n'. cbn [step] in E.
    assert (X : at_ s' = at_ s /\ sen s' = sen s /\ count is_start (bus s') = count is_start (bus s)).
    { unfold td in E. destruct (tp s); try (injection E as <-; auto).
      - destruct (scaled (o0 s) 50); cbn in E; try discriminate E. injection E as <-. auto.
      - destruct (scaled (o1 s) 200); cbn in E; try discriminate E. injection E as <-. auto. }
    destruct X as (X1 & X2 & X3). unfold once. rewrite X1, X2, X3. auto.
  - cbn in N. subst n'. destruct (inv_safe s c n I) as (x & F & _). rewrite F in E. injection E as <-.
    unfold once. change (bus (w_ss x s)) with (bus s). change (at_ (w_ss x s)) with (at_ s). change (sen (w_ss x s)) with (sen s).
    split; [exact A|]. split; [intros X; destruct (B X) as (-> & -> & ? & ?); auto|].
    split; [intros X; destruct (C X) as (-> & ->); auto|].
    intros X _. subst n. inversion P; subst; auto.
  - cbn in N. subst n'. cbn [step] in E. destruct (inv_trig s c n evShutDown true I) as (x & F & _); [unfold an_event, evShutDown; auto|].
    rewrite F in E. injection E as <-. unfold once.
    change (bus (w_ss x s)) with (bus s). change (at_ (w_ss x s)) with (at_ s). change (sen (w_ss x s)) with (sen s).
    split; [exact A|]. split; [intros X; destruct (B X) as (-> & -> & ? & ?); auto|].
    split; [intros X; destruct (C X) as (-> & ->); auto|].
    intros ->. cbn. auto.
  - assert (TR : forall e, an_event e -> exists x, trig e false s = Ok (w_ss x s)).
    { intros e He. destruct (inv_trig s c n e false I He) as (x & F & _). eauto. }
    cbn [next_n timely] in N, T. cbn [step] in E. unfold seq in E. unfold once.
    destruct (at_ s) eqn:AT; cbn [early late] in *;
      subst n'.
    + (* PTop *)
      specialize (T eq_refl). assert (c = n) by congruence. subst n.
      destruct (running s); [|injection E as <-; cbn; split; [exact A|split; [discriminate|split; [discriminate|auto]]]].
      destruct (level_is s slInit) eqn:LV; injection E as <-; cbn.
      * apply (level_is_true s c c slInit (i_sys _ _ _ I)) in LV. subst c. destruct (D eq_refl eq_refl eq_refl) as (D1 & D2).
        repeat split; auto; try discriminate.
      * repeat split; auto; try discriminate; apply D; auto.
    + injection E as <-; cbn. destruct (B eq_refl) as (-> & -> & B3 & B4). repeat split; auto; try discriminate.
    + destruct n0; injection E as <-; cbn; destruct (B eq_refl) as (-> & -> & B3 & B4); repeat split; auto; try discriminate.
    + injection E as <-; cbn. destruct (B eq_refl) as (-> & -> & B3 & B4). unfold count in *. cbn. rewrite B4.
      repeat split; auto; try discriminate.
    + injection E as <-; cbn. destruct (C eq_refl) as (-> & ->). repeat split; auto; try discriminate.
    + injection E as <-; cbn. destruct (C eq_refl) as (-> & ->). repeat split; auto; try discriminate.
    + destruct n0; injection E as <-; cbn; destruct (C eq_refl) as (-> & ->); repeat split; auto; try discriminate.
    + destruct (TR evInitDone) as (x & F); [unfold an_event, evInitDone; auto|]. rewrite F in E. cbn in E. injection E as <-. cbn.
      destruct (C eq_refl) as (-> & ->).
      repeat split; auto; try discriminate.
    + destruct (level_is s slReady); injection E as <-; cbn; repeat split; auto; try discriminate; apply D; auto.
    + destruct b; injection E as <-; cbn; repeat split; auto; try discriminate; apply D; auto.
    + destruct (TR evStartMoving) as (x & F); [unfold an_event, evStartMoving; auto|]. rewrite F in E. cbn in E. injection E as <-. cbn.
      pose proof (i_pc _ _ _ I) as Q. unfold pc_ok in Q. rewrite AT in Q.
      repeat split; auto; try discriminate; exfalso; auto.
    + destruct (level_is s slMoving); injection E as <-; cbn; repeat split; auto; try discriminate; apply D; auto.
    + destruct (running s); injection E as <-; cbn; repeat split; auto; try discriminate; apply D; auto.
    + destruct (level_is s slMoving); injection E as <-; cbn; repeat split; auto; try discriminate; apply D; auto.
    + injection E as <-; cbn; repeat split; auto; try discriminate; apply D; auto.
    + injection E as <-; cbn; repeat split; auto; try discriminate; apply D; auto.
    + destruct b; injection E as <-; cbn; repeat split; auto; try discriminate; apply D; auto.
    + destruct (level_is s slStop); injection E as <-; cbn; repeat split; auto; try discriminate; apply D; auto.
    + injection E as <-; cbn; repeat split; auto; try discriminate; apply D; auto.
    + injection E as <-; cbn; repeat split; auto; try discriminate; apply D; auto.
    + injection E as <-; cbn; repeat split; auto; try discriminate; apply D; auto.
    + destruct n0; injection E as <-; cbn; repeat split; auto; try discriminate; apply D; auto.
    + destruct b; injection E as <-; cbn; repeat split; auto; try discriminate; apply D; auto.
    + injection E as <-; cbn; repeat split; auto; try discriminate; apply D; auto.
    + injection E as <-; cbn; repeat split; auto; try discriminate; apply D; auto.
    + destruct (b || negb (running s)); injection E as <-; cbn; repeat split; auto; try discriminate; apply D; auto.
    + injection E as E; subst s'; cbn; rewrite AT; cbn; repeat split; auto; try discriminate; apply D; auto.
Qed.

Lemma once_steps : forall ls s c n s', inv s c n -> once s c n -> along timely ls s -> steps ls s = Ok s' ->
  exists c' n', inv s' c' n' /\ once s' c' n'.
Proof.
  induction ls as [|l ls IH]; intros s c n s' I O T E; cbn [steps] in E.
  - injection E as <-. eauto.
  - destruct T as (T1 & T2). destruct (step l s) as [s1| |] eqn:F; cbn [bind] in E; try discriminate E.
    destruct (once_step l s c n s1 I O T1 F) as (c1 & n1 & I1 & O1). eapply IH; eauto.
Qed.
Lemma once_reach : forall s, reach_with timely s -> exists c n, inv s c n /\ once s c n.
Proof.
  intros s (s0 & ls & A & T & E). eapply once_steps; eauto; [apply inv_start; exact A|].
  destruct A as (n0 & x & _ & ->). unfold once. cbn. repeat split; auto; try discriminate.
Qed.

Lemma single : forall s, reach_with timely s -> (count is_start (bus s) <= 1)%nat.
Proof. intros s R. destruct (once_reach s R) as (c & n & _ & O). apply O. Qed.

Lemma cons_neq : forall (x : frame) l, x :: l <> l.
Proof. intros x l E. apply (f_equal (@length frame)) in E. cbn in E. lia. Qed.

Lemma sdo_timely : forall s b s', reach_with timely s -> step (LSeq b) s = Ok s' -> bus s' = FSdo :: bus s -> sen s = true ->
  exists n, at_ s = PI5 n.
Proof.
  intros s b s' R E X S. destruct (once_reach s R) as (c & n & I & O). cbn [step] in E. unfold seq in E.
  assert (TR : forall e, an_event e -> exists x, trig e false s = Ok (w_ss x s)).
  { intros e He. destruct (inv_trig s c n e false I He) as (x & F & _). eauto. }
  assert (NB : forall t, bus t = bus s -> t <> s') by (intros t A ->; rewrite A in X; symmetry in X; apply cons_neq in X; exact X).
  destruct O as (_ & B & _ & _). pose proof (i_pc _ _ _ I) as P. unfold pc_ok in P.
  destruct (at_ s) eqn:AT; try (injection E as E; exfalso; refine (NB _ _ E); reflexivity); try (exfalso; cbn in B; destruct (B eq_refl) as (_ & _ & Y & _); congruence).
  - eauto.
  - destruct (TR evInitDone) as (x & F); [unfold an_event, evInitDone; auto|]. rewrite F in E. injection E as E. exfalso; refine (NB _ _ E); reflexivity.
  - destruct (TR evStartMoving) as (x & F); [unfold an_event, evStartMoving; auto|]. rewrite F in E. injection E as E. exfalso; refine (NB _ _ E); reflexivity.
  - injection E as E. subst s'. cbn in X. discriminate X.
  - exfalso. destruct P as (_ & _ & P & _). congruence.
Qed.

(** ** The witnesses *)
Definition s0 : st := start {| cur := Some slInit; nxt := Some slInit; nact := upd (fun _ => 0) slInit 0 |}.
Lemma s0_initial : initial s0.
Proof. exists (fun _ => 0), {| cur := Some slInit; nxt := Some slInit; nact := upd (fun _ => 0) slInit 0 |}. split; reflexivity. Qed.

Lemma found : forall ls (t : st -> bool), match steps ls s0 with Ok s => t s | _ => false end = true ->
  exists s, reach s /\ t s = true.
Proof.
  intros ls t X. destruct (steps ls s0) as [s| |] eqn:E; try discriminate X. exists s. split; [|exact X].
  exists s0, ls. split; [exact s0_initial|exact E].
Qed.
Definition lev (s : st) (l : lref) : bool := match cur (ss s) with Some c => Nat.eqb c l | None => false end.
Definition nxl (s : st) (l : lref) : bool := match nxt (ss s) with Some c => Nat.eqb c l | None => false end.
Lemma lev_at : forall s l, lev s l = true -> level_at s l.
Proof. unfold lev, level_at. intros s l E. destruct (cur (ss s)); [|discriminate]. apply Nat.eqb_eq in E. congruence. Qed.
Lemma nxl_is : forall s l, nxl s l = true -> next_is s l.
Proof. unfold nxl, next_is. intros s l E. destruct (nxt (ss s)); [|discriminate]. apply Nat.eqb_eq in E. congruence. Qed.

Definition q (n : nat) : list label := repeat (LSeq true) n.
Definition to_ready : list label := q 32 ++ [LSafe].
Definition to_moving : list label := to_ready ++ q 5 ++ [LSafe].

Lemma overflow : exists s, reach s /\ level_at s slMoving /\ v0 s = 4294967295 /\ step LTd s = UB.
Proof.
  destruct (found (to_moving ++ q 13 ++ [LTd; LTd; LTd; LTd])
    (fun s => lev s slMoving && (v0 s =? 4294967295) && match step LTd s with UB => true | _ => false end)) as (s & R & T).
  { vm_compute. reflexivity. }
  exists s. apply andb_prop in T. destruct T as (T & T3). apply andb_prop in T. destruct T as (T1 & T2).
  split; [exact R|]. split; [apply lev_at; exact T1|]. split; [apply Z.eqb_eq; exact T2|].
  destruct (step LTd s); try discriminate T3. reflexivity.
Qed.

Lemma ignored_init : exists s, reach s /\ level_at s slInit /\ at_ s = PI1 10 /\ step LExit s = Ok s.
Proof.
  destruct (steps (q 12) s0) as [s| |] eqn:E.
  - exists s. assert (R : reach s) by (exists s0, (q 12); split; [exact s0_initial|exact E]).
    vm_compute in E. injection E as <-. split; [exact R|]. repeat split.
  - exfalso. assert (X : match steps (q 12) s0 with Ok _ => true | _ => false end = true) by reflexivity. rewrite E in X. discriminate X.
  - exfalso. assert (X : match steps (q 12) s0 with Ok _ => true | _ => false end = true) by reflexivity. rewrite E in X. discriminate X.
Qed.

Lemma overridden : exists s s', reach s /\ level_at s slReady /\ next_is s slReady /\ steps [LExit; LSeq true; LSafe] s = Ok s' /\
  level_at s' slMoving /\ next_is s' slMoving.
Proof.
  destruct (found (to_ready ++ q 4)
    (fun s => lev s slReady && nxl s slReady && match steps [LExit; LSeq true; LSafe] s with Ok s' => lev s' slMoving && nxl s' slMoving | _ => false end)) as (s & R & T).
  { vm_compute. reflexivity. }
  apply andb_prop in T. destruct T as (T & T3). apply andb_prop in T. destruct T as (T1 & T2).
  destruct (steps [LExit; LSeq true; LSafe] s) as [s'| |] eqn:E; try discriminate T3. apply andb_prop in T3. destruct T3 as (T3 & T4).
  exists s, s'. auto 10 using lev_at, nxl_is.
Qed.

Lemma twice : exists s, reach s /\ count is_start (bus s) = 2%nat /\ level_at s slInit.
Proof.
  destruct (found (q 33 ++ q 24) (fun s => Nat.eqb (count is_start (bus s)) 2 && lev s slInit)) as (s & R & T).
  { vm_compute. reflexivity. }
  apply andb_prop in T. destruct T as (T1 & T2). exists s. apply Nat.eqb_eq in T1. auto using lev_at.
Qed.

Definition head_is (f : frame -> bool) (l : list frame) : bool := match l with x :: _ => f x | [] => false end.

Lemma after_disable : exists s s', reach s /\ at_ s = PS4 /\ step LTd s = Ok s' /\ bus s' = FPdo 1 100 :: bus s.
Proof.
  destruct (found (to_moving ++ q 8 ++ [LTd; LTd; LTd; LTd; LExit; LSafe] ++ q 16)
    (fun s => match at_ s with PS4 => true | _ => false end && match tp s with TP0 => true | _ => false end &&
              match o0 s with Some 2 => true | _ => false end)) as (s & R & T).
  { vm_compute. reflexivity. }
  apply andb_prop in T. destruct T as (T & T3). apply andb_prop in T. destruct T as (T1 & T2).
  destruct (o0 s) as [v|] eqn:O; [|discriminate T3].
  assert (v = 2) as -> by (destruct v as [|v|v]; try discriminate T3; destruct v as [v|v|]; try discriminate T3; destruct v; try discriminate T3; reflexivity).
  destruct (at_ s) eqn:A; try discriminate T1. destruct (tp s) eqn:B; try discriminate T2.
  exists s. eexists. split; [exact R|]. split; [exact A|]. cbn [step]. unfold td. rewrite B, O. split; reflexivity.
Qed.

Lemma moving_at_stop : exists s s', reach s /\ level_at s slStop /\ sen s = true /\ step LTd s = Ok s' /\ bus s' = FPdo 1 100 :: bus s.
Proof.
  destruct (found (to_moving ++ q 8 ++ [LExit; LSafe; LTd; LTd; LTd; LTd])
    (fun s => lev s slStop && sen s && match tp s with TP0 => true | _ => false end &&
              match o0 s with Some 2 => true | _ => false end)) as (s & R & T).
  { vm_compute. reflexivity. }
  apply andb_prop in T. destruct T as (T & T3). apply andb_prop in T. destruct T as (T & T2). apply andb_prop in T. destruct T as (T0 & T1).
  destruct (o0 s) as [v|] eqn:O; [|discriminate T3].
  assert (v = 2) as -> by (destruct v as [|v|v]; try discriminate T3; destruct v as [v|v|]; try discriminate T3; destruct v; try discriminate T3; reflexivity).
  destruct (tp s) eqn:B; try discriminate T2.
  exists s. eexists. split; [exact R|]. split; [apply lev_at; exact T0|]. split; [exact T1|]. cbn [step]. unfold td. rewrite B, O. split; reflexivity.
Qed.


Fixpoint chk (ls : list label) (s : st) : bool :=
  match ls with
  | [] => true
  | l :: ls =>
    match l with
    | LSeq _ => match at_ s with PTop => match nxt (ss s), cur (ss s) with Some a, Some b => Nat.eqb a b | _, _ => false end | _ => true end
    | _ => true
    end && match step l s with Ok s' => chk ls s' | _ => false end
  end.
Lemma chk_along : forall ls s, chk ls s = true -> along timely ls s.
Proof.
  induction ls as [|l ls IH]; intros s C; [exact I|]. cbn [chk] in C. apply andb_prop in C. destruct C as (C1 & C2). split.
  - destruct l as [| | |b]; cbn; auto. intros T. rewrite T in C1. destruct (nxt (ss s)) as [a|]; [|discriminate].
    destruct (cur (ss s)) as [d|]; [|discriminate]. apply Nat.eqb_eq in C1. congruence.
  - intros s' E. rewrite E in C2. apply IH. exact C2.
Qed.
Lemma found_timely : forall ls (t : st -> bool), chk ls s0 && match steps ls s0 with Ok s => t s | _ => false end = true ->
  exists s, reach_with timely s /\ t s = true.
Proof.
  intros ls t X. apply andb_prop in X. destruct X as (C & X). destruct (steps ls s0) as [s| |] eqn:E; try discriminate X. exists s. split; [|exact X].
  exists s0, ls. split; [exact s0_initial|]. split; [apply chk_along; exact C|exact E].
Qed.

Lemma sdo_enabled : exists s s', reach_with timely s /\ sen s = true /\ ren s = true /\ step (LSeq true) s = Ok s' /\ bus s' = FSdo :: bus s.
Proof.
  destruct (found_timely (q 26) (fun s => sen s && ren s && match at_ s with PI5 4 => true | _ => false end)) as (s & R & T).
  { vm_compute. reflexivity. }
  apply andb_prop in T. destruct T as (T & T2). apply andb_prop in T. destruct T as (T0 & T1).
  exists s. destruct (at_ s) eqn:A; try discriminate T2.
  match goal with A : at_ s = PI5 ?k |- _ => destruct k as [|k']; [discriminate T2|] end.
  eexists. split; [exact R|]. split; [exact T0|]. split; [exact T1|].
  cbn [step]. unfold seq. rewrite A. split; reflexivity.
Qed.
Lemma timely_moving : exists s, reach_with timely s /\ level_at s slMoving /\ count is_start (bus s) = 1%nat /\ v0 s = 2.
Proof.
  destruct (found_timely (to_moving ++ q 8) (fun s => lev s slMoving && Nat.eqb (count is_start (bus s)) 1 && (v0 s =? 2))) as (s & R & T).
  { vm_compute. reflexivity. }
  apply andb_prop in T. destruct T as (T & T2). apply andb_prop in T. destruct T as (T0 & T1).
  exists s. apply Nat.eqb_eq in T1. apply Z.eqb_eq in T2. auto using lev_at.
Qed.
Lemma full : exists s s', reach s /\ level_at s slStop /\ steps (q 50) s = Ok s'.
Proof.
  destruct (found (to_moving ++ q 8 ++ [LExit; LSafe]) (fun s => lev s slStop && match steps (q 50) s with Ok _ => true | _ => false end)) as (s & R & T).
  { vm_compute. reflexivity. }
  apply andb_prop in T. destruct T as (T0 & T1). destruct (steps (q 50) s) as [s'| |] eqn:E; try discriminate T1.
  exists s, s'. auto using lev_at.
Qed.
