From Verif Require Import Prelude SafetyModel CanxModel CanxSpec.
Local Open Scope Z_scope.

(** ** The safety system on the four levels *)
Inductive pair_ok : lref -> lref -> Prop :=
| p_same : forall c, (c <= 3)%nat -> pair_ok c c
| p_01 : pair_ok 0%nat 1%nat
| p_12 : pair_ok 1%nat 2%nat
| p_13 : pair_ok 1%nat 3%nat
| p_23 : pair_ok 2%nat 3%nat.

Definition sys_ok (s : sys) (c n : lref) : Prop := cur s = Some c /\ nxt s = Some n /\ pair_ok c n.

Lemma le3 : forall c, (c <= 3)%nat -> c = 0%nat \/ c = 1%nat \/ c = 2%nat \/ c = 3%nat.
Proof. intros; lia. Qed.

Definition after (e : evid) (c n : lref) : lref :=
  match e, c with
  | 0, 0%nat => 1%nat
  | 1, 1%nat => 2%nat
  | 2, 1%nat => if Nat.eqb n 2 then 2%nat else 3%nat
  | 2, 2%nat => 3%nat
  | _, _ => n
  end.

Ltac pairs P := inversion P as [? L E1 E2| | | |]; subst;
  [match goal with L : (_ <= 3)%nat |- _ => destruct (le3 _ L) as [->|[->|[->| ->]]] end| | | |].

Definition lv (id : Z) (t : list (evid * (lref * bool))) : level :=
  {| lid := id; ltrans := t; lin := []; lout := []; lact := false |}.
Lemma H_0 : H 0%nat = lv 0 [(0, (1%nat, false))]. Proof. vm_compute. reflexivity. Qed.
Lemma H_1 : H 1%nat = lv 1 [(1, (2%nat, false)); (2, (3%nat, false))]. Proof. vm_compute. reflexivity. Qed.
Lemma H_2 : H 2%nat = lv 2 [(2, (3%nat, false))]. Proof. vm_compute. reflexivity. Qed.
Lemma H_3 : H 3%nat = lv 3 []. Proof. vm_compute. reflexivity. Qed.

Definition an_event (e : evid) : Prop := e = 0 \/ e = 1 \/ e = 2.

Lemma trig_gen : forall h s c n e priv, h 0%nat = H 0%nat -> h 1%nat = H 1%nat -> h 2%nat = H 2%nat ->
  h 3%nat = H 3%nat -> sys_ok s c n -> an_event e ->
  exists s', triggerEvent h s e priv = Ok s' /\ sys_ok s' c (after e c n).
Proof.
  intros h [cu nx na] c n e priv A0 A1 A2 A3 (E1 & E2 & P) He. simpl in E1, E2. subst cu nx.
  rewrite H_0 in A0. rewrite H_1 in A1. rewrite H_2 in A2. rewrite H_3 in A3.
  pairs P; destruct He as [->|[->| ->]]; destruct priv;
    (eexists; split;
     [unfold triggerEvent; cbn [cur nxt nact]; rewrite ?A0, ?A1, ?A2, ?A3; cbn; rewrite ?A0, ?A1, ?A2, ?A3; cbn; reflexivity
     |split; [reflexivity|]; split; [reflexivity|]; cbn; constructor; lia]).
Qed.
Lemma trig_ok : forall s c n e priv, sys_ok s c n -> an_event e ->
  exists s', triggerEvent H s e priv = Ok s' /\ sys_ok s' c (after e c n).
Proof. intros. apply trig_gen; auto. Qed.

Lemma run_gen : forall h s c n, h 0%nat = H 0%nat -> h 1%nat = H 1%nat -> h 2%nat = H 2%nat ->
  h 3%nat = H 3%nat -> sys_ok s c n ->
  exists s' es, run h s (fun _ => VBool false) [] = Ok (s', es) /\ sys_ok s' n n.
Proof.
  intros h [cu nx na] c n A0 A1 A2 A3 (E1 & E2 & P). simpl in E1, E2. subst cu nx.
  rewrite H_0 in A0. rewrite H_1 in A1. rewrite H_2 in A2. rewrite H_3 in A3.
  pairs P; (do 2 eexists; split;
    [unfold run, adopt; cbn [cur nxt nact]; rewrite ?A0, ?A1, ?A2, ?A3;
     cbn [lv lin lout lact checkInputs bind fst snd triggers setOutputs app nxt cur adopt]; reflexivity
    |split; [reflexivity|]; split; [reflexivity|]; constructor; lia]).
Qed.
Lemma run_ok : forall s c n, sys_ok s c n ->
  exists s' es, run H s (fun _ => VBool false) [] = Ok (s', es) /\ sys_ok s' n n.
Proof. intros. apply run_gen with c; auto. Qed.

(** ** The invariant *)
Definition big : Z := 4294967295.
Definition val (v : Z) : Prop := v = 0 \/ v = 2 \/ v = big.
Definition going (c : lref) : Prop := c = 2%nat \/ c = 3%nat.

Definition pc_ok (s : st) (c : lref) : Prop :=
  match at_ s with
  | PI1 n => (n <= 20)%nat
  | PI5 n => (n <= 4)%nat
  | PWaitR | PTrig => c <> 0%nat
  | PMv v | PMvL v | PMv0 v | PMv1 v | PMvW v => going c /\ (v = 2 \/ v = big)
  | PS0 => c = 3%nat
  | PS1 => c = 3%nat /\ ren s = false
  | PS6 => c = 3%nat /\ ren s = false /\ sen s = false /\ running s = false
  | PS2 | PS4 | PS5 => c = 3%nat /\ ren s = false /\ sen s = false
  | PS3 n => c = 3%nat /\ ren s = false /\ sen s = false /\ (n <= 4)%nat
  | PEnd => running s = false
  | _ => True
  end.

Definition halted (s : st) (c : lref) : Prop :=
  running s = false -> ren s = false /\ sen s = false /\ c = 3%nat /\
  ((at_ s = PS6 /\ stopped s = false) \/ ((at_ s = PWaitEnd \/ at_ s = PTop \/ at_ s = PEnd) /\ stopped s = true)).

Definition oval (o : option Z) (c : lref) : Prop :=
  match o with None => True | Some v => val v /\ (v <> 0 -> going c) end.

Record inv (s : st) (c n : lref) : Prop := {
  i_sys : sys_ok (ss s) c n;
  i_v0 : val (v0 s) /\ (v0 s <> 0 -> going c);
  i_v1 : val (v1 s) /\ (v1 s <> 0 -> going c);
  i_o0 : oval (o0 s) c;
  i_o1 : oval (o1 s) c;
  i_n0 : o0 s = None -> tp s = TC0;
  i_n1 : o1 s = None -> tp s = TC0 \/ tp s = TC1;
  i_bus : Forall sound (bus s);
  i_pc : pc_ok s c;
  i_halt : halted s c;
  i_stop : stopped s = true -> running s = false }.

Lemma inv_start : forall s, initial s -> inv s 0%nat 0%nat.
Proof.
  intros s (n0 & s0 & E & ->).
  assert (F : setProperties can_props n0 =
              Ok (Some {| cur := Some 0%nat; nxt := Some 0%nat; nact := upd n0 0%nat 0%Z |})) by reflexivity.
  rewrite F in E. injection E as <-.
  constructor; cbn; try exact I; try discriminate; unfold val; auto; try (split; [auto|intros X; contradiction]).
  split; [reflexivity|]. split; [reflexivity|]. constructor. lia.
Qed.

Lemma going_after : forall c n, pair_ok c n -> going c -> going n.
Proof. intros c n P G. unfold going in *. pairs P; destruct G as [G|G]; try discriminate G; auto. Qed.
Lemma stop_after : forall n, pair_ok 3%nat n -> n = 3%nat.
Proof. intros n P. inversion P; auto. Qed.

(** The fields that a change of the safety system alone leaves. *)
Lemma inv_sys : forall s c n x c' n', inv s c n -> sys_ok x c' n' -> (going c -> going c') -> (c = 3%nat -> c' = 3%nat) ->
  (c <> 0%nat -> c' <> 0%nat) -> inv (w_ss x s) c' n'.
Proof.
  intros s c n x c' n' [A B C D E F G J K L M] X GG SS NN.
  assert (OV : forall o, oval o c -> oval o c') by (intros [o|]; cbn; [intros (U & V); auto|auto]).
  destruct B as (B1 & B2), C as (C1 & C2).
  constructor; cbn; auto; try exact (i_stop _ _ _ I).
  - unfold pc_ok in *. cbn. destruct (at_ s); auto; intuition.
  - unfold halted in *. cbn. intros R. destruct (L R) as (L1 & L2 & L3 & L4). auto.
Qed.

Lemma inv_trig : forall s c n e priv, inv s c n -> an_event e ->
  exists x, trig e priv s = Ok (w_ss x s) /\ inv (w_ss x s) c (after e c n) /\ sys_ok x c (after e c n).
Proof.
  intros s c n e priv I He. destruct (trig_ok (ss s) c n e priv (i_sys _ _ _ I) He) as (x & E & X).
  exists x. unfold trig. rewrite E. split; [reflexivity|]. split; [|exact X]. eapply inv_sys; eauto.
Qed.

Lemma inv_safe : forall s c n, inv s c n -> exists x, step LSafe s = Ok (w_ss x s) /\ inv (w_ss x s) n n.
Proof.
  intros s c n I. destruct (run_ok (ss s) c n (i_sys _ _ _ I)) as (x & es & E & X). exists x.
  cbn [step]. rewrite E. split; [reflexivity|]. destruct (i_sys _ _ _ I) as (_ & _ & P).
  eapply inv_sys; eauto.
  - apply going_after; auto.
  - intros ->. apply stop_after; auto.
  - intros N. inversion P; subst; auto.
Qed.

Lemma level_is_true : forall s c n l, sys_ok (ss s) c n -> level_is s l = true -> c = l.
Proof. intros s c n l (A & _) L. unfold level_is in L. rewrite A in L. apply Nat.eqb_eq in L. exact L. Qed.

Lemma sound_1 : forall v x, val v -> scaled (Some v) 50 = Ok x -> sound (FPdo 1 x).
Proof.
  intros v x [->|[->| ->]]; cbn [scaled]; intros E; cbn in E; try discriminate E; injection E as <-; cbn; auto.
Qed.
Lemma sound_2 : forall v x, val v -> scaled (Some v) 200 = Ok x -> sound (FPdo 2 x).
Proof.
  intros v x [->|[->| ->]]; cbn [scaled]; intros E; cbn in E; try discriminate E; injection E as <-; cbn; auto.
Qed.

Lemma inv_td : forall s c n s', inv s c n -> td s = Ok s' -> inv s' c n.
Proof.
  intros s c n s' I. pose proof I as [A B C D E F G J K L M]. unfold td. destruct (tp s) eqn:T; intros X.
  - injection X as <-. constructor; cbn; auto; try exact (i_stop _ _ _ I); try discriminate.
  - injection X as <-. constructor; cbn; auto; try exact (i_stop _ _ _ I); try discriminate.
    intros O. specialize (F O). congruence.
  - injection X as <-. constructor; cbn; auto; try exact (i_stop _ _ _ I).
    + intros O. specialize (F O). congruence.
    + intros O. destruct (G O); congruence.
  - injection X as <-. constructor; cbn; auto; try exact (i_stop _ _ _ I).
    + intros O. specialize (F O). congruence.
    + intros O. destruct (G O); congruence.
    + constructor; [exact Logic.I|exact J].
  - destruct (o0 s) as [v|] eqn:O; [|specialize (F eq_refl); congruence].
    destruct (scaled (Some v) 50) as [x| |] eqn:Z; cbn in X; try discriminate X. injection X as <-.
    constructor; cbn; auto; try exact (i_stop _ _ _ I); rewrite ?O; auto; try discriminate.
    + intros Y. destruct (G Y); congruence.
    + constructor; [|exact J]. destruct D as (D1 & _). apply (sound_1 v x D1 Z).
  - destruct (o1 s) as [v|] eqn:O; [|destruct (G eq_refl); congruence].
    destruct (scaled (Some v) 200) as [x| |] eqn:Z; cbn in X; try discriminate X. injection X as <-.
    constructor; cbn; auto; try exact (i_stop _ _ _ I); rewrite ?O; auto; try discriminate.
    constructor; [|exact J]. destruct E as (E1 & _). apply (sound_2 v x E1 Z).
Qed.

Definition run_true (s : st) (c : lref) (L : halted s c) : forall p, at_ s = p -> (p <> PS6 /\ p <> PWaitEnd /\ p <> PTop /\ p <> PEnd) ->
  running s = true.
Proof.
  intros p E (N1 & N2 & N3 & N4). destruct (running s) eqn:R; [reflexivity|].
  destruct (L R) as (_ & _ & _ & [(X & _)|([X|[X|X]] & _)]); congruence.
Qed.

Ltac hc := unfold halted; cbn; let R := fresh in intros R; exfalso; congruence.

Lemma inv_seq : forall b s c n, inv s c n -> exists s' n', seq b s = Ok s' /\ inv s' c n' /\
  n' = match at_ s with PI6 => after 0 c n | PTrig => after 1 c n | _ => n end.
Proof.
  intros b s c n I. pose proof I as [A B C D E F G J K L M].
  pose proof (run_true s c L) as RT.
  unfold seq, pc_ok in *. destruct (at_ s) eqn:T;
    try (specialize (RT _ eq_refl); lapply RT; [clear RT; intros RT|repeat split; discriminate]).
  - (* PTop *)
    destruct (running s) eqn:R.
    + destruct (level_is s slInit); eexists _, n; (split; [reflexivity|]); (split; [|auto]);
        constructor; cbn; auto; try exact (i_stop _ _ _ I); try (constructor; [exact Logic.I|exact J]); try hc.
    + eexists _, n. split; [reflexivity|]. split; [|auto]. constructor; cbn; auto; try exact (i_stop _ _ _ I); try (constructor; [exact Logic.I|exact J]).
      unfold halted in *. cbn. intros _. destruct (L R) as (L1 & L2 & L3 & [(X & _)|(X & Y)]); [congruence|]. auto 10.
  - eexists _, n. split; [reflexivity|]. split; [|auto]. constructor; cbn; auto; try exact (i_stop _ _ _ I); try (constructor; [exact Logic.I|exact J]); try hc; try lia.
  - destruct n0 as [|k]; eexists _, n; (split; [reflexivity|]); (split; [|auto]);
      constructor; cbn; auto; try exact (i_stop _ _ _ I); try (constructor; [exact Logic.I|exact J]); try hc; try lia; try (constructor; [exact Logic.I|exact J]).
  - eexists _, n. split; [reflexivity|]. split; [|auto]. constructor; cbn; auto; try exact (i_stop _ _ _ I); try (constructor; [exact Logic.I|exact J]); try hc.
  - eexists _, n. split; [reflexivity|]. split; [|auto]. constructor; cbn; auto; try exact (i_stop _ _ _ I); try (constructor; [exact Logic.I|exact J]); try hc.
  - eexists _, n. split; [reflexivity|]. split; [|auto]. constructor; cbn; auto; try exact (i_stop _ _ _ I); try (constructor; [exact Logic.I|exact J]); try hc; lia.
  - destruct n0 as [|k]; eexists _, n; (split; [reflexivity|]); (split; [|auto]);
      constructor; cbn; auto; try exact (i_stop _ _ _ I); try (constructor; [exact Logic.I|exact J]); try hc; try lia; try (constructor; [exact Logic.I|exact J]).
  - destruct (inv_trig s c n evInitDone false I) as (x & X & Y & SX); [unfold an_event, evInitDone; auto|].
    rewrite X. cbn [omap]. eexists _, (after 0 c n). split; [reflexivity|]. split; [|auto].
    destruct Y as [A' B' C' D' E' F' G' J' K' L' M'].
    constructor; cbn; auto; try exact (i_stop _ _ _ I); try (constructor; [exact Logic.I|exact J]); try hc.
  - (* PRd2 *)
    destruct (level_is s slReady) eqn:LV; eexists _, n; (split; [reflexivity|]); (split; [|auto]);
      constructor; cbn; auto; try exact (i_stop _ _ _ I); try (constructor; [exact Logic.I|exact J]); try hc.
    rewrite (level_is_true _ _ _ _ A LV). discriminate.
  - destruct b; eexists _, n; (split; [reflexivity|]); (split; [|auto]);
      constructor; cbn; auto; try exact (i_stop _ _ _ I); try (constructor; [exact Logic.I|exact J]); try hc.
  - destruct (inv_trig s c n evStartMoving false I) as (x & X & Y & SX); [unfold an_event, evStartMoving; auto|].
    rewrite X. cbn [omap]. eexists _, (after 1 c n). split; [reflexivity|]. split; [|auto].
    destruct Y as [A' B' C' D' E' F' G' J' K' L' M'].
    constructor; cbn; auto; try exact (i_stop _ _ _ I); try (constructor; [exact Logic.I|exact J]); try hc.
  - (* PRd3 *)
    destruct (level_is s slMoving) eqn:LV; eexists _, n; (split; [reflexivity|]); (split; [|auto]);
      constructor; cbn; auto; try exact (i_stop _ _ _ I); try (constructor; [exact Logic.I|exact J]); try hc.
    rewrite (level_is_true _ _ _ _ A LV). split; [left; reflexivity|auto].
  - rewrite RT. eexists _, n. split; [reflexivity|]. split; [|auto]. constructor; cbn; auto; try exact (i_stop _ _ _ I); try (constructor; [exact Logic.I|exact J]); try hc.
  - destruct (level_is s slMoving) eqn:LV; eexists _, n; (split; [reflexivity|]); (split; [|auto]);
      constructor; cbn; auto; try exact (i_stop _ _ _ I); try (constructor; [exact Logic.I|exact J]); try hc.
  - eexists _, n. split; [reflexivity|]. split; [|auto]. constructor; cbn; auto; try exact (i_stop _ _ _ I); try (constructor; [exact Logic.I|exact J]); try hc.
    destruct K as (K1 & K2). split; [unfold val; tauto|auto].
  - eexists _, n. split; [reflexivity|]. split; [|auto]. constructor; cbn; auto; try exact (i_stop _ _ _ I); try (constructor; [exact Logic.I|exact J]); try hc.
    destruct K as (K1 & K2). split; [unfold val; tauto|auto].
  - destruct b; eexists _, n; (split; [reflexivity|]); (split; [|auto]);
      constructor; cbn; auto; try exact (i_stop _ _ _ I); try (constructor; [exact Logic.I|exact J]); try hc.
    destruct K as (K1 & K2). split; [exact K1|]. destruct (v =? 2); [right|left]; reflexivity.
  - (* PRd4 *)
    destruct (level_is s slStop) eqn:LV; eexists _, n; (split; [reflexivity|]); (split; [|auto]);
      constructor; cbn; auto; try exact (i_stop _ _ _ I); try (constructor; [exact Logic.I|exact J]); try hc.
    exact (level_is_true _ _ _ _ A LV).
  - eexists _, n. split; [reflexivity|]. split; [|auto]. constructor; cbn; auto; try exact (i_stop _ _ _ I); try (constructor; [exact Logic.I|exact J]); try hc.
  - eexists _, n. split; [reflexivity|]. split; [|auto]. constructor; cbn; auto; try exact (i_stop _ _ _ I); try (constructor; [exact Logic.I|exact J]); try hc.
    tauto.
  - eexists _, n. split; [reflexivity|]. split; [|auto]. constructor; cbn; auto; try exact (i_stop _ _ _ I); try (constructor; [exact Logic.I|exact J]); try hc.
    intuition.
  - destruct n0 as [|k]; eexists _, n; (split; [reflexivity|]); (split; [|auto]);
      constructor; cbn; auto; try exact (i_stop _ _ _ I); try (constructor; [exact Logic.I|exact J]); try hc; try (constructor; [exact Logic.I|exact J]); intuition lia.
  - destruct b; eexists _, n; (split; [reflexivity|]); (split; [|auto]);
      constructor; cbn; auto; try exact (i_stop _ _ _ I); try (constructor; [exact Logic.I|exact J]); try hc.
  - eexists _, n. split; [reflexivity|]. split; [|auto]. constructor; cbn; auto; try exact (i_stop _ _ _ I); try (constructor; [exact Logic.I|exact J]).
    { tauto. } unfold halted; cbn. intros _. destruct (stopped s) eqn:S; [specialize (M eq_refl); congruence|]. intuition.
  - (* PS6 *)
    eexists _, n. split; [reflexivity|]. split; [|auto].
    assert (R : running s = false -> ren s = false /\ sen s = false /\ c = 3%nat) by (intros R; destruct (L R) as (? & ? & ? & _); auto).
    constructor; cbn; auto; try exact (i_stop _ _ _ I); try (constructor; [exact Logic.I|exact J]).
    + unfold halted; cbn. intros R'. destruct (R R') as (? & ? & ?). auto 10.
    + intros _. tauto.
  - destruct (b || negb (running s)) eqn:W; eexists _, n; (split; [reflexivity|]); (split; [|auto]);
      constructor; cbn; auto; try exact (i_stop _ _ _ I); try (constructor; [exact Logic.I|exact J]); unfold halted in *; cbn; intros R; destruct (L R) as (? & ? & ? & [(X & _)|(_ & Y)]); try congruence; auto 10.
  - eexists s, n. split; [reflexivity|]. auto.
Qed.
