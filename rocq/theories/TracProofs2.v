(** Proofs of C332-C337: the runs which refute, requests, the life of the writer, and the two traces of TraceTest. *)
From Verif Require Import Prelude TracModel TracSpec TracProofs.

(** ** Runs which refute *)
Definition start : list label := [LCtor; LCtor; LCtor; LW; LW; LEn].
Definition sample : list label := [LTd; LTd; LTd; LTd].
Definition begin : list label := [LReq; LW; LW; LW; LW].

(** A run of the time domain between getTimestampTrace and getTrace: time stamps 1, values 2. *)
Definition path1 : list label := start ++ sample ++ begin ++ repeat LW 4 ++ sample ++ repeat LW 6.
Lemma over_read : exists s, reach 64 s /\ tp s = TRun /\ constructed s = true /\ dead s = false /\ step 64 LW s = UB.
Proof.
  destruct (steps 64 path1 (init false false 0)) as [s| |] eqn:E; try (vm_compute in E; discriminate).
  exists s. split; [exists false, false, 0, path1; exact E|]. vm_compute in E. inversion E; subst. vm_compute. auto.
Qed.
(** The index moves on between new and the loop: a write behind the end of the new array. *)
Definition path2 : list label := start ++ sample ++ begin ++ [LW; LTd; LTd; LW; LTd; LW].
Lemma over_write : exists s len ts, reach 64 s /\ constructed s = true /\ dead s = false /\ wp s = WTL (len, ts) /\ length ts = len /\ step 64 LW s = UB.
Proof.
  destruct (steps 64 path2 (init false false 0)) as [s| |] eqn:E; try (vm_compute in E; discriminate).
  exists s, 1, [Some 0]. split; [exists false, false, 0, path2; exact E|]. vm_compute in E. inversion E; subst. vm_compute. auto 10.
Qed.
(** After a wrap around a run between the two copies: the time stamps are those of the samples before. *)
Definition path3 : list label := start ++ sample ++ (LTd :: sample) ++ begin ++ repeat LW 4 ++ sample ++ repeat LW 8.
Lemma mismatch : exists s f, reach 2 s /\ cyc s = true /\ dead s = false /\ files s = [f] /\ ~ matched f.
Proof.
  destruct (steps 2 path3 (init false false 0)) as [s| |] eqn:E; try (vm_compute in E; discriminate).
  exists s, [(Some 0, Some 1); (Some 1, Some 2)]. split; [exists false, false, 0, path3; exact E|]. vm_compute in E. inversion E; subst.
  repeat split. intros M. destruct (M (Some 0) (Some 1)) as [X _]; [left; reflexivity|discriminate].
Qed.
Definition path4 : list label := start ++ sample ++ begin.
Lemma quiet_example : exists s, reach 64 s /\ tp s = TRun /\ gone s = false /\ wp s = WT0 /\ cnt s = 1.
Proof.
  destruct (steps 64 path4 (init false false 0)) as [s| |] eqn:E; try (vm_compute in E; discriminate).
  exists s. split; [exists false, false, 0, path4; exact E|]. vm_compute in E. inversion E; subst. vm_compute. auto.
Qed.
Definition path5 : list label := start ++ sample ++ LTd :: sample.
Lemma wrapped_example : exists s, reach 2 s /\ cyc s = true /\ constructed s = true /\ gone s = false /\ before_copy (wp s).
Proof.
  destruct (steps 2 path5 (init false false 0)) as [s| |] eqn:E; try (vm_compute in E; discriminate).
  exists s. split; [exists false, false, 0, path5; exact E|]. vm_compute in E. inversion E; subst. vm_compute. auto.
Qed.

(** ** Requests *)
Definition Pend (n : nat) (s : st) : Prop :=
  constructed s = true /\ n <= begun s /\ (n < begun s \/ go s = true \/ wp s = WLog \/ wp s = WT0).
Lemma step_pend : forall N n l s s', Pend n s -> step N l s = Ok s' -> Pend n s'.
Proof.
  intros N n l s s' (K & B & P) E. destruct l; cbn in E.
  - unfold td in E. destruct (tp s); repeat match type of E with context [if ?b then _ else _] => destruct b eqn:? end;
    inversion E; subst; unfold Pend, constructed in *; cbn; auto.
  - inversion E; subst. unfold Pend, constructed in *; cbn; auto.
  - inversion E; subst. unfold ctor. unfold constructed in K. destruct (cp s) eqn:Q; try discriminate. unfold Pend, constructed. rewrite Q. auto.
  - inversion E; subst. destruct (constructed s && negb (dead s)); unfold Pend, constructed in *; cbn; auto.
  - unfold writer in E.
    destruct (wp s) as [ | | | | | | | ts | | [len ts] | ts | ts vs | ts len | ts [len vs] | ts vs out | out | ] eqn:W;
    repeat match type of E with context [if ?b then _ else _] => destruct b eqn:? end;
    inversion E; subst; unfold Pend, constructed in *; cbn; rewrite ?W; repeat split; auto; try lia;
    try (destruct P as [P|[P|[P|P]]]; auto; try discriminate; fail); try (left; lia).
  - inversion E; subst. destruct (constructed s && negb (dead s)); unfold Pend, constructed in *; cbn; auto.
  - inversion E; subst. destruct (dead s); unfold Pend, constructed in *; cbn; auto.
Qed.
Lemma steps_pend : forall N n ls s s', Pend n s -> steps N ls s = Ok s' -> Pend n s'.
Proof.
  intros N n ls. induction ls as [|l ls IH]; intros s s' P E; cbn in E; [congruence|].
  destruct (step N l s) as [x| |] eqn:S1; cbn in E; try discriminate. exact (IH x s' (step_pend N n l s x P S1) E).
Qed.
Lemma not_lost : forall N s s1 ls s2, constructed s = true -> dead s = false -> step N LReq s = Ok s1 -> steps N ls s1 = Ok s2 ->
  begun s < begun s2 \/ go s2 = true \/ wp s2 = WLog \/ wp s2 = WT0.
Proof.
  intros N s s1 ls s2 K D E F. cbn in E. rewrite K, D in E. cbn in E. inversion E; subst.
  assert (X : Pend (begun s) (w_flags (running s) true s)) by (split; [exact K|cbn; split; auto]).
  destruct (steps_pend N (begun s) ls _ s2 X F) as (_ & _ & P). exact P.
Qed.
Lemma served : forall N s, wp s = WWait -> running s = true -> go s = true -> gone s = false -> constructed s = true ->
  exists s', steps N (repeat LW 5) s = Ok s' /\ begun s' = S (begun s) /\ go s' = false.
Proof.
  intros N s W R G D K. cbn [repeat steps step]. unfold writer at 1. rewrite W, R, G. cbn [negb andb bind].
  unfold writer at 1. cbn [wp w_wp running]. rewrite R. cbn [bind]. unfold writer at 1. cbn [wp w_wp bind].
  unfold writer at 1. cbn [wp w_wp w_flags gone bind]. rewrite D. unfold constructed in *. cbn [cp w_wp w_flags]. destruct (cp s); try discriminate.
  cbn [negb orb bind]. unfold writer. cbn [wp w_wp cyc w_flags bind]. destruct (cyc s); eexists; (split; [reflexivity|]); cbn; auto.
Qed.
(** ** The life of the writer *)
Lemma base_run : exists s, reach 64 s /\ constructed s = true /\ dead s = false /\ wp s = WEnd.
Proof.
  destruct (steps 64 [LW; LCtor; LCtor; LCtor] (init false false 0)) as [s| |] eqn:E; try (vm_compute in E; discriminate).
  exists s. split; [exists false, false, 0, [LW; LCtor; LCtor; LCtor]; exact E|]. vm_compute in E. inversion E; subst. vm_compute. auto.
Qed.
Definition path6 : list label := [LCtor; LW; LW; LCtor; LW; LW; LCtor].
Lemma flag_lost : exists s1 s2, reach 64 s1 /\ under_way (wp s1) /\ reach 64 s2 /\ constructed s2 = true /\ dead s2 = false /\ wp s2 = WEnd.
Proof.
  destruct (steps 64 [LCtor; LW; LW] (init false false 0)) as [s1| |] eqn:E1; try (vm_compute in E1; discriminate).
  destruct (steps 64 path6 (init false false 0)) as [s| |] eqn:E; try (vm_compute in E; discriminate).
  exists s1, s. split; [exists false, false, 0, [LCtor; LW; LW]; exact E1|]. split; [vm_compute in E1; inversion E1; subst; exact Logic.I|].
  split; [exists false, false, 0, path6; exact E|]. vm_compute in E. inversion E; subst. vm_compute. auto.
Qed.

Definition Live (s : st) : Prop :=
  constructed s = true /\ dead s = false /\ gone s = false /\ wp s <> WEnd /\ (wp s = WNew \/ wp s = WStart \/ running s = true).
Lemma step_live : forall N l s s', Live s -> l <> LDead -> step N l s = Ok s' -> Live s'.
Proof.
  intros N l s s' (K & D & G & W & R) L E. destruct l; cbn in E; try congruence.
  - unfold td in E. destruct (tp s); repeat match type of E with context [if ?b then _ else _] => destruct b eqn:? end;
    inversion E; subst; unfold Live, constructed in *; cbn; auto.
  - inversion E; subst. unfold Live, constructed in *; cbn; auto.
  - inversion E; subst. unfold ctor. unfold constructed in K. destruct (cp s) eqn:Q; try discriminate. unfold Live, constructed. rewrite Q. auto.
  - inversion E; subst. destruct (constructed s && negb (dead s)); unfold Live, constructed in *; cbn; auto.
  - destruct (writer_same N s s' E) as (_ & E1 & E2 & E3).
    assert (X : wp s' <> WEnd /\ (wp s' = WNew \/ wp s' = WStart \/ running s' = true)).
    { unfold writer in E. unfold is_writer in E. unfold constructed in *. destruct (cp s); try discriminate.
      destruct (wp s) as [ | | | | | | | ts | | [len ts] | ts | ts vs | ts len | ts [len vs] | ts vs out | out | ] eqn:P;
      try (destruct R as [R|[R|R]]; try discriminate); try contradiction; rewrite ?R, ?G in E; cbn in E;
      repeat match type of E with context [if ?b then _ else _] => destruct b eqn:? end; inversion E; subst; cbn; rewrite ?P;
      (split; [discriminate|]); auto. }
    unfold Live, constructed in *. rewrite E1, E2, E3. tauto.
  - inversion E; subst. rewrite D. unfold Live. auto.
Qed.
Lemma lives : forall N ls s s', constructed s = true -> dead s = false -> gone s = false -> (wp s = WNew \/ wp s = WStart \/ running s = true) ->
  wp s <> WEnd -> ~ In LDead ls -> steps N ls s = Ok s' -> wp s' <> WEnd.
Proof.
  intros N ls s s' K D G R W L E. assert (X : Live s) by (unfold Live; auto). clear K D G R W. revert s X E.
  induction ls as [|l ls IH]; intros s X E; cbn in E.
  - inversion E; subst. apply X.
  - destruct (step N l s) as [x| |] eqn:S1; cbn in E; try discriminate. refine (IH _ x _ E).
    + intros A; apply L; right; auto.
    + apply (step_live N l s x X); auto. intros ->; apply L; left; auto.
Qed.

(** Destroyed before it has set running: the join never returns. *)
Definition path7 : list label := [LCtor; LCtor; LCtor; LW; LDead; LW; LGone].
Definition Hang (s : st) : Prop := constructed s = true /\ gone s = true /\ dead s = true /\ wp s = WWait /\ running s = true /\ go s = false.
Lemma step_hang : forall N l s s', Hang s -> step N l s = Ok s' -> Hang s'.
Proof.
  intros N l s s' (K & G & D & W & R & O) E. destruct l; cbn in E.
  - unfold td in E. destruct (tp s); repeat match type of E with context [if ?b then _ else _] => destruct b eqn:? end;
    inversion E; subst; unfold Hang, constructed in *; cbn; auto 10.
  - inversion E; subst. unfold Hang, constructed in *; cbn; auto 10.
  - inversion E; subst. unfold ctor. unfold constructed in K. destruct (cp s) eqn:Q; try discriminate. unfold Hang, constructed. rewrite Q. auto 10.
  - rewrite D, andb_false_r in E. inversion E; subst. unfold Hang; auto 10.
  - unfold writer in E. rewrite W, R, O in E. cbn in E. inversion E; subst. unfold Hang; auto 10.
  - rewrite D, andb_false_r in E. inversion E; subst. unfold Hang; auto 10.
  - rewrite D in E. inversion E; subst. unfold Hang, constructed in *; cbn; auto 10.
Qed.
Lemma hangs : exists s, reach 64 s /\ gone s = true /\ forall ls s', steps 64 ls s = Ok s' -> wp s' <> WEnd.
Proof.
  destruct (steps 64 path7 (init false false 0)) as [s| |] eqn:E; try (vm_compute in E; discriminate).
  exists s. split; [exists false, false, 0, path7; exact E|].
  assert (X : Hang s) by (vm_compute in E; inversion E; subst; unfold Hang; cbn; auto 10). clear E. split; [apply X|].
  intros ls. revert s X. induction ls as [|l ls IH]; intros s X s' E; cbn in E.
  - inversion E; subst. destruct X as (_ & _ & _ & X & _). congruence.
  - destruct (step 64 l s) as [x| |] eqn:S1; cbn in E; try discriminate. exact (IH x (step_hang 64 l s x X S1) s' E).
Qed.
Definition Stop (s : st) : Prop := constructed s = true /\ dead s = true /\ running s = false /\ wp s <> WNew /\ wp s <> WStart.
Lemma step_stop : forall N l s s', Stop s -> step N l s = Ok s' -> Stop s'.
Proof.
  intros N l s s' (K & D & R & W1 & W2) E. destruct l; cbn in E.
  - unfold td in E. destruct (tp s); repeat match type of E with context [if ?b then _ else _] => destruct b eqn:? end;
    inversion E; subst; unfold Stop, constructed in *; cbn; auto 10.
  - inversion E; subst. unfold Stop, constructed in *; cbn; auto 10.
  - inversion E; subst. unfold ctor. unfold constructed in K. destruct (cp s) eqn:Q; try discriminate. unfold Stop, constructed. rewrite Q. auto 10.
  - rewrite D, andb_false_r in E. inversion E; subst. unfold Stop; auto 10.
  - destruct (writer_same N s s' E) as (_ & E1 & E2 & E3).
    assert (X : running s' = false /\ wp s' <> WNew /\ wp s' <> WStart).
    { unfold writer in E.
      destruct (wp s) as [ | | | | | | | ts | | [len ts] | ts | ts vs | ts len | ts [len vs] | ts vs out | out | ] eqn:P; try contradiction;
      rewrite ?R in E; cbn [andb negb] in E;
      repeat match type of E with context [if ?b then _ else _] => destruct b eqn:? end; inversion E; subst; cbn; rewrite ?P;
      (split; [auto|split; discriminate]). }
    unfold Stop, constructed in *. rewrite E1, E2. tauto.
  - rewrite D, andb_false_r in E. inversion E; subst. unfold Stop; auto 10.
  - rewrite D in E. inversion E; subst. unfold Stop, constructed in *; cbn; auto 10.
Qed.
Lemma steps_stop : forall N ls s s', Stop s -> steps N ls s = Ok s' -> Stop s'.
Proof.
  intros N ls. induction ls as [|l ls IH]; intros s s' P E; cbn in E; [congruence|].
  destruct (step N l s) as [x| |] eqn:S1; cbn in E; try discriminate. exact (IH x s' (step_stop N l s x P S1) E).
Qed.
Lemma stops : forall N s s1 ls s2, constructed s = true -> dead s = false -> under_way (wp s) -> step N LDead s = Ok s1 ->
  steps N ls s1 = Ok s2 -> wp s2 = WWait -> exists s3, steps N [LW; LW] s2 = Ok s3 /\ wp s3 = WEnd.
Proof.
  intros N s s1 ls s2 K D U E F W. cbn in E. rewrite K, D in E. cbn in E.
  assert (X : Stop s1).
  { inversion E; subst. unfold Stop, constructed in *; cbn. repeat split; auto; intros A; rewrite A in U; exact U. }
  destruct (steps_stop N ls s1 s2 X F) as (_ & _ & R & _). cbn [steps step]. unfold writer at 1. rewrite W, R. cbn [andb bind].
  unfold writer. cbn [wp w_wp running]. rewrite R. cbn. eexists; split; reflexivity.
Qed.

(** ** Members of the writer which are used before or after their life *)
Definition path8 : list label := [LCtor; LCtor; LCtor; LW; LW; LReq; LW; LW; LW; LDead; LGone].
Lemma after_life : exists s, reach 64 s /\ gone s = true /\ wp s = WLog /\ step 64 LW s = UB.
Proof.
  destruct (steps 64 path8 (init false false 0)) as [s| |] eqn:E; try (vm_compute in E; discriminate).
  exists s. split; [exists false, false, 0, path8; exact E|]. vm_compute in E. inversion E; subst. vm_compute. auto.
Qed.
Definition path9 : list label := [LCtor; LW; LW; LW; LW; LW].
Lemma before_life : exists s, reach 64 s /\ constructed s = false /\ wp s = WLog /\ step 64 LW s = UB.
Proof.
  destruct (steps 64 path9 (init false true 0)) as [s| |] eqn:E; try (vm_compute in E; discriminate).
  exists s. split; [exists false, true, 0, path9; exact E|]. vm_compute in E. inversion E; subst. vm_compute. auto.
Qed.
Definition Idle (s : st) : Prop := constructed s = true /\ dead s = true /\ running s = false /\ (wp s = WWait \/ wp s = WChk \/ wp s = WEnd).
Lemma step_idle : forall N l s, 0 < N -> Inv N s -> Idle s -> exists s', step N l s = Ok s' /\ Inv N s' /\ Idle s'.
Proof.
  intros N l s HN HI (K & D & R & W). assert (X : exists s', step N l s = Ok s' /\ Idle s').
  { destruct l; cbn.
    - destruct (td_inv N s HN HI) as (x & A & B). exists x. split; auto. unfold td in A. unfold Idle, constructed in *.
      destruct (tp s); repeat match type of A with context [if ?b then _ else _] => destruct b eqn:? end; inversion A; subst; cbn; auto 10.
    - eexists; split; [reflexivity|]. unfold Idle, constructed in *; cbn; auto 10.
    - eexists; split; [reflexivity|]. unfold ctor. unfold constructed in K. destruct (cp s) eqn:Q; try discriminate. unfold Idle, constructed. rewrite Q; auto 10.
    - rewrite D, andb_false_r. eexists; split; [reflexivity|]. unfold Idle; auto 10.
    - unfold writer. destruct W as [W|[W|W]]; rewrite W, ?R; cbn [andb]; eexists; (split; [reflexivity|]); unfold Idle, constructed in *; cbn; auto 10.
    - rewrite D, andb_false_r. eexists; split; [reflexivity|]. unfold Idle; auto 10.
    - rewrite D. eexists; split; [reflexivity|]. unfold Idle, constructed in *; cbn; auto 10. }
  destruct X as (s' & A & B). exists s'. split; [exact A|split; [exact (step_inv N l s s' HN HI A)|exact B]].
Qed.
Lemma idle_safe : forall N s s1 ls, 0 < N -> reach N s -> constructed s = true -> dead s = false -> wp s = WWait -> step N LDead s = Ok s1 ->
  exists s2, steps N ls s1 = Ok s2.
Proof.
  intros N s s1 ls HN R K D W E. pose proof (step_inv N LDead s s1 HN (reach_inv N s HN R) E) as HI. cbn in E. rewrite K, D in E. cbn in E.
  assert (X : Idle s1) by (inversion E; subst; unfold Idle, constructed in *; cbn; auto). clear E K D W R. revert s1 HI X.
  induction ls as [|l ls IH]; intros s1 HI X; cbn; [eauto|].
  destruct (step_idle N l s1 HN HI X) as (x & A & B & C). rewrite A. cbn. exact (IH x B C).
Qed.
Lemma idle_example : exists s, reach 64 s /\ constructed s = true /\ dead s = false /\ wp s = WWait /\ running s = true.
Proof.
  destruct (steps 64 start (init false false 0)) as [s| |] eqn:E; try (vm_compute in E; discriminate).
  exists s. split; [exists false, false, 0, start; exact E|]. vm_compute in E. inversion E; subst. vm_compute. auto.
Qed.
Lemma new_example : exists s, reach 64 s /\ constructed s = true /\ dead s = false /\ gone s = false /\ wp s = WNew.
Proof.
  destruct (steps 64 [LCtor; LCtor; LCtor] (init false false 0)) as [s| |] eqn:E; try (vm_compute in E; discriminate).
  exists s. split; [exists false, false, 0, [LCtor; LCtor; LCtor]; exact E|]. vm_compute in E. inversion E; subst. vm_compute. auto.
Qed.

(** ** The two traces *)
Definition tail1 (c : list nat) (e : bool) (n : nat) : Prop := c = [] \/ (e = true /\ exists a, c = seq a (length c) /\ a + length c = n).
Definition MI (s : two) : Prop :=
  tail1 (c1 s) (e1 s) (if half s then S (nrun s) else nrun s) /\ tail1 (c2 s) (e2 s) (nrun s).
Lemma tail1_app : forall c n, tail1 c true n -> tail1 (c ++ [n]) true (S n).
Proof.
  intros c n [->|(_ & a & A & B)]; right; split; auto.
  - exists n. cbn. split; [reflexivity|lia].
  - exists a. rewrite app_length, Nat.add_1_r, seq_S, <- A, B. split; [reflexivity|lia].
Qed.
Lemma tail1_off : forall c n m, tail1 c false n -> tail1 c false m.
Proof. intros c n m [->|(X & _)]; [left; auto|discriminate]. Qed.
Lemma tail1_on : forall c e n, tail1 c e n -> tail1 c true n.
Proof. intros c e n [->|(X & a & A)]; [left; auto|right; eauto]. Qed.
Lemma mi_step : forall l s, MI s -> MI (mstep l s).
Proof.
  intros l s [A B]. unfold MI, mstep. destruct l.
  - destruct (half s); cbn.
    + split; [exact A|]. destruct (e2 s); [apply tail1_app; auto|exact (tail1_off _ _ _ B)].
    + split; [|exact B]. destruct (e1 s); [apply tail1_app; auto|exact (tail1_off _ _ _ A)].
  - destruct (e1 s); cbn; split; auto; try exact (tail1_on _ _ _ B); exact (tail1_on _ _ _ A).
Qed.
Lemma mi_steps : forall ls s, MI s -> MI (msteps ls s).
Proof. intros ls. induction ls as [|l ls IH]; intros s H; [exact H|]. exact (IH (mstep l s) (mi_step l s H)). Qed.
Lemma mi_reach : forall s, mreach s -> MI s.
Proof. intros s (ls & ->). apply mi_steps. split; left; reflexivity. Qed.

Lemma skipn_seq : forall k a l, skipn k (seq a l) = seq (a + k) (l - k).
Proof.
  induction k as [|k IH]; intros a l; cbn [skipn].
  - rewrite Nat.add_0_r, Nat.sub_0_r. reflexivity.
  - destruct l; cbn [seq skipn]; [reflexivity|]. rewrite IH. replace (S a + k) with (a + S k) by lia. reflexivity.
Qed.
Lemma kept_tail : forall N c e n, tail1 c e n -> kept N c = seq (n - Nat.min N (length c)) (Nat.min N (length c)).
Proof.
  intros N c e n [->|(_ & a & A & B)]; unfold kept.
  - cbn. rewrite Nat.min_0_r. reflexivity.
  - rewrite A at 2. rewrite skipn_seq. f_equal; lia.
Qed.
Lemma lines_same : forall l, lines l l = Ok (map (fun k => (k, k)) l).
Proof. induction l as [|x l IH]; cbn; [reflexivity|]. rewrite IH. reflexivity. Qed.

Lemma aligned_full : forall N s, mreach s -> half s = false -> N <= length (c1 s) -> N <= length (c2 s) ->
  report N s = Ok (map (fun k => (k, k)) (seq (nrun s - N) N)).
Proof.
  intros N s R H L1 L2. destruct (mi_reach s R) as [A B]. rewrite H in A. unfold report.
  rewrite (kept_tail N _ _ _ A), (kept_tail N _ _ _ B). rewrite !Nat.min_l by auto. apply lines_same.
Qed.

Definition Al (a : nat) (s : two) : Prop :=
  e1 s = true /\ e2 s = true /\ a <= nrun s /\ c2 s = seq a (nrun s - a) /\ c1 s = seq a ((if half s then S (nrun s) else nrun s) - a).
Lemma al_step : forall a l s, Al a s -> Al a (mstep l s).
Proof.
  intros a l s (A & B & C & D & E). unfold Al, mstep. destruct l.
  - destruct (half s); cbn [c1 c2 e1 e2 nrun half]; repeat split; auto; try lia.
    + rewrite B, D. replace (S (nrun s) - a) with (S (nrun s - a)) by lia. rewrite seq_S. do 2 f_equal. lia.
    + rewrite A, E. replace (S (nrun s) - a) with (S (nrun s - a)) by lia. rewrite seq_S. do 2 f_equal. lia.
  - rewrite A. cbn. auto 10.
Qed.
Lemma al_steps : forall a ls s, Al a s -> Al a (msteps ls s).
Proof. intros a ls. induction ls as [|l ls IH]; intros s H; [exact H|]. exact (IH (mstep l s) (al_step a l s H)). Qed.
Lemma off_empty : forall s, mreach s -> e1 s = false -> c1 s = [] /\ c2 s = [] /\ e2 s = false.
Proof.
  intros s (ls & ->) H. assert (X : forall ls s, (e1 s = false -> c1 s = [] /\ c2 s = [] /\ e2 s = false) ->
    e1 (msteps ls s) = false -> c1 (msteps ls s) = [] /\ c2 (msteps ls s) = [] /\ e2 (msteps ls s) = false).
  { clear. induction ls as [|l ls IH]; intros s H; [exact H|]. apply (IH (mstep l s)). unfold mstep. destruct l.
    - destruct (half s); cbn; intros E; destruct (H E) as (A & B & C); rewrite ?C, ?E; auto.
    - destruct (e1 s); cbn; discriminate. }
  apply X; auto.
Qed.
Lemma aligned_guard : forall N s ls s', mreach s -> e1 s = false -> half s = false -> s' = msteps (MEn :: MEn :: ls) s -> half s' = false ->
  report N s' = Ok (map (fun k => (k, k)) (seq (nrun s' - Nat.min N (nrun s' - nrun s)) (Nat.min N (nrun s' - nrun s)))).
Proof.
  intros N s ls s' R E H -> F. destruct (off_empty s R E) as (A & B & C).
  assert (X : Al (nrun s) (msteps (MEn :: MEn :: ls) s)).
  { change (msteps (MEn :: MEn :: ls) s) with (msteps ls (mstep MEn (mstep MEn s))). apply al_steps. unfold Al, mstep. rewrite E. cbn.
    rewrite H, A, B, Nat.sub_diag. auto. }
  destruct X as (X1 & X2 & X3 & X4 & X5). set (s' := msteps (MEn :: MEn :: ls) s) in *. rewrite F in X5. unfold report. rewrite X4, X5.
  unfold kept. rewrite seq_length, skipn_seq, lines_same. do 3 f_equal; lia.
Qed.
Lemma two_ub : exists s, mreach s /\ half s = false /\ e1 s = true /\ e2 s = true /\ report 64 s = UB.
Proof. exists (msteps [MEn; MTd; MTd; MEn] two0). split; [eexists; reflexivity|]. cbn. auto. Qed.
Lemma two_shift : exists s l, mreach s /\ half s = false /\ report 64 s = Ok l /\ In (1, 0) l.
Proof.
  exists (msteps [MTd; MEn; MEn; MTd; MTd; MTd] two0), [(1, 0)]. split; [eexists; reflexivity|]. cbn. auto.
Qed.
Lemma two_example : exists s, mreach s /\ half s = false /\ 2 <= length (c1 s) /\ 2 <= length (c2 s) /\ length (c1 s) <> length (c2 s).
Proof.
  exists (msteps [MEn; MTd; MTd; MEn; MTd; MTd; MTd; MTd] two0). split; [eexists; reflexivity|]. cbn. repeat split; auto.
Qed.
Lemma two_guard_example : exists s, mreach s /\ e1 s = false /\ half s = false /\ half (msteps (MEn :: MEn :: [MTd; MTd]) s) = false.
Proof. exists two0. split; [exists []; reflexivity|]. cbn. auto. Qed.

(** ** Before the buffer is full *)
Definition okarr (s : st) (a : arr) : Prop := snd a = map Some (seq 0 (fst a)) /\ fst a <= index s.
Definition part (s : st) (a : arr) : Prop := snd a = map Some (seq 0 (length (snd a))) /\ length (snd a) <= fst a /\ fst a <= index s.
Definition U (s : st) : Prop :=
  match wp s with
  | WTC _ | WVC _ _ => False
  | WTL a => part s a
  | WV0 a => okarr s a
  | WVS a len => okarr s a /\ len <= index s
  | WVL a b => okarr s a /\ part s b
  | WOut a b out => okarr s a /\ okarr s b /\ matched out
  | WFin out => matched out
  | _ => True
  end.
Lemma U_mono : forall s s', U s -> wp s' = wp s -> index s <= index s' -> U s'.
Proof.
  intros s s' H W L. unfold U in *. rewrite W. unfold okarr, part in *. destruct (wp s); auto; intuition lia.
Qed.
Lemma map_some_S : forall ts x, ts = map Some (seq 0 (length ts)) -> x = Some (length ts) ->
  ts ++ [x] = map Some (seq 0 (length (ts ++ [x]))).
Proof. intros ts x H ->. rewrite app_length, Nat.add_1_r, seq_S, map_app, <- H. reflexivity. Qed.
Lemma okarr_rd : forall s a i, okarr s a -> i < fst a -> rd a i = Some i.
Proof.
  intros s [n l] i [A B] L. cbn in *. unfold rd; cbn. rewrite A.
  rewrite (nth_indep _ None (Some 0)) by (rewrite map_length, seq_length; auto). rewrite map_nth, seq_nth; auto.
Qed.
Lemma Inv_small : forall N s, Inv N s -> cnt s + 1 < N -> cyc s = false /\
  (forall i, i < index s -> vbuf s i = Some i /\ tbuf s i = Some i).
Proof.
  intros N s H L. unfold Inv in H. assert (M : cnt s mod N = cnt s) by (apply Nat.mod_small; lia).
  assert (F : (N <=? cnt s) = false) by (apply Nat.leb_gt; lia).
  assert (D : forall b lo hi i, dat N b lo hi -> lo <= i < hi -> i < N -> b i = Some i).
  { intros b lo hi i D A B. rewrite <- (Nat.mod_small i N) at 1 by lia. apply D; auto. }
  destruct (tp s); (destruct H as (A & B & C & E) || destruct H as (A & Z & B & C & E)).
  5: { destruct E. lia. }
  all: rewrite M in A; split; [congruence|]; intros i Hi; split; eapply D; try eassumption; lia.
Qed.
Lemma U_writer : forall N s s', Inv N s -> cnt s + 1 < N -> U s -> writer N s = Ok s' -> U s'.
Proof.
  intros N s s' HI L H E. destruct (Inv_small N s HI L) as [C D]. unfold writer in E. unfold U in H.
  destruct (wp s) as [ | | | | | | | ts | | [len ts] | ts | ts vs | ts len | ts [len vs] | ts vs out | out | ] eqn:W; try contradiction.
  - inversion E; subst. unfold U. cbn. destruct (is_writer s); exact Logic.I.
  - inversion E; subst. exact Logic.I.
  - destruct (running s && negb (go s)); inversion E; subst; [unfold U; rewrite W|]; exact Logic.I.
  - inversion E; subst. unfold U. cbn. destruct (running s); exact Logic.I.
  - inversion E; subst. exact Logic.I.
  - destruct (gone s || negb (constructed s)); inversion E; subst. exact Logic.I.
  - rewrite C in E. inversion E; subst. exact Logic.I.
  - inversion E; subst. unfold U, part. cbn. repeat split; auto; lia.
  - destruct H as (A & B & G). cbn in A, B, G. destruct (Nat.ltb_spec (length ts) (index s)) as [J|J].
    + destruct (Nat.ltb_spec (length ts) len) as [K|K]; inversion E; subst. unfold U, part. cbn [w_wp wp index fst snd].
      split; [|split; auto; rewrite app_length; cbn; lia]. apply map_some_S; auto. apply D; auto.
    + inversion E; subst. unfold U, okarr. cbn [w_wp wp index fst snd]. split; auto. rewrite A. f_equal. f_equal. lia.
  - rewrite C in E. inversion E; subst. unfold U, okarr in *. cbn. auto.
  - inversion E; subst. destruct H as [H1 H2]. unfold U, okarr, part in *. cbn. repeat split; try tauto; lia.
  - destruct H as (O & A & B & G). cbn in A, B, G. destruct (Nat.ltb_spec (length vs) (index s)) as [J|J].
    + destruct (Nat.ltb_spec (length vs) len) as [K|K]; inversion E; subst. unfold U, part. cbn [w_wp wp index fst snd].
      split; [exact O|]. split; [|split; auto; rewrite app_length; cbn; lia]. apply map_some_S; auto. apply D; auto.
    + inversion E; subst. unfold U. cbn [w_wp wp]. split; [exact O|]. split.
      * split; cbn; auto. rewrite A. f_equal. f_equal. lia.
      * intros a b [].
  - destruct H as (A & B & M). destruct (length out <? size s).
    + destruct (Nat.ltb_spec (length out) (fst ts)) as [J|J]; [|discriminate]. destruct (Nat.ltb_spec (length out) (fst vs)) as [K|K]; [|discriminate].
      cbn in E. inversion E; subst. unfold U. cbn [w_wp wp]. split; [exact A|]. split; [exact B|].
      intros a b I. apply in_app_or in I. destruct I as [I|[I|[]]]; [apply M; auto|].
      rewrite (okarr_rd s ts _ A J), (okarr_rd s vs _ B K) in I. inversion I; subst. split; [auto|discriminate].
    + inversion E; subst. exact M.
  - destruct (gone s); inversion E; subst. exact Logic.I.
  - inversion E; subst. unfold U. rewrite W. exact Logic.I.
Qed.
Lemma U_step : forall N l s s', 0 < N -> Inv N s -> (cnt s + 1 < N -> U s) -> step N l s = Ok s' -> cnt s' + 1 < N -> U s'.
Proof.
  intros N l s s' HN HI H E L. destruct (label_eq l) as [->|X].
  - cbn in E. unfold td in E. unfold Inv in HI. destruct (tp s).
    + destruct (en s); [destruct (index s <? N)|]; inversion E; subst; auto; refine (U_mono s _ (H L) _ _); cbn; auto.
    + destruct (index s <? N); inversion E; subst. refine (U_mono s _ (H L) _ _); cbn; auto.
    + inversion E; subst. refine (U_mono s _ (H L) _ _); cbn; auto.
    + destruct (Nat.eqb_spec (index s) N) as [Z|Z]; inversion E; subst; cbn in L.
      * destruct HI as (A & _). rewrite Nat.mod_small in A by lia. lia.
      * refine (U_mono s _ (H _) _ _); cbn; auto. lia.
    + inversion E; subst. cbn in L. refine (U_mono s _ (H _) _ _); cbn; auto. lia.
  - pose proof (step_same N l s s' X E) as (_ & _ & S1 & _ & S2 & _). rewrite S2 in L. specialize (H L). destruct l; try congruence; cbn in E.
    + inversion E; subst. exact H.
    + inversion E; subst. refine (U_mono s _ H _ _); unfold ctor; destruct (cp s); cbn; auto.
    + inversion E; subst. destruct (constructed s && negb (dead s)); exact H.
    + exact (U_writer N s s' HI L H E).
    + inversion E; subst. destruct (constructed s && negb (dead s)); exact H.
    + inversion E; subst. destruct (dead s); exact H.
Qed.
Lemma U_reach : forall N s, 0 < N -> reach N s -> cnt s + 1 < N -> U s.
Proof.
  intros N s HN (r & g & z & ls & E).
  assert (X : forall ls s s', Inv N s -> (cnt s + 1 < N -> U s) -> steps N ls s = Ok s' -> cnt s' + 1 < N -> U s').
  { clear - HN. induction ls as [|l ls IH]; intros s s' HI H E; cbn in E; [inversion E; subst; exact H|].
    destruct (step N l s) as [x| |] eqn:S1; cbn in E; try discriminate.
    refine (IH x s' (step_inv N l s x HN HI S1) _ E). intros L. exact (U_step N l s x HN HI H S1 L). }
  refine (X ls _ s _ _ E); [|intros; exact Logic.I]. apply (reach_inv N); auto. exists r, g, z, []. reflexivity.
Qed.
Lemma early : forall N s out, reach N s -> cnt s + 1 < N -> wp s = WFin out -> matched out.
Proof. intros N s out R L W. pose proof (U_reach N s ltac:(lia) R L) as H. unfold U in H. rewrite W in H. exact H. Qed.
Definition path10 : list label := path4 ++ repeat LW 10.
Lemma early_example : exists s, reach 64 s /\ cnt s = 1 /\ wp s = WFin [(Some 0, Some 0)].
Proof.
  destruct (steps 64 path10 (init false false 0)) as [s| |] eqn:E; try (vm_compute in E; discriminate).
  exists s. split; [exists false, false, 0, path10; exact E|]. vm_compute in E. inversion E; subst. vm_compute. auto.
Qed.
(** A copy while the time domain has written the value but not yet the time stamp. *)
Definition path11 : list label := start ++ sample ++ (LTd :: sample) ++ [LTd] ++ begin ++ repeat LW 12.
Lemma half_sample : exists s f, reach 2 s /\ tp s = TStamp /\ files s = [f] /\ In (Some 0, Some 2) f.
Proof.
  destruct (steps 2 path11 (init false false 0)) as [s| |] eqn:E; try (vm_compute in E; discriminate).
  exists s, [(Some 0, Some 2); (Some 1, Some 1)]. split; [exists false, false, 0, path11; exact E|]. vm_compute in E. inversion E; subst.
  vm_compute. auto.
Qed.
