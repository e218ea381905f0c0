From Verif Require Import Prelude SafetyModel Sys1Model Sys1Spec Sys1Proofs Sys1Proofs3.
Local Open Scope Z_scope.

(** ** Paths *)
Definition pre (P : label -> st -> Prop) (s s' : st) : Prop := exists ls, along P ls s /\ steps ls s = Ok s'.

Lemma pre_refl : forall P s, pre P s s. Proof. intros. exists []. cbn. auto. Qed.
Lemma pre_cons : forall (P : label -> st -> Prop) l s s1 s2, P l s -> step l s = Ok s1 -> pre P s1 s2 -> pre P s s2.
Proof.
  intros P l s s1 s2 A E (ls & B & F). exists (l :: ls). cbn [along steps]. rewrite E. cbn [bind]. split; [|exact F].
  split; [exact A|]. intros s' X. injection X as <-. exact B.
Qed.
Lemma pre_trans : forall P s1 s2 s3, pre P s1 s2 -> pre P s2 s3 -> pre P s1 s3.
Proof.
  intros P s1 s2 s3 (ls & A & E) Q. revert s1 A E. induction ls as [|l ls IH]; intros s1 A E; cbn [along steps] in *.
  - injection E as <-. exact Q.
  - destruct (step l s1) as [x| |] eqn:X; try discriminate. cbn [bind] in E. destruct A as [A B].
    eapply pre_cons; [exact A|exact X|]. apply IH; auto.
Qed.

Definition B c n f td ck sr fi pv pt io sl ar sw so wr t p : st :=
  {| ss := mksys c n f; tdrun := td; clk := ck; src := sr; ifirst := fi; iprev := pv; iprevt := pt; iout := io;
     sel := sl; armed := ar; switched := sw; sout := so; writes := wr; tp := t; sp := p |}.

(** Both kinds of guard hold of a safety step that is not at SSw, and of a punctual step of the time domain. *)
Definition weak (P : label -> st -> Prop) : Prop := P = punctual \/ P = undisturbed \/ P = good.
Lemma weak_safe : forall P s, weak P -> sp s <> SSw -> P LSafe s.
Proof. intros P s [->|[->| ->]] N; repeat split; cbn; intros X; contradiction. Qed.
Lemma weak_td : forall P d s, weak P -> mid_restart (sp s) = false -> tp s <> TSrc -> P (LTd d) s.
Proof. intros P d s [->|[->| ->]] M N; repeat split; cbn; try exact M; intros X; contradiction. Qed.
Lemma weak_src : forall P d s, weak P -> mid_restart (sp s) = false ->
  (ifirst s = false -> clk s + Z.of_N d - iprevt s < 80000000) -> P (LTd d) s.
Proof. intros P d s [->|[->| ->]] M N; repeat split; cbn; auto. Qed.

Ltac safe1 := eapply pre_cons; [apply weak_safe; [assumption|cbn; discriminate]|cbn; reflexivity|].
Ltac td1 d := eapply pre_cons with (l := LTd d); [apply weak_td; [assumption|cbn; assumption|cbn; discriminate]|cbn -[Z.add Z.mul Z.sub Z.of_N]; reflexivity|].

(** A cycle of the safety system at level initializing *)
Lemma init_cycle : forall P c f td ck sr fi pv pt io sl ar sw so wr t, weak P -> 0 <= f 1%nat < 500 ->
  c = 1%nat -> pre P (B c c f td ck sr fi pv pt io sl ar sw so wr t SIdle)
        (B c c (upd f 1%nat (f 1%nat + 1)) false ck sr fi pv pt io sl ar sw so wr t SIdle).
Proof.
  intros P c f td ck sr fi pv pt io sl ar sw so wr t W L ->.
  assert (U : u32 (f 1%nat + 1) = f 1%nat + 1) by (apply u32_small; lia).
  assert (D : init_done (f 1%nat + 1) = false) by (unfold init_done; apply Z.ltb_ge; lia).
  eapply pre_cons with (l := LSafe)
    (s1 := B 1 1 (upd f 1%nat (f 1%nat + 1)) td ck sr fi pv pt io sl ar sw so wr t (SInit (f 1%nat + 1)));
    [apply weak_safe; [assumption|cbn; discriminate]|cbn -[u32 Z.add upd]; rewrite U; reflexivity|].
  eapply pre_cons with (l := LSafe)
    (s1 := B 1 1 (upd f 1%nat (f 1%nat + 1)) false ck sr fi pv pt io sl ar sw so wr t SEnd);
    [apply weak_safe; [assumption|cbn; discriminate]|cbn -[u32 Z.add upd init_done]; rewrite D; reflexivity|].
  eapply pre_cons with (l := LSafe); [apply weak_safe; [assumption|cbn; discriminate]|cbn -[u32 Z.add upd]; reflexivity|].
  apply pre_refl.
Qed.

Lemma init_cycles : forall m P f td ck sr fi pv pt io sl ar sw so wr t, weak P -> 0 <= f 1%nat ->
  f 1%nat + Z.of_nat (S m) <= 500 -> exists f',
  f' 1%nat = f 1%nat + Z.of_nat (S m) /\
  pre P (B 1 1 f td ck sr fi pv pt io sl ar sw so wr t SIdle) (B 1 1 f' false ck sr fi pv pt io sl ar sw so wr t SIdle).
Proof.
  induction m as [|m IH]; intros P f td ck sr fi pv pt io sl ar sw so wr t W L0 L.
  - exists (upd f 1%nat (f 1%nat + 1)). split; [rewrite upd_same; lia|]. apply init_cycle; auto. lia.
  - destruct (IH P (upd f 1%nat (f 1%nat + 1)) false ck sr fi pv pt io sl ar sw so wr t W) as (f' & E & Q);
      [rewrite upd_same; lia|rewrite upd_same; lia|].
    exists f'. rewrite upd_same in E. split; [lia|]. eapply pre_trans; [apply init_cycle; auto; lia|exact Q].
Qed.

(** The last one, with the start *)
Lemma init_last : forall P f td ck sr fi pv pt io sl ar sw so wr t, weak P -> f 1%nat = 500 -> exists f',
  pre P (B 1 1 f td ck sr fi pv pt io sl ar sw so wr t SIdle) (B 2 2 f' true ck sr fi pv pt io sl ar sw so wr t SIdle).
Proof.
  intros P f td ck sr fi pv pt io sl ar sw so wr t W E. exists (upd (upd f 1%nat 501) 2%nat 0).
  eapply pre_cons with (l := LSafe) (s1 := B 1 1 (upd f 1%nat 501) td ck sr fi pv pt io sl ar sw so wr t (SInit 501));
    [apply weak_safe; [assumption|cbn; discriminate]|cbn -[u32 Z.add upd]; rewrite E; reflexivity|].
  eapply pre_cons with (l := LSafe) (s1 := B 1 1 (upd f 1%nat 501) false ck sr fi pv pt io sl ar sw so wr t SInitT);
    [apply weak_safe; [assumption|cbn; discriminate]|reflexivity|].
  eapply pre_cons with (l := LSafe)
    (s1 := B 1 2 (upd (upd f 1%nat 501) 2%nat 0) false ck sr fi pv pt io sl ar sw so wr t SInitS);
    [apply weak_safe; [assumption|cbn; discriminate]| |].
  { cbn [step safe_step sp B]. match goal with |- context [trig _ _ ?x] => rewrite (trig_eq x 1%nat 1%nat (upd f 1%nat 501) evStart true eq_refl) by (unfold evStart; auto; lia) end. reflexivity. }
  eapply pre_cons with (l := LSafe)
    (s1 := B 1 2 (upd (upd f 1%nat 501) 2%nat 0) true ck sr fi pv pt io sl ar sw so wr t SEnd);
    [apply weak_safe; [assumption|cbn; discriminate]|reflexivity|].
  eapply pre_cons with (l := LSafe); [apply weak_safe; [assumption|cbn; discriminate]|reflexivity|]. apply pre_refl.
Qed.

Lemma init_all : forall P f td ck sr fi pv pt io sl ar sw so wr t, weak P -> f 1%nat = 0 -> exists f',
  pre P (B 1 1 f td ck sr fi pv pt io sl ar sw so wr t SIdle) (B 2 2 f' true ck sr fi pv pt io sl ar sw so wr t SIdle).
Proof.
  intros P f td ck sr fi pv pt io sl ar sw so wr t W E.
  destruct (init_cycles 499 P f td ck sr fi pv pt io sl ar sw so wr t W) as (f1 & E1 & Q1); [lia|rewrite E; reflexivity|].
  rewrite E in E1. change (0 + Z.of_nat 500) with 500 in E1.
  destruct (init_last P f1 false ck sr fi pv pt io sl ar sw so wr t W E1) as (f2 & Q2).
  exists f2. eapply pre_trans; eauto.
Qed.

(** A cycle of the time domain *)
Definition adv (fi : bool) (pv pt ck : Z) (d : N) : Z := pv + slope * (if fi then 0 else ck + Z.of_N d - pt).

Lemma td_cycle : forall (P : label -> st -> Prop) d c n f ck sr fi pv pt io (sl ar sw : bool) so wr p, weak P -> mid_restart p = false ->
  P (LTd d) (B c n f true ck sr fi pv pt io sl ar sw so wr TSrc p) ->
  near (Some (if sl then c2 else adv fi pv pt ck d)) = false ->
  let v := adv fi pv pt ck d in let t := ck + Z.of_N d in let o := Some (if sl then c2 else v) in
  pre P (B c n f true ck sr fi pv pt io sl ar sw so wr TIdle p)
        (B c n f true t (Some t) false v t (Some v) sl ar sw o (o :: wr) TIdle p).
Proof.
  intros P d c n f ck sr fi pv pt io sl ar sw so wr p W M G N v t o.
  td1 d.
  eapply pre_cons with (l := LTd d) (s1 := B c n f true t (Some t) fi pv pt io sl ar sw so wr TInt p); [exact G|reflexivity|].
  eapply pre_cons with (l := LTd d) (s1 := B c n f true t (Some t) false pv pt io sl ar sw so wr (TIntW v t) p);
    [apply weak_td; [assumption|cbn; assumption|cbn; discriminate]|reflexivity|].
  eapply pre_cons with (l := LTd d) (s1 := B c n f true t (Some t) false v t (Some v) sl ar sw so wr TSw p);
    [apply weak_td; [assumption|cbn; assumption|cbn; discriminate]|reflexivity|].
  eapply pre_cons with (l := LTd d) (s1 := B c n f true t (Some t) false v t (Some v) sl ar sw so wr (TSwC o) p);
    [apply weak_td; [assumption|cbn; assumption|cbn; discriminate]|unfold o; destruct sl; reflexivity|].
  eapply pre_cons with (l := LTd d) (s1 := B c n f true t (Some t) false v t (Some v) sl ar sw so wr TSwO p);
    [apply weak_td; [assumption|cbn; assumption|cbn; discriminate]| |].
  { cbn [step td_step tp B armed switched]. unfold o, v. rewrite N, andb_false_r. reflexivity. }
  eapply pre_cons with (l := LTd d) (s1 := B c n f true t (Some t) false v t (Some v) sl ar sw o wr TPer p);
    [apply weak_td; [assumption|cbn; assumption|cbn; discriminate]|unfold o; destruct sl; reflexivity|].
  eapply pre_cons with (l := LTd d); [apply weak_td; [assumption|cbn; assumption|cbn; discriminate]|reflexivity|].
  apply pre_refl.
Qed.

(** The cycle in which the switch switches *)
Lemma td_switch : forall (P : label -> st -> Prop) d f ck sr pv pt io so wr, weak P ->
  P (LTd d) (B 2 2 f true ck sr false pv pt io false true false so wr TSrc SIdle) ->
  near (Some (adv false pv pt ck d)) = true ->
  let v := adv false pv pt ck d in let t := ck + Z.of_N d in
  pre P (B 2 2 f true ck sr false pv pt io false true false so wr TIdle SIdle)
        (B 2 3 (upd f 3%nat 0) true t (Some t) false v t (Some v) true false true (Some c2) (Some c2 :: wr) TIdle SIdle).
Proof.
  intros P d f ck sr pv pt io so wr W G N v t.
  assert (M : mid_restart SIdle = false) by reflexivity.
  td1 d.
  eapply pre_cons with (l := LTd d) (s1 := B 2 2 f true t (Some t) false pv pt io false true false so wr TInt SIdle); [exact G|reflexivity|].
  eapply pre_cons with (l := LTd d) (s1 := B 2 2 f true t (Some t) false pv pt io false true false so wr (TIntW v t) SIdle);
    [apply weak_td; [assumption|cbn; assumption|cbn; discriminate]|reflexivity|].
  eapply pre_cons with (l := LTd d) (s1 := B 2 2 f true t (Some t) false v t (Some v) false true false so wr TSw SIdle);
    [apply weak_td; [assumption|cbn; assumption|cbn; discriminate]|reflexivity|].
  eapply pre_cons with (l := LTd d) (s1 := B 2 2 f true t (Some t) false v t (Some v) false true false so wr (TSwC (Some v)) SIdle);
    [apply weak_td; [assumption|cbn; assumption|cbn; discriminate]|reflexivity|].
  eapply pre_cons with (l := LTd d) (s1 := B 2 2 f true t (Some t) false v t (Some v) true true false so wr TSwS SIdle);
    [apply weak_td; [assumption|cbn; assumption|cbn; discriminate]| |].
  { cbn [step td_step tp B armed switched]. unfold v. rewrite N. reflexivity. }
  eapply pre_cons with (l := LTd d) (s1 := B 2 2 f true t (Some t) false v t (Some v) true true true so wr TSwA SIdle);
    [apply weak_td; [assumption|cbn; assumption|cbn; discriminate]|reflexivity|].
  eapply pre_cons with (l := LTd d) (s1 := B 2 2 f true t (Some t) false v t (Some v) true false true so wr TSwE SIdle);
    [apply weak_td; [assumption|cbn; assumption|cbn; discriminate]|reflexivity|].
  eapply pre_cons with (l := LTd d)
    (s1 := B 2 3 (upd f 3%nat 0) true t (Some t) false v t (Some v) true false true so wr TSwO SIdle);
    [apply weak_td; [assumption|cbn; assumption|cbn; discriminate]| |].
  { cbn [step td_step tp B]. match goal with |- context [trig _ _ ?x] => rewrite (trig_eq x 2%nat 2%nat f evStop false eq_refl) by (unfold evStop; auto; lia) end. reflexivity. }
  eapply pre_cons with (l := LTd d)
    (s1 := B 2 3 (upd f 3%nat 0) true t (Some t) false v t (Some v) true false true (Some c2) wr TPer SIdle);
    [apply weak_td; [assumption|cbn; assumption|cbn; discriminate]|reflexivity|].
  eapply pre_cons with (l := LTd d); [apply weak_td; [assumption|cbn; assumption|cbn; discriminate]|reflexivity|].
  apply pre_refl.
Qed.

(** ** Running, the switch, stopped: with 10 ms per cycle *)
Definition tick : N := 10000000.
Definition runs (x : Z) (s : st) : Prop := exists f ck sr io so wr,
  s = B 2 2 f true ck sr false x ck io false true false so wr TIdle SIdle.
Definition stops (k x : Z) (s : st) : Prop := exists f ck sr io so wr,
  s = B 3 3 f true ck sr false x ck io true false true so wr TIdle SIdle /\ f 3%nat = k.

Lemma adv_tick : forall x ck, adv false x ck ck tick = x + 50000000.
Proof. intros. unfold adv, slope, tick. lia. Qed.
Lemma near_false : forall x, x <= v19_9 \/ v20_1 <= x -> near (Some x) = false.
Proof.
  intros x L. unfold near, v19_9, v20_1, switchLevel, delta in *. apply andb_false_iff.
  destruct L; [right|left]; apply Z.ltb_ge; lia.
Qed.
Lemma tick_punctual : forall c n f td ck sr fi x io sl ar sw so wr t p,
  punctual (LTd tick) (B c n f td ck sr fi x ck io sl ar sw so wr t p).
Proof. intros. cbn. unfold tick. lia. Qed.
Lemma weak_p : weak punctual. Proof. left. reflexivity. Qed.
Lemma weak_u : weak undisturbed. Proof. right. left. reflexivity. Qed.
Lemma weak_g : weak good. Proof. right. right. reflexivity. Qed.
Lemma tick_ok : forall P c n f td ck sr fi x io sl ar sw so wr t p, weak P -> mid_restart p = false ->
  P (LTd tick) (B c n f td ck sr fi x ck io sl ar sw so wr t p).
Proof. intros. apply weak_src; [assumption|assumption|]. cbn. unfold tick. lia. Qed.

Lemma runs_cycle : forall P x s, weak P -> runs x s -> x + 50000000 <= v19_9 -> exists s', pre P s s' /\ runs (x + 50000000) s'.
Proof.
  intros P x s W (f & ck & sr & io & so & wr & ->) L. eexists. split.
  - apply (td_cycle P tick); [exact W|reflexivity|apply tick_ok; auto|rewrite adv_tick; apply near_false; auto].
  - rewrite adv_tick. do 6 eexists. reflexivity.
Qed.
Lemma runs_cycles : forall m P x s, weak P -> runs x s -> x + 50000000 * Z.of_nat m <= v19_9 ->
  exists s', pre P s s' /\ runs (x + 50000000 * Z.of_nat m) s'.
Proof.
  induction m as [|m IH]; intros P x s W R L.
  - exists s. split; [apply pre_refl|]. replace (x + 50000000 * Z.of_nat 0) with x by lia. exact R.
  - destruct (runs_cycle P x s W R) as (s1 & Q1 & R1); [lia|].
    destruct (IH P _ s1 W R1) as (s2 & Q2 & R2); [lia|].
    exists s2. split; [eapply pre_trans; eauto|].
    replace (x + 50000000 * Z.of_nat (S m)) with (x + 50000000 + 50000000 * Z.of_nat m) by lia. exact R2.
Qed.

(** A cycle of the safety system at level stopped, and one that gets there *)
Lemma stop_cycle : forall P c f ck sr x io so wr, weak P -> c = 2%nat \/ c = 3%nat -> 0 <= f 3%nat < 300 ->
  pre P (B c 3 f true ck sr false x ck io true false true so wr TIdle SIdle)
    (B 3 3 (upd f 3%nat (f 3%nat + 1)) true ck sr false x ck io true false true so wr TIdle SIdle).
Proof.
  intros P c f ck sr x io so wr W Hc L.
  assert (U : u32 (f 3%nat + 1) = f 3%nat + 1) by (apply u32_small; lia).
  assert (D : stop_done (f 3%nat + 1) = false) by (unfold stop_done; apply Z.ltb_ge; lia).
  eapply pre_cons with (l := LSafe)
    (s1 := B 3 3 (upd f 3%nat (f 3%nat + 1)) true ck sr false x ck io true false true so wr TIdle (SStop (f 3%nat + 1)));
    [apply weak_safe; [assumption|cbn; discriminate]|cbn -[u32 Z.add upd]; rewrite U; reflexivity|].
  eapply pre_cons with (l := LSafe)
    (s1 := B 3 3 (upd f 3%nat (f 3%nat + 1)) true ck sr false x ck io true false true so wr TIdle SEnd);
    [apply weak_safe; [assumption|cbn; discriminate]|cbn -[u32 Z.add upd stop_done]; rewrite D; reflexivity|].
  eapply pre_cons with (l := LSafe); [apply weak_safe; [assumption|cbn; discriminate]|reflexivity|]. apply pre_refl.
Qed.

Lemma stops_tick : forall k x s, stops k x s -> 0 <= k < 300 -> exists s', pre punctual s s' /\ stops (k + 1) (x + 50000000) s'.
Proof.
  intros k x s (f & ck & sr & io & so & wr & -> & E) L. eexists. split.
  - eapply pre_trans; [apply (td_cycle punctual tick); [apply weak_p|reflexivity|apply tick_punctual|reflexivity]|].
    apply stop_cycle; [apply weak_p|auto|lia].
  - rewrite adv_tick. do 6 eexists. split; [reflexivity|]. rewrite upd_same. lia.
Qed.
Lemma stops_ticks : forall m k x s, stops k x s -> 0 <= k -> k + Z.of_nat m <= 300 ->
  exists s', pre punctual s s' /\ stops (k + Z.of_nat m) (x + 50000000 * Z.of_nat m) s'.
Proof.
  induction m as [|m IH]; intros k x s R K L.
  - exists s. split; [apply pre_refl|]. replace (x + 50000000 * Z.of_nat 0) with x by lia.
    replace (k + Z.of_nat 0) with k by lia. exact R.
  - destruct (stops_tick k x s R) as (s1 & Q1 & R1); [lia|].
    destruct (IH _ _ s1 R1) as (s2 & Q2 & R2); [lia|lia|].
    exists s2. split; [eapply pre_trans; eauto|].
    replace (x + 50000000 * Z.of_nat (S m)) with (x + 50000000 + 50000000 * Z.of_nat m) by lia.
    replace (k + Z.of_nat (S m)) with (k + 1 + Z.of_nat m) by lia. exact R2.
Qed.

(** The restart while the integrator runs: its new state is overwritten. *)
Lemma race : forall x s, stops 300 x s -> v20_1 <= x -> exists s', pre punctual s s' /\ runs (x + 50000000) s' /\
  src s' = Some (clk s') /\ exists wr, writes s' = Some (x + 50000000) :: wr.
Proof.
  intros x s (f & ck & sr & io & so & wr & -> & E) L. pose proof weak_p as W.
  assert (M : mid_restart SIdle = false) by reflexivity.
  set (t := ck + Z.of_N tick). set (v := adv false x ck ck tick). set (f' := upd f 3%nat 301).
  assert (V : v = x + 50000000) by apply adv_tick.
  exists (B 2 2 (upd f' 2%nat 0) true t (Some t) false v t (Some v) false true false (Some v) (Some v :: wr) TIdle SIdle).
  split.
  2:{ rewrite V. split; [do 6 eexists; reflexivity|]. split; [reflexivity|]. exists wr. reflexivity. }
  td1 tick.
  eapply pre_cons with (l := LTd tick) (s1 := B 3 3 f true t (Some t) false x ck io true false true so wr TInt SIdle);
    [apply tick_punctual|reflexivity|].
  eapply pre_cons with (l := LTd tick) (s1 := B 3 3 f true t (Some t) false x ck io true false true so wr (TIntW v t) SIdle);
    [apply weak_td; [assumption|cbn; assumption|cbn; discriminate]|reflexivity|].
  eapply pre_cons with (l := LSafe) (s1 := B 3 3 f' true t (Some t) false x ck io true false true so wr (TIntW v t) (SStop 301));
    [exact I|cbn -[u32 Z.add upd]; rewrite E; reflexivity|].
  eapply pre_cons with (l := LSafe) (s1 := B 3 3 f' true t (Some t) false x ck io true false true so wr (TIntW v t) SSw);
    [exact I|reflexivity|].
  eapply pre_cons with (l := LSafe) (s1 := B 3 3 f' true t (Some t) false x ck io false false true so wr (TIntW v t) SSet);
    [exact I|reflexivity|].
  eapply pre_cons with (l := LSafe) (s1 := B 3 3 f' true t (Some t) false 0 ck io false false true so wr (TIntW v t) SArm1);
    [exact I|reflexivity|].
  eapply pre_cons with (l := LSafe) (s1 := B 3 3 f' true t (Some t) false 0 ck io false true true so wr (TIntW v t) SArm2);
    [exact I|reflexivity|].
  eapply pre_cons with (l := LSafe) (s1 := B 3 3 f' true t (Some t) false 0 ck io false true false so wr (TIntW v t) SStopT);
    [exact I|reflexivity|].
  eapply pre_cons with (l := LSafe)
    (s1 := B 3 2 (upd f' 2%nat 0) true t (Some t) false 0 ck io false true false so wr (TIntW v t) SEnd); [exact I| |].
  { cbn [step safe_step sp B]. match goal with |- context [trig _ _ ?x] => rewrite (trig_eq x 3%nat 3%nat f' evRestart true eq_refl) by (unfold evRestart; auto; lia) end. reflexivity. }
  eapply pre_cons with (l := LSafe)
    (s1 := B 2 2 (upd f' 2%nat 0) true t (Some t) false 0 ck io false true false so wr (TIntW v t) SIdle); [exact I|reflexivity|].
  eapply pre_cons with (l := LTd tick)
    (s1 := B 2 2 (upd f' 2%nat 0) true t (Some t) false v t (Some v) false true false so wr TSw SIdle);
    [apply weak_td; [assumption|cbn; assumption|cbn; discriminate]|reflexivity|].
  eapply pre_cons with (l := LTd tick)
    (s1 := B 2 2 (upd f' 2%nat 0) true t (Some t) false v t (Some v) false true false so wr (TSwC (Some v)) SIdle);
    [apply weak_td; [assumption|cbn; assumption|cbn; discriminate]|reflexivity|].
  eapply pre_cons with (l := LTd tick)
    (s1 := B 2 2 (upd f' 2%nat 0) true t (Some t) false v t (Some v) false true false so wr TSwO SIdle);
    [apply weak_td; [assumption|cbn; assumption|cbn; discriminate]| |].
  { cbn [step td_step tp B armed switched]. rewrite near_false, andb_false_r by lia. reflexivity. }
  eapply pre_cons with (l := LTd tick)
    (s1 := B 2 2 (upd f' 2%nat 0) true t (Some t) false v t (Some v) false true false (Some v) wr TPer SIdle);
    [apply weak_td; [assumption|cbn; assumption|cbn; discriminate]|reflexivity|].
  eapply pre_cons with (l := LTd tick); [apply weak_td; [assumption|cbn; assumption|cbn; discriminate]|reflexivity|].
  apply pre_refl.
Qed.

(** ** From the start *)
Definition n0 : lref -> Z := fun _ => 0.
Definition s0 : st := B 1 1 (upd n0 1%nat 0) true 0 None true 0 0 None false true false None [] TIdle SIdle.
Lemma s0_initial : initial s0.
Proof. exists 0%N, n0, (mksys 1 1 (upd n0 1%nat 0)). split; reflexivity. Qed.

Lemma to_runs : forall P, weak P -> exists s, pre P s0 s /\ runs 0 s.
Proof.
  intros P W.
  destruct (init_all P (upd n0 1%nat 0) true 0 None true 0 0 None false true false None [] TIdle W eq_refl) as (f & Q).
  eexists. split.
  - eapply pre_trans; [exact Q|]. apply (td_cycle P tick); [exact W|reflexivity| |reflexivity].
    apply weak_src; [exact W|reflexivity|cbn; discriminate].
  - do 6 eexists. reflexivity.
Qed.

Lemma to_stops : forall P, weak P -> exists s, pre P s0 s /\ stops 1 39850000000 s.
Proof.
  intros P W.
  destruct (to_runs P W) as (s1 & Q1 & R1).
  destruct (runs_cycles 796 P 0 s1 W R1) as (s2 & Q2 & R2); [unfold v19_9; lia|].
  change (0 + 50000000 * Z.of_nat 796) with v19_9 in R2. destruct R2 as (f & ck & sr & io & so & wr & ->).
  eexists. split.
  - eapply pre_trans; [exact Q1|]. eapply pre_trans; [exact Q2|].
    eapply pre_trans; [apply (td_switch P tick); [exact W|apply tick_ok; auto|rewrite adv_tick; reflexivity]|].
    apply stop_cycle; [exact W|auto|rewrite upd_same; lia].
  - rewrite adv_tick. do 6 eexists. split; [reflexivity|reflexivity].
Qed.

Lemma to_lost : exists s, reach_with punctual s /\ runs 54850000000 s /\ src s = Some (clk s) /\ exists wr, writes s = Some 54850000000 :: wr.
Proof.
  destruct (to_stops punctual weak_p) as (s1 & Q1 & R1). destruct (stops_ticks 299 1 _ s1 R1) as (s2 & Q2 & R2); [lia|lia|].
  change (1 + Z.of_nat 299) with 300 in R2.
  change (39850000000 + 50000000 * Z.of_nat 299) with 54800000000 in R2.
  destruct (race _ s2 R2) as (s3 & Q3 & R3 & X); [unfold v20_1; lia|].
  exists s3. split; [|split; [exact R3|exact X]]. clear X.
  destruct (pre_trans _ _ _ _ Q1 (pre_trans _ _ _ _ Q2 Q3)) as (ls & A & E). exists s0, ls. split; [exact s0_initial|auto].
Qed.

(** A cycle that is 10 s late. *)
Lemma to_late : exists s, reach_with undisturbed s /\ runs 50000000000 s /\ src s = Some (clk s) /\ exists wr, writes s = Some 50000000000 :: wr.
Proof.
  destruct (to_runs undisturbed weak_u) as (s1 & Q1 & (f & ck & sr & io & so & wr & ->)).
  assert (Q2 := td_cycle undisturbed 10000000000%N 2 2 f ck sr false 0 ck io false true false so wr SIdle weak_u eq_refl eq_refl).
  assert (V : adv false 0 ck ck 10000000000 = 50000000000) by (unfold adv, slope; lia).
  cbn [andb] in Q2. rewrite V in Q2. specialize (Q2 eq_refl). cbn zeta in Q2.
  eexists. split; [|split].
  - destruct (pre_trans _ _ _ _ Q1 Q2) as (ls & A & E). exists s0, ls. split; [exact s0_initial|]. split; [exact A|exact E].
  - do 6 eexists. reflexivity.
  - split; [reflexivity|]. exists wr. reflexivity.
Qed.

(** ** The switch level is passed for ever *)
Record linv (s : st) (f : lref -> Z) : Prop := {
  l_sys : ss s = mksys 2 2 f;
  l_sp : sp s = SIdle \/ sp s = SEnd;
  l_sel : sel s = false;
  l_prev : v20_1 <= iprev s;
  l_t1 : match src s with Some t => t <= clk s | None => True end;
  l_t2 : ifirst s = false -> match tp s with TIntW _ t => t <= clk s | _ => iprevt s <= clk s end;
  l_t3 : match tp s with TInt => forall t, src s = Some t -> t = clk s | _ => True end;
  l_tp : match tp s with
         | TIdle | TSrc | TInt => True
         | TIntW v _ => v20_1 <= v
         | TSw | TSwO => above v20_1 (iout s)
         | TSwC v => above v20_1 v /\ above v20_1 (iout s)
         | TPer => above v20_1 (sout s)
         | _ => False
         end }.

Lemma linv_runs : forall x s, runs x s -> v20_1 <= x -> (exists t, src s = Some t /\ t <= clk s) -> exists f, linv s f.
Proof.
  intros x s (f & ck & sr & io & so & wr & ->) L (t & A & C). cbn in A, C. subst sr. exists f.
  constructor; cbn; auto. lia.
Qed.

Lemma near_above : forall v, above v20_1 v -> near v = false.
Proof. intros [x|] A; [|destruct A]. apply near_false. auto. Qed.

Lemma linv_step : forall l s f s', linv s f -> is_emergency l = false -> step l s = Ok s' ->
  exists f', linv s' f' /\ exists new, writes s' = new ++ writes s /\ Forall (above v20_1) new.
Proof.
  intros l s f s' L N E.
  assert (K : forall x : st, writes x = writes s -> exists new, writes x = new ++ writes s /\ Forall (above v20_1) new)
    by (intros x ->; exists []; split; [reflexivity|constructor]).
  destruct L as [Sy Sp Se Pv T1 T2 T3 Tp]. destruct l as [d| |]; [| |discriminate N]; cbn [step] in E.
  - unfold td_step in E. destruct (tp s) eqn:T; try contradiction.
    + injection E as <-. exists f. split; [|apply K; reflexivity]. constructor; sys_steps; auto; destruct (tdrun s); auto.
    + injection E as <-. exists f. split; [|apply K; reflexivity]. constructor; sys_steps; auto; try lia.
      * intros F. specialize (T2 F). lia.
      * intros t X. injection X as <-. reflexivity.
    + destruct (src s) as [t|] eqn:Sr.
      2:{ injection E as <-. exists f. split; [|apply K; reflexivity]. constructor; rewrite ?T, ?Sr; auto. }
      remember (slope * (if ifirst s then 0 else t - iprevt s)) as w eqn:Hw.
      injection E as <-. exists f. split; [|apply K; reflexivity]. constructor; sys_steps; rewrite ?Sr; auto.
      assert (D : 0 <= (if ifirst s then 0 else t - iprevt s))
        by (destruct (ifirst s); [lia|]; specialize (T2 eq_refl); specialize (T3 t eq_refl); lia).
      unfold slope in Hw. lia.
    + injection E as <-. exists f. split; [|apply K; reflexivity]. constructor; sys_steps; auto.
    + injection E as <-. exists f. split; [|apply K; reflexivity]. constructor; sys_steps; auto.
      unfold sw_in. rewrite Se. auto.
    + destruct Tp as [A C]. rewrite (near_above _ A), andb_false_r in E. injection E as <-. exists f.
      split; [|apply K; reflexivity]. constructor; sys_steps; auto.
    + injection E as <-. exists f. split; [|apply K; reflexivity]. constructor; sys_steps; auto.
      unfold sw_in. rewrite Se. exact Tp.
    + injection E as <-. exists f. destruct (sout s) as [y|] eqn:O; [|destruct Tp]. split.
      * constructor; sys_steps; auto.
      * exists [Some y]. split; [reflexivity|]. constructor; [exact Tp|constructor].
  - unfold safe_step in E. destruct Sp as [S|S]; rewrite S in E; rewrite Sy in E; cbn in E; injection E as <-.
    + exists (upd f 2%nat (u32 (f 2%nat + 1))). split; [|apply K; reflexivity]. constructor; sys_steps; auto.
    + exists f. split; [|apply K; reflexivity]. constructor; sys_steps; auto.
Qed.

Lemma linv_steps : forall ls s f s', linv s f -> existsb is_emergency ls = false -> steps ls s = Ok s' ->
  exists f', linv s' f' /\ exists new, writes s' = new ++ writes s /\ Forall (above v20_1) new.
Proof.
  induction ls as [|l ls IH]; intros s f s' L N E; cbn [steps existsb] in *.
  - injection E as <-. exists f. split; [exact L|]. exists []. split; [reflexivity|constructor].
  - apply orb_false_iff in N. destruct N as [N1 N2]. destruct (step l s) as [s1| |] eqn:E1; try discriminate. cbn [bind] in E.
    destruct (linv_step l s f s1 L N1 E1) as (f1 & L1 & w1 & A1 & F1).
    destruct (IH s1 f1 s' L1 N2 E) as (f2 & L2 & w2 & A2 & F2). exists f2. split; [exact L2|].
    exists (w2 ++ w1). rewrite A2, A1, app_assoc. split; [reflexivity|]. apply Forall_app. auto.
Qed.

Definition lost (s : st) : Prop := forall ls s', existsb is_emergency ls = false -> steps ls s = Ok s' ->
  level_at s' slRunning /\ next_is s' slRunning /\ sel s' = false /\
  exists new, writes s' = new ++ writes s /\ Forall (above v20_1) new.

Lemma linv_lost : forall s f, linv s f -> lost s.
Proof.
  intros s f L ls s' N E. destruct (linv_steps ls s f s' L N E) as (f' & L' & X).
  unfold level_at, next_is. rewrite (l_sys _ _ L'). split; [reflexivity|]. split; [reflexivity|]. split; [apply (l_sel _ _ L')|exact X].
Qed.

Lemma runs_lost : forall x s, runs x s -> v20_1 <= x -> src s = Some (clk s) -> lost s.
Proof.
  intros x s R L C. destruct (linv_runs x s R L) as (f & K); [exists (clk s); split; [exact C|lia]|]. eapply linv_lost. exact K.
Qed.

Lemma beyond : exists s, reach_with punctual s /\ level_at s slRunning /\ exists x wr, writes s = Some x :: wr /\ v20_1 <= x.
Proof.
  destruct to_lost as (s & R & Q & _ & wr & W). exists s. split; [exact R|].
  split; [destruct Q as (f & ck & sr & io & so & wr' & ->); reflexivity|].
  exists 54850000000, wr. split; [exact W|unfold v20_1; lia].
Qed.
Lemma beyond_late : exists s, reach_with undisturbed s /\ level_at s slRunning /\ exists x wr, writes s = Some x :: wr /\ v20_1 <= x.
Proof.
  destruct to_late as (s & R & Q & _ & wr & W). exists s. split; [exact R|].
  split; [destruct Q as (f & ck & sr & io & so & wr' & ->); reflexivity|].
  exists 50000000000, wr. split; [exact W|unfold v20_1; lia].
Qed.
Lemma never : exists s, reach_with punctual s /\ level_at s slRunning /\ lost s.
Proof.
  destruct to_lost as (s & R & Q & C & _). exists s. split; [exact R|].
  split; [destruct Q as (f & ck & sr & io & so & wr' & ->); reflexivity|].
  eapply runs_lost; [exact Q|unfold v20_1; lia|exact C].
Qed.
Lemma never_late : exists s, reach_with undisturbed s /\ level_at s slRunning /\ lost s.
Proof.
  destruct to_late as (s & R & Q & C & _). exists s. split; [exact R|].
  split; [destruct Q as (f & ck & sr & io & so & wr' & ->); reflexivity|].
  eapply runs_lost; [exact Q|unfold v20_1; lia|exact C].
Qed.

(** ** A cycle of the time domain before the first cycle of the safety system *)
Definition early_labels : list label := repeat (LTd 0) 8.
Lemma early : exists s, reach s /\ level_at s slInitializing /\ next_is s slInitializing /\ writes s = [Some 0] /\ pre (fun _ _ => True) s0 s /\
  exists f, f 1%nat = 0 /\ s = B 1 1 f true 0 (Some 0) false 0 0 (Some 0) false true false (Some 0) [Some 0] TIdle SIdle.
Proof.
  exists (B 1 1 (upd n0 1%nat 0) true 0 (Some 0) false 0 0 (Some 0) false true false (Some 0) [Some 0] TIdle SIdle).
  split; [exists s0, early_labels; split; [exact s0_initial|reflexivity]|].
  split; [reflexivity|]. split; [reflexivity|]. split; [reflexivity|]. split.
  - exists early_labels. split; [|reflexivity]. generalize s0. unfold early_labels. generalize 8%nat.
    induction n as [|n IH]; intros s; cbn; auto.
  - exists (upd n0 1%nat 0). split; reflexivity.
Qed.

Lemma jump : exists s s', reach s /\ level_at s slRunning /\ writes s = [Some 0] /\
  steps (repeat (LTd 0) 1 ++ [LTd 5010000000] ++ repeat (LTd 0) 6) s = Ok s' /\
  exists x, writes s' = [Some x; Some 0] /\ v12 <= x.
Proof.
  destruct early as (s1 & R & _ & _ & _ & _ & f & F & ->).
  destruct (init_all punctual f true 0 (Some 0) false 0 0 (Some 0) false true false (Some 0) [Some 0] TIdle weak_p F) as (f' & ls & A & E).
  exists (B 2 2 f' true 0 (Some 0) false 0 0 (Some 0) false true false (Some 0) [Some 0] TIdle SIdle).
  exists (B 2 2 f' true 5010000000 (Some 5010000000) false 25050000000 5010000000 (Some 25050000000) false true false
            (Some 25050000000) [Some 25050000000; Some 0] TIdle SIdle).
  split.
  { destruct R as (z & l0 & I0 & E0). exists z, (l0 ++ ls). split; [exact I0|].
    clear -E0 E. revert z E0. induction l0 as [|l l0 IH]; intros z E0; cbn [steps app] in *.
    - injection E0 as ->. exact E.
    - destruct (step l z); try discriminate. cbn [bind] in *. apply IH. exact E0. }
  split; [reflexivity|]. split; [reflexivity|]. split; [reflexivity|].
  exists 25050000000. split; [reflexivity|]. unfold v12. lia.
Qed.

(** ** States for the examples *)
Lemma early_write : exists s, reach s /\ level_at s slInitializing /\ next_is s slInitializing /\ writes s = [Some 0].
Proof. destruct early as (s & A & C & D & E & _). exists s. auto. Qed.

Lemma stopped_reach : exists s, reach s /\ level_at s slStopped /\ sel s = true /\ v19_9 < iprev s /\ tp s = TIdle /\ sp s = SIdle.
Proof.
  destruct (to_stops punctual weak_p) as (s & (ls & _ & E) & R). exists s. split; [exists s0, ls; split; [exact s0_initial|exact E]|].
  destruct R as (f & ck & sr & io & so & wr & -> & _). repeat split; unfold v19_9; cbn; lia.
Qed.
Lemma good_reach : exists s, reach_with good s /\ tp s = TIdle /\ mid_restart (sp s) = false /\ v19_9 < iprev s /\ writes s <> [].
Proof.
  destruct (to_stops good weak_g) as (s & (ls & A & E) & R). exists s.
  assert (Q : reach_with good s) by (exists s0, ls; split; [exact s0_initial|split; assumption]).
  assert (N : reach s) by (exists s0, ls; split; [exact s0_initial|exact E]).
  destruct (inv_reach s N) as (c & n & g & I).
  split; [exact Q|]. destruct R as (f & ck & sr & io & so & wr & -> & _). cbn. unfold v19_9. repeat split; try lia.
  intros X. pose proof (i_w0 _ _ _ _ I) as Y. cbn in Y. destruct (Y X) as (Z & _). discriminate.
Qed.
Lemma running_reach : exists s, reach s /\ level_at s slRunning.
Proof.
  destruct (to_runs punctual weak_p) as (s & (ls & _ & E) & R). exists s. split; [exists s0, ls; split; [exact s0_initial|exact E]|].
  destruct R as (f & ck & sr & io & so & wr & ->). reflexivity.
Qed.

Lemma pause_reach : exists s, reach s /\ level_at s slInitializing /\ next_is s slRunning.
Proof.
  destruct (init_cycles 499 punctual (upd n0 1%nat 0) true 0 None true 0 0 None false true false None [] TIdle weak_p)
    as (f & E & (ls & _ & Q)); [rewrite upd_same; lia|rewrite upd_same; reflexivity|].
  rewrite upd_same in E. change (0 + Z.of_nat 500) with 500 in E.
  eexists. split.
  - exists s0, (ls ++ [LSafe; LSafe; LSafe]). split; [exact s0_initial|].
    assert (A : forall l1 l2 a b c, steps l1 a = Ok b -> steps l2 b = Ok c -> steps (l1 ++ l2) a = Ok c).
    { induction l1 as [|l l1 IH]; intros l2 a b c X Y; cbn in *; [injection X as ->; exact Y|].
      destruct (step l a) as [a1| |]; try discriminate. apply (IH l2 a1 b c X Y). }
    eapply A; [exact Q|]. cbn [steps].
    replace (step LSafe (B 1 1 f false 0 None true 0 0 None false true false None [] TIdle SIdle))
      with (@Ok st (B 1 1 (upd f 1%nat 501) false 0 None true 0 0 None false true false None [] TIdle (SInit 501)))
      by (cbn -[u32 Z.add upd]; rewrite E; reflexivity).
    cbn [bind]. replace (step LSafe (B 1 1 (upd f 1%nat 501) false 0 None true 0 0 None false true false None [] TIdle (SInit 501)))
      with (@Ok st (B 1 1 (upd f 1%nat 501) false 0 None true 0 0 None false true false None [] TIdle SInitT)) by reflexivity.
    cbn [bind].
    cbn [step safe_step sp B].
    match goal with |- context [trig _ _ ?x] => rewrite (trig_eq x 1%nat 1%nat (upd f 1%nat 501) evStart true eq_refl) by (unfold evStart; auto; lia) end.
    reflexivity.
  - split; reflexivity.
Qed.
