From Coq Require Import ZifyBool ZifyNat Reals Lra Psatz String.
From Flocq Require Import Core.Raux.
From Verif Require Import Prelude Num SeqModel SeqSpec SeqProofs SeqProofs2.
Open Scope Z_scope.
Open Scope list_scope.

(** ** more fuel does not change a result *)
Section Fuel.
Variable defs : nat -> seqdef.
Variable mons : nat -> mondef.
Variable orc : nat -> bool.

Definition mono {X} (f g : result X) : Prop := f = OutOfFuel \/ f = g.
Lemma mono_bind : forall X Y (f g : result X) (k k' : X -> result Y),
  mono f g -> (forall x, mono (k x) (k' x)) -> mono (rbind f k) (rbind g k').
Proof.
  intros X Y f g k k' [->| ->] Hk; [left; reflexivity|]. destruct g; cbn; [apply Hk|right; reflexivity|left; reflexivity].
Qed.
Lemma mono_refl : forall X (f : result X), mono f f.
Proof. right; reflexivity. Qed.

Lemma fuel_all : forall n,
  (forall s ret w, mono (loop defs mons orc n s ret w) (loop defs mons orc (S n) s ret w)) /\
  (forall c w, mono (runscript defs mons orc n c w) (runscript defs mons orc (S n) c w)) /\
  (forall s w, mono (exec defs mons orc n s w) (exec defs mons orc (S n) s w)) /\
  (forall s w, mono (check defs mons orc n s w) (check defs mons orc (S n) s w)) /\
  (forall qs act w, mono (scan defs mons orc n qs act w) (scan defs mons orc (S n) qs act w)) /\
  (forall ms act w, mono (scan_mons defs mons orc n ms act w) (scan_mons defs mons orc (S n) ms act w)).
Proof.
  induction n as [|n (H1 & H2 & H3 & H4 & H5 & H6)].
  - repeat apply conj; intros; left; reflexivity.
  - repeat apply conj; intros.
    + rewrite (loop_S defs mons orc n), (loop_S defs mons orc (S n)). destruct (qphase (wq w s)); auto using mono_refl.
      * apply mono_bind; auto. intros w1. destruct (qphase (wq w1 s)); auto.
      * destruct (ask orc w (VPre s)) as [b w1]. destruct b; auto. apply mono_bind; auto.
      * apply mono_bind; auto. intros w1. destruct (qphase (wq w1 s)); auto; destruct (ask orc w1 (VExit s)); auto.
    + rewrite (runscript_S defs mons orc n), (runscript_S defs mons orc (S n)). destruct c; auto using mono_refl.
      * apply mono_bind; auto.
      * destruct (ask_silent orc w); auto.
    + rewrite (exec_S defs mons orc n), (exec_S defs mons orc (S n)). destruct (qbusy (wq w s)); auto using mono_refl.
    + rewrite (check_S defs mons orc n), (check_S defs mons orc (S n)). apply mono_bind; auto. intros; apply mono_refl.
    + rewrite (scan_S defs mons orc n), (scan_S defs mons orc (S n)). destruct qs; auto using mono_refl. destruct (qinexc (wq w n0)); auto.
      apply mono_bind; auto.
    + rewrite (scan_mons_S defs mons orc n), (scan_mons_S defs mons orc (S n)). destruct ms; auto using mono_refl.
      destruct (ask orc w (VMon n0)) as [b w1]. destruct b; auto.
      destruct (qfired (wq w1 (mowner (mons n0)))); auto. apply mono_bind; auto.
      destruct (mexc (mons n0)); auto using mono_refl.
Qed.

Lemma exec_fuel : forall n k s w x, exec defs mons orc n s w = Fin x -> exec defs mons orc (k + n) s w = Fin x.
Proof.
  intros n k s w x H. induction k as [|k IH]; [exact H|]. cbn [Nat.add].
  destruct (fuel_all (k + n)) as (_ & _ & X & _). destruct (X s w) as [E|E]; congruence.
Qed.

(** The outcome does not depend on the fuel. *)
Lemma exec_deterministic : forall n k s w x y,
  exec defs mons orc n s w = Fin x -> exec defs mons orc k s w = Fin y -> x = y.
Proof.
  intros n k s w x y H1 H2. apply (exec_fuel n k) in H1. apply (exec_fuel k n) in H2.
  rewrite (Nat.add_comm n k) in H2. congruence.
Qed.

(** ** which monitors a check evaluates *)
Lemma evaluated_app : forall l1 l2, evaluated (l1 ++ l2) = evaluated l1 ++ evaluated l2.
Proof. intros. unfold evaluated. apply flat_map_app. Qed.

Definition inexc_same (w w' : world) : Prop := forall q, qinexc (wq w' q) = qinexc (wq w q).

Lemma scan_mons_eval : forall n o ms act w w' act',
  (forall m, In m ms -> mowner (mons m) = o /\ mexc (mons m) = None) -> qinexc (wq w o) = false ->
  scan_mons defs mons orc n ms act w = Fin (w', act') ->
  exists seg, wlog w' = wlog w ++ seg /\ evaluated seg = ms /\ inexc_same w w'.
Proof.
  intros n; induction n as [|n IH]; intros o ms act w w' act' Hm Hi H; [discriminate|].
  rewrite scan_mons_S in H. destruct ms as [|m ms].
  { inversion H; subst. exists []. rewrite app_nil_r. repeat split. }
  cbn [ask] in H. destruct (Hm m (or_introl eq_refl)) as [Ho He].
  assert (Hm' : forall m', In m' ms -> mowner (mons m') = o /\ mexc (mons m') = None) by (intros; apply Hm; right; assumption).
  set (w1 := {| wq := wq w; wpos := S (wpos w); wlog := wlog w ++ [VMon m (orc (wpos w))] |}) in *.
  assert (Hc : forall wx act2 es, scan_mons defs mons orc n ms act2 wx = Fin (w', act') ->
     wlog wx = wlog w ++ [VMon m (orc (wpos w))] ++ es -> evaluated es = [] -> inexc_same w wx ->
     exists seg, wlog w' = wlog w ++ seg /\ evaluated seg = m :: ms /\ inexc_same w w').
  { intros wx act2 es Hx L E I. destruct (IH o ms act2 wx w' act' Hm') as (seg & L2 & E2 & I2); auto.
    - rewrite I. exact Hi.
    - exists (([VMon m (orc (wpos w))] ++ es) ++ seg). split; [rewrite L2, L, !app_assoc; reflexivity|].
      split; [rewrite evaluated_app, evaluated_app, E, E2; reflexivity|]. intros q. rewrite I2. apply I. }
  destruct (orc (wpos w)) eqn:Eo.
  - destruct (qfired (wq w1 (mowner (mons m)))).
    + apply (Hc w1 _ [] H); [reflexivity|reflexivity|]. intros q. reflexivity.
    + rewrite He in H. cbn [rbind fst] in H.
      apply (Hc _ _ [VFire m; VHandled m] H); [|reflexivity|].
      * cbn. rewrite <- !app_assoc. reflexivity.
      * intros q. unfold handled, fire. cbn. rewrite Ho.
        destruct (Nat.eq_dec q o) as [->|N].
        -- rewrite upd_same. rewrite Hi. destruct (mbeh (mons m)); reflexivity.
        -- rewrite !upd_other by exact N. reflexivity.
  - apply (Hc w1 _ [] H); [reflexivity|reflexivity|]. intros q. reflexivity.
Qed.

Lemma scan_eval : forall n qs act w w' act',
  (forall q m, In q qs -> In m (smons (defs q)) -> mowner (mons m) = q /\ mexc (mons m) = None) ->
  scan defs mons orc n qs act w = Fin (w', act') ->
  exists seg, wlog w' = wlog w ++ seg /\
    evaluated seg = flat_map (fun q => if qinexc (wq w q) then [] else smons (defs q)) qs /\ inexc_same w w'.
Proof.
  intros n; induction n as [|n IH]; intros qs act w w' act' Hm H; [discriminate|].
  rewrite scan_S in H. destruct qs as [|q qs].
  { inversion H; subst. exists []. rewrite app_nil_r. repeat split. }
  assert (Hm' : forall q' m, In q' qs -> In m (smons (defs q')) -> mowner (mons m) = q' /\ mexc (mons m) = None)
    by (intros q' m Hq; apply Hm; right; exact Hq).
  cbn [flat_map]. destruct (qinexc (wq w q)) eqn:Ei.
  - apply (IH qs act w w' act' Hm' H).
  - destruct (scan_mons defs mons orc n (smons (defs q)) act w) as [[w1 a1]| |] eqn:Em; cbn [rbind fst snd] in H; try discriminate.
    destruct (scan_mons_eval n q _ _ _ _ _ (fun m => Hm q m (or_introl eq_refl)) Ei Em) as (g1 & L1 & E1 & I1).
    destruct (IH qs a1 w1 w' act' Hm' H) as (g2 & L2 & E2 & I2).
    exists (g1 ++ g2). split; [rewrite L2, L1, app_assoc; reflexivity|]. split.
    + rewrite evaluated_app, E1, E2. f_equal. apply flat_map_ext. intros x. rewrite I1. reflexivity.
    + intros x. rewrite I2. apply I1.
Qed.

Lemma propagate_log : forall qs b w, wlog (propagate qs b w) = wlog w.
Proof.
  intros qs; induction qs as [|q qs IH]; intros b w; [reflexivity|]. cbn. destruct (qfired (wq w q)); [reflexivity|].
  rewrite IH. destruct b; reflexivity.
Qed.

Lemma check_eval : forall n s w w', wf_config defs mons ->
  (forall q m, In q (sstack (defs s)) -> In m (smons (defs q)) -> mexc (mons m) = None) ->
  check defs mons orc n s w = Fin w' ->
  exists seg, wlog w' = wlog w ++ seg /\
    evaluated seg = flat_map (fun q => if qinexc (wq w q) then [] else smons (defs q)) (sstack (defs s)).
Proof.
  intros n s w w' WF He H. destruct n as [|n]; [discriminate|]. rewrite check_S in H.
  destruct (scan defs mons orc n (sstack (defs s)) None w) as [[w1 act]| |] eqn:Es; cbn [rbind fst snd] in H; try discriminate.
  destruct (scan_eval n _ _ _ _ _ (fun q m Hq Hm => conj (wf_owner defs mons WF q m Hm) (He q m Hq Hm)) Es) as (seg & L & E & _).
  exists seg. split; [|exact E]. destruct act as [a|]; [|inversion H; subst; exact L].
  destruct (qactive (wq w1 a)); [|discriminate]. inversion H; subst. rewrite propagate_log. exact L.
Qed.

(** ** one true monitor *)
Lemma propagate_phases : forall pre o suf b w, b <> Resume ->
  (forall q, In q pre -> qfired (wq w q) = false) -> qfired (wq w o) = true ->
  forall q, qphase (wq (propagate (pre ++ o :: suf) b w) q) = if in_dec Nat.eq_dec q pre then Aborting else qphase (wq w q).
Proof.
  intros pre; induction pre as [|p pre IH]; intros o suf b w Hb Hp Ho q.
  - cbn [app propagate]. rewrite Ho. destruct (in_dec Nat.eq_dec q []) as [[]|]; reflexivity.
  - cbn [app propagate]. rewrite (Hp p (or_introl eq_refl)).
    replace (match b with Resume => w | _ => setphase w p Aborting end) with (setphase w p Aborting) by (destruct b; congruence).
    assert (Hf : forall x, qfired (wq (setphase w p Aborting) x) = qfired (wq w x)).
    { intros x. cbn. destruct (Nat.eq_dec x p) as [->|N]; [rewrite upd_same|rewrite upd_other by exact N]; reflexivity. }
    rewrite IH; auto.
    + destruct (in_dec Nat.eq_dec q pre) as [H|H].
      * destruct (in_dec Nat.eq_dec q (p :: pre)) as [_|N]; [reflexivity|]. destruct N; right; exact H.
      * destruct (Nat.eq_dec q p) as [->|N].
        -- rewrite wq_setphase. destruct (in_dec Nat.eq_dec p (p :: pre)) as [_|X]; [reflexivity|].
           destruct X; left; reflexivity.
        -- rewrite wq_setphase_o by exact N. destruct (in_dec Nat.eq_dec q (p :: pre)) as [[X|X]|X]; [congruence|contradiction|reflexivity].
    + intros x Hx. rewrite Hf. apply Hp. right; exact Hx.
    + rewrite Hf. exact Ho.
Qed.

Lemma scan_mons_quiet : forall n ms act w w' act',
  scan_mons defs mons orc n ms act w = Fin (w', act') ->
  (forall i, (i < length ms)%nat -> orc (wpos w + i) = false) ->
  wq w' = wq w /\ wpos w' = (wpos w + length ms)%nat /\ act' = act.
Proof.
  intros n; induction n as [|n IH]; intros ms act w w' act' H Hq; [discriminate|].
  rewrite scan_mons_S in H. destruct ms as [|m ms]; [inversion H; subst; cbn; repeat split; lia|].
  cbn [ask] in H. pose proof (Hq 0%nat ltac:(cbn; lia)) as H0. rewrite Nat.add_0_r in H0. rewrite H0 in H.
  destruct (IH _ _ _ _ _ H) as (E1 & E2 & E3).
  - intros i Hi. cbn. rewrite <- (Hq (S i)) by (cbn; lia). f_equal. lia.
  - cbn in *. repeat split; auto. lia.
Qed.

Lemma scan_quiet : forall n qs act w w' act',
  scan defs mons orc n qs act w = Fin (w', act') ->
  (forall q, In q qs -> qinexc (wq w q) = false) ->
  (forall i, (i < length (flat_map (fun q => smons (defs q)) qs))%nat -> orc (wpos w + i) = false) ->
  wq w' = wq w /\ wpos w' = (wpos w + length (flat_map (fun q => smons (defs q)) qs))%nat /\ act' = act.
Proof.
  intros n; induction n as [|n IH]; intros qs act w w' act' H Hi Hq; [discriminate|].
  rewrite scan_S in H. destruct qs as [|q qs]; [inversion H; subst; cbn; repeat split; lia|].
  rewrite (Hi q (or_introl eq_refl)) in H. cbn [flat_map] in *. rewrite app_length in *.
  destruct (scan_mons defs mons orc n (smons (defs q)) act w) as [[w1 a1]| |] eqn:Em; cbn [rbind fst snd] in H; try discriminate.
  destruct (scan_mons_quiet _ _ _ _ _ _ Em) as (E1 & E2 & E3); [intros; apply Hq; lia|]. subst a1.
  destruct (IH _ _ _ _ _ H) as (F1 & F2 & F3).
  - intros x Hx. rewrite E1. apply Hi. right; exact Hx.
  - intros i Hl. rewrite E2. rewrite <- (Hq (length (smons (defs q)) + i)%nat) by lia. f_equal. lia.
  - rewrite F1, E1, F2, E2. repeat split; auto. lia.
Qed.

Lemma scan_app_fin : forall n qs1 qs2 act w x,
  scan defs mons orc n (qs1 ++ qs2) act w = Fin x ->
  exists n1 w1 a1, scan defs mons orc n qs1 act w = Fin (w1, a1) /\
     scan defs mons orc n1 qs2 a1 w1 = Fin x.
Proof.
  intros n; induction n as [|n IH]; intros qs1 qs2 act w x H; [discriminate|].
  destruct qs1 as [|q qs1].
  - exists (S n), w, act. split; [reflexivity|exact H].
  - cbn [app] in H. rewrite scan_S in H. rewrite scan_S. destruct (qinexc (wq w q)).
    + apply IH, H.
    + destruct (scan_mons defs mons orc n (smons (defs q)) act w) as [[w1 a1]| |]; cbn [rbind fst snd] in *; try discriminate.
      apply IH, H.
Qed.
Lemma scan_mons_app_fin : forall n ms1 ms2 act w x,
  scan_mons defs mons orc n (ms1 ++ ms2) act w = Fin x ->
  exists n1 w1 a1, scan_mons defs mons orc n ms1 act w = Fin (w1, a1) /\
     scan_mons defs mons orc n1 ms2 a1 w1 = Fin x.
Proof.
  intros n; induction n as [|n IH]; intros ms1 ms2 act w x H; [discriminate|].
  destruct ms1 as [|m ms1].
  - exists (S n), w, act. split; [reflexivity|exact H].
  - cbn [app] in H. rewrite scan_mons_S in H. rewrite scan_mons_S. destruct (ask orc w (VMon m)) as [b w1].
    destruct b; [|apply IH, H]. destruct (qfired (wq w1 (mowner (mons m)))); [apply IH, H|].
    destruct (match mexc (mons m) with Some e => exec defs mons orc n e (fire mons w1 m) | None => Fin (fire mons w1 m, 0) end);
      cbn [rbind fst snd] in *; try discriminate. apply IH, H.
Qed.

Lemma single_monitor : forall n s w w' pre o suf m1 m m2,
  wf_config defs mons ->
  check defs mons orc n s w = Fin w' ->
  sstack (defs s) = pre ++ o :: suf -> ~ In o pre ->
  smons (defs o) = m1 ++ m :: m2 -> mexc (mons m) = None -> mbeh (mons m) <> Resume ->
  (forall q, In q (sstack (defs s)) -> qinexc (wq w q) = false) ->
  (forall q, In q pre -> qfired (wq w q) = false) ->
  (qfired (wq w o) = true -> exists m', qactive (wq w o) = Some m' /\ mbeh (mons m') <> Resume) ->
  (forall i, (i < length (flat_map (fun q => smons (defs q)) (sstack (defs s))))%nat ->
     orc (wpos w + i) = Nat.eqb i (length (flat_map (fun q => smons (defs q)) pre) + length m1)) ->
  (forall q, In q pre -> qphase (wq w' q) = Aborting) /\
  qphase (wq w' o) = (if qfired (wq w o) then qphase (wq w o)
                      else match mbeh (mons m) with Restart => Restarting | _ => Aborting end) /\
  (forall q, In q suf -> ~ In q pre -> q <> o -> qphase (wq w' q) = qphase (wq w q)).
Proof.
  intros n s w w' pre o suf m1 m m2 WF H Est Hno Em Hexc Hbeh Hinx Hfp Hfo Horc.
  destruct n as [|n]; [discriminate|]. rewrite check_S in H.
  destruct (scan defs mons orc n (sstack (defs s)) None w) as [[w1 act]| |] eqn:Es; cbn [rbind fst snd] in H; try discriminate.
  rewrite Est in Es, Hinx, Horc. rewrite flat_map_app, app_length in Horc. cbn [flat_map] in Horc. rewrite app_length, Em, app_length in Horc. cbn [length] in Horc.
  set (P0 := length (flat_map (fun q => smons (defs q)) pre)) in *.
  destruct (scan_app_fin _ _ _ _ _ _ Es) as (n1 & wa & aa & S1 & S2).
  destruct (scan_quiet _ _ _ _ _ _ S1) as (A1 & A2 & A3).
  { intros q Hq. apply Hinx. apply in_or_app; left; exact Hq. }
  { intros i Hi. fold P0 in Hi. rewrite Horc by lia. apply Nat.eqb_neq. lia. }
  fold P0 in A2. subst aa.
  destruct n1 as [|n1]; [discriminate|]. rewrite scan_S in S2. rewrite A1 in S2.
  rewrite (Hinx o) in S2 by (apply in_or_app; right; left; reflexivity).
  destruct (scan_mons defs mons orc n1 (smons (defs o)) None wa) as [[wb ab]| |] eqn:Sm; cbn [rbind fst snd] in S2; try discriminate.
  rewrite Em in Sm. destruct (scan_mons_app_fin _ _ _ _ _ _ Sm) as (n2 & wc & ac & S3 & S4).
  destruct (scan_mons_quiet _ _ _ _ _ _ S3) as (C1 & C2 & C3).
  { intros i Hi. rewrite A2. replace (wpos w + P0 + i)%nat with (wpos w + (P0 + i))%nat by lia. rewrite Horc by lia. apply Nat.eqb_neq. lia. }
  subst ac. destruct n2 as [|n2]; [discriminate|]. rewrite scan_mons_S in S4. cbn [ask] in S4.
  assert (Ht : orc (wpos wc) = true).
  { rewrite C2, A2. replace (wpos w + P0 + length m1)%nat with (wpos w + (P0 + length m1))%nat by lia.
    rewrite Horc by lia. apply Nat.eqb_eq. reflexivity. }
  rewrite Ht in S4. assert (Eo : mowner (mons m) = o).
  { apply (wf_owner defs mons WF). rewrite Em. apply in_or_app; right; left; reflexivity. }
  rewrite Eo, Hexc in S4. cbn [wq] in S4. rewrite C1, A1 in S4.
  set (wd := {| wq := wq w; wpos := S (wpos wc); wlog := wlog wc ++ [VMon m true] |}) in *.
  (* the world after m *)
  assert (HX : exists we, scan_mons defs mons orc n2 m2 (Some o) we = Fin (wb, ab) /\
     wpos we = S (wpos wc) /\ (forall q, q <> o -> wq we q = wq w q) /\
     qfired (wq we o) = true /\ qinexc (wq we o) = false /\
     (exists m', qactive (wq we o) = Some m' /\ mbeh (mons m') <> Resume) /\
     qphase (wq we o) = (if qfired (wq w o) then qphase (wq w o)
                      else match mbeh (mons m) with Restart => Restarting | _ => Aborting end)).
  { destruct (qfired (wq w o)) eqn:Ef.
    - exists wd. split; [exact S4|]. repeat split; auto. cbn. apply Hinx. apply in_or_app; right; left; reflexivity.
    - cbn [rbind fst] in S4. eexists. split; [exact S4|]. split; [reflexivity|].
      unfold handled, fire. cbn. rewrite Eo. split; [|rewrite !upd_same].
      + intros q N. rewrite !upd_other by exact N. reflexivity.
      + destruct (mbeh (mons m)) eqn:Eb; [congruence| |]; cbn; repeat split; auto; exists m; split; auto; rewrite Eb; discriminate. }
  destruct HX as (we & S5 & W1 & W2 & W3 & W4 & W5 & W6).
  destruct (scan_mons_quiet _ _ _ _ _ _ S5) as (D1 & D2 & D3).
  { intros i Hi. rewrite W1, C2, A2. replace (S (wpos w + P0 + length m1) + i)%nat with (wpos w + (P0 + length m1 + 1 + i))%nat by lia.
    rewrite Horc by lia. apply Nat.eqb_neq. lia. }
  subst ab.
  destruct (scan_quiet _ _ _ _ _ _ S2) as (F1 & F2 & F3).
  { intros q Hq. rewrite D1. destruct (Nat.eq_dec q o) as [->|N]; [exact W4|]. rewrite (W2 q N). apply Hinx.
    apply in_or_app; right; right; exact Hq. }
  { intros i Hi. rewrite D2, W1, C2, A2.
    replace (S (wpos w + P0 + length m1) + length m2 + i)%nat with (wpos w + (P0 + length m1 + 1 + length m2 + i))%nat by lia.
    rewrite Horc by lia. apply Nat.eqb_neq. lia. }
  subst act. rewrite F1, D1 in H. destruct W5 as (m' & W5 & W7). rewrite W5 in H. inversion H; subst w'; clear H.
  assert (Hpp : forall q, qphase (wq (propagate (sstack (defs s)) (mbeh (mons m')) w1) q) =
     if in_dec Nat.eq_dec q pre then Aborting else qphase (wq w1 q)).
  { rewrite Est. apply propagate_phases; auto.
    - intros q Hq. rewrite F1, D1, W2 by (intros ->; contradiction). apply Hfp, Hq.
    - rewrite F1, D1. exact W3. }
  split; [|split].
  - intros q Hq. rewrite Hpp. destruct (in_dec Nat.eq_dec q pre); [reflexivity|contradiction].
  - rewrite Hpp. destruct (in_dec Nat.eq_dec o pre); [contradiction|]. rewrite F1, D1. exact W6.
  - intros q Hq Hn No. rewrite Hpp. destruct (in_dec Nat.eq_dec q pre); [contradiction|].
    rewrite F1, D1, W2 by exact No. reflexivity.
Qed.

(** No monitor is true: nothing changes but the log. *)
Lemma quiet_check : forall n s w w', check defs mons orc n s w = Fin w' ->
  (forall q, In q (sstack (defs s)) -> qinexc (wq w q) = false) ->
  (forall i, (i < length (flat_map (fun q => smons (defs q)) (sstack (defs s))))%nat -> orc (wpos w + i) = false) ->
  forall q, wq w' q = wq w q.
Proof.
  intros n s w w' H Hi Ho q. destruct n as [|n]; [discriminate|]. rewrite check_S in H.
  destruct (scan defs mons orc n (sstack (defs s)) None w) as [[w1 act]| |] eqn:Es; cbn [rbind fst snd] in H; try discriminate.
  destruct (scan_quiet _ _ _ _ _ _ Es Hi Ho) as (E1 & _ & ->). inversion H; subst. rewrite E1. reflexivity.
Qed.
End Fuel.
