(** Proofs of C338-C341. *)
From Verif Require Import Prelude TrexModel TrexSpec.
Local Open Scope Z_scope.

Lemma steps_app : forall N a b s, steps N (a ++ b) s = bind (steps N a s) (steps N b).
Proof. induction a as [|l a IH]; intros; cbn; [reflexivity|]. destruct (step N l s); cbn; auto. Qed.

Lemma reach_ind : forall N (P : st -> Prop), (forall z, P (init z)) -> (forall l s s', P s -> step N l s = Ok s' -> P s') ->
  forall s, reach N s -> P s.
Proof.
  intros N P H0 HS s (z & ls & E). assert (X : forall ls s s', P s -> steps N ls s = Ok s' -> P s').
  { clear E. induction ls0 as [|l r IH]; intros a b Pa E; cbn in E; [congruence|].
    destruct (step N l a) as [x| |] eqn:S1; cbn in E; try discriminate. exact (IH x b (HS l a x Pa S1) E). }
  exact (X ls _ s (H0 z) E).
Qed.

(** ** Values and time stamps *)
Definition ok_sig (s : st) (x : sig) : Prop := match fst x with None => True | Some v => snd x = torg s + v end.
Definition R (N : nat) (s : st) : Prop :=
  (ifirst s = true -> fst (tin s) = None /\ fst (tprev s) = None /\ fst (oin s) = None /\ fst (oprev s) = None /\
     sval (osig s) = None /\ (forall x, In x (buf s) -> sval x = None) /\ (forall x, In x (outs s) -> sval x = None) /\
     fst (iprev s) = Some 0 /\ sp s <> S3) /\
  (ifirst s = false -> ok_sig s (iprev s)) /\
  ok_sig s (tin s) /\ ok_sig s (tprev s) /\ ok_sig s (oin s) /\ ok_sig s (oprev s) /\
  (forall p d, fst (oprev s) = Some p -> dV s = Some d -> d = dT s) /\
  on_ramp N (torg s) (osig s) /\ (forall x, In x (buf s) -> on_ramp N (torg s) x) /\ (forall x, In x (outs s) -> on_ramp N (torg s) x).

Lemma ramp_point : forall N o p c d, (0 < N)%nat -> (Z.of_nat N * (o + p) + c * d) / Z.of_nat N = o + (Z.of_nat N * p + d * c) / Z.of_nat N.
Proof.
  intros N o p c d H. replace (Z.of_nat N * (o + p) + c * d) with ((Z.of_nat N * p + d * c) + o * Z.of_nat N) by ring.
  rewrite Z.div_add by lia. ring.
Qed.

Ltac clean := cbn [fst snd clk cts ifirst iprev torg tin tprev refresh oin oprev dV dT dset cnt osig buf hk sem fp sp nsig seen outs
  w_fast w_take w_osig w_buf w_post w_slow w_clk w_int w_give w_outs sval sts sgen].

Ltac in_case := repeat match goal with
  | H : In _ (_ ++ [_]) |- _ => apply in_app_or in H; destruct H as [H|[<-|[]]]
  | H : In _ [] |- _ => destruct H end.
Ltac fin := repeat split; intros; in_case; auto; try discriminate; try congruence; eauto 2;
  try (match goal with H : ?a = false -> _, K : ?a = false |- _ => exact (H K) end).

Lemma R_fast : forall N s, (0 < N)%nat -> R N s -> R N (fast N s).
Proof.
  intros N s HN (A & B & C1 & C2 & C3 & C4 & D & E1 & E2 & E3). unfold fast.
  assert (X : ifirst s = true -> fst (tin s) = None) by (intros Y; decompose [and] (A Y); assumption).
  assert (X0 : ifirst s = true -> fst (tprev s) = None) by (intros Y; decompose [and] (A Y); assumption).
  assert (X1 : ifirst s = true -> fst (oin s) = None) by (intros Y; decompose [and] (A Y); assumption).
  assert (X2 : ifirst s = true -> fst (oprev s) = None) by (intros Y; decompose [and] (A Y); assumption).
  assert (X3 : ifirst s = true -> sval (osig s) = None) by (intros Y; decompose [and] (A Y); assumption).
  assert (X4 : ifirst s = true -> forall x, In x (buf s) -> sval x = None) by (intros Y; decompose [and] (A Y); assumption).
  assert (X5 : ifirst s = true -> forall x, In x (outs s) -> sval x = None) by (intros Y; decompose [and] (A Y); assumption).
  assert (X6 : ifirst s = true -> fst (iprev s) = Some 0) by (intros Y; decompose [and] (A Y); assumption).
  assert (X7 : ifirst s = true -> sp s <> S3) by (intros Y; decompose [and] (A Y); assumption). clear A.
  destruct (fp s) eqn:P.
  - unfold R, ok_sig in *; clean; fin.
  - unfold R, ok_sig in *; clean; fin.
    destruct (fst (tin s)) as [v|]; cbn in H0; try discriminate. rewrite H in H0, C2. inversion H0; subst. lia.
  - unfold R, ok_sig in *; clean; fin.
    + unfold interpolate; cbn. rewrite X2; auto.
    + unfold on_ramp, interpolate; cbn. destruct (fst (oprev s)) as [p|] eqn:Q; cbn; auto. destruct (dV s) as [d|] eqn:W; cbn; auto.
      rewrite C4, <- (D p d eq_refl eq_refl). apply ramp_point; auto.
  - unfold R, ok_sig in *; clean; fin.
  - destruct (N <=? S (hk s))%nat; unfold R, ok_sig in *; clean; fin.
Qed.

Lemma nth_in : forall (A : Type) (l : list A) n x, nth_error l n = Some x -> In x l.
Proof. intros. eapply nth_error_In; eauto. Qed.

Lemma R_slow : forall N s s', (0 < N)%nat -> R N s -> slow s = Ok s' -> R N s'.
Proof.
  intros N s s' HN HR H. pose proof HR as (A & B & C1 & C2 & C3 & C4 & D & E1 & E2 & E3). unfold slow in H.
  destruct (ifirst s) eqn:F.
  - destruct (A eq_refl) as (X1 & X2 & X3 & X4 & X5 & X6 & X7 & X8 & X9). clear A B. destruct (sp s) eqn:P.
    + destruct (sem s); inversion H; subst; [exact HR|]. unfold R, ok_sig in *; clean; fin.
    + inversion H; subst. unfold R, ok_sig in *; clean; fin.
    + inversion H; subst. unfold R, ok_sig, on_ramp in *; clean. rewrite X1, X2, X3, X4, X5, X8. fin.
      * lia.
      * rewrite (X6 x) by auto. exact Logic.I.
      * rewrite (X7 x) by auto. exact Logic.I.
    + congruence.
    + destruct (nth_error (buf s) (place (cts s) (buf s))) as [x|] eqn:Q; inversion H; subst. apply nth_in in Q.
      unfold R, ok_sig in *; clean; fin.
  - specialize (B eq_refl). clear A. destruct (sp s) eqn:P.
    + destruct (sem s); inversion H; subst; [exact HR|]. unfold R, ok_sig in *; clean; fin.
    + inversion H; subst. unfold R, ok_sig in *; clean; fin.
    + inversion H; subst. unfold R, ok_sig in *; clean; fin. destruct (fst (iprev s)); cbn in *; auto. lia.
    + inversion H; subst. unfold R, ok_sig in *; clean; fin.
    + destruct (nth_error (buf s) (place (cts s) (buf s))) as [x|] eqn:Q; inversion H; subst. apply nth_in in Q.
      unfold R, ok_sig in *; clean; fin.
Qed.
Lemma R_reach : forall N s, (0 < N)%nat -> reach N s -> R N s.
Proof.
  intros N s HN. apply reach_ind.
  - intros z. unfold R, ok_sig, on_ramp; cbn. repeat split; auto; try discriminate; try (intros; discriminate); intros x [].
  - intros l a b H E. destruct l; cbn in E.
    + inversion E; subst. apply R_fast; auto.
    + exact (R_slow N a b HN H E).
    + inversion E; subst. unfold R, ok_sig in *; clean. exact H.
Qed.
Lemma ramp : forall N s x, (0 < N)%nat -> reach N s -> In x (outs s) -> on_ramp N (torg s) x.
Proof. intros N s x HN H I. destruct (R_reach N s HN H) as (_ & _ & _ & _ & _ & _ & _ & _ & _ & Z). auto. Qed.
Lemma ramp_fast : forall N s, (0 < N)%nat -> reach N s -> on_ramp N (torg s) (osig s).
Proof. intros N s HN H. destruct (R_reach N s HN H) as (_ & _ & _ & _ & _ & _ & _ & Z & _). auto. Qed.

(** ** Garbage *)
Definition G (s : st) : Prop := (dset s = true <-> (0 < seen s)%nat) /\ (seen s <= nsig s)%nat /\ (refresh s = false -> seen s = nsig s) /\
  (fp s = F1 -> (0 < nsig s)%nat) /\ (refresh s = true -> (0 < nsig s)%nat).
Lemma G_reach : forall N s, reach N s -> G s.
Proof.
  intros N. apply reach_ind.
  - intros z. unfold G; cbn. repeat split; auto; try lia; intros; try discriminate; lia.
  - intros l s s' (A & B & C & D & E) H. destruct l; cbn in H.
    + inversion H; subst. unfold fast. destruct (fp s) eqn:P; unfold G; clean; auto 10.
      * repeat split; auto; try apply A; try (destruct (refresh s); auto; discriminate).
      * repeat split; auto; try lia; try discriminate; intros; try lia.
      * repeat split; auto; try apply A; discriminate.
      * repeat split; auto; try apply A; discriminate.
      * destruct (N <=? S (hk s))%nat; clean; repeat split; auto; try apply A; discriminate.
    + unfold slow in H. destruct (sp s).
      * destruct (sem s); inversion H; subst; unfold G; clean; auto 10.
      * inversion H; subst; unfold G; clean; auto 10.
      * destruct (ifirst s); inversion H; subst; unfold G; clean; auto 10.
      * inversion H; subst; unfold G; clean. repeat split; try apply A; try lia; discriminate.
      * destruct (nth_error (buf s) (place (cts s) (buf s))); inversion H; subst; unfold G; clean; auto 10.
    + inversion H; subst. unfold G; clean; auto 10.
Qed.
Lemma garbage : exists s, reach 100 s /\ reads_garbage s.
Proof. exists (fast 100 (init 0)). split; [exists 0, [LFast]; reflexivity|]. split; reflexivity. Qed.
Lemma garbage_always : forall N s, reach N s -> fp s = F2 -> nsig s = 0%nat -> reads_garbage s.
Proof.
  intros N s H P Z. destruct (G_reach N s H) as (A & B & _). split; auto. destruct (dset s); auto. assert (0 < seen s)%nat by (apply A; auto). lia.
Qed.
Lemma garbage_ends : forall N s, reach N s -> fp s = F0 -> (0 < nsig s)%nat ->
  (refresh s = true /\ fp (fast N s) = F1 /\ fp (fast N (fast N s)) = F2 /\ dset (fast N (fast N s)) = true) \/ dset s = true.
Proof.
  intros N s H P Z. destruct (G_reach N s H) as (A & B & C & _). destruct (refresh s) eqn:Q.
  - left. split; auto. unfold fast at 1. rewrite P, Q. split; [reflexivity|].
    assert (X : fast N s = w_fast F1 s) by (unfold fast; rewrite P, Q; reflexivity). rewrite X. split; reflexivity.
  - right. apply A. rewrite C; auto.
Qed.
Lemma garbage_never : forall N s ls s', dset s = true -> steps N ls s = Ok s' -> ~ reads_garbage s'.
Proof.
  intros N s ls s' D E. assert (X : dset s' = true).
  { revert s D E. induction ls as [|l ls IH]; intros s D E; cbn in E; [congruence|].
    destruct (step N l s) as [x| |] eqn:S1; cbn in E; try discriminate. refine (IH x _ E). destruct l; cbn in S1.
    - inversion S1; subst. unfold fast. destruct (fp s); clean; auto. destruct (N <=? S (hk s))%nat; auto.
    - unfold slow in S1. destruct (sp s); [destruct (sem s)| |destruct (ifirst s)| |
        destruct (nth_error (buf s) (place (cts s) (buf s)))]; inversion S1; subst; auto.
    - inversion S1; subst. auto. }
  intros [_ Y]. congruence.
Qed.

(** ** NaN *)
Definition pend (s : st) : nat := match fp s with F2 => seen s | F3 => sgen (osig s) | _ => nsig s end.
Definition J (s : st) : Prop :=
  (fp s = F4 \/ fp s = F0 -> refresh s = false -> seen s = nsig s) /\
  nsig s = (length (outs s) + match sp s with S4 => 1 | _ => 0 end)%nat /\
  (length (outs s) <= S (pend s))%nat /\ (buf s <> [] -> (length (outs s) <= pend s)%nat) /\
  (forall x, In x (buf s) -> (length (outs s) <= S (sgen x))%nat) /\ (seen s <= nsig s)%nat.
Definition V (s : st) : Prop :=
  fst (iprev s) <> None /\ ((1 <= nsig s)%nat -> fst (tin s) <> None) /\ ((2 <= nsig s)%nat -> fst (tprev s) <> None) /\
  ((2 <= seen s)%nat -> fst (oprev s) <> None /\ dV s <> None) /\
  (forall x, x = osig s \/ In x (buf s) -> (2 <= sgen x)%nat -> sval x <> None) /\
  (forall k x, nth_error (outs s) k = Some x -> (3 <= k)%nat -> sval x <> None).
Lemma lift2_some : forall f a b, a <> None -> b <> None -> lift2 f a b <> None.
Proof. intros f [a|] [b|]; cbn; congruence. Qed.
Lemma JV_reach : forall N s, reach N s -> J s /\ V s.
Proof.
  intros N s HR. assert (X : G s /\ J s /\ V s); [|tauto]. revert s HR. apply (reach_ind N (fun s => G s /\ J s /\ V s)).
  - intros z. split; [apply (G_reach N); exists z, []; reflexivity|]. unfold J, V, pend; cbn. repeat split; auto; try lia; try congruence; intros; try lia.
    + destruct H as [->|[]]. cbn in *. lia.
    + destruct k; discriminate.
  - intros l s s' (HG & (A & B & C & D & E & F) & (V1 & V2 & V3 & V4 & V5 & V6)) H.
    assert (HG' : G s').
    { (* as in G_reach *) destruct HG as (GA & GB & GC & GD & GE). destruct l; cbn in H.
      - inversion H; subst. unfold fast. destruct (fp s) eqn:P; unfold G; clean; auto 10.
        + repeat split; auto; try apply GA; try (destruct (refresh s); auto; discriminate).
        + repeat split; auto; try lia; try discriminate; intros; try lia.
        + repeat split; auto; try apply GA; discriminate.
        + repeat split; auto; try apply GA; discriminate.
        + destruct (N <=? S (hk s))%nat; clean; repeat split; auto; try apply GA; discriminate.
      - unfold slow in H. destruct (sp s).
        + destruct (sem s); inversion H; subst; unfold G; clean; auto 10.
        + inversion H; subst; unfold G; clean; auto 10.
        + destruct (ifirst s); inversion H; subst; unfold G; clean; auto 10.
        + inversion H; subst; unfold G; clean. repeat split; try apply GA; try lia; discriminate.
        + destruct (nth_error (buf s) (place (cts s) (buf s))); inversion H; subst; unfold G; clean; auto 10.
      - inversion H; subst. unfold G; clean; auto 10. }
    split; [exact HG'|]. destruct HG as (GA & GB & GC & GD & GE). destruct l; cbn in H.
    + inversion H; subst. unfold fast in *. unfold pend in *. destruct (fp s) eqn:P.
      * split; [|unfold V; clean; auto 10]. unfold J, pend; clean. destruct (refresh s) eqn:Q.
        -- repeat split; auto; try (intros [|]; discriminate).
        -- rewrite (GC eq_refl). repeat split; auto; try (intros [|]; discriminate).
      * split.
        -- unfold J, pend; clean. repeat split; auto; lia.
        -- unfold V; clean. repeat split; auto. apply lift2_some; [apply V2; lia|apply V3; auto].
      * split.
        -- unfold J, pend, interpolate; clean. repeat split; auto. all: try (intros [|]; discriminate).
        -- unfold V; clean. repeat split; auto; try apply V4; auto.
           intros x [->|I] L; [|auto]. unfold interpolate in *; cbn in *. apply lift2_some; apply V4; auto.
      * split.
        -- unfold J, pend; clean. repeat split; auto; try lia.
           intros x I. apply in_app_or in I. destruct I as [I|[<-|[]]]; [auto|lia].
        -- unfold V; clean. repeat split; auto; try apply V4; auto.
           intros x [->|I] L; [auto|]. apply in_app_or in I. destruct I as [I|[<-|[]]]; auto.
      * destruct (N <=? S (hk s))%nat; (split; [unfold J, pend; clean; repeat split; auto|unfold V; clean; repeat split; auto; apply V4; auto]).
    + unfold slow in H. unfold pend in *. destruct (sp s) eqn:P.
      * destruct (sem s); inversion H; subst; (split; [unfold J, pend; clean; rewrite ?P; auto 10|unfold V; clean; auto 10]).
      * inversion H; subst; (split; [unfold J, pend; clean; auto 10|unfold V; clean; auto 10]).
      * destruct (ifirst s); inversion H; subst; (split; [unfold J, pend; clean; auto 10|unfold V; clean; repeat split; auto; try apply V4; auto]).
        apply lift2_some; [auto|discriminate].
      * inversion H; subst. split.
        -- unfold J, pend; clean. repeat split; try lia.
           ++ destruct (fp s); lia.
           ++ intros I. specialize (D I). destruct (fp s); lia.
           ++ auto.
        -- unfold V; clean. repeat split; auto; try apply V4; auto. intros L. apply V2. lia.
      * destruct (nth_error (buf s) (place (cts s) (buf s))) as [x|] eqn:Q; inversion H; subst.
        assert (NB : buf s <> []) by (intros Z; rewrite Z in Q; destruct (place (cts s) []); discriminate).
        specialize (D NB). apply nth_in in Q. split.
        -- unfold J, pend; clean. rewrite app_length; cbn [length]. repeat split; auto; try lia; try congruence.
           intros y [].
        -- unfold V; clean. repeat split; auto; try apply V4; auto.
           ++ intros y [->|[]] L; auto.
           ++ intros k y K L. destruct (Nat.lt_ge_cases k (length (outs s))) as [M|M].
              ** rewrite nth_error_app1 in K by auto. eauto.
              ** rewrite nth_error_app2 in K by auto. destruct (k - length (outs s))%nat as [|q] eqn:W; cbn in K.
                 --- inversion K; subst. apply V5; auto. specialize (E y Q). lia.
                 --- destruct q; discriminate.
    + inversion H; subst. split; [unfold J, pend in *; clean; auto 10|unfold V; clean; auto 10].
Qed.
Lemma numbers : forall N s k x, reach N s -> nth_error (outs s) k = Some x -> (3 <= k)%nat -> sval x <> None.
Proof. intros N s k x H. apply (JV_reach N s H). Qed.

(** ** The empty buffer *)
Definition E (N : nat) (s : st) : Prop :=
  (sem s = 0%nat \/ (sem s = 1%nat /\ sp s = S0)) /\ ((sem s = 1%nat \/ sp s <> S0) -> buf s <> []) /\
  (fp s = F4 -> (N <= S (hk s))%nat -> idle s /\ buf s <> []).
Lemma E_step : forall N l s, E N s -> (l = LFast -> fp s = F3 -> (N <= S (hk s))%nat -> idle s) ->
  exists s', step N l s = Ok s' /\ E N s'.
Proof.
  intros N l s (A & B & C) Gd. destruct l; cbn.
  - eexists; split; [reflexivity|]. unfold fast. destruct (fp s) eqn:P; unfold E, idle in *; clean; auto.
    + repeat split; auto; destruct (refresh s); discriminate.
    + repeat split; auto; discriminate.
    + repeat split; auto; discriminate.
    + split; [auto|]. split.
      * intros _ X. apply app_eq_nil in X. destruct X; discriminate.
      * intros _ L. split; [apply Gd; auto|]. intros X. apply app_eq_nil in X. destruct X; discriminate.
    + destruct (Nat.leb_spec N (S (hk s))) as [L|L]; clean.
      * destruct (C eq_refl L) as ((I1 & I2) & I3). rewrite I2. repeat split; auto; discriminate.
      * repeat split; auto; discriminate.
  - unfold slow. destruct (sp s) eqn:P.
    + destruct (sem s) as [|n] eqn:Q.
      * eexists; split; [reflexivity|]. unfold E, idle in *. rewrite P, Q in *. auto.
      * assert (n = 0%nat) by (destruct A as [A|[A _]]; congruence). subst. eexists; split; [reflexivity|]. unfold E, idle in *; clean.
        assert (BB : buf s <> []) by (apply B; auto). repeat split; auto; intros; destruct (C H H0) as ((_ & X) & _); congruence.
    + eexists; split; [reflexivity|]. unfold E, idle in *; clean.
      assert (Z : sem s = 0%nat) by (destruct A as [A|[_ A]]; [auto|congruence]).
      assert (BB : buf s <> []) by (apply B; right; congruence). repeat split; auto; intros; destruct (C H H0) as ((X & _) & _); congruence.
    + assert (Z : sem s = 0%nat) by (destruct A as [A|[_ A]]; [auto|congruence]).
      assert (BB : buf s <> []) by (apply B; right; congruence).
      destruct (ifirst s); eexists; (split; [reflexivity|]); unfold E, idle in *; clean; repeat split; auto; intros; destruct (C H H0) as ((X & _) & _); congruence.
    + eexists; split; [reflexivity|]. unfold E, idle in *; clean.
      assert (Z : sem s = 0%nat) by (destruct A as [A|[_ A]]; [auto|congruence]).
      assert (BB : buf s <> []) by (apply B; right; congruence). repeat split; auto; intros; destruct (C H H0) as ((X & _) & _); congruence.
    + assert (Z : sem s = 0%nat) by (destruct A as [A|[_ A]]; [auto|congruence]).
      assert (BB : buf s <> []) by (apply B; right; congruence).
      destruct (nth_error (buf s) (place (cts s) (buf s))) as [x|] eqn:Q.
      * eexists; split; [reflexivity|]. unfold E, idle in *; clean. repeat split; auto; try (intros [|]; congruence);
        intros; destruct (C H H0) as ((X & _) & _); congruence.
      * exfalso. apply nth_error_None in Q. unfold place in Q.
        assert (O : forall t b, (older t b <= length b)%nat) by (induction b as [|y b IH]; cbn; [lia|destruct (sts y <? t); lia]).
        specialize (O (cts s) (buf s)). destruct (buf s); [congruence|]. cbn [length] in *. lia.
  - eexists; split; [reflexivity|]. unfold E, idle in *; clean. auto.
Qed.
Lemma E_reach : forall N s, reach_g N s -> E N s.
Proof.
  intros N s H. induction H as [z|l s s' H IH S1 Gd].
  - unfold E, idle; cbn. repeat split; auto; try discriminate; try (intros [|]; congruence).
  - destruct (E_step N l s IH Gd) as (x & X & Y). congruence.
Qed.
Lemma defined : forall N s l, reach_g N s -> (l = LFast -> fp s = F3 -> (N <= S (hk s))%nat -> idle s) -> exists s', step N l s = Ok s'.
Proof. intros N s l H Gd. destruct (E_step N l s (E_reach N s H) Gd) as (x & X & _). eauto. Qed.
