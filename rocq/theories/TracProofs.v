(** Proofs of C332-C337. *)
From Verif Require Import Prelude TracModel TracSpec.

Lemma steps_app : forall N a b s, steps N (a ++ b) s = bind (steps N a s) (steps N b).
Proof. induction a as [|l a IH]; intros; cbn; [reflexivity|]. destruct (step N l s); cbn; auto. Qed.

(** ** The trace itself *)
Definition dat (N : nat) (b : nat -> option nat) (lo hi : nat) : Prop := forall r, lo <= r < hi -> b (r mod N) = Some r.

Definition Inv (N : nat) (s : st) : Prop :=
  let c := cnt s in
  match tp s with
  | TRun => index s = c mod N /\ cyc s = (N <=? c) /\ dat N (vbuf s) (c - N) c /\ dat N (tbuf s) (c - N) c
  | TStamp => index s = c mod N /\ cyc s = (N <=? c) /\ dat N (vbuf s) (S c - N) (S c) /\ dat N (tbuf s) (c - N) c
  | TInc => index s = c mod N /\ cyc s = (N <=? c) /\ dat N (vbuf s) (S c - N) (S c) /\ dat N (tbuf s) (S c - N) (S c)
  | TWrap => index s = S (c mod N) /\ cyc s = (N <=? c) /\ dat N (vbuf s) (S c - N) (S c) /\ dat N (tbuf s) (S c - N) (S c)
  | TCyc => index s = 0 /\ S (c mod N) = N /\ cyc s = (N <=? c) /\ dat N (vbuf s) (S c - N) (S c) /\ dat N (tbuf s) (S c - N) (S c)
  end.

Lemma mod_apart : forall N r c, 0 < N -> r < c -> c < r + N -> r mod N <> c mod N.
Proof.
  intros N r c HN H1 H2 E. pose proof (Nat.div_mod r N ltac:(lia)) as A. pose proof (Nat.div_mod c N ltac:(lia)) as B.
  rewrite E in A. assert (c - r = N * (c / N) - N * (r / N)) by lia.
  destruct (Nat.le_gt_cases (c / N) (r / N)) as [L|L].
  - assert (N * (c / N) <= N * (r / N)) by (apply Nat.mul_le_mono_l; auto). lia.
  - assert (N * S (r / N) <= N * (c / N)) by (apply Nat.mul_le_mono_l; lia). lia.
Qed.

Lemma dat_upd : forall N b c, 0 < N -> dat N b (c - N) c -> dat N (upd b (c mod N) (Some c)) (S c - N) (S c).
Proof.
  intros N b c HN D r [H1 H2]. destruct (Nat.eq_dec r c) as [->|E].
  - apply upd_same.
  - rewrite upd_other; [apply D; lia|]. apply mod_apart; lia.
Qed.

Lemma mod_S : forall N c, 0 < N -> S (c mod N) <> N -> S c mod N = S (c mod N).
Proof.
  intros N c HN H. pose proof (Nat.mod_upper_bound c N ltac:(lia)) as B. pose proof (Nat.div_mod c N ltac:(lia)) as A.
  symmetry. apply (Nat.mod_unique (S c) N (c / N)); lia.
Qed.
Lemma mod_S0 : forall N c, 0 < N -> S (c mod N) = N -> S c mod N = 0 /\ N <= S c.
Proof.
  intros N c HN H. pose proof (Nat.div_mod c N ltac:(lia)) as A. split.
  - symmetry. apply (Nat.mod_unique (S c) N (S (c / N))); [lia|]. rewrite Nat.mul_succ_r. lia.
  - lia.
Qed.

Lemma td_inv : forall N s, 0 < N -> Inv N s -> exists s', td N s = Ok s' /\ Inv N s'.
Proof.
  intros N s HN H. unfold Inv, td in *. pose proof (Nat.mod_upper_bound (cnt s) N ltac:(lia)) as B. destruct (tp s) eqn:P.
  - destruct H as (H1 & H2 & H3 & H4). destruct (en s).
    + rewrite H1. apply Nat.ltb_lt in B. rewrite B. eexists; split; [reflexivity|]. cbn. repeat split; auto. apply dat_upd; auto.
    + eexists; split; [reflexivity|]. rewrite P. auto.
  - destruct H as (H1 & H2 & H3 & H4). rewrite H1. apply Nat.ltb_lt in B. rewrite B. eexists; split; [reflexivity|]. cbn.
    repeat split; auto. apply dat_upd; auto.
  - destruct H as (H1 & H2 & H3 & H4). eexists; split; [reflexivity|]. cbn. repeat split; auto.
  - destruct H as (H1 & H2 & H3 & H4). rewrite H1. destruct (Nat.eqb_spec (S (cnt s mod N)) N) as [E|E].
    + eexists; split; [reflexivity|]. cbn. repeat split; auto.
    + eexists; split; [reflexivity|]. cbn [w_trace tp cnt index cyc vbuf tbuf]. repeat split; auto.
      * symmetry. apply mod_S; auto.
      * rewrite H2. destruct (Nat.leb_spec N (cnt s)); destruct (Nat.leb_spec N (S (cnt s))); auto; [lia|].
        assert (cnt s = N - 1) by lia. exfalso. apply E. rewrite Nat.mod_small by lia. lia.
  - destruct H as (H1 & H2 & H3 & H4 & H5). eexists; split; [reflexivity|]. cbn [w_trace tp cnt index cyc vbuf tbuf].
    destruct (mod_S0 N (cnt s) HN H2) as [M1 M2]. repeat split; auto; [congruence|]. symmetry. apply Nat.leb_le. auto.
Qed.

(** The steps of the other threads leave the trace alone. *)
Definition same (s s' : st) : Prop :=
  vbuf s' = vbuf s /\ tbuf s' = tbuf s /\ index s' = index s /\ cyc s' = cyc s /\ cnt s' = cnt s /\ tp s' = tp s.
Lemma same_inv : forall N s s', same s s' -> Inv N s -> Inv N s'.
Proof. intros N s s' (A & B & C & D & E & F) H. unfold Inv in *. rewrite A, B, C, D, E, F. exact H. Qed.

Lemma writer_same : forall N s s', writer N s = Ok s' ->
  same s s' /\ cp s' = cp s /\ dead s' = dead s /\ gone s' = gone s.
Proof.
  intros N s s' H. unfold writer in H.
  destruct (wp s) as [ | | | | | | | ts | | [len ts] | ts | ts vs | ts len | ts [len vs] | ts vs out | out | ];
  repeat match type of H with context [if ?b then _ else _] => destruct b eqn:? end;
  inversion H; subst; unfold same; cbn; repeat split; auto.
Qed.

Lemma step_same : forall N l s s', l <> LTd -> step N l s = Ok s' -> same s s'.
Proof.
  intros N l s s' L H. destruct l; cbn in H; try congruence; try (apply (writer_same N); assumption);
  inversion H; subst; unfold same, ctor; try (destruct (cp s)); cbn; try (destruct (constructed s && negb (dead s))); try (destruct (dead s));
  cbn; repeat split; auto.
Qed.

Lemma label_eq : forall l, {l = LTd} + {l <> LTd}.
Proof. destruct l; auto; right; discriminate. Qed.

Lemma step_inv : forall N l s s', 0 < N -> Inv N s -> step N l s = Ok s' -> Inv N s'.
Proof.
  intros N l s s' HN H E. destruct (label_eq l) as [->|D].
  - destruct (td_inv N s HN H) as (x & A & B). cbn in E. congruence.
  - exact (same_inv N s s' (step_same N l s s' D E) H).
Qed.

Lemma steps_inv : forall N ls s s', 0 < N -> Inv N s -> steps N ls s = Ok s' -> Inv N s'.
Proof.
  intros N ls. induction ls as [|l ls IH]; intros s s' HN H E; cbn in E; [congruence|].
  destruct (step N l s) as [x| |] eqn:S1; cbn in E; try discriminate. exact (IH x s' HN (step_inv N l s x HN H S1) E).
Qed.
Lemma reach_inv : forall N s, 0 < N -> reach N s -> Inv N s.
Proof.
  intros N s HN (r & g & z & ls & E). refine (steps_inv N ls _ s HN _ E). unfold Inv; cbn.
  rewrite Nat.mod_0_l by lia. destruct N; [lia|]. repeat split; auto; intros q Hq; lia.
Qed.

(** ** A writing after a wrap around *)
Definition Wr (N : nat) (s : st) : Prop :=
  cyc s = true /\ gone s = false /\ constructed s = true /\
  match wp s with
  | WTN | WTL _ | WVS _ _ | WVL _ _ => False
  | WTC ts => length ts <= N
  | WV0 ts => fst ts = N
  | WVC ts vs => fst ts = N /\ size s = N /\ length vs <= N
  | WOut ts vs out => fst ts = N /\ fst vs = N /\ size s = N /\ length out <= N
  | WFin out => length out = N
  | _ => True
  end.

Lemma writer_wr : forall N s, Wr N s -> exists s', writer N s = Ok s' /\ Wr N s'.
Proof.
  intros N s (C & G & K & W). unfold writer.
  assert (KK : forall p x, constructed (w_wp p x) = constructed x) by reflexivity.
  destruct (wp s) as [ | | | | | | | ts | | [len ts] | ts | ts vs | ts len | ts [len vs] | ts vs out | out | ] eqn:P; try contradiction.
  - eexists; split; [reflexivity|]. unfold Wr. destruct (is_writer s); cbn; auto.
  - eexists; split; [reflexivity|]. unfold Wr. cbn; auto.
  - destruct (running s && negb (go s)); eexists; (split; [reflexivity|]); unfold Wr; cbn; rewrite ?P; auto.
  - eexists; split; [reflexivity|]. unfold Wr. destruct (running s); cbn; auto.
  - eexists; split; [reflexivity|]. unfold Wr. cbn; auto.
  - rewrite G, K. eexists; split; [reflexivity|]. unfold Wr. cbn; auto.
  - rewrite C. eexists; split; [reflexivity|]. unfold Wr. cbn. repeat split; auto. lia.
  - destruct (Nat.ltb_spec (length ts) N); eexists; (split; [reflexivity|]); unfold Wr; cbn; repeat split; auto.
    rewrite app_length; cbn; lia.
  - rewrite C. eexists; split; [reflexivity|]. unfold Wr. cbn. repeat split; auto. lia.
  - destruct W as (W1 & W2 & W3). destruct (Nat.ltb_spec (length vs) N); eexists; (split; [reflexivity|]); unfold Wr; cbn; repeat split; auto.
    + rewrite app_length; cbn; lia.
    + lia.
  - destruct W as (W1 & W2 & W3 & W4). rewrite W3, W1, W2. destruct (Nat.ltb_spec (length out) N); cbn; eexists; (split; [reflexivity|]);
    unfold Wr; cbn; repeat split; auto.
    + rewrite app_length; cbn; lia.
    + lia.
  - rewrite G. eexists; split; [reflexivity|]. unfold Wr; cbn; auto.
  - eexists; split; [reflexivity|]. unfold Wr; rewrite P; auto.
Qed.

Lemma step_wr : forall N l s, 0 < N -> Inv N s -> l <> LGone -> Wr N s -> exists s', step N l s = Ok s' /\ Inv N s' /\ Wr N s'.
Proof.
  intros N l s HN HI L W. assert (X : exists s', step N l s = Ok s' /\ Wr N s').
  { destruct l; cbn; try congruence; try (apply writer_wr; assumption).
    - destruct (td_inv N s HN HI) as (x & A & B). exists x. split; auto. destruct W as (C & G & K & W).
      unfold td in A. unfold Wr, constructed in *.
      destruct (tp s); repeat match type of A with context [if ?b then _ else _] => destruct b eqn:? end; inversion A; subst; cbn; auto.
    - eexists; split; [reflexivity|]. exact W.
    - eexists; split; [reflexivity|]. unfold ctor. destruct W as (C & G & K & W). unfold constructed in K.
      destruct (cp s) eqn:P; try discriminate. unfold Wr, constructed. rewrite P. auto.
    - eexists; split; [reflexivity|]. destruct (constructed s && negb (dead s)); auto.
    - eexists; split; [reflexivity|]. destruct (constructed s && negb (dead s)); auto. }
  destruct X as (s' & A & B). exists s'. split; [exact A|split; [exact (step_inv N l s s' HN HI A)|exact B]].
Qed.
Lemma steps_wr : forall N ls s, 0 < N -> Inv N s -> ~ In LGone ls -> Wr N s -> exists s', steps N ls s = Ok s' /\ Inv N s' /\ Wr N s'.
Proof.
  intros N ls. induction ls as [|l ls IH]; intros s HN HI L W; cbn.
  - exists s; auto.
  - destruct (step_wr N l s HN HI) as (x & A & B & C); auto. { intros ->; apply L; left; auto. }
    rewrite A; cbn. apply IH; auto. intros X; apply L; right; auto.
Qed.
Lemma wrapped_safe : forall N s ls, 0 < N -> reach N s -> cyc s = true -> constructed s = true -> gone s = false -> before_copy (wp s) ->
  ~ In LGone ls -> exists s', steps N ls s = Ok s'.
Proof.
  intros N s ls HN R C K G B L. destruct (steps_wr N ls s HN (reach_inv N s HN R) L) as (s' & A & _).
  - unfold Wr. repeat split; auto. destruct (wp s); cbn in B; auto; contradiction.
  - exists s'; auto.
Qed.
Lemma wrapped_full : forall N s ls s' out, 0 < N -> reach N s -> cyc s = true -> constructed s = true -> gone s = false ->
  before_copy (wp s) -> ~ In LGone ls -> steps N ls s = Ok s' -> wp s' = WFin out -> length out = N.
Proof.
  intros N s ls s' out HN R C K G B L E F. destruct (steps_wr N ls s HN (reach_inv N s HN R) L) as (x & A & _ & _ & _ & _ & W).
  - unfold Wr. repeat split; auto. destruct (wp s); cbn in B; auto; contradiction.
  - assert (x = s') by congruence. subst. rewrite F in W. exact W.
Qed.

(** ** A writing while the time domain does not run *)
Definition T (N c k : nat) : list (option nat) := map Some (seq (c - N) k).
Definition full (N c : nat) : arr := (Nat.min c N, T N c (Nat.min c N)).
Definition Q (N : nat) (s : st) : Prop :=
  let c := cnt s in let k := Nat.min c N in
  match wp s with
  | WT0 => True
  | WTC ts => N <= c /\ ts = T N c (length ts) /\ length ts <= N
  | WTN => c < N
  | WTL (len, ts) => c < N /\ len = c /\ ts = T N c (length ts) /\ length ts <= c
  | WV0 ts => ts = full N c
  | WVC ts vs => N <= c /\ ts = full N c /\ vs = T N c (length vs) /\ length vs <= N /\ size s = N
  | WVS ts len => c < N /\ ts = full N c /\ len = c
  | WVL ts (len, vs) => c < N /\ ts = full N c /\ len = c /\ vs = T N c (length vs) /\ length vs <= c /\ size s = c
  | WOut ts vs out => ts = full N c /\ vs = full N c /\ size s = k /\ length out <= k /\
      out = map (fun i => (Some i, Some i)) (seq (c - N) (length out))
  | WFin out => out = newest N c
  | _ => False
  end.
Definition rank (N : nat) (w : wpc) : nat :=
  match w with
  | WT0 => 3 * N + 10
  | WTC ts => 3 * N + 9 - length ts
  | WTN => 3 * N + 9
  | WTL ts => 3 * N + 8 - length (snd ts)
  | WV0 _ => 2 * N + 7
  | WVC _ vs => 2 * N + 6 - length vs
  | WVS _ _ => 2 * N + 6
  | WVL _ vs => 2 * N + 5 - length (snd vs)
  | WOut _ _ out => N + 4 - length out
  | _ => 0
  end.

Lemma T_S : forall N c k, T N c (S k) = T N c k ++ [Some (c - N + k)].
Proof. intros. unfold T. rewrite seq_S, map_app. reflexivity. Qed.
Lemma T_len : forall N c k, length (T N c k) = k.
Proof. intros. unfold T. rewrite map_length, seq_length. reflexivity. Qed.
Lemma T_nth : forall N c k i, i < k -> nth i (T N c k) None = Some (c - N + i).
Proof.
  intros N c k i H. unfold T. rewrite (nth_indep _ None (Some 0)) by (rewrite map_length, seq_length; auto).
  rewrite map_nth, seq_nth; auto.
Qed.
Lemma dat_ring : forall N b c i, 0 < N -> N <= c -> i < N -> dat N b (c - N) c -> b ((i + c mod N) mod N) = Some (c - N + i).
Proof.
  intros N b c i HN L I D. rewrite Nat.add_mod_idemp_r by lia.
  replace (i + c) with ((c - N + i) + 1 * N) by lia. rewrite Nat.mod_add by lia. apply D. lia.
Qed.
Lemma dat_flat : forall N b c i, c < N -> i < c -> dat N b (c - N) c -> b i = Some (c - N + i).
Proof. intros N b c i L I D. rewrite <- (Nat.mod_small i N) at 1 by lia. rewrite D by lia. f_equal. lia. Qed.
Lemma ext : forall N c ts x, ts = T N c (length ts) -> x = Some (c - N + length ts) -> ts ++ [x] = T N c (length (ts ++ [x])).
Proof. intros N c ts x H ->. rewrite app_length, Nat.add_1_r. rewrite T_S. rewrite <- H. reflexivity. Qed.

Lemma quiet_step : forall N s, 0 < N -> Inv N s -> tp s = TRun -> gone s = false -> Q N s ->
  exists s', writer N s = Ok s' /\ same s s' /\ gone s' = false /\
    ((Q N s' /\ rank N (wp s') < rank N (wp s) /\ files s' = files s) \/ (wp s' = WWait /\ files s' = files s ++ [newest N (cnt s)])).
Proof.
  intros N s HN HI P G HQ.
  assert (X : exists s', writer N s = Ok s' /\
    ((Q N s' /\ rank N (wp s') < rank N (wp s) /\ files s' = files s) \/ (wp s' = WWait /\ files s' = files s ++ [newest N (cnt s)]))).
  { unfold Inv in HI. rewrite P in HI. destruct HI as (I1 & I2 & I3 & I4). unfold Q in HQ. unfold writer.
    assert (I5 : cnt s < N -> index s = cnt s) by (intros; rewrite I1; apply Nat.mod_small; auto).
    destruct (wp s) as [ | | | | | | | ts | | [len ts] | ts | ts vs | ts len | ts [len vs] | ts vs out | out | ] eqn:W; try contradiction.
    - rewrite I2. destruct (Nat.leb_spec N (cnt s)); eexists; (split; [reflexivity|]); left; unfold Q; cbn; repeat split; auto; lia.
    - destruct HQ as (A & B & C). destruct (Nat.ltb_spec (length ts) N); eexists; (split; [reflexivity|]); left; unfold Q;
      cbn [w_wp wp cnt files rank]; repeat split; auto.
      + apply ext; auto. rewrite I1. apply dat_ring; auto.
      + rewrite app_length; cbn; lia.
      + rewrite app_length; cbn; lia.
      + unfold full. rewrite Nat.min_r by lia. f_equal. rewrite B. f_equal. lia.
      + lia.
    - eexists; split; [reflexivity|]. left. unfold Q. cbn. repeat split; auto; lia.
    - destruct HQ as (A & B & C & D). rewrite (I5 A), B. destruct (Nat.ltb_spec (length ts) (cnt s)); eexists; (split; [reflexivity|]);
      left; unfold Q; cbn [w_wp wp cnt files rank snd]; repeat split; auto.
      + apply ext; auto. apply (dat_flat N); auto.
      + rewrite app_length; cbn; lia.
      + rewrite app_length; cbn; lia.
      + unfold full. rewrite Nat.min_l by lia. f_equal. rewrite C. f_equal. lia.
      + lia.
    - rewrite I2. destruct (Nat.leb_spec N (cnt s)) as [A|A]; eexists; (split; [reflexivity|]); left; unfold Q; cbn; repeat split; auto; lia.
    - destruct HQ as (A & B & C & D & E). destruct (Nat.ltb_spec (length vs) N); eexists; (split; [reflexivity|]); left; unfold Q;
      cbn [w_wp wp cnt files rank size]; repeat split; auto.
      + apply ext; auto. rewrite I1. apply dat_ring; auto.
      + rewrite app_length; cbn; lia.
      + rewrite app_length; cbn; lia.
      + unfold full. rewrite Nat.min_r by lia. f_equal. rewrite C. f_equal. lia.
      + rewrite E. lia.
      + cbn; lia.
      + cbn; lia.
    - destruct HQ as (A & B & C). eexists; split; [reflexivity|]. left. unfold Q. cbn. rewrite (I5 A). repeat split; auto; lia.
    - destruct HQ as (A & B & C & D & E & F). rewrite (I5 A), C. destruct (Nat.ltb_spec (length vs) (cnt s)); eexists; (split; [reflexivity|]);
      left; unfold Q; cbn [w_wp wp cnt files rank snd size]; repeat split; auto.
      + apply ext; auto. apply (dat_flat N); auto.
      + rewrite app_length; cbn; lia.
      + rewrite app_length; cbn; lia.
      + unfold full. rewrite Nat.min_l by lia. f_equal. rewrite D. f_equal. lia.
      + rewrite F. lia.
      + cbn; lia.
      + cbn; lia.
    - destruct HQ as (-> & -> & C & D & E). rewrite C. unfold full at 1 2, rd; cbn [fst snd].
      destruct (Nat.ltb_spec (length out) (Nat.min (cnt s) N)) as [L|L]; cbn [andb].
      + eexists; split; [reflexivity|]. left. unfold Q; cbn [w_wp wp cnt files rank size]. repeat split; auto.
        * rewrite app_length; cbn; lia.
        * unfold full; cbn [snd]. rewrite app_length, Nat.add_1_r, seq_S, map_app, <- E. cbn. rewrite T_nth by auto. reflexivity.
        * rewrite app_length; cbn; lia.
      + eexists; split; [reflexivity|]. left. unfold Q; cbn [w_wp wp cnt files rank size]. repeat split; auto.
        * rewrite E. unfold newest. assert (Z : length out = Nat.min (cnt s) N) by lia. rewrite Z. do 2 f_equal. lia.
        * lia.
    - rewrite G. eexists; split; [reflexivity|]. right. cbn. rewrite HQ. auto. }
  destruct X as (s' & A & B). exists s'. destruct (writer_same N s s' A) as (U & _ & _ & V).
  split; [exact A|]. split; [exact U|]. split; [congruence|exact B].
Qed.

Lemma quiet_run : forall N n s, 0 < N -> Inv N s -> tp s = TRun -> gone s = false -> Q N s -> rank N (wp s) <= n ->
  exists m s', steps N (repeat LW m) s = Ok s' /\ wp s' = WWait /\ files s' = files s ++ [newest N (cnt s)] /\ m <= S n.
Proof.
  intros N n. induction n as [|n IH]; intros s HN HI P G HQ R;
  destruct (quiet_step N s HN HI P G HQ) as (x & A & B & C & D).
  - destruct D as [(D & E & F)|(D & E)]; [lia|]. exists 1, x. cbn. rewrite A. auto.
  - destruct D as [(D & E & F)|(D & E)].
    + destruct (IH x) as (m & s' & U & V & W & Z); auto.
      * exact (same_inv N s x B HI).
      * destruct B as (_ & _ & _ & _ & _ & B). congruence.
      * lia.
      * exists (S m), s'. cbn. rewrite A. cbn. repeat split; auto; [|lia]. rewrite W, F. destruct B as (_ & _ & _ & _ & B & _). congruence.
    + exists 1, x. cbn. rewrite A. repeat split; auto. lia.
Qed.
Lemma quiet : forall N s, 0 < N -> reach N s -> tp s = TRun -> gone s = false -> wp s = WT0 ->
  exists m s', steps N (repeat LW m) s = Ok s' /\ wp s' = WWait /\ files s' = files s ++ [newest N (cnt s)] /\ m <= 3 * N + 11.
Proof.
  intros N s HN R P G W. destruct (quiet_run N (3 * N + 10) s HN (reach_inv N s HN R) P G) as (m & s' & A & B & C & D).
  - unfold Q. rewrite W. exact Logic.I.
  - rewrite W. cbn. lia.
  - exists m, s'. repeat split; auto. lia.
Qed.
Lemma newest_matched : forall N c, matched (newest N c).
Proof.
  intros N c a b H. unfold newest in H. apply in_map_iff in H. destruct H as (k & E & _). inversion E; subst. split; congruence.
Qed.
