(** Proofs of C338-C342: whole runs of the two domains. *)
From Verif Require Import Prelude TrexModel TrexSpec TrexProofs.
Local Open Scope Z_scope.

Definition frame (s s' : st) : Prop :=
  clk s' = clk s /\ cts s' = cts s /\ ifirst s' = ifirst s /\ iprev s' = iprev s /\ torg s' = torg s /\ tin s' = tin s /\
  tprev s' = tprev s /\ refresh s' = refresh s /\ oin s' = oin s /\ oprev s' = oprev s /\ dV s' = dV s /\ dT s' = dT s /\
  dset s' = dset s /\ sp s' = sp s /\ nsig s' = nsig s /\ seen s' = seen s /\ outs s' = outs s.
Lemma frame_trans : forall a b c, frame a b -> frame b c -> frame a c.
Proof. unfold frame. intuition congruence. Qed.
Lemma frame_refl : forall s, frame s s.
Proof. unfold frame. intuition congruence. Qed.

Definition pt (N : nat) (s : st) (c : Z) : sample :=
  {| sval := lift2 (fun p d => Z.of_nat N * p + d * c) (fst (oprev s)) (dV s);
     sts := (Z.of_nat N * snd (oprev s) + c * dT s) / Z.of_nat N; sgen := seen s |}.
Lemma pt_frame : forall N s s' c, frame s s' -> pt N s' c = pt N s c.
Proof. unfold frame, pt. intros N s s' c H. decompose [and] H. congruence. Qed.

Lemma one_run : forall N s, fp s = F0 -> refresh s = false ->
  exists s', steps N (repeat LFast 4) s = Ok s' /\ frame s s' /\ fp s' = F0 /\ cnt s' = cnt s + 1 /\ buf s' = buf s ++ [pt N s (cnt s)] /\
    if (N <=? S (hk s))%nat then hk s' = 0%nat /\ sem s' = S (sem s) else hk s' = S (hk s) /\ sem s' = sem s.
Proof.
  intros N s P Q. cbn [repeat steps step bind]. unfold fast at 4. rewrite P, Q. unfold fast at 3. clean. unfold fast at 2. clean. unfold fast. clean.
  destruct (N <=? S (hk s))%nat; eexists; (split; [reflexivity|]); unfold frame; clean; repeat split; auto.
Qed.
Lemma repeat_S4 : forall k, repeat LFast (4 * S k) = repeat LFast (4 * k) ++ repeat LFast 4.
Proof. intros k. rewrite <- repeat_app. f_equal. lia. Qed.
Lemma runs : forall N k s, fp s = F0 -> refresh s = false -> (hk s + k < N)%nat ->
  exists s', steps N (repeat LFast (4 * k)) s = Ok s' /\ frame s s' /\ fp s' = F0 /\ cnt s' = cnt s + Z.of_nat k /\
    buf s' = buf s ++ map (fun i => pt N s (cnt s + Z.of_nat i)) (seq 0 k) /\ hk s' = (hk s + k)%nat /\ sem s' = sem s.
Proof.
  intros N k. induction k as [|k IH]; intros s P Q L.
  - exists s. cbn [Nat.mul repeat steps seq map]. rewrite app_nil_r. repeat split; auto; try lia; apply frame_refl.
  - destruct (IH s P Q ltac:(lia)) as (x & A & B & C & D & E1 & F & G1).
    assert (Q' : refresh x = false) by (destruct B as (_ & _ & _ & _ & _ & _ & _ & B & _); congruence).
    destruct (one_run N x C Q') as (y & A' & B' & C' & D' & E' & F'). exists y.
    rewrite repeat_S4, steps_app, A. cbn [bind]. destruct (Nat.leb_spec N (S (hk x))) as [Z|Z]; [lia|]. destruct F' as [F1' F2'].
    split; [exact A'|]. split; [exact (frame_trans _ _ _ B B')|]. split; [exact C'|]. split; [lia|]. split; [|split; lia].
    rewrite E', E1, seq_S, map_app, <- app_assoc. cbn. rewrite (pt_frame N s x) by auto. rewrite D. reflexivity.
Qed.
(** [N] runs of the fast domain end with a start of the slow one. *)
Lemma all_runs : forall N s, (0 < N)%nat -> fp s = F0 -> refresh s = false -> hk s = 0%nat ->
  exists s', steps N (repeat LFast (4 * N)) s = Ok s' /\ frame s s' /\ fp s' = F0 /\ cnt s' = cnt s + Z.of_nat N /\
    buf s' = buf s ++ map (fun i => pt N s (cnt s + Z.of_nat i)) (seq 0 N) /\ hk s' = 0%nat /\ sem s' = S (sem s).
Proof.
  intros N s HN P Q Hk. destruct N as [|k]; [lia|]. destruct (runs (S k) k s P Q ltac:(lia)) as (x & A & B & C & D & E1 & F & G1).
  assert (Q' : refresh x = false) by (destruct B as (_ & _ & _ & _ & _ & _ & _ & B & _); congruence).
  destruct (one_run (S k) x C Q') as (y & A' & B' & C' & D' & E' & F'). exists y.
  rewrite repeat_S4, steps_app, A. cbn [bind]. destruct (Nat.leb_spec (S k) (S (hk x))) as [Z|Z]; [|lia]. destruct F' as [F1' F2'].
  split; [exact A'|]. split; [exact (frame_trans _ _ _ B B')|]. split; [exact C'|]. split; [lia|]. split; [|split; lia].
  rewrite E', E1, seq_S, map_app, <- app_assoc. cbn [map app]. rewrite (pt_frame (S k) s x) by auto. rewrite D. reflexivity.
Qed.

(** A run of the slow domain. *)
Lemma place_lt : forall t b, b <> [] -> (place t b < length b)%nat.
Proof.
  intros t b H. unfold place. assert (O : (older t b <= length b)%nat) by (clear; induction b as [|y b IH]; cbn; [lia|destruct (sts y <? t); lia]).
  destruct b; [congruence|]. cbn [length] in *. lia.
Qed.
Lemma slow_run : forall N s n, sp s = S0 -> sem s = S n -> buf s <> [] ->
  exists s' x, steps N (repeat LSlow 5) s = Ok s' /\ nth_error (buf s) (place (clk s) (buf s)) = Some x /\
    outs s' = outs s ++ [x] /\ buf s' = [] /\ sp s' = S0 /\ sem s' = n /\ fp s' = fp s /\ hk s' = hk s /\ clk s' = clk s /\
    refresh s' = true /\ tprev s' = tin s /\ tin s' = iprev s' /\ snd (iprev s') = clk s /\ ifirst s' = false /\
    nsig s' = S (nsig s) /\ cts s' = clk s /\
    fst (iprev s') = (if ifirst s then fst (iprev s) else lift2 Z.add (fst (iprev s)) (Some (clk s - snd (iprev s)))) /\
    torg s' = (if ifirst s then clk s else torg s).
Proof.
  intros N s n P Q B. cbn [repeat steps step]. unfold slow at 1. rewrite P, Q. cbn [bind]. unfold slow at 1. clean. cbn [bind].
  unfold slow at 1. clean. destruct (nth_error (buf s) (place (clk s) (buf s))) as [x|] eqn:X.
  - destruct (ifirst s) eqn:F; cbn [bind]; unfold slow at 1; clean; cbn [bind]; unfold slow; clean; rewrite X; cbn [bind];
    eexists; exists x; (split; [reflexivity|]); clean; repeat split; auto.
  - exfalso. apply nth_error_None in X. pose proof (place_lt (clk s) (buf s) B). lia.
Qed.
Lemma slow_empty : forall N s n, sp s = S0 -> sem s = S n -> buf s = [] ->
  exists s', steps N (repeat LSlow 4) s = Ok s' /\ step N LSlow s' = UB.
Proof.
  intros N s n P Q B. cbn [repeat steps step]. unfold slow at 1. rewrite P, Q. cbn [bind]. unfold slow at 1. clean. cbn [bind].
  unfold slow at 1. clean. destruct (ifirst s) eqn:F; cbn [bind]; unfold slow at 1; clean; cbn [bind];
  eexists; (split; [reflexivity|]); cbn [step]; unfold slow; clean; rewrite B; cbn; reflexivity.
Qed.

(** ** The slow thread is late *)
Lemma map_seq_ne : forall (A : Type) (f : nat -> A) b n, (0 < n)%nat -> b ++ map f (seq 0 n) <> [].
Proof. intros A f b n H X. apply app_eq_nil in X. destruct X as [_ X]. destruct n; [lia|discriminate]. Qed.
Lemma frame_get : forall s s', frame s s' -> refresh s' = refresh s /\ sp s' = sp s /\ nsig s' = nsig s /\ outs s' = outs s.
Proof. unfold frame. intuition. Qed.
Lemma late_gen : forall N, (0 < N)%nat -> exists s, reach N s /\ sp s = S4 /\ step N LSlow s = UB.
Proof.
  intros N HN. destruct (all_runs N (init 0) HN eq_refl eq_refl eq_refl) as (a & A1 & A2 & A3 & _ & A5 & A6 & A7).
  destruct (frame_get _ _ A2) as (Ar & As & _).
  destruct (all_runs N a HN A3 Ar A6) as (b & B1 & B2 & B3 & _ & B5 & B6 & B7). destruct (frame_get _ _ B2) as (Br & Bs & _).
  destruct (slow_run N b (sem a)) as (c & x & C1 & _ & _ & C4 & C5 & C6 & _).
  { rewrite Bs, As. reflexivity. } { exact B7. } { rewrite B5. apply map_seq_ne; auto. }
  rewrite A7 in C6. destruct (slow_empty N c _ C5 C6 C4) as (d & D1 & D2).
  assert (RR : steps N (repeat LFast (4 * N) ++ repeat LFast (4 * N) ++ repeat LSlow 5 ++ repeat LSlow 4) (init 0) = Ok d).
  { rewrite steps_app, A1. cbn [bind]. rewrite steps_app, B1. cbn [bind]. rewrite steps_app, C1. exact D1. }
  exists d. split; [exists 0; eexists; exact RR|]. split; [|exact D2]. cbn [step] in D2. unfold slow in D2.
  destruct (sp d); auto; [destruct (sem d)| |destruct (ifirst d)|]; discriminate.
Qed.
Lemma late : exists s, reach 100 s /\ sp s = S4 /\ step 100 LSlow s = UB.
Proof. apply late_gen. lia. Qed.

(** ** Periods *)
Record ready (N : nat) (s : st) (v : option Z) (t b : Z) : Prop := {
  r_fp : fp s = F0; r_sp : sp s = S0; r_sem : sem s = 0%nat; r_hk : hk s = 0%nat; r_buf : buf s = []; r_ref : refresh s = true;
  r_in : tin s = (Some b, clk s); r_prev : tprev s = (v, t); r_i : iprev s = (Some b, clk s); r_first : ifirst s = false;
  r_le : t <= clk s }.

Lemma older_all : forall t b, (forall x, In x b -> sts x < t) -> older t b = length b.
Proof.
  intros t b. induction b as [|y b IH]; intros H; cbn; [reflexivity|]. destruct (Z.ltb_spec (sts y) t) as [L|L].
  - f_equal. apply IH. intros x I. apply H. right; auto.
  - specialize (H y (or_introl eq_refl)). lia.
Qed.
Lemma nth_last : forall (f : nat -> sample) n t, (0 < n)%nat -> (forall x, In x (map f (seq 0 n)) -> sts x < t) ->
  nth_error (map f (seq 0 n)) (place t (map f (seq 0 n))) = Some (f (n - 1)%nat).
Proof.
  intros f n t H O. unfold place. rewrite older_all by auto. rewrite map_length, seq_length.
  apply map_nth_error. replace (pred n) with (n - 1)%nat by lia.
  rewrite (nth_error_nth' _ 0%nat) by (rewrite seq_length; lia). rewrite seq_nth by lia. reflexivity.
Qed.
Lemma stamp_le : forall N c a b, (0 < N)%nat -> 0 <= c <= Z.of_nat N -> a <= b -> (Z.of_nat N * a + c * (b - a)) / Z.of_nat N <= b.
Proof. intros N c a b HN Hc L. apply Z.div_le_upper_bound; nia. Qed.

Lemma next : forall N s v t b d, (0 < N)%nat -> (0 < d)%nat -> ready N s v t b -> exists s',
  steps N (next_period N d) s = Ok s' /\ ready N s' (Some b) (clk s) (b + Z.of_nat d) /\ torg s' = torg s /\ clk s' = clk s + Z.of_nat d /\
  exists g, outs s' = outs s ++ [{| sval := lift2 (fun p q => Z.of_nat N * p + q * (Z.of_nat N - 1)) v (lift2 Z.sub (Some b) v);
    sts := (Z.of_nat N * t + (Z.of_nat N - 1) * (clk s - t)) / Z.of_nat N; sgen := g |}].
Proof.
  intros N s v t b d HN Hd [R1 R2 R3 R4 R5 R6 R7 R8 R9 R10 R11].
  set (y := w_fast F0 (w_take (lift2 Z.sub (fst (tin s)) (fst (tprev s))) s)).
  assert (EQ : forall r, steps N (LFast :: repeat LFast (4 * N) ++ r) s = steps N (repeat LFast (4 * N) ++ r) y).
  { intros r. destruct N as [|k]; [lia|]. replace (4 * S k)%nat with (S (4 * k + 3)) by lia. cbn [repeat app steps step bind].
    assert (Q1 : fast (S k) s = w_fast F1 s) by (unfold fast; rewrite R1, R6; reflexivity). rewrite Q1. reflexivity. }
  unfold next_period. rewrite EQ. rewrite steps_app.
  destruct (all_runs N y HN eq_refl eq_refl) as (a & A1 & A2 & A3 & A4 & A5 & A6 & A7); [exact R4|]. rewrite A1. cbn [bind steps step].
  set (w := w_clk (clk a + Z.of_nat d) (cts a) (sp a) a).
  pose proof A2 as (K1 & K2 & K3 & K4 & K5 & K6 & K7 & K8 & K9 & K10 & K11 & K12 & K13 & K14 & K15 & K16 & K17).
  assert (BB : buf w = map (fun i => pt N y (0 + Z.of_nat i)) (seq 0 N)).
  { unfold w. clean. rewrite A5. unfold y. clean. rewrite R5. reflexivity. }
  destruct (slow_run N w 0) as (z & x & C1 & C2 & C3 & C4 & C5 & C6 & C7 & C8 & C9 & C10 & C11 & C12 & C13 & C14 & C15 & C16 & C17 & C18).
  { unfold w; clean. rewrite K14. exact R2. } { unfold w; clean. rewrite A7. unfold y; clean. rewrite R3. reflexivity. }
  { rewrite BB. apply (map_seq_ne _ _ []). auto. }
  exists z. split; [exact C1|].
  assert (CW : clk w = clk s + Z.of_nat d) by (unfold w; clean; rewrite K1; reflexivity).
  assert (IW : iprev w = (Some b, clk s)) by (unfold w; clean; rewrite K4; exact R9).
  assert (FW : ifirst w = false) by (unfold w; clean; rewrite K3; exact R10).
  assert (TW : tin w = (Some b, clk s)) by (unfold w; clean; rewrite K6; exact R7).
  rewrite FW, IW in C17. cbn [fst snd lift2] in C17. rewrite CW in C17, C13, C9. replace (clk s + Z.of_nat d - clk s) with (Z.of_nat d) in C17 by lia.
  assert (IZ : iprev z = (Some (b + Z.of_nat d), clk s + Z.of_nat d)) by (destruct (iprev z); cbn [fst snd] in C13, C17; congruence).
  split; [|split; [|split]].
  - constructor; auto; try congruence.
    + rewrite C7. exact A3.
    + rewrite C8. exact A6.
    + lia.
  - rewrite C18, FW. unfold w; clean. rewrite K5. reflexivity.
  - exact C9.
  - exists (seen y). rewrite C3. f_equal.
    { unfold w; clean. rewrite K17. reflexivity. }
    f_equal. rewrite BB in C2. rewrite nth_last in C2; auto.
    + replace (0 + Z.of_nat (N - 1)) with (Z.of_nat N - 1) in C2 by lia. inversion C2. unfold pt, y; clean. rewrite R7, R8. reflexivity.
    + intros q I. apply in_map_iff in I. destruct I as (i & <- & I). apply in_seq in I. unfold pt, y; clean. rewrite R7, R8. clean.
      pose proof (stamp_le N (0 + Z.of_nat i) t (clk s) HN ltac:(lia) R11). lia.
Qed.

Lemma first : forall N z d, (0 < N)%nat -> exists s x, steps N (first_period N d) (init z) = Ok s /\ ready N s None 0 0 /\
  torg s = Z.of_nat d /\ clk s = Z.of_nat d /\ outs s = [x].
Proof.
  intros N z d HN. unfold first_period. rewrite steps_app.
  destruct (all_runs N (init z) HN eq_refl eq_refl eq_refl) as (a & A1 & A2 & A3 & A4 & A5 & A6 & A7). rewrite A1. cbn [bind steps step].
  set (w := w_clk (clk a + Z.of_nat d) (cts a) (sp a) a).
  pose proof A2 as (K1 & K2 & K3 & K4 & K5 & K6 & K7 & K8 & K9 & K10 & K11 & K12 & K13 & K14 & K15 & K16 & K17).
  destruct (slow_run N w 0) as (q & x & C1 & C2 & C3 & C4 & C5 & C6 & C7 & C8 & C9 & C10 & C11 & C12 & C13 & C14 & C15 & C16 & C17 & C18).
  { unfold w; clean. rewrite K14. reflexivity. } { unfold w; clean. rewrite A7. reflexivity. }
  { unfold w; clean. rewrite A5. apply map_seq_ne; auto. }
  assert (CW : clk w = Z.of_nat d) by (unfold w; clean; rewrite K1; reflexivity).
  assert (IW : iprev w = (Some 0, 0)) by (unfold w; clean; rewrite K4; reflexivity).
  assert (FW : ifirst w = true) by (unfold w; clean; rewrite K3; reflexivity).
  assert (TW : tin w = (None, 0)) by (unfold w; clean; rewrite K6; reflexivity).
  rewrite FW, IW in C17. cbn [fst] in C17. rewrite FW in C18. rewrite CW in C13, C9, C18.
  assert (IZ : iprev q = (Some 0, Z.of_nat d)) by (destruct (iprev q); cbn [fst snd] in C13, C17; congruence).
  exists q, x. split; [exact C1|]. split; [|split; [|split]]; auto.
  - constructor; auto; try congruence.
    + rewrite C7. exact A3.
    + rewrite C8. exact A6.
    + lia.
  - rewrite C3. unfold w; clean. rewrite K17. reflexivity.
Qed.

Definition prev_val (ds : list nat) (m : nat) : option Z := match m with O => None | S k => Some (since ds k) end.
Definition expected (N : nat) (o : Z) (ds : list nat) (k : nat) (x : sample) : Prop :=
  sval x = Some (Z.of_nat N * since ds (k - 2) + (since ds (k - 1) - since ds (k - 2)) * (Z.of_nat N - 1)) /\
  sts x = (Z.of_nat N * (o + since ds (k - 2)) + (Z.of_nat N - 1) * (since ds (k - 1) - since ds (k - 2))) / Z.of_nat N.

Lemma since_app : forall ds e k, (k <= length ds)%nat -> since (ds ++ e) k = since ds k.
Proof. intros. unfold since. rewrite firstn_app. replace (k - length ds)%nat with 0%nat by lia. cbn. rewrite app_nil_r. reflexivity. Qed.
Lemma since_all : forall ds d, since (ds ++ [d]) (S (length ds)) = since ds (length ds) + Z.of_nat d.
Proof.
  intros. unfold since. rewrite !firstn_all2 by (rewrite ?app_length; cbn; lia).
  assert (X : forall a b, list_sum (a ++ b) = (list_sum a + list_sum b)%nat) by apply list_sum_app. rewrite X. cbn. lia.
Qed.
Lemma expected_app : forall N o ds e k x, (k <= S (length ds))%nat -> expected N o ds k x -> expected N o (ds ++ e) k x.
Proof. intros N o ds e k x L H. unfold expected in *. rewrite !since_app by lia. exact H. Qed.

Lemma periods : forall N z d0 ds, (0 < N)%nat -> (forall d, In d ds -> (0 < d)%nat) ->
  exists s t, steps N (first_period N d0 ++ concat (map (next_period N) ds)) (init z) = Ok s /\
    ready N s (prev_val ds (length ds)) t (since ds (length ds)) /\ torg s = Z.of_nat d0 /\
    clk s = Z.of_nat d0 + since ds (length ds) /\ (ds <> [] -> t = Z.of_nat d0 + since ds (length ds - 1)) /\
    length (outs s) = S (length ds) /\
    forall k x, (2 <= k)%nat -> nth_error (outs s) k = Some x -> expected N (Z.of_nat d0) ds k x.
Proof.
  intros N z d0 ds HN. induction ds as [|d ds IH] using rev_ind; intros H.
  - destruct (first N z d0 HN) as (s & x & A & B & C & D & E1). exists s, 0. cbn [map concat length prev_val]. rewrite app_nil_r.
    split; [exact A|]. split; [exact B|]. split; [exact C|]. split; [unfold since; cbn; lia|]. split; [congruence|].
    split; [rewrite E1; reflexivity|]. intros k q K1 K2. rewrite E1 in K2. destruct k as [|[|k]]; [lia|lia|destruct k; discriminate].
  - destruct IH as (s & t & A & B & C & D & T & L & F). { intros q I. apply H. apply in_or_app; auto. }
    assert (Hd : (0 < d)%nat) by (apply H; apply in_or_app; right; left; reflexivity).
    destruct (next N s _ _ _ d HN Hd B) as (s' & A' & B' & C' & D' & g & O').
    exists s', (clk s). rewrite map_app, concat_app, app_assoc, steps_app, A. cbn [bind map concat]. rewrite app_nil_r.
    rewrite app_length; cbn [length]. rewrite Nat.add_1_r, since_all. cbn [prev_val]. rewrite since_app by lia.
    split; [exact A'|]. split; [exact B'|]. split; [congruence|]. split; [lia|]. split.
    + intros _. replace (S (length ds) - 1)%nat with (length ds) by lia. rewrite since_app by lia. exact D.
    + split; [rewrite O', app_length, L; cbn; lia|]. intros k x K1 K2. rewrite O' in K2.
      destruct (Nat.lt_ge_cases k (length (outs s))) as [M|M].
      * rewrite nth_error_app1 in K2 by auto. apply expected_app; [lia|]. apply F; auto.
      * rewrite nth_error_app2 in K2 by auto. destruct (k - length (outs s))%nat as [|r] eqn:W; cbn [nth_error] in K2.
        2: { destruct r; discriminate. }
        inversion K2; subst. assert (k = S (length ds)) by lia. subst. apply expected_app; [lia|]. unfold expected. cbn [sval sts].
        destruct (length ds) as [|m] eqn:Q; [lia|]. assert (NE : ds <> []) by (intros ->; discriminate). specialize (T NE).
        cbn [prev_val lift2]. replace (S (S m) - 2)%nat with m by lia. replace (S (S m) - 1)%nat with (S m) by lia.
        replace (S m - 1)%nat with m in T by lia. split; [reflexivity|]. rewrite T, D. f_equal. ring.
Qed.

Lemma delayed : forall N z d0 ds, (0 < N)%nat -> (forall d, In d ds -> (0 < d)%nat) -> exists s,
  steps N (first_period N d0 ++ concat (map (next_period N) ds)) (init z) = Ok s /\ length (outs s) = S (length ds) /\
  forall k, (2 <= k <= length ds)%nat -> exists x, nth_error (outs s) k = Some x /\
    sval x = Some (Z.of_nat N * since ds (k - 2) + (since ds (k - 1) - since ds (k - 2)) * (Z.of_nat N - 1)) /\
    sts x = (Z.of_nat N * (Z.of_nat d0 + since ds (k - 2)) + (Z.of_nat N - 1) * (since ds (k - 1) - since ds (k - 2))) / Z.of_nat N.
Proof.
  intros N z d0 ds HN H. destruct (periods N z d0 ds HN H) as (s & t & A & _ & _ & _ & _ & L & F). exists s. split; [exact A|]. split; [exact L|].
  intros k K. destruct (nth_error (outs s) k) as [x|] eqn:Q.
  - exists x. split; [reflexivity|]. apply F; [lia|exact Q].
  - apply nth_error_None in Q. lia.
Qed.

(** ** Examples *)
Lemma nan_gen : forall N, (0 < N)%nat -> exists s x, reach N s /\ outs s = [x] /\ sval x = None.
Proof.
  intros N HN. destruct (all_runs N (init 0) HN eq_refl eq_refl eq_refl) as (a & A1 & A2 & _ & _ & A5 & _ & A7).
  pose proof A2 as (K1 & K2 & K3 & K4 & K5 & K6 & K7 & K8 & K9 & K10 & K11 & K12 & K13 & K14 & K15 & K16 & K17).
  destruct (slow_run N a 0) as (q & y & C1 & C2 & C3 & _).
  { rewrite K14. reflexivity. } { rewrite A7. reflexivity. } { rewrite A5. apply map_seq_ne; lia. }
  exists q, y. split; [|split].
  - exists 0, (repeat LFast (4 * N) ++ repeat LSlow 5). rewrite steps_app, A1. exact C1.
  - rewrite C3, K17. reflexivity.
  - apply nth_in in C2. rewrite A5 in C2. apply in_map_iff in C2. destruct C2 as (i & <- & _). reflexivity.
Qed.
Lemma nan_output : exists s x, reach 100 s /\ outs s = [x] /\ sval x = None.
Proof. apply nan_gen. lia. Qed.
Lemma ramp_example : exists s x, reach 2 s /\ nth_error (outs s) 2 = Some x /\ sval x = Some 5 /\ torg s = 3 /\ sts x = 5.
Proof.
  destruct (steps 2 (first_period 2 3 ++ next_period 2 5 ++ next_period 2 4) (init 0)) as [s| |] eqn:Q; try (vm_compute in Q; discriminate).
  exists s, {| sval := Some 5; sts := 5; sgen := 2 |}. split; [exists 0; eexists; exact Q|]. vm_compute in Q. inversion Q; subst. repeat split; reflexivity.
Qed.
Lemma fourth_example : exists s x, reach 2 s /\ nth_error (outs s) 3 = Some x.
Proof.
  destruct (delayed 2 0 1 [1; 1; 1]%nat ltac:(lia)) as (s & A & L & F).
  { intros d [<-|[<-|[<-|[]]]]; lia. }
  destruct (F 3%nat ltac:(cbn; lia)) as (x & X & _). exists s, x. split; [exists 0; eexists; exact A|exact X].
Qed.
Lemma second_signal : exists s, reach 2 s /\ fp s = F0 /\ (0 < nsig s)%nat /\ refresh s = true.
Proof.
  destruct (steps 2 (first_period 2 3) (init 0)) as [s| |] eqn:Q; try (vm_compute in Q; discriminate).
  exists s. split; [exists 0; eexists; exact Q|]. vm_compute in Q. inversion Q; subst. cbn. repeat split; auto.
Qed.
Fixpoint grun (N : nat) (ls : list label) (s : st) : outcome st :=
  match ls with
  | [] => Ok s
  | l :: r =>
    let good := match l, fp s, sp s, sem s with LFast, F3, S0, O => true | LFast, F3, _, _ => negb (N <=? S (hk s))%nat | _, _, _, _ => true end in
    if good then bind (step N l s) (grun N r) else UB
  end.
Lemma grun_reach : forall N ls a b, reach_g N a -> grun N ls a = Ok b -> reach_g N b.
Proof.
  intros N ls. induction ls as [|l ls IH]; intros a b Ra Eb; cbn [grun] in Eb; [congruence|].
  match type of Eb with (if ?c then _ else _) = _ => destruct c eqn:Q end; [|discriminate].
  destruct (step N l a) as [x| |] eqn:S1; cbn [bind] in Eb; try discriminate. refine (IH x b _ Eb). apply (g_step N l a x Ra S1).
  intros -> P K. rewrite P in Q. apply Nat.leb_le in K. rewrite K in Q. unfold idle. destruct (sp a); try discriminate. destruct (sem a); [auto|discriminate].
Qed.
Lemma guarded_example : exists s, reach_g 2 s /\ sp s = S4.
Proof.
  destruct (grun 2 (repeat LFast 8 ++ repeat LSlow 4) (init 0)) as [s| |] eqn:Q; try (vm_compute in Q; discriminate).
  exists s. split; [exact (grun_reach 2 _ _ s (g_init 2 0) Q)|]. vm_compute in Q. inversion Q; subst. reflexivity.
Qed.
