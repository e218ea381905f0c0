(** Minors: what the loops of the determinant and of the inverse copy. *)
From Verif Require Import Prelude Num MatModel MatProofs.
Open Scope nat_scope.

(** The index, in the full matrix, of row (or column) y of the matrix without row (or column) i. *)
Definition skip (i y : nat) : nat := if y <? i then y else S y.
Lemma skip_lt i y k : y < k -> skip i y < S k.
Proof. unfold skip. destruct (Nat.ltb_spec y i); lia. Qed.
(** The number of rows before u when row i is left out *)
Definition kept (i u : nat) : nat := if i <? u then u - 1 else u.
Lemma skip_kept i u : u <> i -> skip i (kept i u) = u.
Proof. unfold skip, kept. intros H. destruct (Nat.ltb_spec i u).
  - destruct (Nat.ltb_spec (u - 1) i); lia.
  - destruct (Nat.ltb_spec u i); lia. Qed.
Lemma kept_S i u : kept i (S u) = if u =? i then kept i u else S (kept i u).
Proof. unfold kept. destruct (Nat.eqb_spec u i) as [->|].
  - destruct (Nat.ltb_spec i (S i)), (Nat.ltb_spec i i); lia.
  - destruct (Nat.ltb_spec i (S u)), (Nat.ltb_spec i u); lia. Qed.
Lemma kept_0 i : kept i 0 = 0.
Proof. reflexivity. Qed.
Lemma kept_last i k : i <= k -> kept i (S k) = k.
Proof. intros H. unfold kept. destruct (Nat.ltb_spec i (S k)); lia. Qed.
Lemma kept_lt i k u : i <= k -> u < S k -> u <> i -> kept i u < k.
Proof. unfold kept. intros. destruct (Nat.ltb_spec i u); lia. Qed.

Section Minors.
  Context (T : num).

  Lemma det_sub_ok k (a g : mem T) ign : ign <= k ->
    exists s, det_sub T (S k) a ign g = Ok s /\ forall y x, y < k -> x < k -> s (k * x + y) = a (S k * S x + skip ign y).
  Proof.
    intros Hi. unfold det_sub. replace (S k - 1) with k by lia.
    destruct (loop_inv (fun u (p : mem T * nat) => snd p = kept ign u /\
        forall y x, y < kept ign u -> y < k -> x < k -> fst p (k * x + y) = a (S k * S x + skip ign y))
      (fun i '(s, y) =>
        bind (loop_from 1 k (fun b '(s, x) =>
          if negb (i =? ign) then bind (rd T (S k) (S k) a i b) (fun v => bind (wr T k k s y x v) (fun s => Ok (s, S x)))
          else Ok (s, x)) (s, 0))
        (fun '(s, _) => Ok (s, if negb (i =? ign) then S y else y))) (S k) (g, 0)) as ([s y] & E & Hy & H).
    - split; [reflexivity|]. rewrite kept_0. lia.
    - intros i [s y] Hu [Hy Hs]. cbn [fst snd] in Hy, Hs. subst y.
      destruct (Nat.eqb_spec i ign) as [->|Hne]; cbn [negb].
      + destruct (loop_from_inv (fun b (p : mem T * nat) => fst p = s) (fun b '(s, x) => Ok (s, x)) k 1 (s, 0)) as ([s' x'] & E & H).
        * reflexivity.
        * intros b [s0 x0] Hb H0. exists (s0, x0). auto.
        * rewrite E. cbn [bind]. eexists. split; [reflexivity|]. cbn [fst snd] in *. subst s'. rewrite kept_S, Nat.eqb_refl. auto.
      + pose proof (kept_lt ign k i Hi Hu Hne) as Hk.
        destruct (loop_from_inv (fun b (p : mem T * nat) => S (snd p) = b /\
            (forall y x, y < kept ign i -> y < k -> x < k -> fst p (k * x + y) = a (S k * S x + skip ign y)) /\
            forall x, S x < b -> x < k -> fst p (k * x + kept ign i) = a (S k * S x + i))
          (fun b '(s, x) => bind (rd T (S k) (S k) a i b) (fun v => bind (wr T k k s (kept ign i) x v) (fun s => Ok (s, S x)))) k 1 (s, 0))
          as ([s' x'] & E & Hx & A & B).
        * cbn [fst snd]. split; [reflexivity|]. split; [exact Hs|lia].
        * intros b [s0 x0] Hb (Hx & A & B). cbn [fst snd] in *. subst b. rewrite rd_ok by lia. cbn [bind]. rewrite wr_ok by lia. cbn [bind].
          eexists. split; [reflexivity|]. cbn [fst snd]. split; [reflexivity|]. split.
          -- intros y x L1 L2 L3. rewrite upd_cell by lia. replace (y =? kept ign i) with false by (symmetry; apply Nat.eqb_neq; lia). cbn [andb]. now apply A.
          -- intros x L1 L2. rewrite upd_cell by lia. rewrite Nat.eqb_refl. destruct (Nat.eqb_spec x x0) as [->|]; cbn [andb]; [reflexivity|]. apply B; lia.
        * rewrite E. cbn [bind]. eexists. split; [reflexivity|]. cbn [fst snd] in *. rewrite kept_S. replace (i =? ign) with false by (symmetry; now apply Nat.eqb_neq).
          split; [reflexivity|]. intros y x L1 L2 L3. destruct (Nat.eq_dec y (kept ign i)) as [->|]; [|apply A; lia].
          rewrite skip_kept by assumption. apply B; lia.
    - rewrite E. exists s. split; [reflexivity|]. cbn [fst snd] in *. rewrite kept_last in H by assumption. intros. now apply H.
  Qed.

  (** The row to which the i-th remaining row is copied (line 722) *)
  Fixpoint pos (M i : nat) : nat := match i with O => 0 | S i => Nat.land (S (pos M i)) (M - 1) end.
  Lemma land_le_l a b : Nat.land a b <= a.
  Proof.
    apply Nat.ldiff_le. apply Nat.bits_inj. intros n. rewrite Nat.ldiff_spec, Nat.land_spec, Nat.bits_0.
    destruct (Nat.testbit a n), (Nat.testbit b n); reflexivity.
  Qed.
  Lemma pos_le M i : pos M i <= i.
  Proof. induction i as [|i IH]; cbn [pos]; [lia|]. pose proof (land_le_l (S (pos M i)) (M - 1)). lia. Qed.

  Lemma inv_sub_ok k (x s : mem T) m n : 0 < k -> m <= k -> n <= k ->
    exists s', inv_sub T (S k) x m n s = Ok s' /\
      (forall i c, i < k -> c < k -> (forall i', i < i' < k -> pos (S k) i' <> pos (S k) i) ->
         s' (k * c + pos (S k) i) = x (S k * skip n c + skip m i)) /\
      (forall r c, r < k -> c < k -> (forall i, i < k -> pos (S k) i <> r) -> s' (k * c + r) = s (k * c + r)).
  Proof.
    intros Hk Hm Hn. unfold inv_sub. replace (S k - 1) with k by lia.
    set (row := fun u a => (fun w '((s, b) : mem T * nat) =>
          if negb (u =? m) && negb (w =? n)
          then bind (rd T (S k) (S k) x u w) (fun v => bind (wr T k k s a b v) (fun s => Ok (s, S b mod k)))
          else Ok (s, b))).
    assert (ROW : forall u a (s : mem T), u < S k -> a <= k -> (u <> m -> a < k) -> exists s', loop (S k) (row u a) (s, 0) = Ok (s', 0) /\
      forall r c, r < k -> c < k -> s' (k * c + r) = if (r =? a) && negb (u =? m) then x (S k * skip n c + u) else s (k * c + r)).
    { intros u a s0 Hu Hak Ha. destruct (Nat.eqb_spec u m) as [->|Hne]; cbn [negb].
      - destruct (loop_inv (fun w (p : mem T * nat) => p = (s0, 0)) (row m a) (S k) (s0, 0)) as (p & E & ->).
        + reflexivity.
        + intros w p Hw ->. unfold row. rewrite Nat.eqb_refl. cbn [negb andb]. eexists. split; reflexivity.
        + exists s0. split; [exact E|]. intros. now rewrite andb_false_r.
      - specialize (Ha Hne).
        destruct (loop_inv (fun w (p : mem T * nat) => snd p = kept n w mod k /\ forall r c, r < k -> c < k ->
            fst p (k * c + r) = if (r =? a) && (c <? kept n w) then x (S k * skip n c + u) else s0 (k * c + r)) (row u a) (S k) (s0, 0))
          as ([s' b] & E & Hb & H).
        + cbn [fst snd]. rewrite kept_0. split; [now rewrite Nat.mod_0_l by lia|]. intros r c _ _. now rewrite andb_false_r.
        + intros w [s1 b] Hw [Hb H]. cbn [fst snd] in *. unfold row. replace (u =? m) with false by (symmetry; now apply Nat.eqb_neq). cbn [negb andb].
          rewrite kept_S. destruct (Nat.eqb_spec w n) as [->|Hwn]; cbn [negb].
          * eexists. split; [reflexivity|]. auto.
          * pose proof (kept_lt n k w Hn Hw Hwn) as L. assert (b = kept n w) by (rewrite Hb; apply Nat.mod_small; exact L). subst b.
            rewrite rd_ok by lia. cbn [bind]. rewrite wr_ok by lia. cbn [bind]. eexists. split; [reflexivity|]. cbn [fst snd].
            split; [rewrite <- Nat.add_1_r, H0, Nat.add_1_r; reflexivity|].
            intros r c Lr Lc. rewrite upd_cell by lia. rewrite H by assumption.
            destruct (Nat.eqb_spec r a) as [->|], (Nat.eqb_spec c (kept n w mod k)) as [->|]; cbn [andb]; try reflexivity.
            -- rewrite H0. replace (kept n w <? S (kept n w)) with true by (symmetry; apply Nat.ltb_lt; lia). now rewrite skip_kept by assumption.
            -- destruct (Nat.ltb_spec c (kept n w)), (Nat.ltb_spec c (S (kept n w))); try reflexivity; lia.
        + rewrite kept_last in Hb, H by assumption. rewrite Nat.mod_same in Hb by lia. cbn [fst snd] in *. subst b. exists s'. split; [exact E|].
          intros r c Lr Lc. rewrite H by assumption. replace (c <? k) with true by (symmetry; now apply Nat.ltb_lt). reflexivity. }
    destruct (loop_inv (fun u (p : mem T * nat * nat) => snd (fst p) = pos (S k) (kept m u) /\ snd p = 0 /\
        (forall i c, i < kept m u -> i < k -> c < k -> (forall i', i < i' < kept m u -> pos (S k) i' <> pos (S k) i) ->
           fst (fst p) (k * c + pos (S k) i) = x (S k * skip n c + skip m i)) /\
        (forall r c, r < k -> c < k -> (forall i, i < kept m u -> pos (S k) i <> r) -> fst (fst p) (k * c + r) = s (k * c + r)))
      (fun u '(s, a, b) =>
        bind (loop (S k) (row u a) (s, b))
          (fun '(s, b) => Ok (s, if negb (u =? m) then Nat.land (S a) k else a, b))) (S k) (s, 0, 0))
      as ([[s' a] b] & E & Ha & Hb & A & B).
    - cbn [fst snd]. rewrite kept_0. repeat split; try reflexivity. lia.
    - intros u [[s1 a] b] Hu (Ha & Hb & A & B). cbn [fst snd] in *. subst a b. rewrite kept_S.
      assert (Hkm : kept m u <= k) by (unfold kept; destruct (Nat.ltb_spec m u); lia).
      pose proof (pos_le (S k) (kept m u)) as Hp.
      destruct (ROW u (pos (S k) (kept m u)) s1 Hu) as (s2 & E2 & H2).
      + lia.
      + intros Hne. pose proof (kept_lt m k u Hm Hu Hne). lia.
      + rewrite E2. cbn [bind]. eexists. split; [reflexivity|]. cbn [fst snd].
        destruct (Nat.eqb_spec u m) as [->|Hne]; cbn [negb].
        * split; [reflexivity|]. split; [reflexivity|]. split.
          -- intros i c L1 L2 L3 L4. rewrite H2; [rewrite andb_false_r; now apply A| |assumption]. pose proof (pos_le (S k) i). lia.
          -- intros r c L1 L2 L3. rewrite H2 by assumption. rewrite andb_false_r. now apply B.
        * split; [cbn [pos]; now replace (S k - 1) with k by lia|]. split; [reflexivity|]. split.
          -- intros i c L1 L2 L3 L4. pose proof (pos_le (S k) i) as Lp. rewrite H2 by lia.
             destruct (Nat.eqb_spec (pos (S k) i) (pos (S k) (kept m u))) as [Q|Q]; cbn [andb negb].
             ++ assert (i = kept m u) as ->.
                { destruct (Nat.eq_dec i (kept m u)); [assumption|]. exfalso. apply (L4 (kept m u)); [lia|now rewrite Q]. }
                now rewrite skip_kept.
             ++ apply A; try assumption. { destruct (Nat.eq_dec i (kept m u)) as [->|]; [contradiction|lia]. } intros i' L. apply L4. lia.
          -- intros r c L1 L2 L3. rewrite H2 by assumption. destruct (Nat.eqb_spec r (pos (S k) (kept m u))) as [->|]; cbn [andb negb].
             ++ exfalso. apply (L3 (kept m u)); [lia|reflexivity].
             ++ apply B; try assumption. intros i L. apply L3. lia.
    - exists s'. split.
      + change (omap (fun r => fst (fst r)) (loop (S k) (fun u '(s, a, b) =>
        bind (loop (S k) (row u a) (s, b))
          (fun '(s, b) => Ok (s, if negb (u =? m) then Nat.land (S a) k else a, b))) (s, 0, 0)) = Ok s'). rewrite E. reflexivity.
      + cbn [fst snd] in *. rewrite kept_last in A, B by assumption. split; [|exact B]. intros i c L1 L2 L3. now apply A.
  Qed.

  (** For an order that is a power of two the rows go where they belong. *)
  Lemma pos_pow2 j i : i < 2 ^ j -> pos (2 ^ j) i = i.
  Proof.
    induction i as [|i IH]; cbn [pos]; intros H; [reflexivity|]. rewrite IH by lia.
    replace (2 ^ j - 1) with (Nat.ones j) by (rewrite Nat.ones_equiv; lia). rewrite Nat.land_ones. now apply Nat.mod_small.
  Qed.

  (** For any other order the rows from 2^j on are never reached, where j is the lowest zero bit of M - 1. *)
  Lemma lowest_zero n : (forall j, n <> 2 ^ j - 1) -> exists j q, n = 2 ^ S j * S q + (2 ^ j - 1).
  Proof.
    induction n as [n IH] using lt_wf_ind. intros H.
    destruct (Nat.Even_or_Odd n) as [[h Eh]|[h Eh]].
    - exists 0. destruct h as [|h]; [exfalso; apply (H 0); cbn; lia|]. exists h. cbn [Nat.pow]. lia.
    - assert (L : h < n) by lia.
      assert (Hh : forall j, h <> 2 ^ j - 1). { intros j Q. apply (H (S j)). cbn [Nat.pow]. pose proof (Nat.pow_nonzero 2 j). lia. }
      destruct (IH h L Hh) as (j & q & E). exists (S j), q. cbn [Nat.pow] in *. pose proof (Nat.pow_nonzero 2 j). lia.
  Qed.
  Lemma land_low j q a : a < 2 ^ S j -> Nat.land a (2 ^ S j * q + (2 ^ j - 1)) = a mod 2 ^ j.
  Proof.
    intros H. replace (2 ^ j - 1) with (Nat.ones j) by (rewrite Nat.ones_equiv; lia).
    assert (A : a = Nat.land a (Nat.ones (S j))) by (rewrite Nat.land_ones; symmetry; now apply Nat.mod_small).
    rewrite A at 1. rewrite <- Nat.land_assoc.
    rewrite (Nat.land_comm (Nat.ones (S j))). rewrite Nat.land_ones.
    assert (L : Nat.ones j < 2 ^ S j). { rewrite Nat.ones_equiv. cbn [Nat.pow]. pose proof (Nat.pow_nonzero 2 j). lia. }
    replace ((2 ^ S j * q + Nat.ones j) mod 2 ^ S j) with (Nat.ones j).
    - apply Nat.land_ones.
    - rewrite Nat.add_comm, Nat.mul_comm, Nat.mod_add by (apply Nat.pow_nonzero; lia). now rewrite Nat.mod_small.
  Qed.
  Lemma pos_other M j q i : M - 1 = 2 ^ S j * S q + (2 ^ j - 1) -> pos M i = i mod 2 ^ j.
  Proof.
    intros E. assert (P : 2 ^ j <> 0) by (apply Nat.pow_nonzero; lia). induction i as [|i IH]; cbn [pos]; [now rewrite Nat.mod_0_l|].
    rewrite IH, E. assert (i mod 2 ^ j < 2 ^ j) by now apply Nat.mod_upper_bound. rewrite land_low by (cbn [Nat.pow]; lia).
    change (S (i mod 2 ^ j)) with (1 + i mod 2 ^ j). now rewrite Nat.add_mod_idemp_r by exact P.
  Qed.

  Lemma inv_sub_other k : 2 < k -> (forall j, S k <> 2 ^ j) ->
    exists (w : nat) (L : nat -> nat), (0 < w < k) /\ (forall r, r < w -> 0 < L r < k) /\
      forall (x s : mem T) m n, m <= k -> n <= k -> exists s', inv_sub T (S k) x m n s = Ok s' /\
        forall r c, r < k -> c < k -> s' (k * c + r) = if r <? w then x (S k * skip n c + skip m (L r)) else s (k * c + r).
  Proof.
    intros Hk Hn.
    destruct (lowest_zero k) as (j & q & Ek). { intros j E. apply (Hn j). pose proof (Nat.pow_nonzero 2 j). lia. }
    set (w := 2 ^ j) in *. assert (Hw : w <> 0) by (apply Nat.pow_nonzero; lia).
    assert (Lw : w < k) by (rewrite Ek; cbn [Nat.pow]; fold w; nia).
    assert (Hpos : forall i, pos (S k) i = i mod w). { intros i. apply (pos_other (S k) j q i). fold w. lia. }
    set (L := fun r => r + (k - 1 - r) / w * w).
    assert (HL : forall r, r < w -> 0 < L r < k /\ pos (S k) (L r) = r /\ forall i', L r < i' < k -> pos (S k) i' <> r).
    { intros r Hr. unfold L. set (d := (k - 1 - r) / w).
      assert (D1 : w * d <= k - 1 - r) by now apply Nat.mul_div_le.
      assert (D2 : k - 1 - r < w * S d) by now apply Nat.mul_succ_div_gt.
      split; [split|split].
      - destruct r; [|lia]. destruct d; nia.
      - nia.
      - rewrite Hpos, Nat.mod_add by assumption. now apply Nat.mod_small.
      - intros i' [L1 L2]. rewrite Hpos. intros E. pose proof (Nat.div_mod i' w Hw) as D. rewrite E in D. set (e := i' / w) in *.
        assert (d < e) by nia. assert (w * S d <= w * e) by (apply Nat.mul_le_mono_l; lia). lia. }
    exists w, L. split; [lia|]. split; [intros r Hr; now apply HL|].
    intros x s m n Hm Hn'. destruct (inv_sub_ok k x s m n) as (s' & Es & A & B); try lia. exists s'. split; [exact Es|].
    intros r c Hr Hc. destruct (Nat.ltb_spec r w) as [Hrw|Hrw].
    - destruct (HL r Hrw) as (L1 & L2 & L3). rewrite <- L2 at 1. apply A; [lia|assumption|]. intros i' Hi'. rewrite L2. now apply L3.
    - apply B; try assumption. intros i Hi. rewrite Hpos. pose proof (Nat.mod_upper_bound i w Hw). lia.
  Qed.
End Minors.
