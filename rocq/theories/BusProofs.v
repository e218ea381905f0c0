From Coq Require Import Reals Lra.
From Flocq Require Import Core.Raux.
From Verif Require Import Prelude Num BusModel BusSpec.
Open Scope Z_scope.

Lemma le_bytes_length n v : length (le_bytes n v) = n.
Proof. revert v. induction n; intros; cbn; auto. Qed.
Lemma le_value_bytes n v : le_value (le_bytes n v) = low n v.
Proof.
  unfold low. revert v. induction n; intros v.
  - cbn. now rewrite Z.mod_1_r.
  - cbn [le_bytes le_value]. rewrite IHn.
    replace (8 * Z.of_nat (S n)) with (8 + 8 * Z.of_nat n) by lia.
    rewrite Z.pow_add_r by lia. change (2 ^ 8) with 256.
    rewrite Z.rem_mul_r; lia.
Qed.
Lemma low_range n v : 0 <= low n v < 2 ^ (8 * Z.of_nat n).
Proof. unfold low. apply Z.mod_pos_bound. apply Z.pow_pos_nonneg; lia. Qed.
Lemma to_i32_signed u : 0 <= u < 2 ^ 32 -> to_i32 u = signed32 u.
Proof.
  unfold to_i32, signed32. change (2 ^ 32) with 4294967296. change (2 ^ 31) with 2147483648. intros H.
  destruct (Z.ltb_spec u 2147483648).
  - rewrite Z.mod_small; lia.
  - replace (u + 2147483648) with (u - 2147483648 + 1 * 4294967296) by lia. rewrite Z.mod_add by lia. rewrite Z.mod_small; lia.
Qed.
Lemma low4 n v : (n <= 4)%nat -> 0 <= low n v < 2 ^ 32.
Proof.
  intros H. pose proof (low_range n v). split; [lia|]. eapply Z.lt_le_trans; [apply H0|]. apply Z.pow_le_mono_r; lia.
Qed.
Lemma signed32_mod u : 0 <= u < 2 ^ 32 -> signed32 u mod 4294967296 = u.
Proof.
  unfold signed32. change (2 ^ 32) with 4294967296. change (2 ^ 31) with 2147483648. intros H.
  destruct (Z.ltb_spec u 2147483648).
  - rewrite Z.mod_small; lia.
  - replace (u - 4294967296) with (u + (-1) * 4294967296) by lia. rewrite Z.mod_add by lia. rewrite Z.mod_small; lia.
Qed.
Lemma signed32_land u m : 0 <= m < 2 ^ 31 -> 0 <= u < 2 ^ 32 -> Z.land (signed32 u) m = Z.land u m.
Proof.
  intros Hm Hu. rewrite <- (signed32_mod u Hu) at 2. change 4294967296 with (2 ^ 32).
  rewrite <- Z.land_ones by lia. rewrite <- Z.land_assoc. f_equal.
  rewrite Z.land_comm, Z.land_ones by lia. symmetry. apply Z.mod_small.
  split; [lia|]. eapply Z.lt_trans; [apply Hm|]. reflexivity.
Qed.

Section Pack.
  Variable value : Z -> outcome Z.
  Definition offset (lens : list nat) (k : nat) : nat := bytes_of (firstn k lens).

  Lemma offset_cons l lens k : offset (l :: lens) (S k) = (l / 8 + offset lens k)%nat.
  Proof. reflexivity. Qed.

  Lemma encode_ok buf pos v n buf' : encode buf pos v n = Ok buf' ->
    (n <= 4)%nat /\ (pos + n <= length buf)%nat /\ buf' = firstn pos buf ++ le_bytes n v ++ skipn (pos + n) buf.
  Proof.
    unfold encode. destruct (Nat.leb_spec n 4); cbn [andb]; [|discriminate].
    destruct (Nat.leb_spec (pos + n) (length buf)); [|discriminate]. intros [= <-]. auto.
  Qed.
  Lemma encode_len buf pos v n buf' : encode buf pos v n = Ok buf' -> length buf' = length buf.
  Proof.
    intros H. apply encode_ok in H as (H1 & H2 & ->).
    rewrite !app_length, le_bytes_length, firstn_length, skipn_length. lia.
  Qed.
  Lemma encode_pre buf pos v n buf' : encode buf pos v n = Ok buf' -> firstn pos buf' = firstn pos buf.
  Proof.
    intros H. apply encode_ok in H as (H1 & H2 & ->).
    rewrite firstn_app, firstn_firstn, firstn_length. replace (pos - Nat.min pos (length buf))%nat with 0%nat by lia.
    rewrite firstn_O, app_nil_r. f_equal. lia.
  Qed.
  Lemma encode_at buf pos v n buf' : encode buf pos v n = Ok buf' -> firstn (pos + n) buf' = firstn pos buf ++ le_bytes n v.
  Proof.
    intros H. apply encode_ok in H as (H1 & H2 & ->).
    rewrite app_assoc, firstn_app. rewrite firstn_all2 by (rewrite app_length, le_bytes_length, firstn_length; lia).
    rewrite app_length, le_bytes_length, firstn_length. replace (pos + n - (Nat.min pos (length buf) + n))%nat with 0%nat by lia.
    now rewrite firstn_O, app_nil_r.
  Qed.

  Lemma pack_spec lens : forall idx pos buf buf' pos', pack value lens idx pos buf = Ok (buf', pos') -> (pos <= length buf)%nat ->
    length buf' = length buf /\ pos' = (pos + bytes_of lens)%nat /\ (pos' <= length buf)%nat /\ firstn pos buf' = firstn pos buf /\
    forall k l i, nth_error lens k = Some l -> nth_error idx k = Some i ->
      exists v, value i = Ok v /\ (l / 8 <= 4)%nat /\ (pos + offset lens k + l / 8 <= pos')%nat /\
        firstn (l / 8) (skipn (pos + offset lens k) buf') = le_bytes (l / 8) v.
  Proof.
    induction lens as [|l lens IH]; intros idx pos buf buf' pos' H Hp.
    - cbn in H. injection H as <- <-. unfold bytes_of; cbn. repeat split; auto; try lia.
      intros [|k] l i; discriminate.
    - cbn [pack] in H. destruct idx as [|i idx]; [discriminate|].
      destruct (value i) as [v| |] eqn:Ev; cbn [bind] in H; try discriminate.
      destruct (encode buf pos v (l / 8)) as [b1| |] eqn:Ee; cbn [bind] in H; try discriminate.
      pose proof (encode_ok _ _ _ _ _ Ee) as (He1 & He2 & He3).
      pose proof (encode_len _ _ _ _ _ Ee) as He4.
      apply IH in H; [|lia]. destruct H as (H1 & H2 & H3 & H4 & H5).
      assert (Hb : bytes_of (l :: lens) = (l / 8 + bytes_of lens)%nat) by reflexivity.
      assert (Hpre : firstn pos buf' = firstn pos buf).
      { rewrite <- (encode_pre _ _ _ _ _ Ee).
        replace pos with (Nat.min pos (pos + l / 8)) by lia. rewrite <- !firstn_firstn. now rewrite H4. }
      repeat split; try congruence; try lia.
      intros [|k] l' i' Hl Hi; cbn in Hl, Hi.
      + injection Hl as <-. injection Hi as <-. exists v. unfold offset, bytes_of; cbn [firstn map list_sum fold_right].
        rewrite Nat.add_0_r. repeat split; auto; [lia|].
        rewrite firstn_skipn_comm. rewrite H4. rewrite (encode_at _ _ _ _ _ Ee).
        rewrite skipn_app, skipn_all2 by (rewrite firstn_length; lia).
        rewrite firstn_length. replace (pos - Nat.min pos (length buf))%nat with 0%nat by lia. reflexivity.
      + destruct (H5 k l' i' Hl Hi) as (v' & A & B & C & D). exists v'.
        assert (E : (pos + offset (l :: lens) (S k))%nat = (pos + l / 8 + offset lens k)%nat).
        { rewrite offset_cons. lia. }
        rewrite E. repeat split; auto.
  Qed.

  Lemma pack_ok lens : forall idx pos buf, (pos + bytes_of lens <= length buf)%nat -> (length lens <= length idx)%nat ->
    (forall l, In l lens -> (l / 8 <= 4)%nat) -> (forall i, In i idx -> exists v, value i = Ok v) ->
    exists buf' pos', pack value lens idx pos buf = Ok (buf', pos').
  Proof.
    induction lens as [|l lens IH]; intros idx pos buf H1 H2 H3 H4.
    - cbn. eauto.
    - destruct idx as [|i idx]; [cbn in H2; lia|]. cbn [pack].
      destruct (H4 i (or_introl eq_refl)) as [v ->]. cbn [bind].
      assert (Hb : bytes_of (l :: lens) = (l / 8 + bytes_of lens)%nat) by reflexivity.
      destruct (encode buf pos v (l / 8)) as [b1| |] eqn:Ee.
      + cbn [bind]. apply IH.
        * rewrite (encode_len _ _ _ _ _ Ee). lia.
        * cbn in H2; lia.
        * intros; apply H3; cbn; auto.
        * intros; apply H4; cbn; auto.
      + exfalso. unfold encode in Ee. destruct (_ && _); discriminate.
      + exfalso. unfold encode in Ee.
        destruct (Nat.leb_spec (l / 8) 4); [|specialize (H3 l (or_introl eq_refl)); lia].
        destruct (Nat.leb_spec (pos + l / 8) (length buf)); [discriminate|lia].
  Qed.

  Lemma pack_noub lens : forall idx pos buf, (pos + bytes_of lens <= length buf)%nat -> (length lens <= length idx)%nat ->
    (forall l, In l lens -> (l / 8 <= 4)%nat) -> (forall i, In i idx -> value i <> UB) ->
    pack value lens idx pos buf <> UB.
  Proof.
    induction lens as [|l lens IH]; intros idx pos buf H1 H2 H3 H4.
    - cbn. discriminate.
    - destruct idx as [|i idx]; [cbn in H2; lia|]. cbn [pack].
      pose proof (H4 i (or_introl eq_refl)) as Hv. destruct (value i) as [v| |]; cbn [bind]; try discriminate; [|congruence].
      assert (Hb : bytes_of (l :: lens) = (l / 8 + bytes_of lens)%nat) by reflexivity.
      destruct (encode buf pos v (l / 8)) as [b1| |] eqn:Ee; cbn [bind]; [|discriminate|].
      + apply IH.
        * rewrite (encode_len _ _ _ _ _ Ee). lia.
        * cbn in H2; lia.
        * intros; apply H3; cbn; auto.
        * intros; apply H4; cbn; auto.
      + exfalso. unfold encode in Ee.
        destruct (Nat.leb_spec (l / 8) 4); [|specialize (H3 l (or_introl eq_refl)); lia].
        destruct (Nat.leb_spec (pos + l / 8) (length buf)); [discriminate|lia].
  Qed.
End Pack.

Lemma set_nth_length {A} (l : list A) k v : length (set_nth l k v) = length l.
Proof. revert k. induction l; intros [|k]; cbn; auto. Qed.
Lemma set_nth_same {A} (l : list A) k v : (k < length l)%nat -> nth_error (set_nth l k v) k = Some v.
Proof. revert k. induction l; intros [|k] H; cbn in *; try lia; auto. apply IHl. lia. Qed.
Lemma set_nth_other {A} (l : list A) k k' v : k <> k' -> nth_error (set_nth l k v) k' = nth_error l k'.
Proof. revert k k'. induction l; intros [|k] [|k'] H; cbn; auto; try congruence. Qed.

Section Recv.
  Variable T : num.
  Variable N : nat.

  Definition place (r : receiver T) (k : nat) (i : Z) : Prop :=
    (0 < i -> (Z.to_nat (i - 1) < length (r_out T r k))%nat) /\ (i < 0 -> (Z.to_nat (- i - 1) < length (r_dig T r k))%nat).
  (** Content of the signal with index [i] at node [k]. *)
  Definition holds (r : receiver T) (k : nat) (i v : Z) : Prop :=
    (0 < i -> nth_error (r_out T r k) (Z.to_nat (i - 1)) = Some (nofZ T v)) /\
    (i < 0 -> nth_error (r_dig T r k) (Z.to_nat (- i - 1)) = Some (v mod 4294967296)) /\
    (i = 0 -> r_status T r k = Z.land v 623).

  Lemma store_ok k i v r : (k < N)%nat -> place r k i -> exists r', store T N k i v r = Ok r' /\ holds r' k i v /\
    (forall j, place r k j -> place r' k j) /\ (forall j w, j <> i -> holds r k j w -> holds r' k j w).
  Proof.
    intros Hk [H1 H2]. unfold store. destruct (Nat.ltb_spec k N); [|lia]. cbn [negb].
    destruct (Z.ltb_spec 0 i).
    { specialize (H1 H0). rewrite (proj2 (Nat.ltb_lt _ _) H1). eexists. split; [reflexivity|]. split; [|split].
      - split; [|split]; intros; try lia. cbn. rewrite upd_same. now apply set_nth_same.
      - intros j [A B]. split; cbn; intros; [rewrite upd_same, set_nth_length|]; auto.
      - intros j w Hj (A & B & C). split; [|split]; cbn; auto. intros. rewrite upd_same, set_nth_other by lia. auto. }
    destruct (Z.ltb_spec i 0).
    { specialize (H2 H3). rewrite (proj2 (Nat.ltb_lt _ _) H2). eexists. split; [reflexivity|]. split; [|split].
      - split; [|split]; intros; try lia. cbn. rewrite upd_same. now apply set_nth_same.
      - intros j [A B]. split; cbn; intros; [|rewrite upd_same, set_nth_length]; auto.
      - intros j w Hj (A & B & C). split; [|split]; cbn; auto. intros. rewrite upd_same, set_nth_other by lia. auto. }
    eexists. split; [reflexivity|]. split; [|split].
    - split; [|split]; intros; try lia. cbn. now rewrite upd_same.
    - intros j [A B]. split; cbn; auto.
    - intros j w Hj (A & B & C). split; [|split]; cbn; auto. intros. lia.
  Qed.

  Lemma unpack_spec k (Hk : (k < N)%nat) data : forall lens idx start r, length lens = length idx -> NoDup idx ->
    (forall i, In i idx -> place r k i) ->
    (forall n l, nth_error lens n = Some l -> (l / 8 <= 4)%nat /\ (start + offset lens n + l / 8 <= length data)%nat) ->
    exists r', unpack T N k lens idx start data r = Ok r' /\
      (forall j w, ~ In j idx -> holds r k j w -> holds r' k j w) /\
      forall n l i, nth_error lens n = Some l -> nth_error idx n = Some i ->
        holds r' k i (to_i32 (le_value (firstn (l / 8) (skipn (start + offset lens n) data)))).
  Proof.
    induction lens as [|l lens IH]; intros idx start r Hlen Hnd Hpl Hfit.
    - exists r. split; [reflexivity|]. split; auto. intros [|n]; discriminate.
    - destruct idx as [|i idx]; [discriminate|].
      cbn [unpack]. destruct (Hfit 0%nat l eq_refl) as [F1 F2]. unfold offset, bytes_of in F2; cbn [firstn map list_sum fold_right] in F2.
      unfold decode. rewrite (proj2 (Nat.leb_le _ _) F1). cbn [andb].
      rewrite (proj2 (Nat.leb_le (start + l / 8) (length data))) by lia. cbn [bind].
      inversion Hnd as [|? ? Hni Hnd']; subst.
      destruct (store_ok k i (to_i32 (le_value (firstn (l / 8) (skipn start data)))) r Hk (Hpl i (or_introl eq_refl)))
        as (r1 & E1 & S1 & S2 & S3).
      rewrite E1. cbn [bind].
      destruct (IH idx (start + l / 8)%nat r1) as (r' & E2 & A & B).
      + cbn in Hlen. lia.
      + auto.
      + intros j Hj. apply S2. apply Hpl. now right.
      + intros n l' Hl'. destruct (Hfit (S n) l' Hl') as [G1 G2]. split; auto.
        rewrite offset_cons in G2. lia.
      + exists r'. split; [exact E2|]. split.
        * intros j w Hj Hw. apply A; [intros C; apply Hj; now right|]. apply S3; auto. intros ->. apply Hj. now left.
        * intros [|n] l' i' Hl Hi; cbn in Hl, Hi.
          { injection Hl as <-. injection Hi as <-. unfold offset, bytes_of; cbn [firstn map list_sum fold_right].
            rewrite Nat.add_0_r. apply A; auto. }
          { assert (E : (start + offset (l :: lens) (S n))%nat = (start + l / 8 + offset lens n)%nat).
            { rewrite offset_cons. lia. }
            rewrite E. apply B; auto. }
  Qed.
End Recv.

(** C135 *)
Theorem pdo_roundtrip (T : num) (N : nat) (s : sender T) (p : pdo) (garbage : list Z) (r : receiver T) :
  length garbage = 8%nat -> length (p_len p) = length (p_idx p) -> NoDup (p_idx p) -> (bytes_of (p_len p) <= 8)%nat ->
  (forall l, In l (p_len p) -> (l / 8 <= 4)%nat) -> (p_node p < N)%nat ->
  (forall i, In i (p_idx p) ->
     transmissible T (s_in T s (p_node p)) (s_dig T s (p_node p)) (s_scale T s (p_node p))
       (length (r_out T r (p_node p))) (length (r_dig T r (p_node p))) i) ->
  exists data r',
    send_pdos T N s garbage (fun _ => false) 1 [p] = Ok [Pdo (p_id p) (p_nr p) data] /\
    (length data <= 8)%nat /\
    dispatch T N [p] (p_id p) (p_nr p) data r = Ok r' /\
    forall k l i, nth_error (p_len p) k = Some l -> nth_error (p_idx p) k = Some i ->
      (0 < i -> exists x z, nth_error (s_in T s (p_node p)) (Z.to_nat (i - 1)) = Some x /\
                 ntrunc T (nmul T x (s_scale T s (p_node p))) = Some z /\
                 nth_error (r_out T r' (p_node p)) (Z.to_nat (i - 1)) = Some (nofZ T (signed32 (low (l / 8) z)))) /\
      (i < 0 -> exists v, nth_error (s_dig T s (p_node p)) (Z.to_nat (- i - 1)) = Some v /\
                 nth_error (r_dig T r' (p_node p)) (Z.to_nat (- i - 1)) = Some (low (l / 8) v)) /\
      (i = 0 -> r_status T r' (p_node p) = Z.land (low (l / 8) (s_ctrl T s (p_node p))) 623).
Proof.
  intros Hg Hlen Hnd Hb Hl Hk Ht.
  assert (Hval : forall i, In i (p_idx p) -> exists v, sig_value T N s (p_node p) i = Ok v).
  { intros i Hi. destruct (Ht i Hi) as [A B]. unfold sig_value. destruct (Z.ltb_spec 0 i).
    - destruct (A H) as (x & z & Hx & Hz & Hr & _). rewrite Hx. unfold to_u32. rewrite Hz. exists z.
      change (2 ^ 32) with 4294967296 in Hr.
      destruct (Z.leb_spec 0 z); [|lia]. destruct (Z.ltb_spec z 4294967296); [|lia]. reflexivity.
    - destruct (Z.ltb_spec i 0).
      + destruct (B H0) as (v & Hv & _). rewrite Hv. eauto.
      + destruct (Nat.ltb_spec (p_node p) N); [eauto|lia]. }
  destruct (pack_ok (sig_value T N s (p_node p)) (p_len p) (p_idx p) 0 garbage) as (buf & len & Hp); auto; try lia.
  pose proof (pack_spec _ _ _ _ _ _ _ Hp (Nat.le_0_l _)) as (P1 & P2 & P3 & _ & P5).
  set (data := firstn len buf).
  assert (Hdl : length data = len) by (unfold data; rewrite firstn_length; lia).
  destruct (unpack_spec T N (p_node p) Hk data (p_len p) (p_idx p) 0 r Hlen Hnd) as (r' & U1 & _ & U3).
  { intros i Hi. destruct (Ht i Hi) as [A B]. split; intros h.
    - destruct (A h) as (x & z & _ & _ & _ & h'). exact h'.
    - destruct (B h) as (v & _ & h'). exact h'. }
  { intros n l Hn. split; [apply Hl; eapply nth_error_In; eauto|].
    destruct (nth_error (p_idx p) n) as [i|] eqn:Ei.
    - destruct (P5 n l i Hn Ei) as (v & _ & _ & C & _). lia.
    - apply nth_error_None in Ei. assert (nth_error (p_len p) n <> None) as h by congruence. apply nth_error_Some in h. lia. }
  exists data, r'. split; [|split; [|split]].
  - cbn [send_pdos]. rewrite Hp. cbn [bind omap]. reflexivity.
  - lia.
  - cbn [dispatch]. rewrite !Z.eqb_refl. cbn [andb]. rewrite U1. reflexivity.
  - intros k l i Hkl Hki. specialize (U3 k l i Hkl Hki). destruct (P5 k l i Hkl Hki) as (v & V1 & V2 & V3 & V4).
    assert (Hraw : firstn (l / 8) (skipn (0 + offset (p_len p) k) data) = le_bytes (l / 8) v).
    { rewrite <- V4. unfold data. rewrite !firstn_skipn_comm. rewrite firstn_firstn. do 2 f_equal. lia. }
    rewrite Hraw, le_value_bytes in U3. pose proof (low4 (l / 8) v V2) as Hlow. rewrite to_i32_signed in U3 by exact Hlow.
    destruct U3 as (W1 & W2 & W3). unfold sig_value in V1. destruct (Ht i (nth_error_In _ _ Hki)) as [A B]. split; [|split]; intros h.
    + destruct (A h) as (x & z & Hx & Hz & Hr & _). destruct (Z.ltb_spec 0 i); [|lia].
      rewrite Hx in V1. unfold to_u32 in V1. rewrite Hz in V1. change (2 ^ 32) with 4294967296 in Hr.
      destruct (Z.leb_spec 0 z); [|lia]. destruct (Z.ltb_spec z 4294967296); [|lia]. cbn in V1. injection V1 as <-.
      exists x, z. split; [auto|]. split; auto.
    + destruct (B h) as (w & Hw & _). destruct (Z.ltb_spec 0 i); [lia|]. destruct (Z.ltb_spec i 0); [|lia].
      rewrite Hw in V1. injection V1 as <-. exists w. split; auto. rewrite (W2 h). now rewrite signed32_mod.
    + destruct (Z.ltb_spec 0 i); [lia|]. destruct (Z.ltb_spec i 0); [lia|]. destruct (Nat.ltb_spec (p_node p) N); [|lia].
      injection V1 as <-. rewrite (W3 h). apply signed32_land; [|exact Hlow]. split; [lia|reflexivity].
Qed.

(** C136 *)
Lemma sig_value_noub (T : num) N (s : sender T) k i :
  (forall x, 0 < i -> nth_error (s_in T s k) (Z.to_nat (i - 1)) = Some x -> exists z, ntrunc T (nmul T x (s_scale T s k)) = Some z /\ 0 <= z < 2 ^ 32) ->
  sig_value T N s k i <> UB.
Proof.
  intros H. unfold sig_value. destruct (Z.ltb_spec 0 i).
  - destruct (nth_error (s_in T s k) (Z.to_nat (i - 1))) as [x|] eqn:E; [|discriminate].
    destruct (H x H0 eq_refl) as (z & Hz & Hr). unfold to_u32. rewrite Hz. change (2 ^ 32) with 4294967296 in Hr.
    destruct (Z.leb_spec 0 z); [|lia]. destruct (Z.ltb_spec z 4294967296); [|lia]. cbn; discriminate.
  - destruct (i <? 0); [destruct (nth_error (s_dig T s k) _); discriminate|]. destruct (k <? N)%nat; discriminate.
Qed.
Theorem send_noub (T : num) (N : nat) (s : sender T) (garbage : list Z) (err : nat -> bool) :
  length garbage = 8%nat ->
  (forall p, In p (s_pdo T s) ->
     (bytes_of (p_len p) <= 8)%nat /\ (forall l, In l (p_len p) -> (l / 8 <= 4)%nat) /\ (length (p_len p) <= length (p_idx p))%nat /\
     forall i x, In i (p_idx p) -> 0 < i -> nth_error (s_in T s (p_node p)) (Z.to_nat (i - 1)) = Some x ->
       exists z, ntrunc T (nmul T x (s_scale T s (p_node p))) = Some z /\ 0 <= z < 2 ^ 32) ->
  send_run T N s garbage err <> UB.
Proof.
  intros Hg H. unfold send_run. destruct (s_enabled T s); [|discriminate]. destruct (err 0%nat); [discriminate|].
  enough (forall n ps, (forall p, In p ps -> In p (s_pdo T s)) -> send_pdos T N s garbage err n ps <> UB) as Hs.
  { specialize (Hs 1%nat (s_pdo T s) (fun p Hp => Hp)). destruct (send_pdos T N s garbage err 1 (s_pdo T s)); cbn; congruence. }
  intros n ps. revert n. induction ps as [|p ps IH]; intros n Hin; cbn [send_pdos]; [discriminate|].
  destruct (H p (Hin p (or_introl eq_refl))) as (A & B & C & D).
  assert (Hnu : pack (sig_value T N s (p_node p)) (p_len p) (p_idx p) 0 garbage <> UB).
  { apply pack_noub; auto; try lia. intros i Hi. apply sig_value_noub. intros x h hx. eauto. }
  destruct (pack _ _ _ _ _) as [[buf len]| |]; cbn [bind]; [|discriminate|congruence].
  destruct (err n); [discriminate|]. specialize (IH (S n) (fun q Hq => Hin q (or_intror Hq))).
  destruct (send_pdos T N s garbage err (S n) ps); cbn; congruence.
Qed.
