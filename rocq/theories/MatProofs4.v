(** Initialiser, rows, columns, parts, comparisons and predicates. *)
From Verif Require Import Prelude Num NumOrd MatModel MatProofs.
Open Scope nat_scope.

Section Parts.
  Context (T : num).

  Lemma getcol_ok M N (a g : mem T) n : n < N -> exists r, m_getcol T M N a n g = Ok r /\ forall m, m < M -> r m = a (M * n + m).
  Proof.
    intros Hn. unfold m_getcol.
    destruct (loop_inv (fun k (r : mem T) => forall m, m < k -> m < M -> r m = a (M * n + m))
      (fun m r => bind (rd T M N a m n) (fun v => wr T M 1 r m 0 v)) M g) as (r & E & H).
    - lia.
    - intros k r Hk H. rewrite rd_ok by assumption. cbn [bind]. rewrite wr_ok by lia. eexists. split; [reflexivity|].
      intros m Lm LM. rewrite Nat.mul_0_r, Nat.add_0_l. destruct (Nat.eq_dec m k) as [->|]; [apply upd_same|]. rewrite upd_other by assumption. apply H; lia.
    - exists r. auto.
  Qed.
  Lemma getrow_ok M N (a g : mem T) m : m < M -> exists r, m_getrow T M N a m g = Ok r /\ forall n, n < N -> r n = a (M * n + m).
  Proof.
    intros Hm. unfold m_getrow.
    destruct (loop_inv (fun k (r : mem T) => forall n, n < k -> n < N -> r n = a (M * n + m))
      (fun n r => bind (rd T M N a m n) (fun v => wr T 1 N r 0 n v)) N g) as (r & E & H).
    - lia.
    - intros k r Hk H. rewrite rd_ok by assumption. cbn [bind]. rewrite wr_ok by lia. eexists. split; [reflexivity|].
      intros n Ln LN. rewrite Nat.mul_1_l, Nat.add_0_r. destruct (Nat.eq_dec n k) as [->|]; [apply upd_same|]. rewrite upd_other by assumption. apply H; lia.
    - exists r. auto.
  Qed.
  Lemma getcol_out M N (a g : mem T) n : 0 < M -> N <= n -> m_getcol T M N a n g = Fault.
  Proof. intros HM Hn. destruct M; [lia|]. unfold m_getcol, loop. cbn [loop_from]. now rewrite rd_out by lia. Qed.
  Lemma getrow_out M N (a g : mem T) m : 0 < N -> M <= m -> m_getrow T M N a m g = Fault.
  Proof. intros HN Hm. destruct N; [lia|]. unfold m_getrow, loop. cbn [loop_from]. now rewrite rd_out by lia. Qed.
  Lemma setcol_ok M N (a : mem T) n col : n < N -> exists r, m_setcol T M N a n col = Ok r /\
    forall m n', m < M -> n' < N -> r (M * n' + m) = if n' =? n then col m else a (M * n' + m).
  Proof.
    intros Hn. unfold m_setcol.
    destruct (loop_inv (fun k (r : mem T) => forall m n', m < M -> n' < N -> r (M * n' + m) = if (n' =? n) && (m <? k) then col m else a (M * n' + m))
      (fun m a => bind (rd T M 1 col m 0) (fun v => wr T M N a m n v)) M a) as (r & E & H).
    - intros m n' _ _. now rewrite andb_false_r.
    - intros k r Hk H. rewrite rd_ok by lia. cbn [bind]. rewrite wr_ok by assumption. eexists. split; [reflexivity|].
      intros m n' Hm Hn'. rewrite upd_cell by assumption. rewrite H by assumption. rewrite Nat.mul_0_r, Nat.add_0_l.
      destruct (Nat.eqb_spec n' n) as [->|]; [|now rewrite andb_false_r]. rewrite andb_true_r. cbn [andb].
      destruct (Nat.eqb_spec m k) as [->|]; [now replace (k <? S k) with true by (symmetry; apply Nat.ltb_lt; lia)|].
      destruct (Nat.ltb_spec m k), (Nat.ltb_spec m (S k)); try reflexivity; lia.
    - exists r. split; [exact E|]. intros m n' Hm Hn'. rewrite H by assumption. apply Nat.ltb_lt in Hm. now rewrite Hm, andb_true_r.
  Qed.
  Lemma setrow_ok M N (a : mem T) m row : m < M -> exists r, m_setrow T M N a m row = Ok r /\
    forall m' n, m' < M -> n < N -> r (M * n + m') = if m' =? m then row n else a (M * n + m').
  Proof.
    intros Hm. unfold m_setrow.
    destruct (loop_inv (fun k (r : mem T) => forall m' n, m' < M -> n < N -> r (M * n + m') = if (m' =? m) && (n <? k) then row n else a (M * n + m'))
      (fun n a => bind (rd T 1 N row 0 n) (fun v => wr T M N a m n v)) N a) as (r & E & H).
    - intros m' n _ _. now rewrite andb_false_r.
    - intros k r Hk H. rewrite rd_ok by lia. cbn [bind]. rewrite wr_ok by assumption. eexists. split; [reflexivity|].
      intros m' n Hm' Hn. rewrite upd_cell by assumption. rewrite H by assumption. rewrite Nat.mul_1_l, Nat.add_0_r.
      destruct (Nat.eqb_spec m' m) as [->|]; [|reflexivity]. cbn [andb].
      destruct (Nat.eqb_spec n k) as [->|]; [now replace (k <? S k) with true by (symmetry; apply Nat.ltb_lt; lia)|].
      destruct (Nat.ltb_spec n k), (Nat.ltb_spec n (S k)); try reflexivity; lia.
    - exists r. split; [exact E|]. intros m' n Hm' Hn. rewrite H by assumption. apply Nat.ltb_lt in Hn. now rewrite Hn, andb_true_r.
  Qed.
  Lemma setcol_vec_ub M N (a : mem T) n col : n < N -> length col < M -> m_setcol_vec T M N a n col = UB.
  Proof.
    intros Hn. unfold m_setcol_vec, loop. 
    assert (G : forall k i a, i + k = M -> i <= length col -> length col < M ->
      loop_from i k (fun m a => bind (vec_at T col m) (fun v => wr T M N a m n v)) a = UB).
    { induction k as [|k IH]; intros i a0 Ei Hi Hl; [lia|]. cbn [loop_from]. unfold vec_at at 1.
      destruct (nth_error col i) as [x|] eqn:E.
      - cbn [bind]. rewrite wr_ok by lia. cbn [bind]. apply IH; try lia. assert (nth_error col i <> None) as Q by congruence.
        apply nth_error_Some in Q. lia.
      - reflexivity. }
    intros Hl. apply G; lia.
  Qed.
  Lemma setcol_vec_ok M N (a : mem T) n col : n < N -> M <= length col -> exists r, m_setcol_vec T M N a n col = Ok r /\
    forall m n', m < M -> n' < N -> Some (r (M * n' + m)) = if n' =? n then nth_error col m else Some (a (M * n' + m)).
  Proof.
    intros Hn Hl. unfold m_setcol_vec.
    destruct (loop_inv (fun k (r : mem T) => forall m n', m < M -> n' < N -> Some (r (M * n' + m)) = if (n' =? n) && (m <? k) then nth_error col m else Some (a (M * n' + m)))
      (fun m a => bind (vec_at T col m) (fun v => wr T M N a m n v)) M a) as (r & E & H).
    - intros m n' _ _. now rewrite andb_false_r.
    - intros k r Hk H. unfold vec_at. destruct (nth_error col k) as [x|] eqn:Ek.
      + cbn [bind]. rewrite wr_ok by assumption. eexists. split; [reflexivity|].
        intros m n' Hm Hn'. rewrite upd_cell by assumption.
        destruct (Nat.eqb_spec m k) as [->|]; cbn [andb].
        * destruct (Nat.eqb_spec n' n) as [->|Hne].
          -- replace (k <? S k) with true by (symmetry; apply Nat.ltb_lt; lia). cbn [andb]. now rewrite Ek.
          -- rewrite H by assumption. apply Nat.eqb_neq in Hne. rewrite Hne. reflexivity.
        * rewrite H by assumption. destruct (Nat.ltb_spec m k), (Nat.ltb_spec m (S k)); try reflexivity; lia.
      + apply nth_error_None in Ek. lia.
    - exists r. split; [exact E|]. intros m n' Hm Hn'. rewrite H by assumption. apply Nat.ltb_lt in Hm. now rewrite Hm, andb_true_r.
  Qed.

  Lemma sub_in M N U V (a g : mem T) m n : (Z.of_nat M < 2147483648)%Z -> (Z.of_nat N < 2147483648)%Z -> m + U <= M -> n + V <= N ->
    exists r, m_sub_matrix T M N U V a m n g = Ok r /\ forall u v, u < U -> v < V -> r (U * v + u) = a (M * (n + v) + (m + u)).
  Proof.
    intros HM HN HU HV. unfold m_sub_matrix, wrap32. rewrite !Z.mod_small by lia.
    replace (Z.of_nat m + Z.of_nat U <=? Z.of_nat M)%Z with true by (symmetry; apply Z.leb_le; lia).
    replace (Z.of_nat n + Z.of_nat V <=? Z.of_nat N)%Z with true by (symmetry; apply Z.leb_le; lia). cbn [andb].
    apply (each_ok T U V (fun u v => rd T M N a (Z.to_nat ((Z.of_nat m + Z.of_nat u) mod 4294967296)) (Z.to_nat ((Z.of_nat n + Z.of_nat v) mod 4294967296))) g
      (fun u v => a (M * (n + v) + (m + u)))).
    intros u v Hu Hv. rewrite !Z.mod_small by lia. rewrite <- !Nat2Z.inj_add, !Nat2Z.id. now rewrite rd_ok by lia.
  Qed.
  (** m and n are unsigned int values. *)
  Lemma sub_out M N U V (a g : mem T) m n : 0 < U -> 0 < V -> U <= M -> V <= N -> (Z.of_nat M < 2147483648)%Z -> (Z.of_nat N < 2147483648)%Z ->
    (Z.of_nat m < 4294967296)%Z -> (Z.of_nat n < 4294967296)%Z ->
    M < m + U \/ N < n + V -> m_sub_matrix T M N U V a m n g = Fault.
  Proof.
    intros HU HV HUM HVN HM HN Hm Hn Hout. unfold m_sub_matrix, wrap32.
    destruct (Z.leb_spec ((Z.of_nat m + Z.of_nat U) mod 4294967296) (Z.of_nat M)) as [L1|L1]; cbn [andb]; [|reflexivity].
    destruct (Z.leb_spec ((Z.of_nat n + Z.of_nat V) mod 4294967296) (Z.of_nat N)) as [L2|L2]; cbn [andb]; [|reflexivity].
    destruct U as [|U]; [lia|]. destruct V as [|V]; [lia|]. unfold loop. cbn [loop_from].
    rewrite !Z.add_0_r. rewrite (Z.mod_small (Z.of_nat m)), (Z.mod_small (Z.of_nat n)) by lia. rewrite !Nat2Z.id.
    assert (O : M <= m \/ N <= n).
    { destruct Hout as [Ho|Ho].
      - left. destruct (Z.ltb_spec (Z.of_nat m + Z.of_nat (S U)) 4294967296) as [Lt|Ge]; [rewrite Z.mod_small in L1; lia|lia].
      - right. destruct (Z.ltb_spec (Z.of_nat n + Z.of_nat (S V)) 4294967296) as [Lt|Ge]; [rewrite Z.mod_small in L2; lia|lia]. }
    now rewrite rd_out by assumption.
  Qed.

  (** ** Initialiser *)
  Lemma init_loop M N vs : forall i (a : mem T) , i + length vs <= M * N -> exists r,
    snd (fold_left (fun '(i, r) v => (S i, bind r (fun a => wr T M N a (i / N) (i mod N) v))) vs (i, Ok a)) = Ok r /\
    forall m n, m < M -> n < N -> r (M * n + m) = if (i <=? m * N + n) && (m * N + n <? i + length vs) then nth (m * N + n - i) vs (a (M * n + m)) else a (M * n + m).
  Proof.
    induction vs as [|v vs IH]; intros i a Hl; cbn [fold_left length] in *.
    - exists a. split; [reflexivity|]. intros m n Hm Hn. destruct (Nat.leb_spec i (m * N + n)), (Nat.ltb_spec (m * N + n) (i + 0)); cbn [andb]; try reflexivity. lia.
    - assert (HN : N <> 0) by nia.
      assert (Hd : i / N < M) by (apply Nat.div_lt_upper_bound; nia). assert (Hm0 : i mod N < N) by now apply Nat.mod_upper_bound.
      cbn [bind]. rewrite wr_ok by assumption. destruct (IH (S i) (upd a (M * (i mod N) + i / N) v)) as (r & E & H); [lia|].
      exists r. split; [exact E|]. intros m n Hm Hn. rewrite H by assumption. rewrite upd_cell by assumption.
      pose proof (Nat.div_mod i N HN) as D.
      assert (EQ : (m =? i / N) && (n =? i mod N) = (m * N + n =? i)).
      { destruct (Nat.eqb_spec m (i / N)) as [Q1|Q1], (Nat.eqb_spec n (i mod N)) as [Q2|Q2], (Nat.eqb_spec (m * N + n) i) as [Q3|Q3]; cbn [andb]; try reflexivity; exfalso.
        - apply Q3. rewrite Q1, Q2. lia.
        - apply Q2. rewrite <- Q3. rewrite Nat.add_comm, Nat.mod_add by assumption. symmetry. now apply Nat.mod_small.
        - apply Q1. rewrite <- Q3. rewrite Nat.div_add_l by assumption. rewrite Nat.div_small by assumption. lia.
        - apply Q1. rewrite <- Q3. rewrite Nat.div_add_l by assumption. rewrite Nat.div_small by assumption. lia. }
      rewrite EQ. set (q := m * N + n) in *.
      destruct (Nat.eqb_spec q i) as [Hq|Hne].
      + rewrite Hq. replace (S i <=? i) with false by (symmetry; apply Nat.leb_gt; lia). cbn [andb]. rewrite Nat.leb_refl.
        replace (i <? i + S (length vs)) with true by (symmetry; apply Nat.ltb_lt; lia). now rewrite Nat.sub_diag.
      + destruct (Nat.leb_spec (S i) q), (Nat.leb_spec i q), (Nat.ltb_spec q (S i + length vs)), (Nat.ltb_spec q (i + S (length vs))); cbn [andb]; try reflexivity; try lia.
        replace (q - i) with (S (q - S i)) by lia. reflexivity.
  Qed.
  Lemma init_ok M N (a : mem T) vs : length vs <= M * N -> exists r, m_init T M N a vs = Ok r /\
    forall m n, m < M -> n < N -> r (M * n + m) = nth (m * N + n) vs (a (M * n + m)).
  Proof.
    intros Hl. destruct vs as [|v vs]; cbn [m_init].
    - exists a. split; [reflexivity|]. intros. now destruct (m * N + n).
    - cbn [length] in Hl. unfold wr1. replace (0 <? M * N) with true by (symmetry; apply Nat.ltb_lt; lia). cbn [bind].
      destruct (init_loop M N vs 1 (upd a 0 v)) as (r & E & H); [lia|]. exists r. split; [exact E|].
      intros m n Hm Hn. rewrite H by assumption. destruct (Nat.eq_dec (m * N + n) 0) as [Q|Q].
      + assert (m = 0 /\ n = 0) as [-> ->] by nia. cbn. rewrite Nat.mul_0_r. reflexivity.
      + assert (M * n + m <> 0) by nia. rewrite !upd_other by assumption.
        replace (1 <=? m * N + n) with true by (symmetry; apply Nat.leb_le; lia). cbn [andb].
        destruct (m * N + n) as [|q] eqn:Eq; [lia|]. cbn [nth]. replace (S q - 1) with q by lia.
        destruct (Nat.ltb_spec (S q) (1 + length vs)); [reflexivity|]. now rewrite nth_overflow by lia.
  Qed.
  Lemma init_fold_fault M N vs : forall i, snd (fold_left (fun '(i, r) v => (S i, bind r (fun a => wr T M N a (i / N) (i mod N) v))) vs (i, Fault)) = Fault.
  Proof. induction vs as [|v vs IH]; intros i; cbn [fold_left]; [reflexivity|]. apply IH. Qed.
  Lemma init_long M N (a : mem T) vs : 0 < N -> M * N < length vs -> m_init T M N a vs = Fault.
  Proof.
    intros HN Hl. destruct vs as [|v vs]; cbn [m_init length] in *; [lia|]. unfold wr1.
    destruct (Nat.ltb_spec 0 (M * N)) as [Hp|Hp]; cbn [bind]; [|reflexivity].
    generalize (upd a 0 v). intros a0.
    assert (G : forall vs i a, i <= M * N -> M * N < i + length vs ->
      snd (fold_left (fun '(i, r) v => (S i, bind r (fun a => wr T M N a (i / N) (i mod N) v))) vs (i, Ok a)) = Fault).
    { clear. induction vs as [|v vs IH]; intros i a Hi Hl; cbn [fold_left length] in *; [lia|]. cbn [bind].
      unfold wr at 2. destruct (Nat.ltb_spec (i / N) M) as [L|L]; cbn [andb].
      - destruct (Nat.ltb_spec (i mod N) N); [|apply init_fold_fault]. apply IH; [|lia].
        destruct (Nat.eq_dec N 0) as [->|HN]; [cbn in *; lia|]. pose proof (Nat.div_mod i N HN). nia.
      - apply init_fold_fault. }
    apply G; [lia|lia].
  Qed.

  (** ** Comparisons and predicates *)
  Lemma rel_ok rel M N (a b : mem T) : exists r, m_rel T rel M N a b = Ok r /\
    (r = true <-> forall m n, m < M -> n < N -> rel (a (M * n + m)) (b (M * n + m)) = true).
  Proof. apply (all_ok M N _ (fun m n => rel (a (M * n + m)) (b (M * n + m)))). intros m n Hm Hn. now rewrite !rd_ok by assumption. Qed.
  Lemma pattern_ok q M N (a : mem T) : exists r, m_pattern T q M N a = Ok r /\
    (r = true <-> forall m n, m < M -> n < N -> q m n = true -> neqb T (a (M * n + m)) (nofZ T 0) = true).
  Proof.
    destruct (all_ok M N (fun m n => if q m n then bind (rd T M N a m n) (fun x => Ok (neqb T x (nofZ T 0))) else Ok true)
      (fun m n => if q m n then neqb T (a (M * n + m)) (nofZ T 0) else true)) as (r & E & H).
    - intros m n Hm Hn. destruct (q m n); [|reflexivity]. now rewrite rd_ok by assumption.
    - exists r. split; [exact E|]. rewrite H. split; intros A m n Hm Hn.
      + intros Q. specialize (A m n Hm Hn). now rewrite Q in A.
      + destruct (q m n) eqn:Q; [|reflexivity]. now apply A.
  Qed.

  Context (ok : T -> Prop) (OL : ord_laws T ok).
  Lemma rel_lt M N (a b : mem T) : (forall i, i < M * N -> ok (a i) /\ ok (b i)) -> exists r, m_lt T M N a b = Ok r /\
    (r = true <-> forall m n, m < M -> n < N -> nltb T (a (M * n + m)) (b (M * n + m)) = true).
  Proof.
    intros Hok. destruct (rel_ok (fun x y => negb (nleb T y x)) M N a b) as (r & E & H). exists r. split; [exact E|]. rewrite H.
    split; intros A m n Hm Hn; specialize (A m n Hm Hn); destruct (Hok _ (cell_lt M N m n Hm Hn)) as [O1 O2].
    - apply negb_true_iff in A. destruct (nltb T (a (M * n + m)) (b (M * n + m))) eqn:L; [reflexivity|]. apply (ol_nlt_le OL) in L; [congruence|assumption|assumption].
    - apply negb_true_iff. destruct (nleb T (b (M * n + m)) (a (M * n + m))) eqn:L; [|reflexivity]. apply (ol_le_nlt OL) in L. congruence.
  Qed.
  Lemma rel_le M N (a b : mem T) : (forall i, i < M * N -> ok (a i) /\ ok (b i)) -> exists r, m_le T M N a b = Ok r /\
    (r = true <-> forall m n, m < M -> n < N -> nleb T (a (M * n + m)) (b (M * n + m)) = true).
  Proof.
    intros Hok. destruct (rel_ok (fun x y => negb (nltb T y x)) M N a b) as (r & E & H). exists r. split; [exact E|]. rewrite H.
    split; intros A m n Hm Hn; specialize (A m n Hm Hn); destruct (Hok _ (cell_lt M N m n Hm Hn)) as [O1 O2].
    - apply negb_true_iff in A. now apply (ol_nlt_le OL).
    - apply negb_true_iff. now apply (ol_le_nlt OL).
  Qed.
End Parts.
Lemma one_wraps (T : num) (v : T) : one_rd T v 256 0 = Ok v.
Proof. reflexivity. Qed.
Lemma diagonal_ok (T : num) M N (a : mem T) : exists r, m_diagonal T M N a = Ok r /\
  (r = true <-> forall m n, m < M -> n < N -> m <> n -> neqb T (a (M * n + m)) (nofZ T 0) = true).
Proof.
  destruct (pattern_ok T (fun m n => negb (m =? n)) M N a) as (r & E & H). exists r. split; [exact E|]. rewrite H.
  split; intros A m n Hm Hn Hne; apply A; try assumption.
  - now apply negb_true_iff, Nat.eqb_neq.
  - now apply Nat.eqb_neq, negb_true_iff.
Qed.
Lemma lower_ok (T : num) M N (a : mem T) : exists r, m_lower T M N a = Ok r /\
  (r = true <-> forall m n, m < M -> n < N -> m < n -> neqb T (a (M * n + m)) (nofZ T 0) = true).
Proof.
  destruct (pattern_ok T (fun m n => m <? n) M N a) as (r & E & H). exists r. split; [exact E|]. rewrite H.
  split; intros A m n Hm Hn Hne; apply A; try assumption; now apply Nat.ltb_lt.
Qed.
Lemma upper_ok (T : num) M N (a : mem T) : exists r, m_upper T M N a = Ok r /\
  (r = true <-> forall m n, m < M -> n < N -> n < m -> neqb T (a (M * n + m)) (nofZ T 0) = true).
Proof.
  destruct (pattern_ok T (fun m n => n <? m) M N a) as (r & E & H). exists r. split; [exact E|]. rewrite H.
  split; intros A m n Hm Hn Hne; apply A; try assumption; now apply Nat.ltb_lt.
Qed.
