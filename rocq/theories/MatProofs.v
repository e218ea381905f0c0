(** Loops over matrices compute their elements. *)
From Verif Require Import Prelude Num MatModel.
Open Scope nat_scope.

Lemma loop_from_inv {S : Type} (P : nat -> S -> Prop) (body : nat -> S -> outcome S) k : forall i s,
  P i s -> (forall j s, i <= j < i + k -> P j s -> exists s', body j s = Ok s' /\ P (Datatypes.S j) s') ->
  exists s', loop_from i k body s = Ok s' /\ P (i + k) s'.
Proof.
  induction k as [|k IH]; intros i s Hi Hb; cbn [loop_from].
  - exists s. rewrite Nat.add_0_r. auto.
  - destruct (Hb i s ltac:(lia) Hi) as (s1 & E & H1). rewrite E. cbn [bind].
    destruct (IH (Datatypes.S i) s1 H1) as (s' & E' & H').
    + intros j s0 Hj. apply Hb. lia.
    + exists s'. replace (i + Datatypes.S k) with (Datatypes.S i + k) by lia. auto.
Qed.
Lemma loop_inv {S : Type} (P : nat -> S -> Prop) (body : nat -> S -> outcome S) k s :
  P 0 s -> (forall j s, j < k -> P j s -> exists s', body j s = Ok s' /\ P (Datatypes.S j) s') ->
  exists s', loop k body s = Ok s' /\ P k s'.
Proof.
  intros H0 Hb. destruct (loop_from_inv P body k 0 s H0) as (s' & E & H).
  - intros j s0 Hj. apply Hb. lia.
  - now exists s'.
Qed.

Lemma cell M m n m' n' : m < M -> m' < M -> M * n + m = M * n' + m' -> m = m' /\ n = n'.
Proof.
  intros H H' E. assert (n = n') by nia. subst. split; lia.
Qed.
Lemma cell_lt M N m n : m < M -> n < N -> M * n + m < M * N.
Proof. nia. Qed.

Section Access.
  Context (T : num).
  Lemma rd_ok M N (a : mem T) m n : m < M -> n < N -> rd T M N a m n = Ok (a (M * n + m)).
  Proof. intros H H'. unfold rd. apply Nat.ltb_lt in H, H'. now rewrite H, H'. Qed.
  Lemma wr_ok M N (a : mem T) m n v : m < M -> n < N -> wr T M N a m n v = Ok (upd a (M * n + m) v).
  Proof. intros H H'. unfold wr. apply Nat.ltb_lt in H, H'. now rewrite H, H'. Qed.
  Lemma rd_out M N (a : mem T) m n : M <= m \/ N <= n -> rd T M N a m n = Fault.
  Proof. intros H. unfold rd. destruct (Nat.ltb_spec m M), (Nat.ltb_spec n N); try reflexivity; lia. Qed.
  Lemma wr_out M N (a : mem T) m n v : M <= m \/ N <= n -> wr T M N a m n v = Fault.
  Proof. intros H. unfold wr. destruct (Nat.ltb_spec m M), (Nat.ltb_spec n N); try reflexivity; lia. Qed.
  Lemma upd_cell M (a : mem T) m n v m' n' : m < M -> m' < M ->
    upd a (M * n + m) v (M * n' + m') = if (m' =? m) && (n' =? n) then v else a (M * n' + m').
  Proof.
    intros H H'. destruct (Nat.eqb_spec m' m) as [->|Hm], (Nat.eqb_spec n' n) as [->|Hn]; cbn [andb].
    - apply upd_same.
    - apply upd_other. intros E. apply cell in E; lia.
    - apply upd_other. intros E. apply cell in E; lia.
    - apply upd_other. intros E. apply cell in E; lia.
  Qed.
  Lemma rd_wr_same M N (a a' : mem T) m n v : wr T M N a m n v = Ok a' -> rd T M N a' m n = Ok v.
  Proof.
    unfold wr, rd. destruct (_ && _) eqn:E; [|discriminate]. intros H. injection H as <-. now rewrite upd_same.
  Qed.
  Lemma rd_wr_other M N (a a' : mem T) m n v m' n' : wr T M N a m n v = Ok a' -> (m', n') <> (m, n) -> rd T M N a' m' n' = rd T M N a m' n'.
  Proof.
    unfold wr, rd. destruct (Nat.ltb_spec m M), (Nat.ltb_spec n N); cbn [andb]; try discriminate. intros Q. injection Q as <-. intros Hne.
    destruct (Nat.ltb_spec m' M), (Nat.ltb_spec n' N); cbn [andb]; try reflexivity. rewrite upd_cell by lia.
    destruct (Nat.eqb_spec m' m) as [->|], (Nat.eqb_spec n' n) as [->|]; cbn [andb]; try reflexivity. contradiction.
  Qed.
  Lemma rd_linear M N (a : mem T) m n : m < M -> n < N -> rd T M N a m n = rd1 T M N a (M * n + m).
  Proof. intros H H'. rewrite rd_ok by assumption. unfold rd1. pose proof (cell_lt M N m n H H') as L. apply Nat.ltb_lt in L. now rewrite L. Qed.
  Lemma linear_out M N (a : mem T) i v : M * N <= i -> rd1 T M N a i = Fault /\ wr1 T M N a i v = Fault.
  Proof. intros H. apply Nat.ltb_ge in H. unfold rd1, wr1. rewrite H. auto. Qed.
  Lemma linear_rd M N (a : mem T) i : i < M * N -> rd1 T M N a i = rd T M N a (i mod M) (i / M).
  Proof.
    intros H. assert (M <> 0) by lia. rewrite rd_ok.
    - unfold rd1. apply Nat.ltb_lt in H. rewrite H. now rewrite <- Nat.div_mod.
    - now apply Nat.mod_upper_bound.
    - apply Nat.div_lt_upper_bound; lia.
  Qed.
  Lemma linear_wr M N (a : mem T) i v : i < M * N -> wr1 T M N a i v = wr T M N a (i mod M) (i / M) v.
  Proof.
    intros H. assert (M <> 0) by lia. rewrite wr_ok.
    - unfold wr1. apply Nat.ltb_lt in H. rewrite H. now rewrite <- Nat.div_mod.
    - now apply Nat.mod_upper_bound.
    - apply Nat.div_lt_upper_bound; lia.
  Qed.

  (** Writing f m n to cell (m,n) for all m, n. *)
  Lemma each_ok M N f g h : (forall m n, m < M -> n < N -> f m n = Ok (h m n)) ->
    exists r, each T M N f g = Ok r /\ forall m n, m < M -> n < N -> r (M * n + m) = h m n.
  Proof.
    intros Hf. unfold each.
    destruct (loop_inv (fun m (r : mem T) => forall m' n', m' < m -> m' < M -> n' < N -> r (M * n' + m') = h m' n')
      (fun m r => loop N (fun n r => bind (f m n) (fun v => wr T M N r m n v)) r) M g) as (r & E & H).
    - intros m' n' L. lia.
    - intros m r Hm Hr.
      destruct (loop_inv (fun n (r : mem T) => (forall m' n', m' < m -> n' < N -> r (M * n' + m') = h m' n') /\
          forall n', n' < n -> n' < N -> r (M * n' + m) = h m n')
        (fun n r => bind (f m n) (fun v => wr T M N r m n v)) N r) as (r' & E & H1 & H2).
      + split; [intros; apply Hr; lia|lia].
      + intros n r1 Hn [A B]. rewrite Hf by assumption. cbn [bind]. rewrite wr_ok by assumption. eexists. split; [reflexivity|]. split.
        * intros m' n' L L'. rewrite upd_cell by lia. replace (m' =? m) with false by (symmetry; apply Nat.eqb_neq; lia). cbn [andb]. now apply A.
        * intros n' L L'. rewrite upd_cell by lia. rewrite Nat.eqb_refl. destruct (Nat.eqb_spec n' n) as [->|]; cbn [andb]; [reflexivity|]. apply B; lia.
      + exists r'. split; [exact E|]. intros m' n' L LM LN. destruct (Nat.eq_dec m' m) as [->|]; [now apply H2|]. apply H1; lia.
    - exists r. split; [exact E|]. intros m n Hm Hn. now apply H.
  Qed.

  Lemma transpose_ok M N (a g : mem T) :
    exists r, m_transpose T M N a g = Ok r /\ forall m n, m < M -> n < N -> r (N * m + n) = a (M * n + m).
  Proof.
    unfold m_transpose.
    destruct (loop_inv (fun m (r : mem T) => forall m' n', m' < m -> m' < M -> n' < N -> r (N * m' + n') = a (M * n' + m'))
      (fun m r => loop N (fun n r => bind (rd T M N a m n) (fun v => wr T N M r n m v)) r) M g) as (r & E & H).
    - intros m' n' L. lia.
    - intros m r Hm Hr.
      destruct (loop_inv (fun n (r : mem T) => (forall m' n', m' < m -> n' < N -> r (N * m' + n') = a (M * n' + m')) /\
          forall n', n' < n -> n' < N -> r (N * m + n') = a (M * n' + m))
        (fun n r => bind (rd T M N a m n) (fun v => wr T N M r n m v)) N r) as (r' & E & H1 & H2).
      + split; [intros; apply Hr; lia|lia].
      + intros n r1 Hn [A B]. rewrite rd_ok by assumption. cbn [bind]. rewrite wr_ok by assumption. eexists. split; [reflexivity|]. split.
        * intros m' n' L L'. rewrite upd_cell by lia. replace (m' =? m) with false by (symmetry; apply Nat.eqb_neq; lia). rewrite andb_false_r. now apply A.
        * intros n' L L'. rewrite upd_cell by lia. rewrite Nat.eqb_refl. destruct (Nat.eqb_spec n' n) as [->|]; cbn [andb]; [reflexivity|]. apply B; lia.
      + exists r'. split; [exact E|]. intros m' n' L LM LN. destruct (Nat.eq_dec m' m) as [->|]; [now apply H2|]. apply H1; lia.
    - exists r. split; [exact E|]. intros m n Hm Hn. now apply H.
  Qed.

  (** The sum of x_0 .. x_(n-1) as accumulated from the left. *)
  Fixpoint accum (x : nat -> T) (n : nat) : T := match n with O => nofZ T 0 | S n => nadd T (accum x n) (x n) end.

  Lemma mul_ok M N K (a b g : mem T) :
    exists r, m_mul T M N K a b g = Ok r /\
      forall m k, m < M -> k < K -> r (M * k + m) = accum (fun n => nmul T (a (M * n + m)) (b (N * k + n))) N.
  Proof.
    unfold m_mul. set (h := fun m k => accum (fun n => nmul T (a (M * n + m)) (b (N * k + n))) N).
    set (inner := fun m k (r : mem T) => bind (wr T M K r m k (nofZ T 0)) (loop N (fun n r =>
        bind (rd T M K r m k) (fun c => bind (rd T M N a m n) (fun x => bind (rd T N K b n k) (fun y =>
          wr T M K r m k (nadd T c (nmul T x y)))))))).
    assert (IN : forall m k r, m < M -> k < K -> exists r', inner m k r = Ok r' /\ r' (M * k + m) = h m k /\
        forall m' k', m' < M -> (m', k') <> (m, k) -> r' (M * k' + m') = r (M * k' + m')).
    { intros m k r Hm Hk. unfold inner. rewrite wr_ok by assumption. cbn [bind].
      destruct (loop_inv (fun n (r' : mem T) => r' (M * k + m) = accum (fun n => nmul T (a (M * n + m)) (b (N * k + n))) n /\
          forall m' k', m' < M -> (m', k') <> (m, k) -> r' (M * k' + m') = r (M * k' + m'))
        (fun n r => bind (rd T M K r m k) (fun c => bind (rd T M N a m n) (fun x => bind (rd T N K b n k) (fun y =>
          wr T M K r m k (nadd T c (nmul T x y)))))) N (upd r (M * k + m) (nofZ T 0))) as (r' & E & A & B).
      - split; [apply upd_same|]. intros m' k' L Hne. rewrite upd_cell by lia.
        destruct (Nat.eqb_spec m' m) as [->|], (Nat.eqb_spec k' k) as [->|]; try reflexivity. contradiction.
      - intros n r1 Hn [A B]. rewrite (rd_ok M K r1 m k), (rd_ok M N a m n), (rd_ok N K b n k) by assumption. cbn [bind]. rewrite wr_ok by assumption.
        eexists. split; [reflexivity|]. split.
        + rewrite upd_same. rewrite A. reflexivity.
        + intros m' k' L Hne. rewrite upd_cell by lia. destruct (Nat.eqb_spec m' m) as [->|], (Nat.eqb_spec k' k) as [->|]; cbn [andb]; try now apply B. contradiction.
      - exists r'. auto. }
    destruct (loop_inv (fun m (r : mem T) => forall m' k', m' < m -> m' < M -> k' < K -> r (M * k' + m') = h m' k')
      (fun m r => loop K (fun k r => inner m k r) r) M g) as (r & E & H).
    - intros m' k' L. lia.
    - intros m r Hm Hr.
      destruct (loop_inv (fun k (r : mem T) => (forall m' k', m' < m -> k' < K -> r (M * k' + m') = h m' k') /\
          forall k', k' < k -> k' < K -> r (M * k' + m) = h m k')
        (fun k r => inner m k r) K r) as (r' & E & H1 & H2).
      + split; [intros; apply Hr; lia|lia].
      + intros k r1 Hk [A B]. destruct (IN m k r1 Hm Hk) as (r2 & E2 & V & O). exists r2. split; [exact E2|]. split.
        * intros m' k' L L'. rewrite O; [now apply A|lia|]. intros Q. injection Q. lia.
        * intros k' L L'. destruct (Nat.eq_dec k' k) as [->|]; [exact V|]. rewrite O; [apply B; lia|exact Hm|congruence].
      + exists r'. split; [exact E|]. intros m' n' L LM LN. destruct (Nat.eq_dec m' m) as [->|]; [now apply H2|]. apply H1; lia.
    - exists r. split; [exact E|]. intros m n Hm Hn. now apply H.
  Qed.

  Lemma zip_ok f M N (a b g : mem T) :
    exists r, m_zip T f M N a b g = Ok r /\ forall m n, m < M -> n < N -> r (M * n + m) = f (a (M * n + m)) (b (M * n + m)).
  Proof. apply (each_ok M N _ g (fun m n => f (a (M * n + m)) (b (M * n + m)))). intros m n Hm Hn. now rewrite !rd_ok by assumption. Qed.
  Lemma map_ok (f : T -> T) M N (a g : mem T) :
    exists r, each T M N (fun m n => bind (rd T M N a m n) (fun x => Ok (f x))) g = Ok r /\ forall m n, m < M -> n < N -> r (M * n + m) = f (a (M * n + m)).
  Proof. apply (each_ok M N _ g (fun m n => f (a (M * n + m)))). intros m n Hm Hn. now rewrite !rd_ok by assumption. Qed.

  Lemma zero_ok M N (g : mem T) : exists r, m_zero T M N g = Ok r /\ forall i, i < M * N -> r i = nofZ T 0.
  Proof.
    unfold m_zero. destruct (loop_inv (fun k (r : mem T) => forall i, i < k -> r i = nofZ T 0) (fun i r => wr1 T M N r i (nofZ T 0)) (M * N) g) as (r & E & H).
    - lia.
    - intros j r Hj Hr. unfold wr1. pose proof Hj as L. apply Nat.ltb_lt in L. rewrite L. eexists. split; [reflexivity|].
      intros i Hi. destruct (Nat.eq_dec i j) as [->|]; [apply upd_same|]. rewrite upd_other by assumption. apply Hr. lia.
    - exists r. auto.
  Qed.
  Lemma eye_ok M N (g : mem T) : exists r, m_eye T M N g = Ok r /\
    forall m n, m < M -> n < N -> r (M * n + m) = if m =? n then nofZ T 1 else nofZ T 0.
  Proof.
    unfold m_eye. destruct (zero_ok M N g) as (z & E & Hz). rewrite E. cbn [bind]. set (j := if M <? N then M else N).
    assert (Hj : j <= M /\ j <= N /\ (j = M \/ j = N)) by (unfold j; destruct (Nat.ltb_spec M N); lia).
    destruct (loop_inv (fun k (r : mem T) => forall m n, m < M -> n < N -> r (M * n + m) = if (m =? n) && (m <? k) then nofZ T 1 else nofZ T 0)
      (fun i r => wr T M N r i i (nofZ T 1)) j z) as (r & E' & H).
    - intros m n Hm Hn. rewrite Hz by now apply cell_lt. rewrite andb_comm. reflexivity.
    - intros i r Hi Hr. rewrite wr_ok by lia. eexists. split; [reflexivity|]. intros m n Hm Hn. rewrite upd_cell by lia. rewrite Hr by assumption.
      destruct (Nat.eqb_spec m i) as [->|], (Nat.eqb_spec n i) as [->|]; cbn [andb].
      + rewrite Nat.eqb_refl. cbn [andb]. now replace (i <? S i) with true by (symmetry; apply Nat.ltb_lt; lia).
      + destruct (Nat.eqb_spec i n); [lia|reflexivity].
      + destruct (Nat.eqb_spec m i); [lia|reflexivity].
      + destruct (Nat.eqb_spec m n); cbn [andb]; [|reflexivity]. destruct (Nat.ltb_spec m i), (Nat.ltb_spec m (S i)); try reflexivity; lia.
    - exists r. split; [exact E'|]. intros m n Hm Hn. rewrite H by assumption.
      destruct (Nat.eqb_spec m n) as [->|]; cbn [andb]; [|reflexivity]. now replace (n <? j) with true by (symmetry; apply Nat.ltb_lt; lia).
  Qed.
  Lemma trace_ok M N (a : mem T) : m_trace T M N a = Ok (accum (fun i => a (M * i + i)) (Nat.min M N)).
  Proof.
    unfold m_trace. set (j := if M <? N then M else N).
    assert (Hj : j <= M /\ j <= N /\ j = Nat.min M N) by (unfold j; destruct (Nat.ltb_spec M N); lia).
    destruct (loop_inv (fun k (r : T) => r = accum (fun i => a (M * i + i)) k)
      (fun i r => bind (rd T M N a i i) (fun x => Ok (nadd T r x))) j (nofZ T 0)) as (r & E' & H).
    - reflexivity.
    - intros i r Hi ->. rewrite rd_ok by lia. cbn [bind]. eexists. split; reflexivity.
    - rewrite E'. f_equal. rewrite H. now destruct Hj as (_ & _ & ->).
  Qed.

  Lemma all_ok M N p q : (forall m n, m < M -> n < N -> p m n = Ok (q m n)) ->
    exists r, m_all M N p = Ok r /\ (r = true <-> forall m n, m < M -> n < N -> q m n = true).
  Proof.
    intros Hp. unfold m_all.
    destruct (loop_inv (fun m (r : bool) => r = true <-> forall m' n', m' < m -> m' < M -> n' < N -> q m' n' = true)
      (fun m (ok : bool) => loop N (fun n (ok : bool) => if ok then p m n else Ok false) ok) M true) as (r & E & H).
    - split; [lia|reflexivity].
    - intros m r Hm Hr.
      destruct (loop_inv (fun n (r' : bool) => r' = true <-> r = true /\ forall n', n' < n -> n' < N -> q m n' = true)
        (fun n (ok : bool) => if ok then p m n else Ok false) N r) as (r' & E & H).
      + split; [intros ->; split; [reflexivity|lia]|tauto].
      + intros n [|] Hn Hb.
        * rewrite Hp by assumption. eexists. split; [reflexivity|]. destruct Hb as [Hb _]. destruct (Hb eq_refl) as [R1 R2]. split.
          -- intros Q. split; [exact R1|]. intros n' L L'. destruct (Nat.eq_dec n' n) as [->|]; [exact Q|]. apply R2; lia.
          -- intros [_ A]. apply A; lia.
        * eexists. split; [reflexivity|]. split; [discriminate|]. intros [R1 R2]. apply Hb. split; [exact R1|]. intros. apply R2; lia.
      + exists r'. split; [exact E|]. split.
        * intros Q. apply H in Q. destruct Q as [R1 R2]. intros m' n' L LM LN. destruct (Nat.eq_dec m' m) as [->|]; [now apply R2|].
          apply Hr; try assumption. lia.
        * intros A. apply H. split; [apply Hr; intros; apply A; lia|]. intros n' _ L. apply A; lia.
    - exists r. split; [exact E|]. split; [intros Q m n Hm Hn; now apply H|]. intros A. apply H. intros; now apply A.
  Qed.
  Lemma eq_ok M N (a b : mem T) : exists r, m_eq T M N a b = Ok r /\
    (r = true <-> forall m n, m < M -> n < N -> neqb T (a (M * n + m)) (b (M * n + m)) = true).
  Proof. apply (all_ok M N _ (fun m n => neqb T (a (M * n + m)) (b (M * n + m)))). intros m n Hm Hn. now rewrite !rd_ok by assumption. Qed.
End Access.
