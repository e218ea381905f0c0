(** Row exchanges and elimination steps of the rank computation, over any number type. *)
From Verif Require Import Prelude Num MatModel MatProofs.
Open Scope nat_scope.

(** p and q are inverse permutations of 0 .. M-1. *)
Definition perm_on (M : nat) (p q : nat -> nat) : Prop :=
  forall m, m < M -> p m < M /\ q m < M /\ p (q m) = m /\ q (p m) = m.

Section Elim.
  Context (T : num).
  Definition swp (i j m : nat) : nat := if m =? i then j else if m =? j then i else m.
  Lemma swp_lt M i j m : i < M -> j < M -> m < M -> swp i j m < M.
  Proof. unfold swp. destruct (m =? i), (m =? j); auto. Qed.
  Lemma swp_swp i j m : swp i j (swp i j m) = m.
  Proof.
    unfold swp. destruct (Nat.eqb_spec m i) as [->|].
    - destruct (Nat.eqb_spec j i) as [->|]; [reflexivity|]. now rewrite Nat.eqb_refl.
    - destruct (Nat.eqb_spec m j) as [->|]; [now rewrite Nat.eqb_refl|].
      destruct (Nat.eqb_spec m i); [contradiction|]. destruct (Nat.eqb_spec m j); [contradiction|reflexivity].
  Qed.

  Lemma swap_ok M N (x : mem T) i j : i < M -> j < M ->
    exists x', swap_rows T M N x i j = Ok x' /\ forall m n, m < M -> n < N -> x' (M * n + m) = x (M * n + swp i j m).
  Proof.
    intros Hi Hj. unfold swap_rows.
    destruct (loop_inv (fun k (x' : mem T) => forall m n, m < M -> n < N -> x' (M * n + m) = if n <? k then x (M * n + swp i j m) else x (M * n + m))
      (fun n x => bind (rd T M N x i n) (fun t => bind (rd T M N x j n) (fun v => bind (wr T M N x i n v) (fun x => wr T M N x j n t)))) N x)
      as (x' & E & H).
    - reflexivity.
    - intros k x1 Hk H. rewrite !rd_ok by assumption. cbn [bind]. rewrite (wr_ok T M N x1) by assumption. cbn [bind]. rewrite wr_ok by assumption.
      eexists. split; [reflexivity|]. intros m n Hm Hn. rewrite upd_cell by assumption. rewrite upd_cell by assumption. rewrite !H by assumption.
      unfold swp. rewrite Nat.ltb_irrefl.
      destruct (Nat.eqb_spec n k) as [->|Hne].
      + replace (k <? S k) with true by (symmetry; apply Nat.ltb_lt; lia). rewrite Nat.ltb_irrefl, !andb_true_r.
        destruct (Nat.eqb_spec m j) as [Q1|Q1], (Nat.eqb_spec m i) as [Q2|Q2]; try reflexivity. congruence.
      + rewrite !andb_false_r. destruct (Nat.ltb_spec n k), (Nat.ltb_spec n (S k)); try reflexivity; lia.
    - exists x'. split; [exact E|]. intros m n Hm Hn. rewrite H by assumption. apply Nat.ltb_lt in Hn. now rewrite Hn.
  Qed.

  (** x' is x with its rows permuted. *)
  Definition rows_permuted (M N : nat) (x x' : mem T) : Prop :=
    exists p q, perm_on M p q /\ forall m n, m < M -> n < N -> x' (M * n + m) = x (M * n + p m).
  Lemma rp_refl M N x : rows_permuted M N x x.
  Proof. exists (fun m => m), (fun m => m). split; [intros m Hm; auto|reflexivity]. Qed.
  Lemma rp_trans M N x y z : rows_permuted M N x y -> rows_permuted M N y z -> rows_permuted M N x z.
  Proof.
    intros (p & q & P & H) (p' & q' & P' & H'). exists (fun m => p (p' m)), (fun m => q' (q m)). split.
    - intros m Hm. destruct (P m Hm) as (A1 & A2 & A3 & A4), (P' m Hm) as (B1 & B2 & B3 & B4).
      destruct (P _ B1) as (C1 & C2 & C3 & C4), (P' _ A2) as (D1 & D2 & D3 & D4). repeat split; auto; congruence.
    - intros m n Hm Hn. rewrite H' by assumption. apply H; [apply P'|]; assumption.
  Qed.
  Lemma rp_swap M N x i j : i < M -> j < M -> exists x', swap_rows T M N x i j = Ok x' /\ rows_permuted M N x x'.
  Proof.
    intros Hi Hj. destruct (swap_ok M N x i j Hi Hj) as (x' & E & H). exists x'. split; [exact E|].
    exists (swp i j), (swp i j). split; [|exact H]. intros m Hm. pose proof (swp_lt M i j m Hi Hj Hm). rewrite swp_swp. auto.
  Qed.

  Lemma sort_inner_ok M N col fuel : col < N -> forall x row swap,
    exists x' row' swap', sort_inner T M N col fuel x row swap = Ok (x', row', swap') /\ rows_permuted M N x x'.
  Proof.
    intros Hc. induction fuel as [|fuel IH]; intros x row swap; cbn [sort_inner].
    - exists x, row, swap. split; [reflexivity|apply rp_refl].
    - destruct (Nat.ltb_spec row M) as [Hr|Hr].
      + rewrite rd_ok by assumption. cbn [bind]. destruct (neqb T _ _ && (swap <? M) && (row <? M - 1)) eqn:E.
        * apply andb_prop in E as [E _]. apply andb_prop in E as [_ E]. apply Nat.ltb_lt in E.
          destruct (rp_swap M N x row swap Hr E) as (x1 & -> & P1). cbn [bind].
          destruct (IH x1 row (S swap)) as (x2 & r2 & s2 & -> & P2). exists x2, r2, s2. split; [reflexivity|]. now apply (rp_trans M N x x1).
        * apply IH.
      + exists x, row, swap. split; [reflexivity|apply rp_refl].
  Qed.
  (** The fuel given in [sort_gauss] is enough: more does not change anything. *)
  Lemma sort_inner_fuel M N col : col < N -> forall fuel x row swap d, row <= M -> (M - row) + (M - swap) <= fuel ->
    sort_inner T M N col (fuel + d) x row swap = sort_inner T M N col fuel x row swap.
  Proof.
    intros Hc. induction fuel as [|fuel IH]; intros x row swap d Hr Hf; cbn [sort_inner Nat.add].
    - destruct d as [|d]; cbn [sort_inner]; [reflexivity|]. destruct (Nat.ltb_spec row M); [lia|reflexivity].
    - destruct (Nat.ltb_spec row M) as [H|H]; [|reflexivity]. rewrite rd_ok by assumption. cbn [bind].
      destruct (neqb T _ _ && (swap <? M) && (row <? M - 1)) eqn:E; [|apply IH; lia].
      apply andb_prop in E as [E _]. apply andb_prop in E as [_ E]. apply Nat.ltb_lt in E.
      destruct (rp_swap M N x row swap H E) as (x1 & -> & P1). cbn [bind]. apply IH; lia.
  Qed.
  Lemma sort_ok M N x : exists s, sort_gauss T M N x = Ok s /\ rows_permuted M N x s.
  Proof.
    unfold sort_gauss.
    destruct (loop_inv (fun _ (p : mem T * nat * nat) => rows_permuted M N x (fst (fst p)))
      (fun col '(x, row, swap) => bind (sort_inner T M N col (2 * M) x row swap) (fun '(x, row, _) => Ok (x, row, S row))) N (x, 0, 1))
      as ([[s r] w] & E & H).
    - apply rp_refl.
    - intros col [[x1 r1] s1] Hc H. cbn [fst] in H. destruct (sort_inner_ok M N col (2 * M) Hc x1 r1 s1) as (x2 & r2 & s2 & -> & P2). cbn [bind].
      eexists. split; [reflexivity|]. cbn [fst]. now apply (rp_trans M N x x1).
    - rewrite E. exists s. split; [reflexivity|exact H].
  Qed.

  (** One elimination of row i by row c, and its effect *)
  Definition elim1 (M N c i : nat) (x : mem T) : outcome (mem T) :=
    bind (rd T M N x c c) (fun p => if neqb T p (nofZ T 0) then Ok x else
    bind (rd T M N x i c) (fun v => if neqb T v (nofZ T 0) then Ok x else
      let f := ndiv T v p in
      loop_from c (N - c) (fun n x => bind (rd T M N x i n) (fun u => bind (rd T M N x c n) (fun w =>
        wr T M N x i n (nsub T u (nmul T f w))))) x)).
  Lemma elim1_ok M N c i (x : mem T) : c < i -> i < M -> c < N -> exists x', elim1 M N c i x = Ok x' /\
    (neqb T (x (M * c + c)) (nofZ T 0) = true \/ neqb T (x (M * c + i)) (nofZ T 0) = true -> x' = x) /\
    (neqb T (x (M * c + c)) (nofZ T 0) = false -> neqb T (x (M * c + i)) (nofZ T 0) = false -> forall m n, m < M -> n < N ->
      x' (M * n + m) = if (m =? i) && (c <=? n) then nsub T (x (M * n + i)) (nmul T (ndiv T (x (M * c + i)) (x (M * c + c))) (x (M * n + c))) else x (M * n + m)).
  Proof.
    intros Hci Hi Hc. unfold elim1. rewrite !rd_ok by lia. cbn [bind].
    destruct (neqb T (x (M * c + c)) (nofZ T 0)) eqn:E1; [exists x; split; [reflexivity|]; split; [auto|discriminate]|].
    destruct (neqb T (x (M * c + i)) (nofZ T 0)) eqn:E2; [exists x; split; [reflexivity|]; split; [auto|discriminate]|].
    set (f := ndiv T (x (M * c + i)) (x (M * c + c))).
    destruct (loop_from_inv (fun k (x' : mem T) => forall m n, m < M -> n < N ->
        x' (M * n + m) = if (m =? i) && (c <=? n) && (n <? k) then nsub T (x (M * n + i)) (nmul T f (x (M * n + c))) else x (M * n + m))
      (fun n x => bind (rd T M N x i n) (fun u => bind (rd T M N x c n) (fun w => wr T M N x i n (nsub T u (nmul T f w))))) (N - c) c x)
      as (x' & E & H).
    - intros m n Hm Hn. destruct (Nat.leb_spec c n), (Nat.ltb_spec n c); try lia; rewrite ?andb_false_r; reflexivity.
    - intros k x1 Hk H. rewrite !rd_ok by lia. cbn [bind]. rewrite wr_ok by lia. eexists. split; [reflexivity|].
      intros m n Hm Hn. rewrite upd_cell by lia. rewrite !H by lia. rewrite Nat.ltb_irrefl, !andb_false_r.
      destruct (Nat.eqb_spec m i) as [->|]; cbn [andb]; [|reflexivity].
      destruct (Nat.eqb_spec n k) as [->|].
      + replace (c <=? k) with true by (symmetry; apply Nat.leb_le; lia). now replace (k <? S k) with true by (symmetry; apply Nat.ltb_lt; lia).
      + destruct (Nat.leb_spec c n), (Nat.ltb_spec n k), (Nat.ltb_spec n (S k)); cbn [andb]; try reflexivity; lia.
    - exists x'. split; [exact E|]. split; [intros [A|A]; discriminate|]. intros _ _ m n Hm Hn. rewrite H by assumption.
      replace (n <? c + (N - c)) with true by (symmetry; apply Nat.ltb_lt; lia). now rewrite andb_true_r.
  Qed.
  Lemma gauss_eq M N x : gauss T M N x = bind (sort_gauss T M N x) (loop N (fun c => loop_from (S c) (M - S c) (elim1 M N c))).
  Proof. reflexivity. Qed.

  (** The number of rows that are not zero *)
  Lemma count_ok M N (t : mem T) (nz : nat -> bool) :
    (forall m, m < M -> nz m = false <-> forall n, n < N -> neqb T (t (M * n + m)) (nofZ T 0) = true) ->
    loop M (fun m k =>
      bind (loop N (fun n nz => if nz : bool then Ok true else bind (rd T M N t m n) (fun v => Ok (negb (neqb T v (nofZ T 0))))) false)
        (fun nz => Ok (if nz then S k else k))) 0 = Ok (length (filter nz (seq 0 M))).
  Proof.
    intros Hnz.
    assert (IN : forall m, m < M -> loop N (fun n nz => if nz : bool then Ok true else bind (rd T M N t m n) (fun v => Ok (negb (neqb T v (nofZ T 0))))) false = Ok (nz m)).
    { intros m Hm.
      destruct (loop_inv (fun k (b : bool) => b = false <-> forall n, n < k -> neqb T (t (M * n + m)) (nofZ T 0) = true)
        (fun n nz => if nz : bool then Ok true else bind (rd T M N t m n) (fun v => Ok (negb (neqb T v (nofZ T 0))))) N false) as (b & E & H).
      - split; [lia|reflexivity].
      - intros k b Hk Hb. destruct b.
        + eexists. split; [reflexivity|]. split; [discriminate|]. intros A. apply Hb. intros n Hn. apply A. lia.
        + rewrite rd_ok by lia. cbn [bind]. eexists. split; [reflexivity|]. destruct Hb as [Hb _]. specialize (Hb eq_refl). split.
          * intros A n Hn. destruct (Nat.eq_dec n k) as [->|]; [now apply negb_false_iff|]. apply Hb. lia.
          * intros A. apply negb_false_iff. apply A. lia.
      - rewrite E. f_equal. specialize (Hnz m Hm). destruct b, (nz m); try reflexivity.
        + destruct Hnz as [Hnz _]. apply H. now apply Hnz.
        + symmetry. apply Hnz. now apply H. }
    destruct (loop_inv (fun m k => k = length (filter nz (seq 0 m))) (fun m k =>
      bind (loop N (fun n nz => if nz : bool then Ok true else bind (rd T M N t m n) (fun v => Ok (negb (neqb T v (nofZ T 0))))) false)
        (fun nz => Ok (if nz then S k else k))) M 0) as (k & E & H).
    - reflexivity.
    - intros m k Hm ->. rewrite IN by assumption. cbn [bind]. eexists. split; [reflexivity|].
      rewrite seq_S, filter_app, app_length. cbn [filter Nat.add]. destruct (nz m); cbn [length]; lia.
    - rewrite E. now f_equal.
  Qed.
End Elim.
