(** Proofs about blocks with vectors: integrators, gains, medians, comparisons and norms. *)
From Coq Require Import Reals Floats.SpecFloat List ZArith Bool Lia Lra Permutation.
From Flocq Require Import Core.Raux.
From Verif Require Import Prelude Num NumOrd CtrlModel CtrlModel2 VecModel VecSpec VecProofs.
Import ListNotations.
Open Scope Z_scope.

Section Ord.
  Context (N : num) (ok : N -> Prop) (L : ord_laws N ok).
  Notation el := (elt N).

  Lemma lt_le x y : nltb N x y = true -> nleb N y x = false.
  Proof. intros H. destruct (ol_lt_ok _ _ L _ _ H) as [A B]. rewrite (ol_le _ _ L) by assumption. now rewrite H. Qed.
  Lemma vec_lt_all a b : length b = length a -> (forall k, (k < length a)%nat -> nltb N (el k a) (el k b) = true) -> vec_lt N a b = true.
  Proof.
    revert b. induction a as [|x a IH]; intros [|y b] E H; try discriminate; [reflexivity|]. unfold vec_lt. cbn [combine forallb fst snd].
    rewrite (lt_le x y) by exact (H O ltac:(cbn; lia)). cbn [negb andb]. apply IH; [now inversion E|].
    intros k K. exact (H (S k) ltac:(cbn; lia)).
  Qed.
  Lemma vec_gt_lt a b : length b = length a -> vec_gt N a b = vec_lt N b a.
  Proof.
    revert b. induction a as [|x a IH]; intros [|y b] E; try discriminate; [reflexivity|]. unfold vec_gt, vec_lt. cbn [combine forallb fst snd].
    f_equal. apply IH. now inversion E.
  Qed.
  Lemma vec_lt_iff a b : length b = length a -> Forall ok a -> Forall ok b ->
    vec_lt N a b = true <-> forall k, (k < length a)%nat -> nltb N (el k a) (el k b) = true.
  Proof.
    intros E A B. split; [|apply vec_lt_all; exact E].
    revert b E B. induction A as [|x a X A IH]; intros b E B H k K; [inversion K|].
    destruct B as [|y b Y B]; [discriminate|]. unfold vec_lt in H. cbn [combine forallb fst snd] in H. apply andb_prop in H. destruct H as [H1 H2].
    destruct k as [|k]; [|apply (IH b); [now inversion E|exact B|exact H2|cbn in K; lia]].
    cbn. rewrite (ol_le _ _ L) in H1 by assumption. now rewrite negb_involutive in H1.
  Qed.

  (** ** Integrator *)
  Lemma vi_elt n k s is : (k < n)%nat -> sized n (vi_prev s) -> length (vi_hi s) = n -> length (vi_lo s) = n ->
    Forall (fun p => sized n (snd p)) is ->
    (forall j, (j < n)%nat -> unlimited N (integ_at N j s) (map (fun p => (fst p, at_ N j (snd p))) is)) ->
    map (at_ N k) (snd (vi_runs N s is)) = outs (fun a p => i_run N a (fst p) (snd p)) (integ_at N k s) (map (fun p => (fst p, at_ N k (snd p))) is).
  Proof.
    intros K. revert s. induction is as [|[l i] is IH]; intros s S H O F U; [reflexivity|].
    pose proof (Forall_inv F) as Hi. pose proof (Forall_inv_tail F) as F'. cbn [snd] in Hi. unfold sized in *.
    assert (St : forall j, (j < n)%nat -> i_run N (integ_at N j s) l (at_ N j i) = (integ_at N j (fst (vi_run N s l i)), at_ N j (snd (vi_run N s l i)))).
    { intros j J.
      assert (E : (if match l with Some b => b | None => vi_en s end then
          (if nltb N (nadd N (el j (sv (vi_prev s))) (nmul N (el j (sv i)) (if vi_first s then nofZ N 0 else nsub N (secs N (st i)) (secs N (st (vi_prev s))))) ) (el j (vi_hi s)) &&
            nltb N (el j (vi_lo s)) (nadd N (el j (sv (vi_prev s))) (nmul N (el j (sv i)) (if vi_first s then nofZ N 0 else nsub N (secs N (st i)) (secs N (st (vi_prev s))))))
           then nadd N (el j (sv (vi_prev s))) (nmul N (el j (sv i)) (if vi_first s then nofZ N 0 else nsub N (secs N (st i)) (secs N (st (vi_prev s))))) else el j (sv (vi_prev s)))
          else el j (sv (vi_prev s))) = el j (sv (snd (vi_run N s l i)))).
      { unfold vi_run. cbn [snd sv]. destruct (match l with Some b => b | None => vi_en s end) eqn:En; [|reflexivity].
        set (dt := if vi_first s then nofZ N 0 else nsub N (secs N (st i)) (secs N (st (vi_prev s)))).
        assert (LV : length (vadd N (sv (vi_prev s)) (vscale N (sv i) dt)) = n).
        { unfold vadd, vscale. rewrite len_map2 by (rewrite map_length; lia). lia. }
        assert (EV : forall q, (q < n)%nat -> el q (vadd N (sv (vi_prev s)) (vscale N (sv i) dt)) = nadd N (el q (sv (vi_prev s))) (nmul N (el q (sv i)) dt)).
        { intros q Q. unfold vadd, vscale. rewrite elt_map2 by (rewrite ?map_length; lia). now rewrite elt_map by lia. }
        assert (W : forall q, (q < n)%nat -> nltb N (nadd N (el q (sv (vi_prev s))) (nmul N (el q (sv i)) dt)) (el q (vi_hi s)) = true /\
                                        nltb N (el q (vi_lo s)) (nadd N (el q (sv (vi_prev s))) (nmul N (el q (sv i)) dt)) = true).
        { intros q Q. destruct (U q Q) as [Uq _]. exact (Uq En). }
        rewrite (proj1 (W j J)), (proj2 (W j J)). cbn [andb].
        rewrite vec_lt_all by (rewrite ?LV; try congruence; intros q Q; rewrite EV by exact Q; now apply W).
        rewrite vec_gt_lt by congruence.
        rewrite vec_lt_all by (rewrite ?LV; try congruence; intros q Q; rewrite O in Q; rewrite EV by exact Q; now apply W).
        cbn [andb]. now rewrite EV. }
      unfold i_run. cbn [integ_at i_first i_en i_prev i_hi i_lo at_ sv st]. cbv zeta. rewrite E. reflexivity. }
    cbn [map outs vi_runs fst snd].
    rewrite (St k K).
    destruct (vi_run N s l i) as [s1 y] eqn:R. destruct (vi_runs N s1 is) as [s2 ys] eqn:Rs.
    cbn [fst snd map]. f_equal. change ys with (snd (s2, ys)). rewrite <- Rs.
    apply IH.
    - apply (f_equal fst) in R. cbn [fst] in R. subst s1. unfold vi_run. cbn [fst vi_prev sv].
      assert (LV : forall dt, length (vadd N (sv (vi_prev s)) (vscale N (sv i) dt)) = n).
      { intros dt. unfold vadd, vscale. rewrite len_map2 by (rewrite map_length; lia). lia. }
      repeat match goal with |- context [if ?b then _ else _] => destruct b end; solve [apply LV|assumption].
    - apply (f_equal fst) in R. cbn [fst] in R. now subst s1.
    - apply (f_equal fst) in R. cbn [fst] in R. now subst s1.
    - exact F'.
    - intros j J. destruct (U j J) as [_ Uj]. cbn [fst snd] in Uj. rewrite (St j J) in Uj. exact Uj.
  Qed.

  Lemma vec_lt_some a b k : length b = length a -> (k < length a)%nat -> nleb N (el k b) (el k a) = true -> vec_lt N a b = false.
  Proof.
    revert b k. induction a as [|x a IH]; intros [|y b] k E K H; try discriminate; [inversion K|]. unfold vec_lt. cbn [combine forallb fst snd].
    destruct k as [|k]; [cbn in H; now rewrite H|].
    fold (vec_lt N a b). rewrite (IH b k); [apply andb_false_r|now inversion E|cbn in K; lia|exact H].
  Qed.
  Lemma vi_limit_in n s hi lo : (0 < n)%nat -> sized n (vi_prev s) -> length hi = n -> length lo = n ->
    Forall ok (sv (vi_prev s)) -> Forall ok hi -> Forall ok lo ->
    (forall k, (k < n)%nat -> nltb N (el k hi) (el k lo) = false) ->
    let v := sv (vi_prev s) in
    (forall k, (k < n)%nat -> nltb N (el k hi) (el k v) = true) \/ (forall k, (k < n)%nat -> nltb N (el k v) (el k lo) = true) \/
    (forall k, (k < n)%nat -> nltb N (el k hi) (el k v) = false /\ nltb N (el k v) (el k lo) = false) ->
    forall k, (k < n)%nat -> el k (sv (vi_prev (vi_limit N s hi lo))) = sat_calc N (el k lo) (el k hi) (el k v).
  Proof.
    intros P S H O Fv Fh Fl HL v C k K. unfold sized in S. fold v in S, Fv. unfold vi_limit. cbn [vi_prev sv]. fold v.
    assert (okv : forall q, (q < n)%nat -> ok (el q v)) by (intros q Q; rewrite Forall_forall in Fv; apply Fv, nth_In; lia).
    assert (okh : forall q, (q < n)%nat -> ok (el q hi)) by (intros q Q; rewrite Forall_forall in Fh; apply Fh, nth_In; lia).
    assert (okl : forall q, (q < n)%nat -> ok (el q lo)) by (intros q Q; rewrite Forall_forall in Fl; apply Fl, nth_In; lia).
    rewrite vec_gt_lt by congruence. unfold sat_calc. destruct C as [C|[C|C]].
    - rewrite (vec_lt_all hi v) by (try congruence; intros q Q; apply C; lia).
      assert (A : forall q, (q < n)%nat -> nltb N (el q v) (el q lo) = false).
      { intros q Q. destruct (nltb N (el q v) (el q lo)) eqn:E; [|reflexivity].
        pose proof (ol_trans _ _ L _ _ _ (C q Q) E) as T. now rewrite (HL q Q) in T. }
      rewrite (vec_lt_some v lo 0) by (try congruence; try lia; rewrite (ol_le _ _ L) by auto; now rewrite A).
      now rewrite (C k K), (A k K).
    - rewrite (vec_lt_all v lo) by (try congruence; intros q Q; apply C; lia). now rewrite (C k K).
    - rewrite (vec_lt_some hi v 0) by (try congruence; try lia; rewrite (ol_le _ _ L) by auto; now rewrite (proj1 (C _ P))).
      rewrite (vec_lt_some v lo 0) by (try congruence; try lia; rewrite (ol_le _ _ L) by auto; now rewrite (proj2 (C _ P))).
      now rewrite (proj1 (C k K)), (proj2 (C k K)).
  Qed.

  (** ** Switch *)
  Lemma vsw_iff n level delta x : length x = n -> length level = n -> length delta = n ->
    Forall ok x -> Forall ok (vadd N level delta) -> Forall ok (vsub N level delta) ->
    vsw_cond N level delta x = true <->
    forall k, (k < n)%nat -> nltb N (el k x) (nadd N (el k level) (el k delta)) = true /\ nltb N (nsub N (el k level) (el k delta)) (el k x) = true.
  Proof.
    intros X LL D Fx Fa Fs. unfold vsw_cond.
    assert (LA : length (vadd N level delta) = n) by (unfold vadd; rewrite len_map2; lia).
    assert (LS : length (vsub N level delta) = n) by (unfold vsub; rewrite len_map2; lia).
    rewrite vec_gt_lt by congruence. rewrite andb_true_iff, !vec_lt_iff by (try congruence; assumption). rewrite X, LS. split.
    - intros [A B] k K. specialize (A k K). specialize (B k K). unfold vadd in A. unfold vsub in B.
      rewrite elt_map2 in A by lia. rewrite elt_map2 in B by lia. now split.
    - intros H. split; intros k K; unfold vadd, vsub; rewrite elt_map2 by lia; now apply H.
  Qed.

  (** ** Median *)
  Lemma weak_irr l a : weak_order N (vec_lt N) l = true -> In a l -> vec_lt N a a = false.
  Proof.
    unfold weak_order. intros W I. rewrite forallb_forall in W. specialize (W a I). apply andb_prop in W. destruct W as [W _].
    now apply negb_true_iff in W.
  Qed.
  Lemma filter_none {A : Type} (p : A -> bool) l : (forall x, In x l -> p x = false) -> filter p l = [].
  Proof. induction l as [|x l IH]; intros H; [reflexivity|]. cbn. rewrite H by now left. apply IH. intros; apply H; now right. Qed.
  Lemma filter_len {A : Type} (p : A -> bool) l : (length (filter p l) <= length l)%nat.
  Proof. induction l as [|x l IH]; [reflexivity|]. cbn. destruct (p x); cbn; lia. Qed.
  Lemma filter_perm {A : Type} (p : A -> bool) l l' : Permutation l l' -> length (filter p l) = length (filter p l').
  Proof. induction 1 as [|x l l' H IH|x y l|l1 l2 l3 H1 I1 H2 I2]; [reflexivity|cbn; destruct (p x); cbn; congruence|cbn; destruct (p x), (p y); reflexivity|congruence]. Qed.
  Lemma median_ranked sort l : sorts N sort -> weak_order N (vec_lt N) l = true -> l <> [] ->
    ranked N l (length l / 2) (nth (length l / 2) (sort l) []).
  Proof.
    intros So W NE. destruct (So l W) as [P O]. set (r := (length l / 2)%nat). set (s := sort l) in *. set (o := nth r s []).
    assert (Ls : length s = length l) by (symmetry; now apply Permutation_length).
    assert (Rl : (r < length l)%nat).
    { unfold r. apply Nat.div_lt; [destruct l; [congruence|cbn; lia]|lia]. }
    assert (Io : In o l).
    { apply (Permutation_in o (Permutation_sym P)). apply nth_In. lia. }
    assert (Irr : vec_lt N o o = false) by now apply (weak_irr l).
    split; [exact Io|]. split.
    - rewrite (filter_perm _ _ _ P). rewrite <- (firstn_skipn r s). rewrite filter_app, app_length.
      rewrite (filter_none _ (skipn r s)).
      + cbn [length]. pose proof (filter_len (fun x => vec_lt N x o) (firstn r s)). rewrite firstn_length in H. lia.
      + intros x I. destruct (In_nth _ _ [] I) as (j & J & <-). rewrite skipn_length in J.
        assert (E : nth j (skipn r s) [] = nth (r + j) s []).
        { rewrite <- (firstn_skipn r s) at 2. rewrite app_nth2 by (rewrite firstn_length; lia). f_equal. rewrite firstn_length. lia. }
        rewrite E. destruct j as [|j]; [rewrite Nat.add_0_r; exact Irr|]. apply O. lia.
    - rewrite (filter_perm _ _ _ P). rewrite <- (firstn_skipn (S r) s). rewrite filter_app, app_length.
      rewrite (filter_none _ (firstn (S r) s)).
      + cbn [length]. pose proof (filter_len (fun x => vec_lt N o x) (skipn (S r) s)). rewrite skipn_length in H. lia.
      + intros x I. destruct (In_nth _ _ [] I) as (j & J & <-). rewrite firstn_length in J.
        assert (E : nth j (firstn (S r) s) [] = nth j s []).
        { rewrite <- (firstn_skipn (S r) s) at 2. rewrite app_nth1 by (rewrite firstn_length; lia). reflexivity. }
        rewrite E. assert (D : j = r \/ (j < r)%nat) by lia. destruct D as [->|D]; [exact Irr|]. apply O. lia.
  Qed.

  Lemma lt1 x y : ok x -> ok y -> vec_lt N [x] [y] = nltb N x y.
  Proof. intros X Y. unfold vec_lt. cbn. rewrite (ol_le _ _ L) by assumption. now rewrite negb_involutive, andb_true_r. Qed.
  Lemma weak_one l : Forall (fun v => exists x, v = [x] /\ ok x) l -> weak_order N (vec_lt N) l = true.
  Proof.
    intros F. rewrite Forall_forall in F. unfold weak_order.
    apply forallb_forall. intros a A. destruct (F a A) as (x & -> & X).
    rewrite lt1 by assumption. rewrite (ol_irr _ _ L). cbn [negb andb].
    apply forallb_forall. intros b B. destruct (F b B) as (y & -> & Y). rewrite !lt1 by assumption.
    apply andb_true_intro. split.
    { destruct (nltb N x y) eqn:E1, (nltb N y x) eqn:E2; try reflexivity.
      pose proof (ol_trans _ _ L _ _ _ E1 E2) as E. now rewrite (ol_irr _ _ L) in E. }
    apply forallb_forall. intros c C. destruct (F c C) as (z & -> & Z). rewrite !lt1 by assumption.
    destruct (nltb N x z) eqn:E; [|cbn [negb]; rewrite orb_true_r, andb_true_r, orb_false_r; destruct (nltb N x y) eqn:E1, (nltb N y z) eqn:E2; try reflexivity; rewrite (ol_trans _ _ L _ _ _ E1 E2) in E; discriminate].
    rewrite orb_true_r. cbn [andb orb]. rewrite orb_false_r.
    destruct (ol_neg _ _ L x y z Y E) as [A1|A1]; rewrite A1; cbn; rewrite ?andb_false_r; reflexivity.
  Qed.

  (** ** Off-range checker *)
  Lemma sc_off lo hi x : ok lo -> ok hi -> ok x -> neqb N x lo = false -> neqb N x hi = false ->
    sc_violated N true lo hi x = negb (nltb N x lo || nltb N hi x).
  Proof.
    intros A B C E1 E2. rewrite (ol_eq _ _ L) in E1, E2 by assumption. unfold sc_violated, within.
    assert (G : forall a b, nltb N a b = true -> nltb N b a = false).
    { intros a b H. destruct (nltb N b a) eqn:Q; [|reflexivity]. pose proof (ol_trans _ _ L _ _ _ H Q) as I. now rewrite (ol_irr _ _ L) in I. }
    pose proof (G lo x). pose proof (G x lo). pose proof (G hi x). pose proof (G x hi).
    destruct (nltb N lo x), (nltb N x lo), (nltb N hi x), (nltb N x hi); cbn in *; try reflexivity; intuition congruence.
  Qed.
End Ord.

(** ** Witnesses *)
Ltac rcmp := repeat (first [rewrite Rle_bool_true by lra | rewrite Rle_bool_false by lra | rewrite Rlt_bool_true by lra | rewrite Rlt_bool_false by lra]).

Lemma vi_keep (N : num) s i : vi_en s = true -> vi_first s = false ->
  vec_lt N (vadd N (sv (vi_prev s)) (vscale N (sv i) (nsub N (secs N (st i)) (secs N (st (vi_prev s)))))) (vi_hi s) = false ->
  vi_run N s None i = ({| vi_first := false; vi_en := true; vi_prev := mksig (sv (vi_prev s)) (st i); vi_hi := vi_hi s; vi_lo := vi_lo s |},
                       mksig (sv (vi_prev s)) (st i)).
Proof. intros E F H. unfold vi_run. rewrite E, F, H. reflexivity. Qed.
Lemma secs_step a d : (secs Rnum (a + d) - secs Rnum a)%R = (IZR d / 1000000000)%R.
Proof. cbn. rewrite plus_IZR. lra. Qed.

(** An integrator of two elements. *)
Definition integ2 (p h l : R * R) (t : Z) : vinteg Rnum :=
  {| vi_first := false; vi_en := true; vi_prev := mksig [fst p; snd p] t; vi_hi := [fst h; snd h]; vi_lo := [fst l; snd l] |}.
Lemma integ2_stuck p h l u d : (fst h <= fst p + fst u * (IZR d / 1000000000))%R -> forall m t,
  Forall (fun o : signal (list Rnum) => sv o = [fst p; snd p]) (snd (vi_runs Rnum (integ2 p h l (Z.of_nat t * d)) (map (steady u d) (seq t m)))).
Proof.
  intros H. induction m as [|m IH]; intros t; [constructor|]. cbn [seq map vi_runs]. unfold steady at 1.
  rewrite vi_keep; [|reflexivity|reflexivity|].
  - cbn [integ2 vi_prev sv st vi_hi vi_lo]. specialize (IH (S t)). unfold integ2 in IH.
    destruct (vi_runs Rnum _ (map (steady u d) (seq (S t) m))) as [s2 ys]. cbn [snd] in *. constructor; [reflexivity|exact IH].
  - cbn [integ2 vi_prev sv st vi_hi]. change (nsub Rnum) with Rminus.
    replace (Z.of_nat (S t) * d) with (Z.of_nat t * d + d) by lia. rewrite secs_step.
    unfold vec_lt, vadd, vscale, map2. cbn [map combine forallb fst snd nleb nadd nmul Rnum].
    rewrite (Rle_bool_true (fst h)) by exact H. reflexivity.
Qed.

(** ** Gains *)
Definition gain2 (g mx mn tg df : R * R) : vgain Rnum :=
  {| vg_gain := [fst g; snd g]; vg_max := [fst mx; snd mx]; vg_min := [fst mn; snd mn]; vg_target := [fst tg; snd tg];
     vg_diff := [fst df; snd df]; vg_en := true; vg_smooth := true |}.
Lemma vg_fix (N : num) s : vg_adapt N s = vg_gain s -> forall is, fst (vg_runs N s is) = s.
Proof.
  intros E. induction is as [|i is IH]; [reflexivity|]. cbn [vg_runs].
  assert (F : vg_run N s i = (s, snd (vg_run N s i))) by (unfold vg_run; cbn [snd]; rewrite E; destruct s; reflexivity).
  rewrite F. destruct (vg_runs N s is) as [s2 ys]. exact IH.
Qed.
Lemma vlt2 (a b : R * R) : vec_lt Rnum [fst a; snd a] [fst b; snd b] = negb (Rle_bool (fst b) (fst a)) && negb (Rle_bool (snd b) (snd a)).
Proof. unfold vec_lt. cbn. now rewrite andb_true_r. Qed.
Lemma vgt2 (a b : R * R) : vec_gt Rnum [fst a; snd a] [fst b; snd b] = negb (Rle_bool (fst a) (fst b)) && negb (Rle_bool (snd a) (snd b)).
Proof. unfold vec_gt. cbn. now rewrite andb_true_r. Qed.
Lemma gain2_fix g mx mn tg df :
  (fst tg <= fst g)%R \/ (snd tg <= snd g)%R -> (fst g <= fst tg)%R \/ (snd g <= snd tg)%R ->
  (fst g <= fst mx)%R \/ (snd g <= snd mx)%R -> (fst mn <= fst g)%R \/ (snd mn <= snd g)%R ->
  vg_adapt Rnum (gain2 g mx mn tg df) = vg_gain (gain2 g mx mn tg df).
Proof.
  intros A B C D. unfold vg_adapt. cbn [gain2 vg_gain vg_max vg_min vg_target vg_diff vg_smooth].
  assert (E1 : vec_lt Rnum [fst g; snd g] [fst tg; snd tg] = false).
  { rewrite vlt2. destruct A as [A|A]; rewrite (Rle_bool_true _ _ A); cbn; [reflexivity|apply andb_false_r]. }
  assert (E2 : vec_gt Rnum [fst g; snd g] [fst tg; snd tg] = false).
  { rewrite vgt2. destruct B as [A0|A0]; rewrite (Rle_bool_true _ _ A0); cbn; [reflexivity|apply andb_false_r]. }
  assert (E3 : vec_gt Rnum [fst g; snd g] [fst mx; snd mx] = false).
  { rewrite vgt2. destruct C as [A0|A0]; rewrite (Rle_bool_true _ _ A0); cbn; [reflexivity|apply andb_false_r]. }
  assert (E4 : vec_lt Rnum [fst g; snd g] [fst mn; snd mn] = false).
  { rewrite vlt2. destruct D as [A0|A0]; rewrite (Rle_bool_true _ _ A0); cbn; [reflexivity|apply andb_false_r]. }
  rewrite E1, E2, E3, E4. reflexivity.
Qed.

Lemma lt_rep n (a b : R) : (0 < n)%nat -> vec_lt Rnum (repeat a n) (repeat b n) = nltb Rnum a b.
Proof.
  intros P. change (nltb Rnum a b) with (Rlt_bool a b). rewrite <- negb_Rlt_bool. destruct n as [|n]; [lia|]. clear P.
  induction n as [|n IH]; unfold vec_lt in *; cbn in *; [apply andb_true_r|]. rewrite IH. now destruct (Rle_bool b a).
Qed.
Lemma gt_rep n (a b : R) : (0 < n)%nat -> vec_gt Rnum (repeat a n) (repeat b n) = nltb Rnum b a.
Proof. intros P. rewrite vec_gt_lt by now rewrite !repeat_length. now apply lt_rep. Qed.
Lemma map2_rep f n (a b : R) : map2 Rnum f (repeat a n) (repeat b n) = repeat (f a b) n.
Proof. unfold map2. induction n as [|n IH]; cbn; [reflexivity|]. f_equal. exact IH. Qed.
Lemma if_rep (c : bool) n (a b : R) : (if c then repeat a n else repeat b n) = repeat (if c then a else b) n.
Proof. now destruct c. Qed.
Lemma adapt_rep n (s : vgain Rnum) g : (0 < n)%nat -> uniform n s g -> vg_adapt Rnum s = repeat (g_adapt Rnum g) n.
Proof.
  intros P (G & M & Mi & T & D & E & S). unfold vg_adapt, g_adapt. rewrite G, M, Mi, T, D, S. cbv zeta.
  unfold vadd, vsub. rewrite !map2_rep. destruct (g_smooth g);
  repeat (rewrite ?lt_rep, ?gt_rep, ?if_rep, ?map2_rep by exact P); reflexivity.
Qed.
Lemma uniform_run n s g i : (0 < n)%nat -> uniform n s g -> uniform n (fst (vg_run Rnum s i)) (fst (g_run Rnum g (mksig 0%R 0))).
Proof.
  intros P U. pose proof (adapt_rep n s g P U) as A. destruct U as (G & M & Mi & T & D & E & S).
  unfold vg_run, g_run, g_with, uniform. cbn [fst vg_gain vg_max vg_min vg_target vg_diff vg_en vg_smooth g_gain g_max g_min g_target g_diff g_en g_smooth].
  repeat split; assumption.
Qed.
Lemma uniform_outs n k : (k < n)%nat -> forall is s g, uniform n s g -> Forall (sized n) is ->
  map (at_ Rnum k) (outs (vg_run Rnum) s is) = outs (g_run Rnum) g (map (at_ Rnum k) is).
Proof.
  intros K is s g U F.
  apply (outs_sim (vg_run Rnum) (g_run Rnum) (at_ Rnum k) (at_ Rnum k) (fun s g => uniform n s g) (sized n)); [|exact U|exact F].
  clear is s g U F. intros s g i U Hi. split.
  - apply (uniform_run n s g i); [lia|exact U].
  - pose proof (adapt_rep n s g ltac:(lia) U) as A. destruct U as (G & M & Mi & T & D & E & S).
    unfold vg_run, g_run, g_with, at_. cbn [snd sv st g_gain g_en]. rewrite E, A. f_equal. destruct (g_en g); [|reflexivity].
    unfold vmul. rewrite elt_map2; [|rewrite Hi; exact K|rewrite repeat_length; symmetry; exact Hi].
    change (repeat (g_adapt Rnum g) n) with (vfill Rnum n (g_adapt Rnum g)). rewrite elt_fill by exact K. cbn. apply Rmult_comm.
Qed.

(** ** Parabolic characteristic *)
Lemma parab_one c p x k : (k < length x)%nat -> length p = length x ->
  exists y, vparabolic (GOne c) p x = Ok y /\ length y = length x /\ nth k y 0%R = parabolic c (nth k p 0%R) (nth k x 0%R).
Proof.
  intros K E. eexists. split; [reflexivity|]. split; [rewrite map_length, combine_length; lia|].
  rewrite (nth_map_combine _ p x k 0%R 0%R) by lia. reflexivity.
Qed.
Lemma parab_each c p x k : (k < length x)%nat -> length p = length x -> length c = length x ->
  exists y, vparabolic (GEach c) p x = Ok y /\ length y = length x /\ nth k y 0%R = parabolic (nth k c 0%R) (nth k p 0%R) (nth k x 0%R).
Proof.
  intros K E E'. eexists. split; [reflexivity|]. split; [rewrite map_length, !combine_length; lia|].
  rewrite (nth_map_combine _ c (combine p x) k 0%R (0%R, 0%R)) by (rewrite ?combine_length; lia). rewrite combine_nth by exact E. reflexivity.
Qed.

(** ** Norms *)
Lemma fold_sumsq : forall v a, fold_left (fun a x => a + x * x)%R v a = (a + sumsq v)%R.
Proof. induction v as [|x v IH]; intros a; cbn; [lra|]. rewrite IH. fold (sumsq v). lra. Qed.
Lemma sumsq_pos v : (0 <= sumsq v)%R.
Proof. induction v as [|x v IH]; cbn; [lra|]. fold (sumsq v). pose proof (Rle_0_sqr x). unfold Rsqr in *. lra. Qed.
Lemma Rnorm_sq v : Rnorm v = sqrt (sumsq v).
Proof. unfold Rnorm. rewrite fold_sumsq. f_equal. lra. Qed.
Lemma Rnorm_square v : (Rnorm v * Rnorm v = sumsq v)%R.
Proof. rewrite Rnorm_sq. apply sqrt_sqrt, sumsq_pos. Qed.
Lemma Rnorm_nonneg v : (0 <= Rnorm v)%R.
Proof. apply sqrt_pos. Qed.
Lemma sumsq_in v x : In x v -> (x * x <= sumsq v)%R.
Proof.
  induction v as [|y v IH]; intros []; cbn; fold (sumsq v).
  - subst. pose proof (sumsq_pos v). lra.
  - specialize (IH H). pose proof (Rle_0_sqr y). unfold Rsqr in *. lra.
Qed.
Lemma Rnorm_elem v x : In x v -> (Rabs x <= Rnorm v)%R.
Proof. intros I. rewrite Rnorm_sq, <- sqrt_Rsqr_abs. apply sqrt_le_1_alt. unfold Rsqr. now apply sumsq_in. Qed.
Lemma Rnorm_zero v : Rnorm v = 0%R <-> Forall (fun x => x = 0%R) v.
Proof.
  split.
  - intros H. apply Forall_forall. intros x I. pose proof (Rnorm_elem v x I) as A. rewrite H in A. pose proof (Rabs_pos x).
    destruct (Req_dec x 0) as [|NE]; [assumption|]. pose proof (Rabs_pos_lt x NE). lra.
  - intros F. rewrite Rnorm_sq. replace (sumsq v) with 0%R; [apply sqrt_0|]. induction F as [|x v X F IH]; cbn; [reflexivity|]. fold (sumsq v). rewrite <- IH. subst. lra.
Qed.
Lemma Rnorm_scale c v : Rnorm (map (Rmult c) v) = (Rabs c * Rnorm v)%R.
Proof.
  rewrite !Rnorm_sq. replace (sumsq (map (Rmult c) v)) with (c * c * sumsq v)%R.
  - rewrite sqrt_mult_alt by apply (Rle_0_sqr c). f_equal. apply (sqrt_Rsqr_abs c).
  - induction v as [|x v IH]; cbn; [lra|]. fold (sumsq v) (sumsq (map (Rmult c) v)). rewrite <- IH. lra.
Qed.

Lemma nan_add_l x : nadd Dnum S754_nan x = S754_nan.
Proof. reflexivity. Qed.
Lemma nan_add_r x : nadd Dnum x S754_nan = S754_nan.
Proof. destruct x as [s|s| |s m e]; reflexivity. Qed.
Lemma nan_fold v : fold_left (fun a x => nadd Dnum a (nmul Dnum x x)) v S754_nan = S754_nan.
Proof. induction v as [|x v IH]; [reflexivity|]. cbn [fold_left]. rewrite nan_add_l. exact IH. Qed.
Lemma nan_in : forall v a, In S754_nan v -> fold_left (fun a x => nadd Dnum a (nmul Dnum x x)) v a = S754_nan.
Proof.
  induction v as [|x v IH]; intros a []; cbn [fold_left].
  - subst x. change (nmul Dnum S754_nan S754_nan) with S754_nan. rewrite nan_add_r. apply nan_fold.
  - now apply IH.
Qed.
Lemma nan_norm lo hi v : In S754_nan v -> norm_exceeded lo hi v = true.
Proof.
  intros I. unfold norm_exceeded, dnorm. rewrite nan_in by exact I. unfold within. cbn.
  unfold SFltb. destruct lo; reflexivity.
Qed.

(** ** Concrete witnesses *)
Lemma i_go (p q h l : R) t t' (u : R) : (p + u * (IZR t' / 1000000000 - IZR t / 1000000000) = q)%R -> (q < h)%R -> (l < q)%R ->
  i_run Rnum {| i_first := false; i_en := true; i_prev := mksig p t; i_hi := h; i_lo := l |} None (mksig u t') =
  ({| i_first := false; i_en := true; i_prev := mksig q t'; i_hi := h; i_lo := l |}, mksig q t').
Proof.
  intros <- H L. unfold i_run. cbn [i_first i_en i_prev i_hi i_lo sv st]. unfold secs. cbn [nsub nadd nmul ndiv nofZ nltb Rnum].
  rewrite (Rlt_bool_true _ _ H), (Rlt_bool_true _ _ L). reflexivity.
Qed.
Lemma freeze_wit : exists s u d, (sized 2 (vi_prev s) /\ length (vi_hi s) = 2%nat /\ length (vi_lo s) = 2%nat) /\
  (forall m, Forall (fun o : signal (list Rnum) => elt Rnum 1 (sv o) = 0%R) (snd (vi_runs Rnum s (map (steady u d) (seq 0 m))))) /\
  map sv (outs (fun a p => i_run Rnum a (fst p) (snd p)) (integ_at Rnum 1 s) (map (fun p => (fst p, at_ Rnum 1 (snd p))) (map (steady u d) (seq 0 2)))) = [1; 2]%R.
Proof.
  exists (integ2 (1/2, 0)%R (1, 10)%R (-1, -10)%R 0), (1, 1)%R, 1000000000. split; [now repeat split|]. split.
  - intros m. pose proof (integ2_stuck (1/2, 0)%R (1, 10)%R (-1, -10)%R (1, 1)%R 1000000000 ltac:(cbn; lra) m 0) as H.
    eapply Forall_impl; [|exact H]. intros o E. exact (f_equal (fun v => nth 1 v 0%R) E).
  - change (map sv (outs (fun a p => i_run Rnum a (fst p) (snd p)) {| i_first := false; i_en := true; i_prev := mksig 0%R 0; i_hi := 10%R; i_lo := (-10)%R |}
      [(None, mksig 1%R 1000000000); (None, mksig 1%R 2000000000)]) = [1; 2]%R).
    cbn [outs fst snd]. rewrite (i_go 0 1 10 (-10) 0 1000000000 1) by lra. rewrite (i_go 1 2 10 (-10) 1000000000 2000000000 1) by lra. reflexivity.
Qed.
Lemma limit_wit : exists s hi lo u d, (sized 2 (vi_prev s) /\ hi = [1; 1]%R /\ lo = [-1; -1]%R /\ fst u = (-1)%R /\ snd u = (-1)%R /\ d = 1000000) /\
  forall m, Forall (fun o : signal (list Rnum) => elt Rnum 0 (sv o) = 5%R) (snd (vi_runs Rnum (vi_limit Rnum s hi lo) (map (steady u d) (seq 0 m)))).
Proof.
  exists (integ2 (5, 0)%R (10, 10)%R (-10, -10)%R 0), [1; 1]%R, [-1; -1]%R, (-1, -1)%R, 1000000. split; [now repeat split|].
  intros m.
  replace (vi_limit Rnum (integ2 (5, 0)%R (10, 10)%R (-10, -10)%R 0) [1; 1]%R [-1; -1]%R) with (integ2 (5, 0)%R (1, 1)%R (-1, -1)%R (Z.of_nat 0 * 1000000)).
  - eapply Forall_impl; [|apply (integ2_stuck (5, 0)%R (1, 1)%R (-1, -1)%R (-1, -1)%R 1000000); cbn; lra].
    intros o E. exact (f_equal (fun v => nth 0 v 0%R) E).
  - unfold vi_limit, integ2. cbn [vi_first vi_en vi_prev vi_hi vi_lo sv st fst snd].
    unfold vec_gt, vec_lt. cbn [combine forallb fst snd nleb Rnum].
    rewrite (Rle_bool_false 5 1), (Rle_bool_true 0 1), (Rle_bool_true (-1) 5) by lra. reflexivity.
Qed.

Lemma gain_stuck_wit : exists s c, vg_sized 2 s /\ vg_smooth s = true /\ Forall (fun d => d > 0)%R (vg_diff s) /\
  vg_target (vg_set Rnum s c) = c /\ forall is, vg_gain (fst (vg_runs Rnum (vg_set Rnum s c) is)) = vg_gain s /\ elt Rnum 1 (vg_gain s) <> elt Rnum 1 c.
Proof.
  exists (gain2 (1, 0)%R (9, 9)%R (-9, -9)%R (1, 0)%R (1, 1)%R), [1; 1]%R.
  assert (E : vg_set Rnum (gain2 (1, 0)%R (9, 9)%R (-9, -9)%R (1, 0)%R (1, 1)%R) [1; 1]%R = gain2 (1, 0)%R (9, 9)%R (-9, -9)%R (1, 1)%R (1, 1)%R).
  { unfold vg_set, vec_le, vec_ge. cbn [gain2 vg_max vg_min vg_smooth combine forallb fst snd nltb Rnum].
    rewrite (Rlt_bool_false 9 1), (Rlt_bool_false 1 (-9)) by lra. reflexivity. }
  rewrite E. split; [now repeat split|]. split; [reflexivity|]. split; [cbn; repeat constructor; lra|]. split; [reflexivity|].
  intros is. rewrite vg_fix by (apply gain2_fix; cbn; lra). split; [reflexivity|]. cbn. lra.
Qed.
Lemma gain_limit_wit : exists s, vg_sized 2 s /\
  forall is, vg_gain (fst (vg_runs Rnum s is)) = [5; 1/2]%R /\ vg_max s = [1; 1]%R.
Proof.
  exists (gain2 (5, 1/2)%R (1, 1)%R (-1, -1)%R (5, 1/2)%R (1, 1)%R). split; [now repeat split|].
  intros is. rewrite vg_fix by (apply gain2_fix; cbn; lra). now split.
Qed.
Lemma gain_over_wit : exists s i, vg_sized 2 s /\ vg_gain s = [0; 0]%R /\ vg_target s = [1; 10]%R /\
  forall is, vg_gain (fst (vg_runs Rnum s (i :: is))) = [2; 1]%R.
Proof.
  exists (gain2 (0, 0)%R (99, 99)%R (-99, -99)%R (1, 10)%R (2, 1)%R), (mksig [0; 0]%R 0). split; [now repeat split|]. split; [reflexivity|]. split; [reflexivity|].
  intros is. cbn [vg_runs].
  assert (E : vg_adapt Rnum (gain2 (0, 0)%R (99, 99)%R (-99, -99)%R (1, 10)%R (2, 1)%R) = [2; 1]%R).
  { unfold vg_adapt. cbn [gain2 vg_gain vg_max vg_min vg_target vg_diff vg_smooth fst snd].
    unfold vec_lt, vec_gt, vadd, vsub, map2. cbn [combine forallb map fst snd nleb nadd nsub Rnum].
    rewrite (Rle_bool_false 1 0), (Rle_bool_false 10 0) by lra. cbn [negb andb].
    replace (0 + 2)%R with 2%R by lra. replace (0 + 1)%R with 1%R by lra.
    rewrite (Rle_bool_false 2 1), (Rle_bool_true 1 10) by lra. cbn [negb andb combine forallb fst snd].
    rewrite (Rle_bool_false 2 1), (Rle_bool_true 1 10) by lra. cbn [negb andb combine forallb fst snd].
    rewrite (Rle_bool_true 2 99) by lra. cbn [negb andb combine forallb fst snd].
    rewrite (Rle_bool_true (-99) 2) by lra. reflexivity. }
  assert (F : fst (vg_run Rnum (gain2 (0, 0)%R (99, 99)%R (-99, -99)%R (1, 10)%R (2, 1)%R) (mksig [0; 0]%R 0)) = gain2 (2, 1)%R (99, 99)%R (-99, -99)%R (1, 10)%R (2, 1)%R).
  { unfold vg_run. cbn [fst]. rewrite E. reflexivity. }
  destruct (vg_run Rnum _ _) as [s1 y]. cbn [fst] in F. subst s1.
  assert (X : vg_adapt Rnum (gain2 (2, 1)%R (99, 99)%R (-99, -99)%R (1, 10)%R (2, 1)%R) = vg_gain (gain2 (2, 1)%R (99, 99)%R (-99, -99)%R (1, 10)%R (2, 1)%R))
    by (apply gain2_fix; cbn; lra).
  pose proof (vg_fix Rnum _ X is) as G.
  destruct (vg_runs Rnum _ is) as [s2 ys]. cbn [fst] in G |- *. now rewrite G.
Qed.

Lemma vme_ok (N : num) sort vals (i : signal (list N)) : sorts N sort ->
  let l := tl vals ++ [sv i] in weak_order N (vec_lt N) l = true ->
  exists o, vme_run N sort vals i = (l, Ok (mksig o (st i))) /\ ranked N l (length l / 2) o.
Proof.
  intros So l W. exists (nth (length l / 2) (sort l) []). split.
  - unfold vme_run. fold l. now rewrite W.
  - apply median_ranked; [exact So|exact W|]. unfold l. destruct (tl vals); discriminate.
Qed.
