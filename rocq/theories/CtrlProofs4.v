(** Proofs about the blocks of [CtrlModel2], part 2: filters, signal checker. *)
From Coq Require Import Reals Lra Lia Psatz Floats.SpecFloat Sorting.Permutation.
From Flocq Require Import Core.Raux.
From Verif Require Import Prelude Num NumOrd CtrlModel CtrlModel2 CtrlSpec2 CtrlProofs3.

Open Scope R_scope.
Lemma lp_smooth alpha (is : list (signal R)) : forall (s : lpf Rnum), lp_first s = false -> lp_en s = true -> lp_alpha s = alpha ->
  lp_runs Rnum s is = smooth alpha (lp_prev s) is.
Proof.
  induction is as [|i is IH]; intros s Hf He Ha; [reflexivity|].
  cbn [lp_runs smooth]. unfold lp_run. rewrite Hf, He, Ha.
  rewrite IH by reflexivity. cbn [lp_prev].
  match goal with |- mksig ?a _ :: _ = mksig ?b _ :: _ => assert (E : a = b) by (cbn; ring) end.
  f_equal; f_equal; exact E.
Qed.
Lemma lp_new_smooth nan alpha (i0 : signal R) is :
  lp_runs Rnum (lp_new Rnum nan alpha) (i0 :: is) = mksig (sv i0) (st i0) :: smooth alpha (sv i0) is.
Proof.
  cbn [lp_runs]. unfold lp_run, lp_new. cbn [lp_first lp_en lp_alpha].
  rewrite (lp_smooth alpha) by reflexivity. cbn [lp_prev].
  match goal with |- mksig ?a _ :: _ = mksig ?b _ :: _ => assert (E : a = b) by (cbn; ring) end.
  f_equal; f_equal; exact E.
Qed.
Lemma smooth_range alpha a b : 0 <= alpha <= 1 -> forall is p, a <= p <= b ->
  (forall i, In i is -> a <= sv i <= b) -> forall o, In o (smooth alpha p is) -> a <= sv o <= b.
Proof.
  intros Hal. induction is as [|i is IH]; intros p Hp Hi o Ho; [destruct Ho|].
  cbn [smooth] in Ho. pose proof (Hi i (or_introl eq_refl)) as Hx.
  assert (a <= alpha * sv i + (1 - alpha) * p <= b) as Hs by (split; nra).
  destruct Ho as [<-|Ho]; [exact Hs|]. eapply IH; [exact Hs| |exact Ho]. intros; apply Hi; now right.
Qed.
Lemma lp_range nan alpha a b (i0 : signal R) is : 0 <= alpha <= 1 ->
  (forall i, In i (i0 :: is) -> a <= sv i <= b) ->
  forall o, In o (lp_runs Rnum (lp_new Rnum nan alpha) (i0 :: is)) -> a <= sv o <= b.
Proof.
  intros Ha Hi o Ho. rewrite lp_new_smooth in Ho. pose proof (Hi i0 (or_introl eq_refl)).
  destruct Ho as [<-|Ho]; [exact H|]. eapply smooth_range; [exact Ha|exact H| |exact Ho].
  intros; apply Hi; now right.
Qed.
Lemma smooth_constant alpha v : forall is p, p = v -> (forall i, In i is -> sv i = v) ->
  forall o, In o (smooth alpha p is) -> sv o = v.
Proof.
  induction is as [|i is IH]; intros p Hp Hi o; [intros []|]. cbn [smooth].
  assert (E : alpha * sv i + (1 - alpha) * p = v) by (rewrite (Hi i (or_introl eq_refl)), Hp; ring).
  intros [<-|Ho]; [exact E|]. apply (IH _ E); [intros; apply Hi; now right|exact Ho].
Qed.
Lemma lp_constant nan alpha v (i0 : signal R) is : (forall i, In i (i0 :: is) -> sv i = v) ->
  forall o, In o (lp_runs Rnum (lp_new Rnum nan alpha) (i0 :: is)) -> sv o = v.
Proof.
  intros Hi o Ho. rewrite lp_new_smooth in Ho. pose proof (Hi i0 (or_introl eq_refl)) as H.
  destruct Ho as [<-|Ho]; [exact H|].
  apply (smooth_constant alpha v is (sv i0) H); [intros; apply Hi; now right|exact Ho].
Qed.

Open Scope nat_scope.
Lemma lastn_length {A : Type} n (l : list A) : n <= length l -> length (lastn n l) = n.
Proof. intros. unfold lastn. rewrite skipn_length. lia. Qed.
Lemma skipn_tl {A : Type} m (l : list A) : skipn (S m) l = tl (skipn m l).
Proof. revert l. induction m; intros [|y l]; cbn; auto. rewrite <- IHm. destruct l; reflexivity. Qed.
Lemma lastn_snoc {A : Type} n (l : list A) x : 0 < n -> n <= length l -> lastn n (l ++ [x]) = tl (lastn n l) ++ [x].
Proof.
  intros H1 H2. unfold lastn. rewrite app_length. cbn [length].
  replace (length l + 1 - n) with (S (length l - n)) by lia.
  rewrite skipn_app. replace (S (length l - n) - length l) with 0 by lia. cbn [skipn]. f_equal. apply skipn_tl.
Qed.
Lemma window_snoc (N : num) n (pre : list (signal N)) i : 0 < n -> window N n (pre ++ [i]) = tl (window N n pre) ++ [sv i].
Proof.
  intros H. unfold window. rewrite map_app, app_assoc. cbn [map]. apply lastn_snoc; [exact H|].
  rewrite app_length, repeat_length. lia.
Qed.
Lemma window_length (N : num) n (pre : list (signal N)) : length (window N n pre) = n.
Proof. apply lastn_length. rewrite app_length, repeat_length. lia. Qed.
Lemma window_nil (N : num) n : window N n [] = repeat (nofZ N 0) n.
Proof. unfold window, lastn. rewrite app_nil_r, repeat_length, Nat.sub_diag. reflexivity. Qed.

(** ** Moving average *)
Open Scope R_scope.
Lemma fold_dot (c x : list R) : forall a, fold_left (fun a p => a + fst p * snd p) (combine c x) a = a + dot c x.
Proof.
  revert x. induction c as [|c0 c IH]; intros [|x0 x] a; cbn; try ring. rewrite IH. cbn. ring.
Qed.
Lemma dot_app c1 c2 x1 x2 : length c1 = length x1 -> dot (c1 ++ c2) (x1 ++ x2) = dot c1 x1 + dot c2 x2.
Proof.
  revert x1. induction c1 as [|c0 c IH]; intros [|x0 x] H; try discriminate; cbn; [ring|].
  rewrite IH by (now injection H). ring.
Qed.
Lemma ma_result_dot (c sh : list R) x : length c = S (length sh) -> ma_result Rnum c sh x = dot c (sh ++ [x]).
Proof.
  intros H. unfold ma_result. cbn. rewrite fold_dot.
  assert (c <> []) as Hc by (destruct c; [discriminate|congruence]).
  rewrite (app_removelast_last x Hc) at 3. rewrite dot_app.
  - cbn. ring.
  - pose proof (f_equal (@length R) (app_removelast_last x Hc)) as E. rewrite app_length in E. cbn in E.
    change (nT Rnum) with R in *. lia.
Qed.
Lemma ma_runs_spec (is : list (signal R)) : forall (s : maf Rnum) pre, ma_en s = true -> ma_coef s <> [] ->
  ma_prev s = window Rnum (length (ma_coef s)) pre ->
  forall k d, (k < length is)%nat ->
  nth k (ma_runs Rnum s is) d =
  mksig (dot (ma_coef s) (window Rnum (length (ma_coef s)) (pre ++ firstn (S k) is))) (st (nth k is d)).
Proof.
  induction is as [|i is IH]; intros s pre He Hc Hp k d Hk; [cbn in Hk; lia|].
  assert (0 < length (ma_coef s))%nat as Hl by (destruct (ma_coef s); [congruence|cbn; lia]).
  cbn [ma_runs]. unfold ma_run. rewrite He, Hp. destruct k; cbn [nth firstn].
  - rewrite window_snoc by exact Hl. f_equal. apply ma_result_dot.
    pose proof (window_length Rnum (length (ma_coef s)) pre).
    destruct (window Rnum (length (ma_coef s)) pre); cbn in *; lia.
  - cbn in Hk. rewrite (IH _ (pre ++ [i])); cbn [ma_en ma_coef ma_prev]; auto; [|symmetry; apply window_snoc; exact Hl|lia].
    rewrite <- app_assoc. reflexivity.
Qed.
Lemma ma_new_runs (c : list R) (is : list (signal R)) k d : c <> [] -> (k < length is)%nat ->
  nth k (ma_runs Rnum (ma_new Rnum c) is) d =
  mksig (dot c (window Rnum (length c) (firstn (S k) is))) (st (nth k is d)).
Proof.
  intros Hc Hk. rewrite (ma_runs_spec is (ma_new Rnum c) []); auto.
  cbn [ma_new ma_prev ma_coef]. symmetry. apply window_nil.
Qed.

(** ** Median *)
Open Scope nat_scope.
Lemma me_runs_spec {N : num} sort n : 0 < n -> forall (is : list (signal N)) s pre, me_en s = true -> me_vals s = window N n pre ->
  forall k d, k < length is ->
  nth k (me_runs sort s is) d =
  mksig (nth (n / 2) (sort (window N n (pre ++ firstn (S k) is))) (nofZ N 0)) (st (nth k is d)).
Proof.
  intros Hn. induction is as [|i is IH]; intros s pre He Hv k d Hk; [cbn in Hk; lia|].
  cbn [me_runs]. unfold me_run. rewrite He, Hv, <- window_snoc by exact Hn. rewrite window_length.
  destruct k; cbn [nth].
  - cbn [firstn]. reflexivity.
  - cbn in Hk. rewrite (IH _ (pre ++ [i])); cbn [me_en me_vals]; auto; [|lia].
    rewrite <- app_assoc. reflexivity.
Qed.
Lemma count_perm {A : Type} f (l l' : list A) : Permutation l l' -> count f l = count f l'.
Proof.
  unfold count. induction 1; cbn; auto; try lia.
  - destruct (f x); cbn; lia.
  - destruct (f x), (f y); cbn; lia.
Qed.
Lemma count_app {A : Type} f (l l' : list A) : count f (l ++ l') = count f l + count f l'.
Proof. unfold count. now rewrite filter_app, app_length. Qed.
Lemma count_le {A : Type} f (l : list A) : count f l <= length l.
Proof. unfold count. induction l as [|a l IH]; cbn; [lia|]. destruct (f a); cbn; lia. Qed.
Lemma count_none {A : Type} f (l : list A) : (forall x, In x l -> f x = false) -> count f l = 0.
Proof.
  unfold count. induction l as [|a l IH]; cbn; intros H; [reflexivity|]. rewrite (H a) by auto.
  apply IH. auto.
Qed.
Lemma count_all {A : Type} f (l : list A) : (forall x, In x l -> f x = true) -> count f l = length l.
Proof.
  unfold count. induction l as [|a l IH]; cbn; intros H; [reflexivity|]. rewrite (H a) by auto.
  cbn. f_equal. apply IH. auto.
Qed.
Lemma sort_rank {N : num} sort (l : list N) r d : (forall x, nltb N x x = false) -> sorted_perm N sort ->
  (forall x, In x l -> neqb N x x = true) -> r < length l -> rank_elem N l r (nth r (sort l) d).
Proof.
  intros Hirr Hs Hok Hr. destruct (Hs l Hok) as [Hp Hsort].
  assert (Hlen : length (sort l) = length l) by (symmetry; now apply Permutation_length).
  set (v := nth r (sort l) d). unfold rank_elem. split; [|split].
  - eapply Permutation_in; [symmetry; exact Hp|]. apply nth_In. lia.
  - rewrite (count_perm _ _ _ Hp). rewrite <- (firstn_skipn r (sort l)), count_app.
    rewrite (count_none _ (skipn r (sort l))).
    + pose proof (count_le (fun x => nltb N x v) (firstn r (sort l))). rewrite firstn_length in H. lia.
    + intros x Hx. apply (In_nth _ _ d) in Hx. destruct Hx as (j & Hj & <-). rewrite skipn_length in Hj.
      rewrite nth_skipn. destruct j; [rewrite Nat.add_0_r; apply Hirr|]. apply Hsort. lia.
  - rewrite (count_perm _ _ _ Hp). rewrite <- (firstn_skipn (S r) (sort l)), count_app.
    rewrite (count_all _ (firstn (S r) (sort l))).
    + rewrite firstn_length. lia.
    + intros x Hx. apply (In_nth _ _ d) in Hx. destruct Hx as (j & Hj & <-). rewrite firstn_length in Hj.
      rewrite <- (firstn_skipn (S r) (sort l)) in Hsort.
      assert (nth j (firstn (S r) (sort l)) d = nth j (sort l) d) as ->.
      { rewrite <- (firstn_skipn (S r) (sort l)) at 2. rewrite app_nth1; [reflexivity|rewrite firstn_length; lia]. }
      destruct (Nat.eq_dec j r) as [->|]; [unfold v; now rewrite Hirr|].
      rewrite <- (firstn_skipn (S r) (sort l)) in Hlen. rewrite firstn_skipn in Hsort. unfold v. rewrite Hsort by lia.
      reflexivity.
Qed.

(** Insertion sort satisfies the contract of std::sort. *)
Section Isort.
  Context {N : num} {ok : N -> Prop} (L : ord_laws N ok).
  Fixpoint insert (x : N) (l : list N) : list N :=
    match l with
    | [] => [x]
    | y :: l' => if nltb N y x then y :: insert x l' else x :: l
    end.
  Definition isort (l : list N) : list N := fold_right insert [] l.
  Lemma insert_perm x l : Permutation (x :: l) (insert x l).
  Proof.
    induction l as [|y l IH]; cbn; [reflexivity|]. destruct (nltb N y x); [|reflexivity].
    rewrite perm_swap. now constructor.
  Qed.
  Lemma isort_perm l : Permutation l (isort l).
  Proof. induction l as [|x l IH]; cbn; [constructor|]. rewrite <- insert_perm. now constructor. Qed.
  Inductive srt : list N -> Prop :=
  | srt_nil : srt []
  | srt_cons x l : (forall y, In y l -> nltb N y x = false) -> srt l -> srt (x :: l).
  Lemma insert_srt x l : ok x -> (forall y, In y l -> ok y) -> srt l -> srt (insert x l).
  Proof.
    intros Hx Hok. induction 1 as [|y l Hy Hs IH]; cbn; [constructor; [intros ? []|constructor]|].
    destruct (nltb N y x) eqn:E.
    - constructor; [|apply IH; intros; apply Hok; now right].
      intros z Hz. apply (Permutation_in _ (Permutation_sym (insert_perm x l))) in Hz.
      destruct Hz as [->|Hz]; [exact (ol_asym L _ _ E)|now apply Hy].
    - constructor; [|now constructor]. intros z [->|Hz]; [exact E|].
      destruct (nltb N z x) eqn:F; [|reflexivity].
      destruct (ol_neg _ _ L _ y _ (Hok y (or_introl eq_refl)) F) as [h|h]; [|congruence].
      rewrite Hy in h by exact Hz. discriminate.
  Qed.
  Lemma isort_srt l : (forall y, In y l -> ok y) -> srt (isort l).
  Proof.
    induction l as [|x l IH]; cbn; intros H; [constructor|]. apply insert_srt; auto.
    intros y Hy. apply H. right. eapply Permutation_in; [symmetry; apply isort_perm|exact Hy].
  Qed.
  Lemma srt_nth l : srt l -> forall i j d, i < j < length l -> nltb N (nth j l d) (nth i l d) = false.
  Proof.
    induction 1 as [|x l Hx Hs IH]; intros i j d H; cbn in H; [lia|].
    destruct j; [lia|]. destruct i; cbn.
    - apply Hx. apply nth_In. lia.
    - apply IH. lia.
  Qed.
  Lemma isort_sorted_perm : (forall x, neqb N x x = true -> ok x) -> sorted_perm N isort.
  Proof.
    intros Hok l Hl. split; [apply isort_perm|]. intros i j d H. apply srt_nth.
    - apply isort_srt. auto.
    - now rewrite <- (Permutation_length (isort_perm l)).
  Qed.
End Isort.
Lemma D_isort : sorted_perm Dnum isort.
Proof. apply (isort_sorted_perm Dnum_ord). intros [] H; cbn in *; try discriminate; intros E; discriminate E. Qed.

(** Median over the window. *)
Lemma repeat_ok {N : num} (x y : N) n : In y (repeat x n) -> y = x.
Proof. apply repeat_spec. Qed.
Lemma window_in {N : num} n (pre : list (signal N)) x : In x (window N n pre) -> x = nofZ N 0 \/ In x (map sv pre).
Proof.
  unfold window, lastn. intros H.
  assert (In x (repeat (nofZ N 0) n ++ map sv pre)) as H'.
  { rewrite <- (firstn_skipn (length (repeat (nofZ N 0) n ++ map sv pre) - n)). apply in_or_app. now right. }
  apply in_app_or in H'. destruct H' as [h|h]; [left; now apply repeat_spec in h|now right].
Qed.
Lemma median_rank_double (sort : list Dnum -> list Dnum) n (is : list (signal Dnum)) k d : sorted_perm Dnum sort -> 0 < n ->
  (forall i, In i is -> sv i <> S754_nan) -> k < length is ->
  let o := nth k (me_runs sort (me_new Dnum n) is) d in
  rank_elem Dnum (window Dnum n (firstn (S k) is)) (n / 2) (sv o) /\ st o = st (nth k is d).
Proof.
  intros Hs Hn Hi Hk o. unfold o. rewrite (me_runs_spec sort n Hn is (me_new Dnum n) []); auto; [|symmetry; apply window_nil].
  split; [|reflexivity]. cbn [sv app]. apply sort_rank; auto.
  - apply (ol_irr _ _ Dnum_ord).
  - intros x Hx. assert (x <> S754_nan) as Hx'.
    { destruct (window_in _ _ _ Hx) as [->|Hx']; [discriminate|]. apply in_map_iff in Hx'.
      destruct Hx' as (i & <- & Hx'). apply Hi. rewrite <- (firstn_skipn (S k) is). apply in_or_app. now left. }
    rewrite (ol_eq _ _ Dnum_ord) by exact Hx'. rewrite (ol_irr _ _ Dnum_ord). reflexivity.
  - rewrite window_length. apply Nat.div_lt; lia.
Qed.

(** ** Signal checker *)
Section Checker.
  Context {V : Type} (inside : V -> V -> V -> bool).
  Notation run := (ch_trig inside).
  (** State after the operations. *)
  Lemma ch_gen os : forall (s : checker V) k, k < length os ->
    (nth k (run s os) false = true <->
     (exists v lvl, nth_error os k = Some (ChRun v lvl) /\ lvl = true /\
        (ch_safe s || existsb registers (firstn k os) = true) /\
        (let (lo, hi) := limits_after (ch_lo s, ch_hi s) (firstn k os) in inside lo hi v = ch_off s)) /\
     (ch_fired s = true -> existsb resets (firstn k os) = true) /\
     forall j, j < k -> nth j (run s os) false = true -> existsb resets (skipn (S j) (firstn k os)) = true).
  Proof.
    induction os as [|o os IH]; intros s k Hk; [cbn in Hk; lia|]. cbn [ch_trig].
    destruct k.
    - cbn [nth firstn nth_error existsb limits_after]. destruct o as [v lvl| |lo hi|]; cbn [ch_step].
      + destruct (negb (ch_fired s) && _ && ch_safe s && lvl) eqn:E; cbn [nth].
        * split; [intros _|reflexivity]. split; [|split].
          -- exists v, lvl. apply andb_prop in E. destruct E as [E E1]. apply andb_prop in E. destruct E as [E E2].
             apply andb_prop in E. destruct E as [E3 E4]. rewrite E2. split; [reflexivity|]. split; [exact E1|].
             split; [reflexivity|]. destruct (ch_off s); [exact E4|]. now apply Bool.negb_true_iff in E4.
          -- intros F. rewrite F in E. discriminate.
          -- intros j Hj. lia.
        * split; [discriminate|]. intros ((v' & lvl' & Hn & Hl & Hs & Hin) & Hf & _). injection Hn as <- <-.
          rewrite Hl in E. rewrite Bool.orb_false_r in Hs. rewrite Hs in E.
          destruct (ch_fired s); [exfalso; specialize (Hf eq_refl); discriminate|].
          rewrite Hin in E. destruct (ch_off s); discriminate.
      + cbn [nth]. split; [discriminate|]. intros ((v' & lvl' & Hn & _) & _); discriminate.
      + cbn [nth]. split; [discriminate|]. intros ((v' & lvl' & Hn & _) & _); discriminate.
      + cbn [nth]. split; [discriminate|]. intros ((v' & lvl' & Hn & _) & _); discriminate.
    - cbn in Hk. destruct (ch_step inside s o) as [s' b] eqn:Es. cbn [nth]. rewrite (IH s' k) by lia. clear IH.
      cbn [nth_error firstn].
      assert (Hlim : limits_after (ch_lo s', ch_hi s') (firstn k os) = limits_after (ch_lo s, ch_hi s) (o :: firstn k os)).
      { destruct o; cbn in Es |- *; try (injection Es as <- <-; reflexivity).
        destruct (_ && _ && _ && _) in Es; injection Es as <- <-; reflexivity. }
      assert (Hsafe : ch_safe s' || existsb registers (firstn k os) = ch_safe s || existsb registers (o :: firstn k os)).
      { destruct o; cbn in Es |- *; try (injection Es as <- <-; cbn; now rewrite ?Bool.orb_true_r).
        destruct (_ && _ && _ && _) in Es; injection Es as <- <-; reflexivity. }
      assert (Hoff : ch_off s' = ch_off s).
      { destruct o; cbn in Es; try (injection Es as <- <-; reflexivity).
        destruct (_ && _ && _ && _) in Es; injection Es as <- <-; reflexivity. }
      assert (Hfire : ch_fired s' = true <-> ((b = true \/ ch_fired s = true) /\ resets o = false)).
      { destruct o; cbn in Es |- *; try (injection Es as <- <-; cbn; intuition congruence).
        destruct (_ && _ && _ && _) in Es; injection Es as <- <-; cbn; intuition congruence. }
      rewrite Hlim, Hsafe, Hoff. clear Hlim Hsafe Hoff.
      apply and_iff_compat_l. split.
      + intros [A B]. split.
        * intros F. cbn [existsb]. destruct (resets o) eqn:R; [reflexivity|]. apply A. apply Hfire. auto.
        * intros j Hj. destruct j; cbn [nth skipn].
          -- intros ->. destruct (resets o) eqn:R.
             ++ destruct o; discriminate.
             ++ apply A. apply Hfire. auto.
          -- intros Hb. apply B; [lia|exact Hb].
      + intros [A B]. split.
        * intros F. apply Hfire in F. destruct F as [[F|F] R].
          -- specialize (B 0 ltac:(lia)). cbn [nth skipn] in B. apply B. exact F.
          -- specialize (A F). cbn [existsb] in A. rewrite R in A. exact A.
        * intros j Hj Hb. exact (B (S j) ltac:(lia) Hb).
  Qed.
  Lemma checker_fires lo hi off os k : k < length os ->
    (nth k (run (ch_new lo hi off) os) false = true <->
     (exists o, nth_error os k = Some o /\ violates inside off (lo, hi) (firstn k os) o) /\
     forall j, j < k -> nth j (run (ch_new lo hi off) os) false = true -> existsb resets (skipn (S j) (firstn k os)) = true).
  Proof.
    intros Hk. rewrite ch_gen by exact Hk. unfold ch_new. cbn [ch_safe ch_lo ch_hi ch_off ch_fired orb]. split.
    - intros ((v & lvl & A & B & C & D) & _ & E). split; [|exact E]. exists (ChRun v lvl). split; [exact A|]. cbn. auto.
    - intros ((o & A & B) & E). split; [|split; [discriminate|exact E]]. destruct o as [v lvl| |lo' hi'|]; try (destruct B).
      exists v, lvl. destruct H0. auto.
  Qed.
End Checker.

(** ** NaN in the signal checker *)
Lemma scalar_nan lo hi : within Dnum lo hi dnan = false.
Proof. unfold within. cbn [nltb Dnum]. change (SFltb lo dnan) with (SFltb lo S754_nan). rewrite dlt_nan_r. reflexivity. Qed.
Lemma vec_nan (lo hi : list Dnum) : length lo = length hi ->
  vec_within Dnum lo hi (repeat dnan (length lo)) = true.
Proof.
  assert (N1 : forall y, nleb Dnum dnan y = false) by reflexivity.
  assert (N2 : forall y, nleb Dnum y dnan = false) by (intros [|[]| |[]]; reflexivity).
  intros H. unfold vec_within. apply andb_true_intro. split.
  - unfold vec_gt. clear H. induction lo as [|a lo IH]; [reflexivity|]. cbn [length repeat combine forallb fst snd].
    rewrite N1. exact IH.
  - unfold vec_lt. rewrite H. clear H. induction hi as [|a hi IH]; [reflexivity|]. cbn [length repeat combine forallb fst snd].
    rewrite N2. exact IH.
Qed.
Lemma vec_nan_two : exists x : list Dnum, (forall v, In v x -> v = dnan) /\ length x = 2%nat /\
  forall lo hi : list Dnum, length lo = length x -> length hi = length x -> vec_within Dnum lo hi x = true.
Proof.
  exists [dnan; dnan]. split; [intros v [H|[H|[]]]; symmetry; exact H|]. split; [reflexivity|]. intros lo hi H1 H2.
  pose proof (vec_nan lo hi (eq_trans H1 (eq_sym H2))) as H. rewrite H1 in H. exact H.
Qed.
Lemma vec_numbers (lo hi x : list Dnum) : length lo = length x -> length hi = length x ->
  (forall k d, k < length x -> nth k x d <> S754_nan /\ nth k lo d <> S754_nan /\ nth k hi d <> S754_nan) ->
  (vec_within Dnum lo hi x = true <-> forall k d, k < length x -> within Dnum (nth k lo d) (nth k hi d) (nth k x d) = true).
Proof.
  intros H1 H2 H3. unfold vec_within, vec_gt, vec_lt. rewrite Bool.andb_true_iff, !forallb_forall. split.
  - intros [A B] k d Hk. destruct (H3 k d Hk) as (X & Y & Z). unfold within.
    assert (Hx : In (nth k x d, nth k lo d) (combine x lo)).
    { rewrite <- combine_nth by (symmetry; exact H1). apply nth_In. rewrite combine_length. lia. }
    assert (Hy : In (nth k x d, nth k hi d) (combine x hi)).
    { rewrite <- combine_nth by (symmetry; exact H2). apply nth_In. rewrite combine_length. lia. }
    apply A in Hx. apply B in Hy. cbn [fst snd] in *.
    rewrite (ol_le _ _ Dnum_ord), Bool.negb_involutive in Hx, Hy by assumption. now rewrite Hx, Hy.
  - intros A. split; intros p Hp; apply (In_nth _ _ p) in Hp; destruct Hp as (k & Hk & <-);
      rewrite combine_length in Hk; destruct p as [d1 d2].
    + rewrite combine_nth by (symmetry; exact H1). cbn [fst snd]. destruct (H3 k d1 ltac:(lia)) as (X & Y & Z).
      rewrite (nth_indep lo d2 d1) by lia. specialize (A k d1 ltac:(lia)).
      unfold within in A. apply andb_prop in A. destruct A as [A _].
      rewrite (ol_le _ _ Dnum_ord), Bool.negb_involutive by assumption. exact A.
    + rewrite combine_nth by (symmetry; exact H2). cbn [fst snd]. destruct (H3 k d1 ltac:(lia)) as (X & Y & Z).
      rewrite (nth_indep hi d2 d1) by lia. specialize (A k d1 ltac:(lia)).
      unfold within in A. apply andb_prop in A. destruct A as [_ A].
      rewrite (ol_le _ _ Dnum_ord), Bool.negb_involutive by assumption. exact A.
Qed.
