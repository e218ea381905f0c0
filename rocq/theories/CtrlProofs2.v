(** Proofs about saturation, rate limiter, integrator, differentiator, sum, mux and gain. *)
From Coq Require Import Floats.SpecFloat Reals Lra.
From Flocq Require Import Core.Raux.
From Verif Require Import Prelude Num NumOrd CtrlModel CtrlSpec.
Open Scope Z_scope.

(** ** Saturation, for every ordered number type *)
Section Sat.
  Context {N : num} {ok : N -> Prop} (L : ord_laws N ok).
  Lemma sat_calc_spec lo hi x : ok x -> nleb N lo hi = true ->
    nleb N lo (sat_calc N lo hi x) = true /\ nleb N (sat_calc N lo hi x) hi = true /\
    (nleb N lo x = true -> nleb N x hi = true -> sat_calc N lo hi x = x) /\
    (nltb N hi x = true -> sat_calc N lo hi x = hi) /\
    (nltb N x lo = true -> sat_calc N lo hi x = lo).
  Proof.
    intros Hx Hl. destruct (ol_le_ok _ _ L _ _ Hl) as [Ha Hb]. unfold sat_calc.
    destruct (nltb N x lo) eqn:E1.
    - split; [now apply (ol_le_refl L)|]. split; [auto|]. split.
      + intros h _. rewrite (ol_le_nlt L _ _ h) in E1. discriminate.
      + split; [|auto]. intros h. assert (nltb N hi lo = true) by (eapply (ol_trans _ _ L); eauto).
        rewrite (ol_le_nlt L _ _ Hl) in H. discriminate.
    - destruct (nltb N hi x) eqn:E2.
      + split; [auto|]. split; [now apply (ol_le_refl L)|]. split.
        * intros _ h. rewrite (ol_le_nlt L _ _ h) in E2. discriminate.
        * split; [auto|discriminate].
      + split; [now apply (ol_nlt_le L)|]. split; [now apply (ol_nlt_le L)|]. split; [auto|]. split; discriminate.
  Qed.
  Lemma sat_run_spec s i : sat_en s = true -> ok (sv i) -> nleb N (sat_lo s) (sat_hi s) = true ->
    let o := sat_run N s i in
    nleb N (sat_lo s) (sv o) = true /\ nleb N (sv o) (sat_hi s) = true /\
    (nleb N (sat_lo s) (sv i) = true -> nleb N (sv i) (sat_hi s) = true -> sv o = sv i) /\
    (nltb N (sat_hi s) (sv i) = true -> sv o = sat_hi s) /\
    (nltb N (sv i) (sat_lo s) = true -> sv o = sat_lo s) /\ st o = st i.
  Proof.
    intros He Hx Hl. cbn zeta. unfold sat_run. rewrite He. cbn [sv st].
    destruct (sat_calc_spec _ _ _ Hx Hl) as (a & b & c & d & e). auto 10.
  Qed.
  Lemma sat_vec_nth lo hi x k d : length lo = length x -> length hi = length x ->
    (k < length x)%nat ->
    nth k (sat_calc_vec N lo hi x) d = sat_calc N (nth k lo d) (nth k hi d) (nth k x d).
  Proof.
    unfold sat_calc_vec. revert lo hi k. induction x as [|x0 x IH]; intros [|l0 lo] [|h0 hi] k H1 H2 Hk;
      cbn in *; try lia. destruct k as [|k]; [reflexivity|]. apply IH; lia.
  Qed.
End Sat.

(** ** Rate limiter *)
Lemma rl_calc_real (fall rise p x dt : R) : (0 < dt)%R -> (fall <= rise)%R ->
  (fall * dt <= rl_calc Rnum fall rise p x dt - p <= rise * dt)%R /\
  ((fall * dt <= x - p <= rise * dt)%R -> rl_calc Rnum fall rise p x dt = x) /\
  ((rise * dt < x - p)%R -> rl_calc Rnum fall rise p x dt = (p + rise * dt)%R) /\
  ((x - p < fall * dt)%R -> rl_calc Rnum fall rise p x dt = (p + fall * dt)%R).
Proof.
  intros Hd Hf. unfold rl_calc. cbn.
  set (rate := ((x - p) / dt)%R).
  assert (Hr : (x - p = rate * dt)%R) by (unfold rate; field; lra).
  clearbody rate.
  assert (Hm : forall a b : R, (a < b)%R -> (a * dt < b * dt)%R) by (intros; apply Rmult_lt_compat_r; auto).
  assert (Hm' : forall a b : R, (a <= b)%R -> (a * dt <= b * dt)%R) by (intros; apply Rmult_le_compat_r; auto; lra).
  pose proof (Hm' _ _ Hf).
  case Rlt_bool_spec; intros H1.
  - apply Hm in H1. repeat split; try lra; intros; try lra.
  - case Rlt_bool_spec; intros H2.
    + apply Hm in H2. repeat split; try lra; intros; try lra.
    + apply Hm' in H1, H2. repeat split; try lra; intros; try lra.
Qed.


Lemma secs_diff a b : nsub Rnum (secs Rnum a) (secs Rnum b) = seconds (a - b).
Proof. unfold secs, seconds. cbn. rewrite minus_IZR. lra. Qed.
Lemma seconds_pos t : 0 < t -> (0 < seconds t)%R.
Proof. intros H. unfold seconds. apply Rdiv_lt_0_compat; [now apply IZR_lt|lra]. Qed.

(** Two consecutive runs with increasing time stamps. *)
Lemma rl_consecutive (s : rlim Rnum) is1 i j is2 : rl_en s = true -> (rl_fall s <= rl_rise s)%R ->
  st i < st j ->
  exists y z ys1 ys2, rl_outs s (is1 ++ i :: j :: is2) = ys1 ++ y :: z :: ys2 /\ length ys1 = length is1 /\
    st y = st i /\ st z = st j /\
    (rl_fall s * seconds (st j - st i) <= sv z - sv y <= rl_rise s * seconds (st j - st i))%R /\
    ((rl_fall s * seconds (st j - st i) <= sv j - sv y <= rl_rise s * seconds (st j - st i))%R -> sv z = sv j).
Proof.
  intros He Hf Ht. revert s He Hf. induction is1 as [|k is1 IH]; intros s He Hf.
  - cbn -[secs]. rewrite He. cbn -[secs].
    eexists _, _, [], _. split; [reflexivity|]. split; [reflexivity|]. split; [reflexivity|]. split; [reflexivity|].
    cbn [sv]. change (Rminus (secs Rnum (st j)) (secs Rnum (st i))) with (nsub Rnum (secs Rnum (st j)) (secs Rnum (st i))).
    rewrite (secs_diff (st j) (st i)).
    match goal with |- context[rl_calc Rnum (rl_fall s) (rl_rise s) ?p (sv j) (seconds (st j - st i))] =>
      destruct (rl_calc_real (rl_fall s) (rl_rise s) p (sv j) (seconds (st j - st i))) as (h1 & h2 & _);
      [apply seconds_pos; lia|exact Hf|] end.
    exact (conj h1 h2).
  - cbn [rl_outs app]. destruct (rl_run Rnum s k) as [s' y0] eqn:E.
    assert (Hs : rl_en s' = true /\ rl_fall s' = rl_fall s /\ rl_rise s' = rl_rise s).
    { unfold rl_run in E. injection E as <- _. cbn. auto. }
    destruct Hs as (h1 & h2 & h3).
    destruct (IH s' h1) as (y & z & ys1 & ys2 & -> & Hl & H1 & H2 & H3 & H4); [rewrite h2, h3; auto|].
    exists y, z, (y0 :: ys1), ys2. split; [reflexivity|]. split; [cbn; f_equal; exact Hl|].
    rewrite h2, h3 in *. auto.
Qed.

(** In double precision the first run after the construction passes the input through. *)
Lemma rl_first_double fall rise (x dt : Dnum) : rl_calc Dnum fall rise dnan x dt = x.
Proof.
  unfold rl_calc. assert (E : ndiv Dnum (nsub Dnum x dnan) dt = S754_nan) by (destruct x, dt; reflexivity).
  rewrite E. cbn -[SFltb]. rewrite dlt_nan_r, dlt_nan_l. reflexivity.
Qed.
Lemma rl_disabled {N : num} (s : rlim N) i : rl_en s = false -> snd (rl_run N s i) = i.
Proof. intros H. unfold rl_run. rewrite H. destruct i. reflexivity. Qed.

(** ** Integrator *)
Section Int.
  Context {N : num} {ok : N -> Prop} (L : ord_laws N ok).
  (** Initial conditions and limits that make sense. *)
  Lemma i_step_inside s o : i_inside s -> i_allowed s o ->
    i_inside (fst (i_step N s o)) /\
    forall y, snd (i_step N s o) = Some y -> nleb N (i_lo s) (sv y) = true /\ nleb N (sv y) (i_hi s) = true.
  Proof.
    intros [H1 H2] Ha. destruct o as [lvl i|b|v|hi lo]; cbn [i_step].
    - unfold i_run. cbn [fst snd].
      set (en := match lvl with Some b => b | None => i_en s end).
      set (v := nadd N (sv (i_prev s)) _).
      set (o := if en then _ else _).
      assert (Ho : nleb N (i_lo s) o = true /\ nleb N o (i_hi s) = true).
      { unfold o. destruct en; [|auto]. destruct (nltb N v (i_hi s)) eqn:E1, (nltb N (i_lo s) v) eqn:E2; cbn; auto.
        split; now apply (ol_lt_le L). }
      split; [exact Ho|]. intros y E. injection E as <-. exact Ho.
    - split; [split; auto|]. discriminate.
    - split; [exact Ha|discriminate].
    - split; [|discriminate]. cbn in Ha. cbn [fst]. unfold i_inside. cbn [i_lo i_hi i_prev sv].
      destruct (ol_le_ok _ _ L _ _ H1) as [_ Hv]. destruct (ol_le_ok _ _ L _ _ Ha) as [hl hh].
      destruct (sat_calc_spec L lo hi (sv (i_prev s)) Hv Ha) as (a & b & _). exact (conj a b).
  Qed.
  (** Along a history: every output lies within the limits in force. *)
  Lemma i_hist_inside s os : i_inside s -> i_hist s os i_allowed ->
    i_hist s os (fun s o => forall y, snd (i_step N s o) = Some y ->
      nleb N (i_lo s) (sv y) = true /\ nleb N (sv y) (i_hi s) = true).
  Proof.
    revert s. induction os as [|o os IH]; intros s H Ha; cbn in *; auto.
    destruct Ha as [Ha1 Ha2]. destruct (i_step_inside s o H Ha1) as [h1 h2]. split; auto.
  Qed.
End Int.


Lemma i_runs_integral_gen (l : list (bool * signal R)) : forall (s : integ Rnum), i_first s = false ->
  (forall l1 l2, l = l1 ++ l2 ->
     (i_lo s < sv (i_prev s) + integral (st (i_prev s)) l1 < i_hi s)%R) ->
  i_runs s l = (sv (i_prev s) + integral (st (i_prev s)) l)%R.
Proof.
  induction l as [|[en i] l IH]; intros s Hf H; cbn [i_runs integral].
  - rewrite Rplus_0_r. reflexivity.
  - assert (Hp : sv (i_prev (fst (i_run Rnum s (Some en) i))) =
                 (sv (i_prev s) + (if en then sv i * seconds (st i - st (i_prev s)) else 0))%R).
    { unfold i_run. rewrite Hf. cbn [fst i_prev sv]. rewrite secs_diff.
      pose proof (H [(en, i)] l eq_refl) as H1. cbn [integral] in H1.
      destruct en; [|cbn; lra].
      change (nT Rnum) with R in *.      change (nadd Rnum) with Rplus in *. change (nmul Rnum) with Rmult in *.
      change (nltb Rnum) with Rlt_bool. rewrite !Rlt_bool_true by lra. reflexivity. }
    rewrite IH.
    + rewrite Hp. cbn [i_run fst i_prev st]. rewrite Rplus_assoc. reflexivity.
    + reflexivity.
    + intros l1 l2 ->. rewrite Hp. cbn [i_run fst i_prev st i_lo i_hi].
      pose proof (H ((en, i) :: l1) l2 eq_refl) as H1. cbn [integral] in H1.
      rewrite <- Rplus_assoc in H1. exact H1.
Qed.

(** From the first run on; the first run only fixes the start time. *)
Lemma i_runs_integral (s : integ Rnum) en0 i0 l : i_first s = true ->
  (forall l1 l2, l = l1 ++ l2 -> (i_lo s < sv (i_prev s) + integral (st i0) l1 < i_hi s)%R) ->
  i_runs s ((en0, i0) :: l) = (sv (i_prev s) + integral (st i0) l)%R.
Proof.
  intros Hf H. cbn [i_runs].
  assert (Hp : sv (i_prev (fst (i_run Rnum s (Some en0) i0))) = sv (i_prev s)).
  { unfold i_run. rewrite Hf. cbn [fst i_prev sv]. change (nadd Rnum) with Rplus. change (nmul Rnum) with Rmult.
    cbn [nofZ Rnum]. destruct en0; [|reflexivity].
    rewrite Rmult_0_r, Rplus_0_r. destruct (_ && _); reflexivity. }
  rewrite i_runs_integral_gen.
  - rewrite Hp. reflexivity.
  - reflexivity.
  - intros l1 l2 E. rewrite Hp. cbn [i_run fst i_prev st i_lo i_hi]. eauto.
Qed.

(** ** Differentiator *)
Lemma secs_eqb a b : neqb Rnum (secs Rnum a) (secs Rnum b) = Z.eqb a b.
Proof.
  cbn -[secs]. destruct (Z.eqb_spec a b) as [->|n].
  - apply Req_bool_true. reflexivity.
  - apply Req_bool_false. intros h. apply n. apply eq_IZR. unfold secs in h. cbn in h. lra.
Qed.
Lemma d_runs_quot (l : list (signal R)) : forall (s : diff Rnum), d_first s = false ->
  map sv (snd (d_runs Rnum s l)) = quotients (d_prev s) (d_out s) l.
Proof.
  induction l as [|i l IH]; intros s Hf; cbn [d_runs quotients]; [reflexivity|].
  destruct (d_run Rnum s i) as [s1 y] eqn:E. destruct (d_runs Rnum s1 l) as [s2 ys] eqn:E2. cbn [snd map].
  assert (Hy : sv y = (if Z.eqb (st i) (st (d_prev s)) then d_out s
                       else (sv i - sv (d_prev s)) / seconds (st i - st (d_prev s)))%R /\
               d_first s1 = false /\ d_prev s1 = i /\ d_out s1 = sv y).
  { unfold d_run in E. rewrite Hf, secs_diff in E.
    rewrite secs_eqb in E. change (@st R i) with (@st (nT Rnum) i).
    match goal with |- context[Z.eqb ?a ?b] => destruct (Z.eqb a b) end; injection E as <- <-; cbn; auto. }
  destruct Hy as (h1 & h2 & h3 & h4). rewrite h1 at 1. f_equal. specialize (IH s1 h2). rewrite E2 in IH. cbn in IH.
  etransitivity; [exact IH|]. rewrite h3, h4, h1. reflexivity.
Qed.
Lemma d_new_quot nan (i0 : signal Rnum) (l : list (signal Rnum)) :
  map sv (snd (d_runs Rnum (d_new Rnum nan) (i0 :: l))) = 0%R :: quotients i0 0%R l.
Proof.
  cbn [d_runs]. unfold d_run at 1. cbn [d_new d_first d_prev].
  destruct (d_runs Rnum _ l) as [s2 ys] eqn:E. cbn [snd map sv]. f_equal.
  pose proof (d_runs_quot l {| d_prev := i0; d_out := nofZ Rnum 0; d_time := st i0; d_first := false |} eq_refl) as H.
  rewrite E in H. exact H.
Qed.
(** The output carries the time in the middle of the two samples. *)
Lemma d_time_mid {N : num} (s : diff N) i : d_first s = false ->
  neqb N (secs N (st i)) (secs N (st (d_prev s))) = false ->
  0 <= st i < 2 ^ 63 -> 0 <= st (d_prev s) < 2 ^ 63 ->
  st (snd (d_run N s i)) = (st i + st (d_prev s)) / 2.
Proof.
  intros Hf Hq H1 H2. unfold d_run. rewrite Hf, Hq. cbn [snd st].
  rewrite Z.mod_small; [reflexivity|]. change (2 ^ 64) with (2 ^ 63 + 2 ^ 63). lia.
Qed.

(** ** Sum *)
Lemma signed_sum_acc neg vs : forall a : R,
  fold_left (fun (a : R) (p : bool * R) => if fst p then Rminus a (snd p) else Rplus a (snd p)) (combine neg vs) a =
  (a + signed_sum neg vs)%R.
Proof.
  revert vs. induction neg as [|n neg IH]; intros [|v vs] a; cbn; try lra.
  rewrite IH. destruct n; lra.
Qed.
Lemma sum_run_value (s : sum Rnum) is : sv (snd (sum_run Rnum s is)) = signed_sum (s_neg s) (sum_vals Rnum s is).
Proof. unfold sum_run, sum_acc. cbn [snd sv]. rewrite signed_sum_acc. cbn. lra. Qed.
Lemma sum_vals_later {N : num} (s : sum N) is : s_first s = false -> sum_vals N s is = map sv is.
Proof. intros H. unfold sum_vals. now rewrite H. Qed.
Lemma sum_vals_first {N : num} (s : sum N) is k d : s_first s = true -> length (s_init s) = length is -> (k < length is)%nat ->
  nth k (sum_vals N s is) d = match nth k (s_init s) None with Some v => v | None => nth k (map sv is) d end.
Proof.
  intros H. unfold sum_vals. rewrite H. clear H. revert is k.
  induction (s_init s) as [|o l IH]; intros [|i is] k Hl Hk; cbn in *; try lia.
  destruct k as [|k]; [destruct o; reflexivity|]. apply IH; lia.
Qed.
Lemma sum_first_cleared {N : num} (s : sum N) is : s_first (fst (sum_run N s is)) = false /\
  s_neg (fst (sum_run N s is)) = s_neg s.
Proof. split; reflexivity. Qed.
Lemma set_nth_spec {A : Type} k (x d : A) l j : (k < length l)%nat ->
  nth j (set_nth k x l) d = if Nat.eqb j k then x else nth j l d.
Proof.
  revert k j. induction l as [|h l IH]; intros k j Hk; cbn in *; [lia|].
  destruct k as [|k], j as [|j]; cbn; auto. apply IH. lia.
Qed.
Lemma set_nth_length {A : Type} k (x : A) l : length (set_nth k x l) = length l.
Proof. revert k. induction l as [|h l IH]; intros [|k]; cbn; auto. Qed.
Lemma sum_negate_spec {N : num} (s : sum N) i : 0 <= i <= 255 ->
  (Z.of_nat (length (s_neg s)) <= i -> sum_negate N s i = Fault) /\
  (i < Z.of_nat (length (s_neg s)) -> exists s', sum_negate N s i = Ok s' /\
     length (s_neg s') = length (s_neg s) /\ s_first s' = s_first s /\ s_init s' = s_init s /\
     forall j, nth j (s_neg s') false = if Nat.eqb j (Z.to_nat i) then true else nth j (s_neg s) false).
Proof.
  intros H. unfold sum_negate. rewrite Z.mod_small by lia. split; intros Hi.
  - destruct (Nat.leb_spec (length (s_neg s)) (Z.to_nat i)); [reflexivity|lia].
  - destruct (Nat.leb_spec (length (s_neg s)) (Z.to_nat i)); [lia|]. eexists. split; [reflexivity|]. cbn.
    split; [apply set_nth_length|]. split; [reflexivity|]. split; [reflexivity|]. intros j. now apply set_nth_spec.
Qed.
Lemma sum_init_spec {N : num} (s : sum N) i v : 0 <= i <= 255 -> length (s_init s) = length (s_neg s) ->
  (Z.of_nat (length (s_neg s)) <= i -> sum_init N s i v = Fault) /\
  (i < Z.of_nat (length (s_neg s)) -> exists s', sum_init N s i v = Ok s' /\
     s_neg s' = s_neg s /\ s_first s' = s_first s /\ length (s_init s') = length (s_neg s') /\
     forall j, nth j (s_init s') None = if Nat.eqb j (Z.to_nat i) then Some v else nth j (s_init s) None).
Proof.
  intros H Hl. unfold sum_init. rewrite Z.mod_small by lia. split; intros Hi.
  - destruct (Nat.leb_spec (length (s_neg s)) (Z.to_nat i)); [reflexivity|lia].
  - destruct (Nat.leb_spec (length (s_neg s)) (Z.to_nat i)); [lia|]. eexists. split; [reflexivity|]. cbn.
    split; [reflexivity|]. split; [reflexivity|]. split; [rewrite set_nth_length; auto|]. intros j. apply set_nth_spec. lia.
Qed.

(** ** Mux *)
Lemma demux_mux {T : Type} (is : list (signal T)) : map sv (demux_run (mux_run is)) = map sv is.
Proof. unfold demux_run, mux_run. cbn. rewrite !map_map. apply map_ext. reflexivity. Qed.
Lemma mux_demux {T : Type} (v : signal (list T)) : sv v <> [] -> mux_run (demux_run v) = v.
Proof.
  destruct v as [l t]. unfold demux_run, mux_run. cbn. intros H. f_equal.
  - rewrite map_map. cbn. apply map_id.
  - destruct l; [congruence|reflexivity].
Qed.

(** ** Gain *)
Section Gain.
  Context {N : num} {ok : N -> Prop} (L : ord_laws N ok).
  Lemma g_adapt_limits s : nleb N (g_min s) (g_max s) = true -> ok (g_adapt N s) ->
    nleb N (g_min s) (g_adapt N s) = true /\ nleb N (g_adapt N s) (g_max s) = true.
  Proof.
    intros Hm. destruct (ol_le_ok _ _ L _ _ Hm) as [h1 h2]. unfold g_adapt.
    set (g2 := if g_smooth s then _ else _). intros Hok.
    destruct (nltb N (g_max s) g2) eqn:E1.
    - rewrite (ol_le_nlt L _ _ Hm). split; [auto|now apply (ol_le_refl L)].
    - destruct (nltb N g2 (g_min s)) eqn:E2.
      + split; [now apply (ol_le_refl L)|auto].
      + split; apply (ol_nlt_le L); auto.
  Qed.
  (** Gains outside the limits are refused; a NaN is refused. *)
  Lemma g_set_refused s c : (nltb N (g_max s) c = true \/ nltb N c (g_min s) = true \/ ~ ok c) ->
    g_step N s (GSet c) = s.
  Proof.
    intros H. cbn [g_step]. destruct (nleb N c (g_max s) && nleb N (g_min s) c) eqn:E; [exfalso|reflexivity].
    apply andb_prop in E. destruct E as [E1 E2].
    destruct H as [H|[H|H]].
    - rewrite (ol_le_nlt L _ _ E1) in H. discriminate.
    - rewrite (ol_le_nlt L _ _ E2) in H. discriminate.
    - destruct (ol_le_ok _ _ L _ _ E1). auto.
  Qed.
End Gain.

(** One run over the reals: by at most the increment, towards the target, not past it. *)
Lemma g_adapt_real (s : gain Rnum) : g_smooth s = true -> (0 <= g_diff s)%R ->
  (g_min s <= g_target s <= g_max s)%R -> (g_min s <= g_gain s <= g_max s)%R ->
  let g := g_gain s in let g' := g_adapt Rnum s in let t := g_target s in
  (Rabs (g' - g) <= g_diff s)%R /\
  ((g <= t)%R -> g' = Rmin t (g + g_diff s)) /\
  ((t <= g)%R -> g' = Rmax t (g - g_diff s)).
Proof.
  intros Hs Hd Ht Hg. cbn zeta. unfold g_adapt. rewrite Hs. cbn.
  destruct s as [g mx mn t d en sm]. cbn in *.
  repeat match goal with |- context[Rlt_bool ?a ?b] =>
    lazymatch a with context[Rlt_bool _ _] => fail | _ =>
    lazymatch b with context[Rlt_bool _ _] => fail | _ => case (Rlt_bool_spec a b); intros end end end;
  (split; [unfold Rabs; destruct (Rcase_abs _); lra|]);
  (split; intros; [unfold Rmin; destruct (Rle_dec _ _); lra|unfold Rmax; destruct (Rle_dec _ _); lra]).
Qed.
Lemma g_reaches n : forall (s : gain Rnum) i, g_smooth s = true -> (0 < g_diff s)%R ->
  (g_min s <= g_target s <= g_max s)%R -> (g_min s <= g_gain s <= g_max s)%R ->
  (Rabs (g_target s - g_gain s) <= INR n * g_diff s)%R ->
  g_gain (g_iter n s i) = g_target s.
Proof.
  induction n as [|n IH]; intros s i Hs Hd Ht Hg Hn.
  - cbn in Hn. rewrite Rmult_0_l in Hn. pose proof (Rabs_pos (g_target s - g_gain s)).
    assert (g_target s - g_gain s = 0)%R.
    { destruct (Req_dec (g_target s - g_gain s) 0) as [h|h]; auto. apply Rabs_no_R0 in h. lra. }
    cbn. lra.
  - cbn [g_iter]. destruct (g_adapt_real s Hs) as (_ & H1 & H2); auto; [lra|].
    cbn zeta in *. rewrite S_INR in Hn.
    rewrite IH; cbn [g_run fst g_with g_gain g_smooth g_diff g_min g_max g_target]; auto.
    + destruct (Rle_or_lt (g_gain s) (g_target s)) as [h|h].
      * rewrite H1 by auto. unfold Rmin. destruct (Rle_dec _ _); lra.
      * rewrite H2 by lra. unfold Rmax. destruct (Rle_dec _ _); lra.
    + destruct (Rle_or_lt (g_gain s) (g_target s)) as [h|h].
      * rewrite H1 by auto. rewrite Rabs_pos_eq in Hn by lra. unfold Rmin. destruct (Rle_dec _ _); rewrite Rabs_pos_eq; try lra.
        rewrite Rminus_diag_eq by reflexivity. apply Rmult_le_pos; [apply pos_INR|lra].
      * rewrite H2 by lra. rewrite Rabs_left in Hn by lra. unfold Rmax. destruct (Rle_dec _ _).
        -- rewrite Rabs_left1 by lra. lra.
        -- rewrite Rminus_diag_eq, Rabs_R0 by reflexivity. apply Rmult_le_pos; [apply pos_INR|lra].
Qed.

(** ** Parabolic gain *)
Open Scope R_scope.
Lemma parabolic_odd g p x : 0 <= p -> parabolic g p (- x) = - parabolic g p x.
Proof.
  intros Hp. unfold parabolic. rewrite Rabs_Ropp. case Rlt_bool_spec; intros H; [|lra].
  assert (x <> 0) by (intros ->; rewrite Rabs_R0 in H; lra).
  case Rle_bool_spec; intros H1; case Rle_bool_spec; intros H2; try lra.
  - replace (2 * - x - p) with (-2 * x - p) by lra. lra.
  - replace (-2 * - x - p) with (2 * x - p) by lra. lra.
Qed.
Lemma parabolic_low g p x : 0 <= p -> 0 <= x <= p -> parabolic g p x = g * x.
Proof. intros Hp H. unfold parabolic. rewrite Rlt_bool_false; [reflexivity|]. rewrite Rabs_pos_eq; lra. Qed.
Lemma parabolic_high g p x : 0 <= p -> p <= x -> parabolic g p x = g * sqrt (p * (2 * x - p)).
Proof.
  intros Hp H. unfold parabolic. rewrite Rabs_pos_eq by lra. case Rlt_bool_spec; intros H1.
  - rewrite Rle_bool_true by lra. reflexivity.
  - assert (x = p) as -> by lra. replace (p * (2 * p - p)) with (p * p) by lra. rewrite sqrt_square by lra. reflexivity.
Qed.
Lemma parabolic_below g p x : 0 <= g -> 0 <= p -> 0 <= x -> 0 <= parabolic g p x <= g * x.
Proof.
  intros Hg Hp Hx. destruct (Rle_or_lt x p) as [h|h].
  - rewrite parabolic_low by lra. split; [apply Rmult_le_pos; lra|lra].
  - rewrite parabolic_high by lra. split; [apply Rmult_le_pos; [lra|apply sqrt_pos]|].
    apply Rmult_le_compat_l; [lra|]. rewrite <- (sqrt_square x) at 2 by lra. apply sqrt_le_1_alt.
    pose proof (Rle_0_sqr (x - p)). unfold Rsqr in H. lra.
Qed.
Lemma parabolic_mono_pos g p x y : 0 <= g -> 0 <= p -> 0 <= x <= y -> parabolic g p x <= parabolic g p y.
Proof.
  intros Hg Hp H. destruct (Rle_or_lt y p) as [hy|hy].
  - rewrite !parabolic_low by lra. apply Rmult_le_compat_l; lra.
  - rewrite (parabolic_high g p y) by lra. destruct (Rle_or_lt x p) as [hx|hx].
    + rewrite parabolic_low by lra. apply Rmult_le_compat_l; [lra|].
      rewrite <- (sqrt_square x) by lra. apply sqrt_le_1_alt.
      apply Rle_trans with (p * p); [apply Rmult_le_compat; lra|apply Rmult_le_compat_l; lra].
    + rewrite parabolic_high by lra. apply Rmult_le_compat_l; [lra|]. apply sqrt_le_1_alt.
      apply Rmult_le_compat_l; lra.
Qed.
Lemma parabolic_mono g p x y : 0 <= g -> 0 <= p -> x <= y -> parabolic g p x <= parabolic g p y.
Proof.
  intros Hg Hp H. destruct (Rle_or_lt 0 x) as [hx|hx]; [apply parabolic_mono_pos; lra|].
  replace x with (- - x) by lra. rewrite (parabolic_odd g p (- x)) by lra.
  destruct (Rle_or_lt 0 y) as [hy|hy].
  - pose proof (parabolic_below g p (- x) Hg Hp ltac:(lra)). pose proof (parabolic_below g p y Hg Hp hy). lra.
  - replace y with (- - y) by lra. rewrite (parabolic_odd g p (- y)) by lra.
    pose proof (parabolic_mono_pos g p (- y) (- x) Hg Hp ltac:(lra)). lra.
Qed.
