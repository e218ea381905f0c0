(** Proofs about the blocks of [CtrlModel2], part 1: delay, trace, wrap-around, step, filters. *)
From Coq Require Import Reals Lra Lia Psatz Floats.SpecFloat Sorting.Permutation.
From Flocq Require Import Core.Raux.
From Verif Require Import Prelude Num NumOrd CtrlModel CtrlModel2 CtrlSpec2.
Open Scope nat_scope.

(** ** Delay *)
Lemma mod_succ_wrap n k : 0 < n -> (S k) mod n = if Nat.eqb (S (k mod n)) n then 0 else S (k mod n).
Proof.
  intros H. pose proof (Nat.mod_upper_bound k n ltac:(lia)).
  rewrite <- (Nat.add_1_r k), Nat.add_mod by lia.
  destruct (Nat.eqb_spec (S (k mod n)) n) as [E|E].
  - destruct (Nat.eq_dec n 1) as [->|]; [now rewrite Nat.mod_1_r|].
    rewrite (Nat.mod_small 1) by lia. rewrite Nat.add_1_r, E. apply Nat.mod_same. lia.
  - rewrite (Nat.mod_small 1) by lia. rewrite Nat.mod_small by lia. lia.
Qed.
Lemma mod_neq n p k : p < k -> k < p + n -> p mod n <> k mod n.
Proof.
  intros H1 H2 E. assert (n <> 0) by lia.
  pose proof (Nat.div_mod p n ltac:(lia)). pose proof (Nat.div_mod k n ltac:(lia)).
  assert (n * (k / n - p / n) = k - p) by nia.
  assert (k / n - p / n <> 0) by nia. nia.
Qed.
Lemma mod_add_n n p : n <> 0 -> (p + n) mod n = p mod n.
Proof. intros. rewrite <- (Nat.mul_1_l n) at 1. now apply Nat.mod_add. Qed.

Section Delay.
  Context {T : Type} (d : signal T).
  Definition dl_inv (n : nat) (pre : list (signal T)) (s : delay T) : Prop :=
    dl_len s = n /\ dl_idx s = length pre mod n /\ dl_cycle s = (n <=? length pre) /\
    forall p, p < length pre -> length pre <= p + n -> dl_buf s (p mod n) = nth p pre d.
  Lemma dl_step_inv n pre s i : 0 < n -> dl_inv n pre s ->
    dl_inv n (pre ++ [i]) (fst (dl_run s i)) /\
    snd (dl_run s i) = if n <=? S (length pre) then Some (nth (S (length pre) - n) (pre ++ [i]) d) else None.
  Proof.
    intros Hn (H1 & H2 & H3 & H4).
    assert (Hc : (if Nat.eqb (S (dl_idx s)) (dl_len s) then true else dl_cycle s) = (n <=? S (length pre))).
    { rewrite H1, H2, H3. destruct (Nat.eqb_spec (S (length pre mod n)) n) as [E|E].
      - symmetry. apply Nat.leb_le. pose proof (Nat.mod_le (length pre) n ltac:(lia)). lia.
      - destruct (Nat.leb_spec n (length pre)); destruct (Nat.leb_spec n (S (length pre))); auto; try lia.
        exfalso. apply E. assert (n = S (length pre)) as -> by lia. rewrite Nat.mod_small; lia. }
    assert (Hi : (if Nat.eqb (S (dl_idx s)) (dl_len s) then 0 else S (dl_idx s)) = S (length pre) mod n).
    { rewrite H1, H2. symmetry. now apply mod_succ_wrap. }
    assert (Hb : forall p, p < S (length pre) -> S (length pre) <= p + n ->
      upd (dl_buf s) (dl_idx s) i (p mod n) = nth p (pre ++ [i]) d).
    { intros p Hp Hq. rewrite H2. destruct (Nat.eq_dec p (length pre)) as [->|Hne].
      - rewrite upd_same, app_nth2, Nat.sub_diag by lia. reflexivity.
      - rewrite upd_other by (apply mod_neq; lia). rewrite app_nth1 by lia. apply H4; lia. }
    unfold dl_run. cbn [fst snd]. rewrite Hc, Hi. split.
    - unfold dl_inv. rewrite app_length, Nat.add_1_r. cbn [dl_len dl_idx dl_cycle dl_buf]. auto.
    - destruct (Nat.leb_spec n (S (length pre))) as [Hle|]; [|reflexivity]. f_equal.
      replace (S (length pre) mod n) with ((S (length pre) - n) mod n).
      + apply Hb; lia.
      + rewrite <- (mod_add_n n (S (length pre) - n)) by lia. f_equal. lia.
  Qed.
  Lemma dl_runs_spec n is : 0 < n -> forall pre s, dl_inv n pre s -> forall k, k < length is ->
    nth k (dl_runs s is) None =
    if n <=? S (length pre + k) then Some (nth (S (length pre + k) - n) (pre ++ is) d) else None.
  Proof.
    intros Hn. induction is as [|i is IH]; intros pre s Hi k Hk; [cbn in Hk; lia|].
    cbn [dl_runs]. destruct (dl_step_inv n pre s i Hn Hi) as [A B]. destruct (dl_run s i) as [s' o].
    cbn [fst snd] in *. destruct k; cbn [nth].
    - rewrite B, Nat.add_0_r. destruct (Nat.leb_spec n (S (length pre))); [|reflexivity]. f_equal.
      destruct (Nat.eq_dec n 1) as [->|].
      + cbn. rewrite Nat.sub_0_r, !app_nth2, Nat.sub_diag by lia. reflexivity.
      + rewrite !app_nth1 by lia. reflexivity.
    - cbn in Hk. rewrite (IH _ _ A) by lia. rewrite app_length. cbn [length].
      replace (length pre + 1 + k) with (length pre + S k) by lia. rewrite <- app_assoc. reflexivity.
  Qed.
  Lemma delay_runs n junk is k : 0 < n -> k < length is ->
    nth k (dl_runs (dl_init n junk) is) None = if k <? n - 1 then None else Some (nth (k - (n - 1)) is d).
  Proof.
    intros Hn Hk. rewrite (dl_runs_spec n is Hn [] (dl_init n junk)); [|..|exact Hk].
    - cbn [length app]. destruct (Nat.leb_spec n (S (0 + k))), (Nat.ltb_spec k (n - 1)); try lia; auto.
      do 2 f_equal. lia.
    - split; [reflexivity|]. split; [symmetry; apply Nat.mod_small; cbn; lia|].
      split; [symmetry; apply Nat.leb_gt; cbn; lia|]. cbn. lia.
  Qed.
End Delay.

(** ** Trace *)
Section Trace.
  Context {T : Type}.
  Definition tr_inv (n : nat) (pre : list (signal T)) (s : trace T) : Prop :=
    tr_len s = n /\ tr_idx s = length pre mod n /\ tr_cycle s = (n <=? length pre) /\
    forall p d, p < length pre -> length pre <= p + n -> tr_buf s (p mod n) = nth p pre d.
  Lemma tr_step_inv n pre s i : 0 < n -> tr_inv n pre s -> tr_run s = true ->
    exists s', tr_step s (TrRun i) = Ok s' /\ tr_inv n (pre ++ [i]) s' /\ tr_run s' = true.
  Proof.
    intros Hn (H1 & H2 & H3 & H4) Hr. cbn [tr_step]. rewrite Hr.
    assert (tr_idx s < tr_len s) as Hlt by (rewrite H1, H2; apply Nat.mod_upper_bound; lia).
    apply Nat.ltb_lt in Hlt. rewrite Hlt. eexists. split; [reflexivity|]. split; [|reflexivity].
    unfold tr_inv. cbn [tr_len tr_idx tr_cycle tr_buf]. rewrite app_length, Nat.add_1_r.
    split; [exact H1|]. split; [rewrite H1, H2; symmetry; now apply mod_succ_wrap|]. split.
    - rewrite H1, H2, H3. destruct (Nat.eqb_spec (S (length pre mod n)) n) as [E|E].
      + symmetry. apply Nat.leb_le. pose proof (Nat.mod_le (length pre) n ltac:(lia)). lia.
      + destruct (Nat.leb_spec n (length pre)); destruct (Nat.leb_spec n (S (length pre))); auto; try lia.
        exfalso. apply E. assert (n = S (length pre)) as -> by lia. rewrite Nat.mod_small; lia.
    - intros p d Hp Hq. rewrite H2. destruct (Nat.eq_dec p (length pre)) as [->|Hne].
      + rewrite upd_same, app_nth2, Nat.sub_diag by lia. reflexivity.
      + rewrite upd_other by (apply mod_neq; lia). rewrite app_nth1 by lia. apply H4; lia.
  Qed.
  Lemma tr_steps_inv n (os : list (tr_op T)) : 0 < n -> forall pre s, tr_inv n pre s ->
    exists s', tr_steps s os = Ok s' /\ tr_inv n (pre ++ enabled_samples (tr_run s) os) s'.
  Proof.
    intros Hn. induction os as [|[i|b] os IH]; intros pre s Hi; cbn [tr_steps enabled_samples].
    - exists s. rewrite app_nil_r. auto.
    - destruct (tr_run s) eqn:E.
      + destruct (tr_step_inv n pre s i Hn Hi E) as (s' & A & B & C). rewrite A. cbn [bind].
        destruct (IH _ _ B) as (s2 & D & F). exists s2. split; [exact D|].
        rewrite C in F. rewrite <- app_assoc in F. exact F.
      + cbn [tr_step]. rewrite E. cbn [bind]. destruct (IH _ _ Hi) as (s2 & D & F).
        exists s2. split; [exact D|]. rewrite E in F. exact F.
    - cbn [tr_step bind]. apply (IH pre {| tr_len := tr_len s; tr_idx := tr_idx s; tr_cycle := tr_cycle s; tr_run := b; tr_buf := tr_buf s |}).
      exact Hi.
  Qed.
  Lemma nth_ext' {A : Type} (l l' : list A) : length l = length l' ->
    (forall k d, k < length l -> nth k l d = nth k l' d) -> l = l'.
  Proof.
    revert l'. induction l as [|x l IH]; intros [|y l'] H H'; try discriminate; [reflexivity|].
    f_equal; [exact (H' 0 x ltac:(cbn; lia))|]. apply IH; [now injection H|].
    intros k d Hk. exact (H' (S k) d ltac:(cbn; lia)).
  Qed.
  Lemma nth_skipn {A : Type} (d : A) n l k : nth k (skipn n l) d = nth (n + k) l d.
  Proof. revert l. induction n; intros [|x l]; cbn; auto. destruct k; reflexivity. Qed.
  Lemma nth_map_seq {A : Type} (f : nat -> A) a n k d : k < n -> nth k (map f (seq a n)) d = f (a + k).
  Proof.
    intros H. rewrite (nth_indep _ _ (f 0)) by (now rewrite map_length, seq_length).
    rewrite map_nth, seq_nth by exact H. reflexivity.
  Qed.
  Lemma tr_get_inv n pre s : 0 < n -> tr_inv n pre s -> tr_get s = lastn n pre.
  Proof.
    intros Hn (H1 & H2 & H3 & H4). unfold tr_get, lastn. rewrite H3.
    destruct (Nat.leb_spec n (length pre)) as [H|H].
    - apply nth_ext'.
      + rewrite map_length, seq_length, skipn_length. lia.
      + intros k d Hk. rewrite map_length, seq_length, H1 in Hk. rewrite H1, nth_map_seq, nth_skipn by lia.
        rewrite <- (H4 (length pre - n + k)) by lia. f_equal. rewrite H2.
        cbn [Nat.add]. rewrite Nat.add_mod_idemp_r by lia.
        rewrite <- (mod_add_n n (length pre - n + k)) by lia. f_equal. lia.
    - rewrite H2, Nat.mod_small by lia. replace (length pre - n) with 0 by lia. cbn [skipn].
      apply nth_ext'; rewrite map_length, seq_length; [reflexivity|].
      intros k d Hk. rewrite nth_map_seq by lia. rewrite <- (H4 k) by lia. now rewrite Nat.mod_small by lia.
  Qed.
  Lemma trace_runs n junk (os : list (tr_op T)) : 0 < n ->
    exists s, tr_steps (tr_new n junk) os = Ok s /\ tr_get s = lastn n (enabled_samples false os).
  Proof.
    intros Hn. destruct (tr_steps_inv n os Hn [] (tr_new n junk)) as (s & A & B).
    - split; [reflexivity|]. split; [symmetry; apply Nat.mod_small; cbn; lia|].
      split; [symmetry; apply Nat.leb_gt; cbn; lia|]. cbn. lia.
    - exists s. split; [exact A|]. exact (tr_get_inv n _ s Hn B).
  Qed.
End Trace.

(** ** Wrap-around *)
Open Scope R_scope.
Lemma nfloor_real (x : R) : nfloor Rnum x = IZR (Zfloor x).
Proof.
  unfold nfloor. cbn. destruct (Rle_or_lt 0 x) as [H|H].
  - rewrite Ztrunc_floor by exact H. rewrite Rlt_bool_false; [reflexivity|]. apply Zfloor_lb.
  - rewrite Ztrunc_ceil by lra. case Rlt_bool_spec; intros E.
    + f_equal. symmetry. apply Zfloor_imp. rewrite minus_IZR, plus_IZR, minus_IZR.
      pose proof (Zceil_lb x). pose proof (Zceil_ub x). split; lra.
    + f_equal. pose proof (Zceil_ub x). assert (x = IZR (Zceil x)) as -> by lra.
      now rewrite Zceil_IZR, Zfloor_IZR.
Qed.
Definition frac_part (w y : R) : R := y - IZR (Zfloor (y / w)) * w.
Lemma frac_part_range w y : 0 < w -> 0 <= frac_part w y < w.
Proof.
  intros H. unfold frac_part. pose proof (Zfloor_lb (y / w)). pose proof (Zfloor_ub (y / w)).
  assert (y = y / w * w) as E by (field; lra). set (q := y / w) in *. clearbody q. subst y. nra.
Qed.
Lemma wa_real mn mx x : mn < mx ->
  wa_calc Rnum mn mx x = if Rlt_bool 0 (frac_part (mx - mn) (x - mn)) then frac_part (mx - mn) (x - mn) + mn else x.
Proof.
  intros H. unfold wa_calc. cbn -[nfloor]. rewrite nfloor_real.
  rewrite (Rabs_pos_eq (mx - mn)) by lra.
  pose proof (frac_part_range (mx - mn) (x - mn) ltac:(lra)) as [A B].
  fold (frac_part (mx - mn) (x - mn)). rewrite Rlt_bool_false by exact A. reflexivity.
Qed.
Lemma wa_congruent mn mx x : mn < mx -> congruent (mx - mn) x (wa_calc Rnum mn mx x).
Proof.
  intros H. rewrite wa_real by exact H. unfold congruent. case Rlt_bool_spec; intros E.
  - exists (- Zfloor ((x - mn) / (mx - mn)))%Z. rewrite opp_IZR. unfold frac_part. ring.
  - exists 0%Z. ring.
Qed.
Lemma wa_inside mn mx x : mn < mx -> ~ congruent (mx - mn) mn x ->
  mn < wa_calc Rnum mn mx x < mx.
Proof.
  intros H Hn. rewrite wa_real by exact H.
  pose proof (frac_part_range (mx - mn) (x - mn) ltac:(lra)) as [A B].
  case Rlt_bool_spec; intros E; [lra|]. exfalso. apply Hn.
  exists (Zfloor ((x - mn) / (mx - mn))). unfold frac_part in *. lra.
Qed.
Lemma wa_identity mn mx x : mn < mx -> mn <= x <= mx -> wa_calc Rnum mn mx x = x.
Proof.
  intros H Hx. rewrite wa_real by exact H. case Rlt_bool_spec; intros E; [|reflexivity].
  unfold frac_part in *. destruct (Rle_lt_or_eq_dec x mx (proj2 Hx)) as [Hl|He].
  - replace (Zfloor ((x - mn) / (mx - mn))) with 0%Z in *; [lra|]. symmetry. apply Zfloor_imp.
    split; [apply Rmult_le_pos; [lra|]; left; apply Rinv_0_lt_compat; lra|].
    apply (Rmult_lt_reg_r (mx - mn)); [lra|]. unfold Rdiv. rewrite Rmult_assoc, Rinv_l by lra. cbn. lra.
  - exfalso. subst x. replace ((mx - mn) / (mx - mn)) with (IZR 1) in E by (cbn; field; lra).
    rewrite Zfloor_IZR in E. lra.
Qed.
Lemma wa_multiple mn mx k : mn < mx -> wa_calc Rnum mn mx (mn + IZR k * (mx - mn)) = mn + IZR k * (mx - mn).
Proof.
  intros H. rewrite wa_real by exact H. unfold frac_part.
  replace ((mn + IZR k * (mx - mn) - mn) / (mx - mn)) with (IZR k) by (field; lra).
  rewrite Zfloor_IZR. rewrite Rlt_bool_false; [reflexivity|lra].
Qed.

(** ** Step *)
Open Scope nat_scope.
Lemma sp_later {N : num} (ts : list (N * N)) : forall s, sp_first s = false -> forall k, k < length ts ->
  forall d, nth k (sp_runs N s ts) d =
  if sp_done s then sp_out s
  else if existsb (fun t => nleb N (sp_time s) (snd t)) (firstn (S k) ts)
  then nadd N (sp_init s) (sp_height s) else sp_out s.
Proof.
  induction ts as [|[t1 t2] ts IH]; intros s Hf k Hk d; [cbn in Hk; lia|].
  cbn [sp_runs]. destruct k.
  - cbn. rewrite Hf. destruct (sp_done s); cbn; [reflexivity|]. now destruct (nleb N (sp_time s) t2).
  - cbn in Hk. cbn [nth]. rewrite IH by (cbn; lia || reflexivity).
    set (m := S k). cbn [firstn existsb snd]. unfold sp_run. rewrite Hf. cbn [sp_time sp_done sp_out sp_init sp_height].
    destruct (sp_done s); cbn; [reflexivity|]. destruct (nleb N (sp_time s) t2); reflexivity.
Qed.
Lemma step_runs {N : num} (s : step N) t0 (ts : list (N * N)) k d : sp_first s = true -> sp_done s = false ->
  k < S (length ts) ->
  nth k (sp_runs N s (t0 :: ts)) d =
  if existsb (fun t => nleb N (nadd N (sp_delay s) (fst t0)) (snd t)) (firstn (S k) (t0 :: ts))
  then nadd N (sp_init s) (sp_height s) else sp_init s.
Proof.
  intros Hf Hd Hk. destruct t0 as [t1 t2]. cbn [sp_runs]. destruct k.
  - cbn. rewrite Hf, Hd. cbn. now destruct (nleb N _ t2).
  - cbn [nth]. rewrite sp_later by (cbn; lia || reflexivity). set (m := S k). cbn [firstn existsb snd fst].
    unfold sp_run. rewrite Hf, Hd. cbn [sp_time sp_done sp_out sp_init sp_height negb andb].
    destruct (nleb N _ t2); reflexivity.
Qed.

(** ** Low pass filter *)
Open Scope R_scope.
Definition lp_step (alpha p x : R) : R := x * alpha + p * (1 - alpha).
Lemma lp_later alpha (is : list (signal R)) : forall (s : lpf Rnum), lp_first s = false -> lp_en s = true -> lp_alpha s = alpha ->
  forall a b, 0 <= alpha <= 1 -> a <= lp_prev s <= b -> (forall i, In i is -> a <= sv i <= b) ->
  forall o, In o (lp_runs Rnum s is) -> a <= sv o <= b.
Proof.
  induction is as [|i is IH]; intros s Hf He Ha a b Hal Hp Hi o Ho; [destruct Ho|].
  cbn [lp_runs] in Ho. unfold lp_run in Ho. rewrite Hf, He, Ha in Ho. cbn [lp_first lp_en lp_alpha] in Ho.
  pose proof (Hi i (or_introl eq_refl)) as Hx. cbn in Hp.
  assert (a <= lp_step alpha (lp_prev s) (sv i) <= b) as Hs.
  { change (nT Rnum) with R in *. unfold lp_step. split; nra. }
  destruct Ho as [<-|Ho]; [exact Hs|].
  eapply IH; [..|exact Ho]; cbn; auto.
  intros; apply Hi; now right.
Qed.
