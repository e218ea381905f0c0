(** Proofs for the small parts. *)
From Coq Require Import String Reals Lra Floats.SpecFloat.
From Verif Require Import Prelude Num SeqModel HalModel MiscModel MiscSpec.
Import List ListNotations.
Open Scope Z_scope.

Lemma wait_ends_R : forall (w st : R) (polls : list R) k, wait_ends Rnum w st polls = Some k <->
  (exists t, nth_error polls k = Some t /\ w < t - st)%R /\
  (forall j t, (j < k)%nat -> nth_error polls j = Some t -> (t - st <= w)%R).
Proof.
  intros w st polls; induction polls as [|now polls IH]; intros k.
  - split; [discriminate|]. intros [(t & H & _) _]. destruct k; discriminate H.
  - cbn [wait_ends]. unfold wait_exit. cbn [nltb Rnum nsub].
    destruct (Flocq.Core.Raux.Rlt_bool_spec w (now - st)) as [Hl|Hl].
    + split.
      * intros H. injection H as <-. split; [exists now; split; [reflexivity|exact Hl]|]. intros j t Hj. lia.
      * intros [(t & Ht & Hw) Hb]. destruct k as [|k]; [reflexivity|]. exfalso.
        specialize (Hb 0%nat now ltac:(lia) eq_refl). lra.
    + destruct k as [|k].
      * split.
        -- destruct (wait_ends Rnum w st polls); discriminate.
        -- intros [(t & Ht & Hw) _]. cbn in Ht. injection Ht as <-. lra.
      * transitivity (wait_ends Rnum w st polls = Some k).
        { destruct (wait_ends Rnum w st polls); cbn; split; congruence. }
        rewrite IH. cbn [nth_error]. split; intros [Ha Hb]; (split; [exact Ha|]); intros j t Hj Ht.
        -- destruct j as [|j]; [cbn in Ht; injection Ht as <-; exact Hl|]. apply (Hb j t); [lia|exact Ht].
        -- apply (Hb (S j) t); [lia|exact Ht].
Qed.
Lemma wait_nan : forall st polls, wait_ends Dnum dnan st polls = None.
Proof.
  intros st polls; induction polls as [|now polls IH]; [reflexivity|].
  cbn [wait_ends]. unfold wait_exit. change (nltb Dnum dnan (nsub Dnum now st)) with false. cbv iota. rewrite IH. reflexivity.
Qed.

Lemma const_values : forall t, 0 <= int_bits t -> constant_default t = default_value t.
Proof.
  intros [|b|b] H; unfold constant_default, convert_int, default_value; cbn [int_bits] in H.
  - reflexivity.
  - destruct (Z.leb_spec b 31) as [Hb|Hb].
    + destruct (Z.eq_dec b 0) as [->|Nb]; [reflexivity|].
      assert (E : - 2 ^ 31 + 2 ^ (b - 1) = 2 ^ (b - 1) + (- 2 ^ (31 - b)) * 2 ^ b).
      { rewrite Z.mul_opp_l, <- Z.pow_add_r by lia. replace (31 - b + b) with 31 by lia. lia. }
      rewrite E, Z_mod_plus_full, Z.mod_small; [lia|]. split; [apply Z.pow_nonneg; lia|apply Z.pow_lt_mono_r; lia].
    + assert (2 ^ 31 <= 2 ^ (b - 1)) by (apply Z.pow_le_mono_r; lia). assert (0 < 2 ^ 31) by reflexivity.
      assert (2 ^ b = 2 * 2 ^ (b - 1)) by (rewrite <- Z.pow_succ_r by lia; f_equal; lia).
      rewrite Z.mod_small by lia. lia.
  - destruct (Z.leb_spec b 31) as [Hb|Hb].
    + assert (E : - 2 ^ 31 = 0 + (- 2 ^ (31 - b)) * 2 ^ b).
      { rewrite Z.mul_opp_l, <- Z.pow_add_r by lia. replace (31 - b + b) with 31 by lia. lia. }
      rewrite E, Z_mod_plus_full. apply Z.mod_0_l. assert (0 < 2 ^ b) by (apply Z.pow_pos_nonneg; lia). lia.
    + assert (2 ^ 31 < 2 ^ b) by (apply Z.pow_lt_mono_r; lia). assert (0 < 2 ^ 31) by reflexivity.
      replace (- 2 ^ 31) with ((2 ^ b - 2 ^ 31) + (-1) * 2 ^ b) by lia. rewrite Z_mod_plus_full. apply Z.mod_small. lia.
Qed.
Lemma const_32 : constant_default (ISigned 32) = least (ISigned 32).
Proof. reflexivity. Qed.

(** The pin does not change as long as the buffer has room. *)
Lemma so_sets : forall cap inv vs s, (length (so_buf s) + length vs <= cap)%nat ->
  let s' := fold_left (so_set cap inv) vs s in so_pin s' = so_pin s /\ so_buf s' = so_buf s ++ map (xorb inv) vs.
Proof.
  intros cap inv; induction vs as [|v vs IH]; intros s H; cbn zeta.
  - cbn. rewrite app_nil_r. auto.
  - cbn [fold_left]. unfold so_set at 2 4. cbn in H. replace (length (so_buf s) <? cap)%nat with true by (symmetry; apply Nat.ltb_lt; lia).
    match goal with |- context[fold_left _ vs ?x] => destruct (IH x) as [A B] end.
    + cbn. rewrite app_length. cbn. lia.
    + rewrite A, B. cbn. rewrite <- app_assoc. auto.
Qed.
Lemma so_closed : forall cap vs v s, so_pin (so_close (fold_left (so_set cap false) (vs ++ [v]) s)) = v.
Proof.
  intros cap vs v s. rewrite fold_left_app. cbn [fold_left]. set (s1 := fold_left _ vs s). unfold so_close, so_set. cbn [so_pin so_buf].
  destruct (length (so_buf s1) <? cap)%nat; cbn [so_buf so_pin].
  - rewrite last_last. destruct v; reflexivity.
  - destruct v; reflexivity.
Qed.
Lemma so_written : forall cap p0 vs, (0 < cap)%nat -> let k := written_out cap (length vs) in
  let s := fold_left (so_set cap false) vs {| so_buf := []; so_pin := p0 |} in
  so_pin s = last (firstn k vs) p0 /\ so_buf s = skipn k vs /\ (length (so_buf s) <= cap)%nat.
Proof.
  intros cap p0 vs Hc. induction vs as [|v vs IH] using rev_ind; cbn zeta.
  - unfold written_out. cbn [length]. replace ((0 - 1) / cap * cap)%nat with 0%nat by (cbn; rewrite Nat.div_0_l; lia). cbn. auto with arith.
  - cbn zeta in IH. destruct IH as (A & B & C). rewrite fold_left_app. cbn [fold_left]. set (s := fold_left (so_set cap false) vs {| so_buf := []; so_pin := p0 |}) in *.
    unfold so_set. rewrite app_length. cbn [length]. unfold written_out in *. replace (length vs + 1 - 1)%nat with (length vs) by lia.
    set (n := length vs) in *. set (k := ((n - 1) / cap * cap)%nat) in *.
    assert (Hk : (k <= n)%nat) by (pose proof (Nat.mul_div_le (n - 1) cap ltac:(lia)); unfold k; lia).
    assert (L : length (so_buf s) = (n - k)%nat) by (rewrite B, skipn_length; reflexivity).
    replace (xorb false v) with v by (destruct v; reflexivity).
    destruct (Nat.ltb_spec (length (so_buf s)) cap) as [Hl|Hl]; cbn [so_pin so_buf].
    + assert (E : (n / cap * cap)%nat = k).
      { unfold k. f_equal. symmetry. apply (Nat.div_unique n cap ((n - 1) / cap) (n - k)); [lia|]. fold k. unfold k in *. lia. }
      rewrite E. rewrite !firstn_app, skipn_app. replace (k - length vs)%nat with 0%nat by (fold n; lia). cbn [firstn skipn]. rewrite app_nil_r.
      split; [exact A|]. split; [rewrite B; reflexivity|]. rewrite app_length. cbn. lia.
    + assert (E : (n / cap * cap)%nat = n).
      { assert (X : n = ((n - 1) / cap * cap + cap)%nat) by (fold k; lia). rewrite X at 1.
        replace ((n - 1) / cap * cap + cap)%nat with (((n - 1) / cap + 1) * cap)%nat by lia. rewrite Nat.div_mul by lia. lia. }
      rewrite E. rewrite firstn_app, skipn_app. unfold n. rewrite Nat.sub_diag. cbn [firstn skipn]. rewrite app_nil_r, firstn_all, skipn_all. cbn [app].
      split; [|split; [reflexivity|cbn; lia]]. rewrite B, A. rewrite <- (firstn_skipn k vs) at 3. destruct (skipn k vs) as [|x l] eqn:S.
      * exfalso. rewrite B in Hl. cbn in Hl. lia.
      * assert (G : forall (a : list bool) b d d', b <> [] -> last b d = last (a ++ b) d').
        { clear. intros a b d d' Hb. destruct (exists_last Hb) as (b' & x & ->). rewrite app_assoc, !last_last. reflexivity. }
        apply G. discriminate.
Qed.

Lemma sw_seq : forall (M : Type) (ms : list (level * M)) w,
  sw_written (sw_run w (flat_map (fun m => [SBegin (fst m); SEnd (snd m)]) ms)) = sw_written w ++ wanted (sw_visible w) ms.
Proof.
  intros M; induction ms as [|[l m] ms IH]; intros w.
  - cbn. rewrite app_nil_r. reflexivity.
  - cbn [flat_map app].
    change (sw_run w (SBegin (fst (l, m)) :: SEnd (snd (l, m)) :: flat_map (fun m0 : level * M => [SBegin (fst m0); SEnd (snd m0)]) ms))
      with (sw_run (sw_step (sw_step w (SBegin l)) (SEnd m)) (flat_map (fun m0 : level * M => [SBegin (fst m0); SEnd (snd m0)]) ms)).
    rewrite IH.
    unfold wanted. cbn [filter fst snd map sw_step sw_visible sw_written sw_enabled sw_level].
    change (rank l <=? rank (sw_visible w)) with (lnum l <=? lnum (sw_visible w)).
    destruct (lnum l <=? lnum (sw_visible w)); cbn [map fst snd].
    + rewrite <- app_assoc. destruct l; reflexivity.
    + reflexivity.
Qed.
Lemma priority_mono : forall a b, lnum a < lnum b <-> priority a < priority b.
Proof. intros [] []; cbn; lia. Qed.

Lemma periph_refused : forall Ob w n e s, snd (do_get Ob RAny n e s) = Exc ->
  snd (periph Ob w n e s) = Exc /\ same_claims (fst (periph Ob w n e s)) s.
Proof.
  intros Ob w n e s H. unfold periph. destruct (do_get Ob RAny n e s) as [s1 r] eqn:E. cbn in H. subst r.
  cbn. split; [reflexivity|]. unfold do_get in E. cbn [casts negb] in E.
  assert (C : forall q, excl (touch s n) q = excl s q /\ shared (touch s n) q = shared s q).
  { intros q. unfold touch. destruct (tbl s n); cbn; auto. }
  destruct (excl (touch s n) (at_ (touch s n) n)).
  - injection E as <-. exact C.
  - destruct e; [|discriminate E]. destruct (shared (touch s n) (at_ (touch s n) n)); [|discriminate E].
    injection E as <-. exact C.
Qed.
Lemma periph_ok : forall Ob w n e s p, snd (periph Ob w n e s) = Ret p ->
  exists a, p = Some a /\ casts Ob w p = true /\ tbl s n = Some p /\
    (if e then excl (fst (periph Ob w n e s)) p = true else shared (fst (periph Ob w n e s)) p = true).
Proof.
  intros Ob w n e s p H. unfold periph in *. destruct (do_get Ob RAny n e s) as [s1 r] eqn:E. destruct r as [q|]; [|discriminate H].
  destruct q as [a|]; [|discriminate H]. destruct (casts Ob w (Some a)) eqn:Ec; [|discriminate H].
  cbn in H. injection H as <-. exists a. repeat split; auto.
  - unfold do_get in E. cbn [casts negb] in E.
    assert (Hp : at_ (touch s n) n = Some a).
    { destruct (excl _ _); [discriminate E|]. destruct e; [destruct (shared _ _); [discriminate E|]|]; congruence. }
    unfold at_, touch in Hp. destruct (tbl s n) as [q|] eqn:Et; [rewrite Et in Hp; congruence|].
    cbn in Hp. unfold tbl_set in Hp. rewrite String.eqb_refl in Hp. discriminate Hp.
  - unfold do_get in E. cbn [casts negb] in E. cbn [fst].
    destruct (excl (touch s n) (at_ (touch s n) n)); [discriminate E|].
    destruct e; [destruct (shared (touch s n) (at_ (touch s n) n)); [discriminate E|]|]; injection E as <- ->; cbn; unfold set_add; cbn; rewrite Nat.eqb_refl; reflexivity.
Qed.
(** A second block for the same signal cannot be constructed after the first was destroyed. *)
Lemma periph_again : forall Ob w w' n e s p, snd (periph Ob w n true s) = Ret p ->
  snd (periph Ob w' n e (fst (periph Ob w n true s))) = Exc.
Proof.
  intros Ob w w' n e s p H. destruct (periph_ok Ob w n true s p H) as (a & -> & Hc & Ht & He).
  set (s1 := fst (periph Ob w n true s)) in *.
  assert (Ht1 : tbl s1 n = Some (Some a)).
  { subst s1. unfold periph in *. destruct (do_get Ob RAny n true s) as [u r] eqn:E.
    assert (Hu : tbl u n = Some (Some a)).
    { unfold do_get, touch in E. rewrite Ht in E. cbn in E. repeat match type of E with context[if ?b then _ else _] => destruct b end; injection E as <- <-; exact Ht. }
    destruct r as [q|]; [destruct q; [destruct (casts Ob w (Some n0))|]|]; exact Hu. }
  clearbody s1. unfold periph, do_get, touch. rewrite Ht1. unfold at_. rewrite Ht1. cbn [casts negb]. rewrite He. reflexivity.
Qed.

Lemma sub_vec_ok : forall (A : Type) n (val : list A), (n <= length val)%nat -> sub_vec n val = Ok (firstn n val).
Proof.
  intros A n; induction n as [|n IH]; intros [|v val] H; cbn in *; try reflexivity; [lia|]. rewrite IH by lia. reflexivity.
Qed.
Lemma sub_vec_short : forall (A : Type) n (val : list A), (length val < n)%nat -> sub_vec n val = UB.
Proof.
  intros A n; induction n as [|n IH]; intros [|v val] H; cbn in *; try reflexivity; [lia|lia|]. rewrite IH by lia. reflexivity.
Qed.
Lemma pub_sub : forall (A : Type) (sig : list A), sub_vec (length sig) (pub_vec sig) = Ok sig.
Proof. intros A sig. unfold pub_vec. rewrite sub_vec_ok by lia. rewrite firstn_all. reflexivity. Qed.
