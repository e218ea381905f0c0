(** Proofs about the blocks of [CtrlModel2], part 3: switches, transitions. *)
From Coq Require Import Reals Lra Lia Psatz Floats.SpecFloat.
From Flocq Require Import Core.Raux.
From Verif Require Import Prelude Num NumOrd CtrlModel CtrlModel2 CtrlSpec2.
Open Scope Z_scope.

Section Switch.
  Context {N : num} (n : Z).
  Notation world := (sworld N).

  Lemma only_cur_refl (w : world) : only_cur w w.
  Proof. intros j. unfold sw_set_cur. now destruct (w j). Qed.
  Lemma only_cur_trans (a b c : world) : only_cur a b -> only_cur b c -> only_cur a c.
  Proof. intros H1 H2 j. rewrite (H2 j), (H1 j). reflexivity. Qed.
  Lemma only_cur_children (w w' : world) j : only_cur w w' -> sw_children (w' j) = sw_children (w j).
  Proof. intros H. rewrite (H j). reflexivity. Qed.
  Lemma only_cur_sym (a b : world) : only_cur a b -> only_cur b a.
  Proof.
    intros H j. pose proof (H j) as E. rewrite E. unfold sw_set_cur. now destruct (a j).
  Qed.
  Lemma below_only (w w' : world) k j : only_cur w w' -> below w k j -> below w' k j.
  Proof.
    intros H. induction 1; [constructor|]. econstructor; [|exact IHbelow]. now rewrite (only_cur_children w w').
  Qed.
  Lemma only_cur_upd (w : world) k c : only_cur w (upd w k (sw_set_cur N (w k) c)).
  Proof.
    intros j. destruct (Nat.eq_dec j k) as [->|]; [now rewrite upd_same|]. rewrite upd_other by assumption.
    unfold sw_set_cur. now destruct (w j).
  Qed.

  (** The effect of selecting [idx] on a switch and everything combined below it. *)
  Definition selected (idx : Z) (P : nat -> Prop) (w w' : world) : Prop :=
    only_cur w w' /\ (forall j, P j -> sw_cur (w' j) = idx) /\ (forall j, ~ P j -> w' j = w j) /\
    (forall j, sw_cur (w' j) = idx \/ w' j = w j).

  Lemma fold_err {A : Type} (f : world -> A -> outcome world) cs (a : outcome world) : (forall w, a <> Ok w) ->
    fold_left (fun a c => bind a (fun w => f w c)) cs a = a.
  Proof.
    revert a. induction cs as [|c cs IH]; intros a H; cbn; [reflexivity|]. destruct a; cbn.
    - exfalso. eapply H. reflexivity.
    - apply IH. discriminate.
    - apply IH. discriminate.
  Qed.
  Lemma fold_selected idx (f : world -> nat -> outcome world) (w0 : world) :
    (forall w c w', only_cur w0 w -> f w c = Ok w' -> selected idx (below w c) w w') ->
    forall cs w w', only_cur w0 w -> fold_left (fun a c => bind a (fun w => f w c)) cs (Ok w) = Ok w' ->
    only_cur w w' /\ (forall j, (exists c, In c cs /\ below w c j) -> sw_cur (w' j) = idx) /\
    (forall j, ~ (exists c, In c cs /\ below w c j) -> w' j = w j) /\
    (forall j, sw_cur (w' j) = idx \/ w' j = w j).
  Proof.
    intros Hf. induction cs as [|c cs IH]; intros w w' Hw H; cbn in H.
    - injection H as <-. split; [apply only_cur_refl|]. split; [|auto]. intros j (c & [] & _).
    - destruct (f w c) as [w1| |] eqn:E; [|rewrite fold_err in H; discriminate..].
      destruct (Hf w c w1 Hw E) as (A & B & C & C1).
      destruct (IH w1 w' (only_cur_trans _ _ _ Hw A) H) as (D & F & G & K).
      split; [exact (only_cur_trans _ _ _ A D)|]. split; [|split].
      + intros j (x & [->|Hx] & Hb); [destruct (K j) as [h|h]; [exact h|rewrite h; now apply B]|]. apply F. exists x. split; [exact Hx|]. now apply (below_only w w1).
      + intros j Hn. rewrite G; [apply C|].
        * intros Hb. apply Hn. exists c. split; [now left|exact Hb].
        * intros (x & Hx & Hb). apply Hn. exists x. split; [now right|]. apply (below_only w1 w); [now apply only_cur_sym|exact Hb].
      + intros j. destruct (K j) as [h|h]; [now left|]. rewrite h. apply C1.
  Qed.
  Lemma sw_to_selected fuel : forall (w : world) k idx w', idx < n -> sw_to N n fuel w k idx = Ok w' ->
    selected idx (below w k) w w'.
  Proof.
    induction fuel as [|fuel IH]; intros w k idx w' Hi H; cbn in H; [discriminate|].
    destruct (Z.ltb_spec idx n) as [_|]; [|lia].
    set (w0 := upd w k (sw_set_cur N (w k) idx)) in *.
    assert (H0 : only_cur w w0) by apply only_cur_upd.
    destruct (fold_selected idx (fun w' c => sw_to N n fuel w' c idx) w0
      (fun w c w' _ E => IH w c idx w' Hi E) (sw_children (w k)) w0 w' (only_cur_refl _) H) as (A & B & C & D).
    split; [exact (only_cur_trans _ _ _ H0 A)|]. split; [|split].
    - intros j Hb. inversion Hb as [|? c ? Hc Hj]; subst.
      + destruct (D j) as [h|h]; [exact h|]. rewrite h. unfold w0. now rewrite upd_same.
      + apply B. exists c. split; [exact Hc|]. now apply (below_only w w0).
    - intros j Hn. rewrite C.
      + unfold w0. rewrite upd_other; [reflexivity|]. intros ->. apply Hn. constructor.
      + intros (c & Hc & Hb). apply Hn. econstructor; [exact Hc|].
        apply (below_only w0 w); [now apply only_cur_sym|exact Hb].
    - intros j. destruct (D j) as [h|h]; [now left|]. rewrite h. unfold w0.
      destruct (Nat.eq_dec j k) as [->|]; [left; now rewrite upd_same|right; now apply upd_other].
  Qed.
  Lemma sw_to_invalid fuel (w : world) k idx : n <= idx -> sw_to N n (S fuel) w k idx = Ok w.
  Proof. intros H. cbn. destruct (Z.ltb_spec idx n); [lia|reflexivity]. Qed.

  (** Runs. *)
  Lemma sw_run_out fuel (w : world) k ins lvl w' o ev :
    sw_run N n fuel w k ins lvl = Ok (w', o, ev) -> o = ins (sw_cur (w' k)).
  Proof.
    unfold sw_run. destruct (sw_cur (w k) <? n); [|discriminate].
    destruct (sw_armed (w k) && negb (sw_switched (w k))).
    - destruct (sw_cond (w k)) as [[[level delta] next]|]; [|discriminate].
      destruct (sw_near _ _ _ _ && lvl).
      + destruct (sw_to _ _ _ w k next) as [w1| |]; [|discriminate..]. cbn [bind].
        destruct (fold_left _ _ _) as [w2| |]; [|discriminate..]. cbn [bind]. intros H. injection H as <- <- <-. reflexivity.
      + intros H. injection H as <- <- <-. reflexivity.
    - intros H. injection H as <- <- <-. reflexivity.
  Qed.
  Lemma sw_run_idle fuel (w : world) k ins lvl w' o ev :
    sw_armed (w k) = false \/ sw_switched (w k) = true ->
    sw_run N n fuel w k ins lvl = Ok (w', o, ev) -> w' = w /\ ev = false.
  Proof.
    intros Ha. unfold sw_run. destruct (sw_cur (w k) <? n); [|discriminate].
    replace (sw_armed (w k) && negb (sw_switched (w k))) with false
      by (destruct Ha as [-> | ->]; [|destruct (sw_armed (w k))]; reflexivity).
    intros H. injection H as <- <- <-. auto.
  Qed.
  Lemma sw_run_cases fuel (w : world) k ins lvl w' o ev :
    sw_run N n fuel w k ins lvl = Ok (w', o, ev) ->
    (w' = w /\ ev = false) \/
    (exists level delta next, sw_armed (w k) = true /\ sw_switched (w k) = false /\
       sw_cond (w k) = Some (level, delta, next) /\ lvl = true /\
       nltb N (sv (ins (sw_cur (w k)))) (nadd N level delta) = true /\
       nltb N (nsub N level delta) (sv (ins (sw_cur (w k)))) = true /\
       sw_armed (w' k) = false /\ sw_switched (w' k) = true /\ ev = sw_event (w k) /\
       (next < n -> forall j, below w k j -> sw_cur (w' j) = next) /\
       (forall j, ~ below w k j -> w' j = w j) /\
       (n <= next -> forall j, sw_cur (w' j) = sw_cur (w j))).
  Proof.
    unfold sw_run. destruct (sw_cur (w k) <? n); [|discriminate].
    destruct (sw_armed (w k) && negb (sw_switched (w k))) eqn:Ea.
    2: { intros H. injection H as <- <- <-. auto. }
    apply andb_prop in Ea. destruct Ea as [Ea Es]. apply Bool.negb_true_iff in Es.
    destruct (sw_cond (w k)) as [[[level delta] next]|] eqn:Ec; [|discriminate].
    destruct (sw_near _ _ _ _ && lvl) eqn:En.
    2: { intros H. injection H as <- <- <-. auto. }
    apply andb_prop in En. destruct En as [En El]. unfold sw_near in En. apply andb_prop in En. destruct En as [E1 E2].
    destruct (sw_to _ _ _ w k next) as [w1| |] eqn:T; [|discriminate..]. cbn [bind].
    destruct (fold_left _ _ _) as [w2| |] eqn:F; [|discriminate..]. cbn [bind]. intros H. injection H as <- <- <-.
    right. exists level, delta, next.
    repeat (split; [first [reflexivity | assumption | now rewrite upd_same]|]).
    destruct (Z.lt_ge_cases next n) as [Hl|Hl].
    - destruct (sw_to_selected fuel w k next w1 Hl T) as (A & B & C & _).
      destruct (fold_selected next (fun w' c => sw_to N n fuel w' c next) w1
        (fun w c w' _ E => sw_to_selected fuel w c next w' Hl E) (sw_children (w1 k)) w1 w2 (only_cur_refl _) F)
        as (A' & B' & C' & D').
      split; [|split].
      + intros _ j Hj. assert (sw_cur (w2 j) = next) as E.
        { destruct (D' j) as [h|h]; [exact h|rewrite h; now apply B]. }
        destruct (Nat.eq_dec j k) as [->|]; [rewrite upd_same|rewrite upd_other by assumption]; exact E.
      + intros j Hj. rewrite upd_other by (intros ->; apply Hj; constructor). rewrite C'; [now apply C|].
        intros (c & Hc & Hb). apply Hj. rewrite (only_cur_children w w1) in Hc by exact A. econstructor; [exact Hc|].
        apply (below_only w1 w); [now apply only_cur_sym|exact Hb].
      + intros; lia.
    - assert (E : sw_to N n fuel w k next = Ok w1 -> w1 = w).
      { destruct fuel; [discriminate|]. rewrite sw_to_invalid by exact Hl. now injection 1. }
      specialize (E T). subst w1.
      assert (w2 = w) as ->.
      { revert F. generalize (sw_children (w k)). intros cs. clear - Hl T. revert T. intros T.
        destruct fuel; [discriminate|]. clear T. revert w. induction cs as [|c cs IH]; intros w F; [now injection F|].
        cbn [fold_left bind] in F. rewrite sw_to_invalid in F by exact Hl. now apply IH. }
      split; [intros; lia|]. split.
      + intros j Hj. apply upd_other. intros ->. apply Hj. constructor.
      + intros _ j. destruct (Nat.eq_dec j k) as [->|]; [now rewrite upd_same|now rewrite upd_other by assumption].
  Qed.

  (** Combination without cycles terminates. *)
  Lemma fold_ok (f : world -> nat -> outcome world) (w0 : world) cs :
    (forall w c, only_cur w0 w -> In c cs -> exists w', f w c = Ok w' /\ only_cur w w') ->
    forall w, only_cur w0 w -> exists w', fold_left (fun a c => bind a (fun w => f w c)) cs (Ok w) = Ok w' /\ only_cur w w'.
  Proof.
    induction cs as [|c cs IH]; intros Hf w Hw; cbn; [exists w; split; [reflexivity|apply only_cur_refl]|].
    destruct (Hf w c Hw (or_introl eq_refl)) as (w1 & E & A). rewrite E.
    destruct (IH (fun w c H Hc => Hf w c H (or_intror Hc)) w1 (only_cur_trans _ _ _ Hw A)) as (w2 & F & B).
    exists w2. split; [exact F|exact (only_cur_trans _ _ _ A B)].
  Qed.
  Lemma sw_to_total (rank : nat -> nat) fuel : forall (w : world) k idx,
    (forall a c, In c (sw_children (w a)) -> (rank c < rank a)%nat) -> (rank k < fuel)%nat ->
    exists w', sw_to N n fuel w k idx = Ok w' /\ only_cur w w'.
  Proof.
    induction fuel as [|fuel IH]; intros w k idx Hr Hk; [lia|]. cbn.
    destruct (idx <? n); [|exists w; split; [reflexivity|apply only_cur_refl]].
    set (w0 := upd w k (sw_set_cur N (w k) idx)).
    assert (H0 : only_cur w w0) by apply only_cur_upd.
    destruct (fold_ok (fun w' c => sw_to N n fuel w' c idx) w0 (sw_children (w k))) with (w := w0) as (w' & E & A).
    - intros w1 c Hw1 Hc. apply IH.
      + intros a c'. rewrite (only_cur_children w w1); [apply Hr|exact (only_cur_trans _ _ _ H0 Hw1)].
      + specialize (Hr k c Hc). lia.
    - apply only_cur_refl.
    - exists w'. split; [exact E|exact (only_cur_trans _ _ _ H0 A)].
  Qed.
  (** Two switches combined with each other. *)
  Definition mutual : world := fun k =>
    match k with
    | 0%nat => {| sw_cur := 0; sw_cond := None; sw_armed := false; sw_switched := false; sw_children := [1%nat]; sw_event := false |}
    | 1%nat => {| sw_cur := 0; sw_cond := None; sw_armed := false; sw_switched := false; sw_children := [0%nat]; sw_event := false |}
    | _ => sw_new N 0
    end.
  Lemma mutual_loop fuel : forall (w : world) k idx, idx < n -> (k <= 1)%nat ->
    only_cur mutual w -> sw_to N n fuel w k idx = UB.
  Proof.
    induction fuel as [|fuel IH]; intros w k idx Hi Hk Hw; cbn; [reflexivity|].
    destruct (Z.ltb_spec idx n); [|lia].
    rewrite (only_cur_children mutual w) by exact Hw.
    assert (only_cur mutual (upd w k (sw_set_cur N (w k) idx))) as H0
      by (eapply only_cur_trans; [exact Hw|apply only_cur_upd]).
    destruct k as [|[|]]; cbn; try lia; rewrite IH; auto.
  Qed.
End Switch.

(** ** Transition *)
Section Down.
  Context {N : num}.
  Lemma first_not_older_app t (l1 l2 : list (signal N)) : (forall x, In x l1 -> st x < t) ->
    first_not_older N t (l1 ++ l2) = (length l1 + first_not_older N t l2)%nat.
  Proof.
    induction l1 as [|x l1 IH]; intros H; [reflexivity|]. cbn. pose proof (H x (or_introl eq_refl)).
    destruct (Z.ltb_spec (st x) t); [|lia]. f_equal. apply IH. intros; apply H; now right.
  Qed.
  Lemma down_newest (s : transition N) t l1 x l2 : tn_steady s = false -> tn_up s = false ->
    tn_buf s = l1 ++ x :: l2 -> (forall y, In y (l1 ++ [x]) -> st y < t) ->
    (forall y, hd_error l2 = Some y -> t <= st y) ->
    exists s', tn_out_run N s t = Ok (s', x) /\ tn_buf s' = [].
  Proof.
    intros H1 H2 H3 H4 H5. unfold tn_out_run. rewrite H1, H2, H3.
    replace (l1 ++ x :: l2) with ((l1 ++ [x]) ++ l2) by (now rewrite <- app_assoc).
    rewrite first_not_older_app by exact H4.
    assert (first_not_older N t l2 = 0)%nat as ->.
    { destruct l2 as [|y l2]; [reflexivity|]. cbn. specialize (H5 y eq_refl). destruct (Z.ltb_spec (st y) t); [lia|reflexivity]. }
    rewrite app_length, Nat.add_0_r. cbn [length]. replace (pred (length l1 + 1)) with (length l1) by lia.
    rewrite <- app_assoc. rewrite nth_error_app2, Nat.sub_diag by lia. cbn. eexists. split; reflexivity.
  Qed.
  Lemma down_oldest (s : transition N) t x l : tn_steady s = false -> tn_up s = false ->
    tn_buf s = x :: l -> t <= st x -> exists s', tn_out_run N s t = Ok (s', x) /\ tn_buf s' = [].
  Proof.
    intros H1 H2 H3 H4. unfold tn_out_run. rewrite H1, H2, H3. cbn. destruct (Z.ltb_spec (st x) t); [lia|].
    cbn. eexists. split; reflexivity.
  Qed.
  Lemma down_empty (s : transition N) t : tn_steady s = false -> tn_up s = false -> tn_buf s = [] ->
    tn_out_run N s t = UB.
  Proof. intros H1 H2 H3. unfold tn_out_run. now rewrite H1, H2, H3. Qed.
  Lemma down_in_run (s : transition N) i : tn_steady s = false -> tn_up s = false ->
    tn_buf (tn_in_run N s i) = tn_buf s ++ [i].
  Proof. intros H1 H2. unfold tn_in_run. now rewrite H1, H2. Qed.
End Down.

Open Scope R_scope.
(** One output of the rising transition after the difference has been computed. *)
Lemma up_one (s : transition Rnum) t : tn_steady s = false -> tn_up s = true -> tn_refresh s = false ->
  let ts := Ztrunc (IZR (st (to_previn s)) + IZR (to_count s) * to_dtime s) in
  (0 <= ts < 2 ^ 64)%Z ->
  exists s', tn_out_run Rnum s t = Ok (s', mksig (sv (to_previn s) + to_dval s * IZR (to_count s)) ts) /\
    tn_steady s' = false /\ tn_up s' = true /\ tn_refresh s' = false /\ to_previn s' = to_previn s /\
    to_dval s' = to_dval s /\ to_dtime s' = to_dtime s /\ to_count s' = ((to_count s + 1) mod 2 ^ 32)%Z.
Proof.
  intros H1 H2 H3 ts Hts. unfold tn_out_run. rewrite H1, H2, H3.
  change (ntrunc Rnum ?x) with (Some (Ztrunc x)).
  change (Ztrunc (nadd Rnum (nofZ Rnum (st (to_previn s))) (nmul Rnum (nofZ Rnum (to_count s)) (to_dtime s)))) with ts.
  cbv iota. assert (((0 <=? ts)%Z && (ts <? 2 ^ 64)%Z)%bool = true) as -> by lia.
  eexists. split; [reflexivity|]. cbn. auto 10.
Qed.
Lemma interp_time_range p i ratio c : (0 <= p <= i)%Z -> 1 <= ratio -> 0 <= c <= ratio ->
  IZR p <= interp_time p i ratio c <= IZR i.
Proof.
  intros Hp Hr Hc. unfold interp_time. rewrite minus_IZR.
  assert (IZR p <= IZR i) by (apply IZR_le; lia).
  assert (0 <= (IZR i - IZR p) / ratio) by (apply Rmult_le_pos; [lra|left; apply Rinv_0_lt_compat; lra]).
  assert ((IZR i - IZR p) / ratio * ratio = IZR i - IZR p) by (field; lra).
  split; nra.
Qed.
Lemma trunc_in p i x : (0 <= p)%Z -> IZR p <= x <= IZR i -> (p <= Ztrunc x <= i)%Z.
Proof.
  intros Hp Hx. assert (0 <= x) by (apply (IZR_le 0) in Hp; lra). rewrite Ztrunc_floor by assumption. split.
  - apply Zfloor_lub. lra.
  - apply le_IZR. eapply Rle_trans; [apply Zfloor_lb|lra].
Qed.
(** State of the out block after [c] runs since the last refresh. *)
Definition up_state (p i : signal R) (ratio : R) (c : Z) (s : transition Rnum) : Prop :=
  tn_steady s = false /\ tn_up s = true /\ tn_refresh s = false /\ to_previn s = p /\
  to_dval s = (sv i - sv p) / ratio /\ to_dtime s = IZR (st i - st p) / ratio /\ to_count s = c.
Lemma up_state_run (p i : signal R) ratio c (s : transition Rnum) t : up_state p i ratio c s ->
  (0 <= st p <= st i)%Z -> (st i < 2 ^ 64)%Z -> 1 <= ratio -> (0 <= c < 2 ^ 32 - 1)%Z -> IZR c <= ratio ->
  exists s', tn_out_run Rnum s t = Ok (s', interp p i ratio c) /\ up_state p i ratio (c + 1) s'.
Proof.
  intros (H1 & H2 & H3 & H4 & H5 & H6 & H7) Hp Hi Hr Hc Hcr.
  destruct (up_one s t H1 H2 H3) as (s' & E & A1 & A2 & A3 & A4 & A5 & A6 & A7).
  - rewrite H4, H6, H7.
    pose proof (trunc_in (st p) (st i) (interp_time (st p) (st i) ratio (IZR c)) (proj1 Hp)
      (interp_time_range _ _ _ _ Hp Hr (conj (IZR_le 0 c (proj1 Hc)) Hcr))).
    assert (0 <= Ztrunc (interp_time (st p) (st i) ratio (IZR c)) < 2 ^ 64)%Z as H' by lia. exact H'.
  - exists s'. split.
    + rewrite E, H4, H5, H6, H7. reflexivity.
    + unfold up_state. rewrite A4, A5, A6, A7, H7, Z.mod_small by lia. auto 10.
Qed.
Lemma up_runs (p i : signal R) ratio : (0 <= st p <= st i)%Z -> (st i < 2 ^ 64)%Z -> 1 <= ratio ->
  forall (ts : list Z) (s : transition Rnum) c, up_state p i ratio c s -> (0 <= c)%Z ->
  (c + Z.of_nat (length ts) < 2 ^ 32)%Z -> IZR (c + Z.of_nat (length ts) - 1) <= ratio ->
  exists s', tn_outs s ts = Ok (s', map (fun k => interp p i ratio (c + Z.of_nat k)) (seq 0 (length ts))).
Proof.
  intros Hp Hi Hr. induction ts as [|t ts IH]; intros s c Hs Hc Hl Hlr; cbn [tn_outs length seq map].
  - eexists. reflexivity.
  - cbn [length] in *. rewrite Nat2Z.inj_succ in *.
    destruct (up_state_run p i ratio c s t Hs Hp Hi Hr ltac:(lia)) as (s1 & E & A).
    { eapply Rle_trans; [apply IZR_le|exact Hlr]. lia. }
    rewrite E. cbn [bind fst snd].
    destruct (IH s1 (c + 1)%Z A ltac:(lia) ltac:(lia)) as (s2 & F).
    { eapply Rle_trans; [apply IZR_le|exact Hlr]. lia. }
    rewrite F. cbn. eexists. do 3 f_equal.
    + f_equal. now rewrite Z.add_0_r.
    + rewrite <- seq_shift, map_map. apply map_ext. intros k. f_equal. lia.
Qed.
Lemma up_refresh (s : transition Rnum) t p i : tn_steady s = false -> tn_up s = true -> tn_refresh s = true ->
  tn_previn s = p -> tn_in s = i -> (0 <= st p <= st i)%Z -> (st i < 2 ^ 64)%Z ->
  exists s0, up_state p i (tn_ratio s) 0 s0 /\ tn_out_run Rnum s t = tn_out_run Rnum s0 t.
Proof.
  intros H1 H2 H3 H4 H5 Hp Hi.
  exists {| tn_steady := tn_steady s; tn_up := tn_up s; tn_ratio := tn_ratio s; tn_in := tn_in s;
            tn_previn := tn_previn s; tn_refresh := false; tn_buf := tn_buf s;
            to_previn := tn_previn s; to_in := tn_in s;
            to_dval := ndiv Rnum (nsub Rnum (sv (tn_in s)) (sv (tn_previn s))) (tn_ratio s);
            to_dtime := ndiv Rnum (nofZ Rnum ((st (tn_in s) - st (tn_previn s)) mod 2 ^ 64)) (tn_ratio s);
            to_count := 0 |}.
  split; [|unfold tn_out_run; cbn [tn_steady tn_up tn_refresh]; rewrite H1, H2, H3; reflexivity].
  unfold up_state. cbn [tn_steady tn_up tn_refresh to_previn to_dval to_dtime to_count]. subst.
  rewrite Z.mod_small by lia. cbn. auto 10.
Qed.
(** Outputs between two runs of the in block. *)
Lemma up_interpolates (s : transition Rnum) (ts : list Z) i :
  tn_steady s = false -> tn_up s = true -> 1 <= tn_ratio s ->
  let p := tn_in s in
  (0 <= st p <= st i)%Z -> (st i < 2 ^ 64)%Z ->
  (Z.of_nat (length ts) < 2 ^ 32)%Z -> IZR (Z.of_nat (length ts) - 1) <= tn_ratio s ->
  exists s', tn_outs (tn_in_run Rnum s i) ts =
    Ok (s', map (fun k => interp p i (tn_ratio s) (Z.of_nat k)) (seq 0 (length ts))).
Proof.
  intros H1 H2 Hr p Hp Hi Hl Hlr.
  destruct ts as [|t ts]; [eexists; reflexivity|].
  set (s1 := tn_in_run Rnum s i).
  assert (tn_steady s1 = false /\ tn_up s1 = true /\ tn_refresh s1 = true /\ tn_previn s1 = p /\ tn_in s1 = i /\
          tn_ratio s1 = tn_ratio s) as (A1 & A2 & A3 & A4 & A5 & A6).
  { unfold s1, tn_in_run. rewrite H1, H2. cbn. auto 10. }
  destruct (up_refresh s1 t p i A1 A2 A3 A4 A5 Hp Hi) as (s0 & B & E). rewrite A6 in B.
  destruct (up_runs p i (tn_ratio s) Hp Hi Hr (t :: ts) s0 0 B ltac:(lia) Hl Hlr) as (s' & F).
  exists s'. rewrite <- (map_ext (fun k => interp p i (tn_ratio s) (0 + Z.of_nat k))), <- F.
  - cbn [tn_outs]. rewrite E. reflexivity.
  - intros k. reflexivity.
Qed.
Lemma interp_between (p i : signal R) ratio c : (0 <= st p <= st i)%Z -> 1 <= ratio -> (0 <= c)%Z -> IZR c <= ratio ->
  Rmin (sv p) (sv i) <= sv (interp p i ratio c) <= Rmax (sv p) (sv i) /\ (st p <= st (interp p i ratio c) <= st i)%Z.
Proof.
  intros Hp Hr Hc Hcr. apply (IZR_le 0) in Hc. split.
  - cbn [interp sv]. set (q := IZR c / ratio).
    assert (0 <= q <= 1) as Hq.
    { unfold q. split; [apply Rmult_le_pos; [lra|left; apply Rinv_0_lt_compat; lra]|].
      apply (Rmult_le_reg_r ratio); [lra|]. unfold Rdiv. rewrite Rmult_assoc, Rinv_l; lra. }
    replace (sv p + (sv i - sv p) / ratio * IZR c) with (sv p + (sv i - sv p) * q) by (unfold q; field; lra).
    unfold Rmin, Rmax. destruct (Rle_dec (sv p) (sv i)); split; nra.
  - cbn [interp st]. apply trunc_in; [lia|]. apply interp_time_range; auto.
Qed.
