(** Proofs of C343-C346. *)
From Coq Require Import Lia Arith.
From Verif Require Import Prelude Num TaskModel PeriModel PeriSpec.
Local Open Scope nat_scope.

Definition not_begun (x : pos) (o : nat) : nat :=
  match x with Wait => 0 | At i b => if i <? o then 1 else if (i =? o) && negb b then 1 else 0 end.
Definition not_past (x : pos) (o : nat) : nat := match x with Wait => 0 | At i _ => if i <=? o then 1 else 0 end.

Record Inv (prog : nat -> list item) (s : st) : Prop := {
  i_busy : forall p i, pc s p = At i true -> at_ prog p i Own;
  i_beg : forall p o, at_ prog p o Own -> beg s p + not_begun (pc s p) o = ent s p;
  i_fin : forall p o, at_ prog p o Own -> fin s p + not_past (pc s p) o = ent s p;
  i_cnt : forall p j c k, at_ prog p j (Sub c k) -> cnt s c < k;
  i_edge : forall p j c k, at_ prog p j (Sub c k) -> k * (ent s c + sem s c) + cnt s c + not_past (pc s p) j = ent s p }.

Lemma inv_init : forall prog, wf prog -> Inv prog init.
Proof.
  intros prog W. constructor; cbn; intros; try discriminate; try lia.
  - destruct (wf_k prog W _ _ _ _ H); lia.
Qed.

Ltac cases := repeat match goal with
  | |- context [?a <? ?b] => destruct (Nat.ltb_spec a b)
  | |- context [?a <=? ?b] => destruct (Nat.leb_spec a b)
  | |- context [?a =? ?b] => destruct (Nat.eqb_spec a b)
  | |- context [negb ?x] => is_var x; destruct x
  end; cbn [andb negb]; try lia.

Lemma updE : forall (A : Type) (f : nat -> A) k v x, upd f k v x = if x =? k then v else f x.
Proof. intros. destruct (Nat.eqb_spec x k); subst; [apply upd_same|apply upd_other; auto]. Qed.

(** A thread enters its list. *)
Lemma inv_enter : forall prog s n, wf prog -> Inv prog s -> pc s n = Wait -> (n = 0 \/ 0 < sem s n) ->
  Inv prog {| pc := upd (pc s) n (At 0 false); sem := if n =? 0 then sem s else upd (sem s) n (pred (sem s n)); cnt := cnt s;
              ent := upd (ent s) n (S (ent s n)); beg := beg s; fin := fin s |}.
Proof.
  intros prog s n W [B1 B2 B3 B4 B5] P G. constructor; cbn.
  - intros p i. rewrite updE. destruct (p =? n); [discriminate|apply B1].
  - intros p o O. specialize (B2 p o O). rewrite !updE. destruct (Nat.eqb_spec p n); subst; auto. rewrite P in B2. destruct o; cbn in *; lia.
  - intros p o O. specialize (B3 p o O). rewrite !updE. destruct (Nat.eqb_spec p n); subst; auto. rewrite P in B3. cbn in *. lia.
  - auto.
  - intros p j c k E. specialize (B5 p j c k E). destruct (wf_k prog W _ _ _ _ E) as [K C0].
    assert (Q : upd (ent s) n (S (ent s n)) c + (if n =? 0 then sem s else upd (sem s) n (pred (sem s n))) c = ent s c + sem s c).
    { destruct (Nat.eqb_spec n 0); subst; rewrite ?updE.
      - destruct (Nat.eqb_spec c 0); lia.
      - destruct (Nat.eqb_spec c n); subst; lia. }
    rewrite Q, !updE. destruct (Nat.eqb_spec p n); subst; auto. rewrite P in B5. cbn in *. lia.
Qed.

(** A thread at the end of its list. *)
Lemma inv_leave : forall prog s n i b, Inv prog s -> pc s n = At i b -> nth_error (prog n) i = None ->
  Inv prog {| pc := upd (pc s) n Wait; sem := sem s; cnt := cnt s; ent := ent s; beg := beg s; fin := fin s |}.
Proof.
  intros prog s n i b [B1 B2 B3 B4 B5] P E. apply nth_error_None in E.
  assert (F : forall o x, at_ prog n o x -> o < i) by (intros o x H; unfold at_ in H; assert (o < length (prog n)) by (apply nth_error_Some; congruence); lia).
  constructor; cbn; auto.
  - intros p q. rewrite updE. destruct (p =? n); [discriminate|apply B1].
  - intros p o O. specialize (B2 p o O). rewrite updE. destruct (Nat.eqb_spec p n); subst; auto. rewrite P in B2. specialize (F _ _ O).
    unfold not_begun in *. revert B2. cases.
  - intros p o O. specialize (B3 p o O). rewrite updE. destruct (Nat.eqb_spec p n); subst; auto. rewrite P in B3. specialize (F _ _ O).
    unfold not_past in *. revert B3. cases.
  - intros p j c k O. specialize (B5 p j c k O). rewrite updE. destruct (Nat.eqb_spec p n); subst; auto. rewrite P in B5.
    specialize (F _ _ O). unfold not_past in *. revert B5. cases.
Qed.

Lemma own_sub : forall prog p i j c k, at_ prog p i Own -> at_ prog p j (Sub c k) -> i <> j.
Proof. unfold at_. intros. intros ->. congruence. Qed.

Lemma inv_end : forall prog s n i, wf prog -> Inv prog s -> pc s n = At i true -> at_ prog n i Own ->
  Inv prog {| pc := upd (pc s) n (At (S i) false); sem := sem s; cnt := cnt s; ent := ent s; beg := beg s;
              fin := upd (fin s) n (S (fin s n)) |}.
Proof.
  intros prog s n i W [B1 B2 B3 B4 B5] P E. constructor; cbn; auto.
  - intros p q. rewrite updE. destruct (p =? n); [discriminate|apply B1].
  - intros p o O. specialize (B2 p o O). rewrite updE. destruct (Nat.eqb_spec p n); subst; auto. rewrite P in B2.
    rewrite (wf_own prog W _ _ _ O E) in *. unfold not_begun in *. revert B2. cases.
  - intros p o O. specialize (B3 p o O). rewrite !updE. destruct (Nat.eqb_spec p n); subst; auto. rewrite P in B3.
    rewrite (wf_own prog W _ _ _ O E) in *. unfold not_past in *. revert B3. cases.
  - intros p j c k O. specialize (B5 p j c k O). rewrite updE. destruct (Nat.eqb_spec p n); subst; auto. rewrite P in B5.
    pose proof (own_sub _ _ _ _ _ _ E O). unfold not_past in *. revert B5. cases.
Qed.

Lemma inv_begin : forall prog s n i, wf prog -> Inv prog s -> pc s n = At i false -> at_ prog n i Own ->
  Inv prog {| pc := upd (pc s) n (At i true); sem := sem s; cnt := cnt s; ent := ent s; beg := upd (beg s) n (S (beg s n)); fin := fin s |}.
Proof.
  intros prog s n i W [B1 B2 B3 B4 B5] P E. constructor; cbn; auto.
  - intros p q. rewrite updE. destruct (Nat.eqb_spec p n); subst; [|apply B1]. intros Q. inversion Q; subst; auto.
  - intros p o O. specialize (B2 p o O). rewrite !updE. destruct (Nat.eqb_spec p n); subst; auto. rewrite P in B2.
    rewrite (wf_own prog W _ _ _ O E) in *. unfold not_begun in *. revert B2. cases.
  - intros p o O. specialize (B3 p o O). rewrite !updE. destruct (Nat.eqb_spec p n); subst; auto. rewrite P in B3. exact B3.
  - intros p j c k O. specialize (B5 p j c k O). rewrite updE. destruct (Nat.eqb_spec p n); subst; auto. rewrite P in B5. exact B5.
Qed.

Lemma inv_trigger : forall prog s n i b c k (post : bool), wf prog -> Inv prog s -> pc s n = At i b -> at_ prog n i (Sub c k) ->
  (if post then k = S (cnt s c) else S (cnt s c) < k) ->
  Inv prog {| pc := upd (pc s) n (At (S i) false); sem := if post then upd (sem s) c (S (sem s c)) else sem s;
              cnt := upd (cnt s) c (if post then 0 else S (cnt s c)); ent := ent s; beg := beg s; fin := fin s |}.
Proof.
  intros prog s n i b c k post W [B1 B2 B3 B4 B5] P E G. constructor; cbn; auto.
  - intros p q. rewrite updE. destruct (p =? n); [discriminate|apply B1].
  - intros p o O. specialize (B2 p o O). rewrite updE. destruct (Nat.eqb_spec p n); subst; auto. rewrite P in B2.
    pose proof (own_sub _ _ _ _ _ _ O E). unfold not_begun in *. revert B2. cases.
  - intros p o O. specialize (B3 p o O). rewrite !updE. destruct (Nat.eqb_spec p n); subst; auto. rewrite P in B3.
    pose proof (own_sub _ _ _ _ _ _ O E). unfold not_past in *. revert B3. cases.
  - intros p j c' k' O. rewrite updE. destruct (Nat.eqb_spec c' c); subst; eauto.
    destruct (wf_sub prog W _ _ _ _ _ _ _ O E); subst. assert (k' = k) by (unfold at_ in *; congruence). subst.
    destruct post; [|lia]. destruct (wf_k prog W _ _ _ _ E); lia.
  - intros p j c' k' O. pose proof (B5 p j c' k' O) as Q. destruct (Nat.eqb_spec c' c) as [->|N].
    + destruct (wf_sub prog W _ _ _ _ _ _ _ O E); subst. assert (k' = k) by (unfold at_ in *; congruence). subst k'.
      rewrite !updE, !Nat.eqb_refl. rewrite P in Q. unfold not_past in *.
      assert (Z1 : (i <=? i) = true) by (apply Nat.leb_refl). assert (Z2 : (S i <=? i) = false) by (apply Nat.leb_gt; lia).
      rewrite Z1 in Q. rewrite Z2. destruct post; rewrite ?upd_same; [|lia].
      replace (k * (ent s c + S (sem s c))) with (k * (ent s c + sem s c) + k) by (rewrite Nat.add_succ_r, Nat.mul_succ_r; reflexivity).
      lia.
    + assert (SE : (if post then upd (sem s) c (S (sem s c)) else sem s) c' = sem s c') by (destruct post; auto; rewrite upd_other; auto).
      rewrite SE, (upd_other _ (cnt s)) by auto. rewrite updE. destruct (Nat.eqb_spec p n); subst; auto. rewrite P in Q.
      assert (i <> j) by (intros ->; unfold at_ in *; congruence).
      unfold not_past in *. revert Q. cases.
Qed.

Lemma inv_step : forall prog s n, wf prog -> Inv prog s -> Inv prog (step prog n s).
Proof.
  intros prog s n W I. unfold step. destruct (pc s n) as [|i b] eqn:P.
  - cbv zeta. pose proof (inv_enter prog s n W I P) as H. destruct (Nat.eqb_spec n 0); [apply H; auto|].
    destruct (Nat.ltb_spec 0 (sem s n)); [apply H; auto|exact I].
  - destruct (nth_error (prog n) i) as [[|c k]|] eqn:E.
    + destruct b; [apply inv_end|apply inv_begin]; auto.
    + destruct (wf_k prog W _ _ _ _ E) as [K _]. pose proof (i_cnt _ _ I _ _ _ _ E) as L. destruct (Nat.leb_spec k (S (cnt s c))).
      * apply (inv_trigger prog s n i b c k true); auto. lia.
      * apply (inv_trigger prog s n i b c k false); auto.
    + eapply inv_leave; eauto.
Qed.

Lemma inv_steps : forall prog ls s, wf prog -> Inv prog s -> Inv prog (steps prog ls s).
Proof. induction ls; cbn; intros; auto. apply IHls; auto. apply inv_step; auto. Qed.
Lemma inv_reach : forall prog s, wf prog -> reach prog s -> Inv prog s.
Proof. intros prog s W (ls & ->). apply inv_steps; auto. apply inv_init; auto. Qed.

Lemma ent_beg : forall prog s p o, Inv prog s -> at_ prog p o Own -> fin s p <= beg s p <= ent s p.
Proof.
  intros prog s p o I O. pose proof (i_beg _ _ I p o O). pose proof (i_fin _ _ I p o O).
  unfold not_begun, not_past in *. destruct (pc s p); [lia|]. revert H H0. cases.
Qed.

(** C343: a task in the after list begins its run j after run j * k of the parent has ended. *)
Lemma after_ok : forall prog s p c k, wf prog -> reach prog s -> after prog p c k -> k * ent s c <= fin s p.
Proof.
  intros prog s p c k W R (o & i & O & E & L). pose proof (inv_reach prog s W R) as I.
  pose proof (i_fin _ _ I p o O). pose proof (i_edge _ _ I p i c k E).
  assert (k * ent s c <= k * (ent s c + sem s c)) by (apply Nat.mul_le_mono_l; lia).
  unfold not_past in *. destruct (pc s p); [lia|]. revert H H0. cases.
Qed.

(** C344: what is true of tasks in the before list. *)
Lemma before_ok : forall prog s p c k, wf prog -> reach prog s -> before prog p c k ->
  beg s p < k * (ent s c + sem s c + 1) /\ (k * ent s c <= beg s p + 1).
Proof.
  intros prog s p c k W R (o & i & O & E & L). pose proof (inv_reach prog s W R) as I.
  pose proof (i_beg _ _ I p o O). pose proof (i_edge _ _ I p i c k E). pose proof (i_cnt _ _ I _ _ _ _ E).
  assert (k * ent s c <= k * (ent s c + sem s c)) by (apply Nat.mul_le_mono_l; lia).
  rewrite Nat.mul_add_distr_l, Nat.mul_1_r.
  unfold not_past, not_begun in *. destruct (pc s p); [lia|]. revert H H0. cases.
Qed.

(** C345: no trigger is lost. *)
Lemma not_lost : forall prog s p c k, wf prog -> reach prog s -> edge prog p c k ->
  k * (ent s c + sem s c) <= ent s p <= k * (ent s c + sem s c) + k.
Proof.
  intros prog s p c k W R (i & E). pose proof (inv_reach prog s W R) as I.
  pose proof (i_edge _ _ I p i c k E). pose proof (i_cnt _ _ I _ _ _ _ E).
  unfold not_past in *. destruct (pc s p); [lia|]. revert H. cases.
Qed.

Lemma quiet_edge : forall prog s p c k, wf prog -> Inv prog s -> quiet s -> edge prog p c k -> ent s c = ent s p / k.
Proof.
  intros prog s p c k W I Q (i & E). destruct (wf_k prog W _ _ _ _ E) as [K C0].
  pose proof (i_edge _ _ I p i c k E) as H. pose proof (i_cnt _ _ I _ _ _ _ E) as H0.
  rewrite (proj1 (Q p)), (proj2 (Q c) C0) in H. cbn in H. rewrite !Nat.add_0_r in H.
  apply Nat.div_unique with (r := cnt s c); lia.
Qed.
Lemma quiet_path : forall prog s n K, wf prog -> Inv prog s -> quiet s -> path prog n K -> ent s n = ent s 0 / K /\ 0 < K.
Proof.
  intros prog s n K W I Q H. induction H as [|p c k K H [IH P] E].
  - rewrite Nat.div_1_r. auto.
  - split.
    + rewrite (quiet_edge prog s p c k W I Q E), IH. destruct E as (i & E). destruct (wf_k prog W _ _ _ _ E).
      rewrite Nat.div_div; lia.
    + destruct E as (i & E). destruct (wf_k prog W _ _ _ _ E). nia.
Qed.
Lemma quiet_runs : forall prog s n K o o0, wf prog -> reach prog s -> quiet s -> path prog n K -> at_ prog n o Own -> at_ prog 0 o0 Own ->
  fin s n = fin s 0 / K.
Proof.
  intros prog s n K o o0 W R Q H O O0. pose proof (inv_reach prog s W R) as I.
  pose proof (i_fin _ _ I n o O) as A. pose proof (i_fin _ _ I 0 o0 O0) as B. rewrite (proj1 (Q n)) in A. rewrite (proj1 (Q 0)) in B.
  cbn in A, B. rewrite Nat.add_0_r in A, B. rewrite A, B. apply (quiet_path prog s n K); auto.
Qed.
(** No more runs than the number of cycles allows, at any time. *)
Lemma at_most : forall prog s n K, wf prog -> reach prog s -> path prog n K -> K * ent s n <= ent s 0 /\ 0 < K.
Proof.
  intros prog s n K W R H. induction H as [|p c k K H [IH P] E]; [lia|].
  pose proof (not_lost prog s p c k W R E) as [L _]. destruct E as (i & E). destruct (wf_k prog W _ _ _ _ E).
  split; [|nia]. nia.
Qed.
