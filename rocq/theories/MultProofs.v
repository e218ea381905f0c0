(** Proofs of C357-C361. *)
From Verif Require Import Prelude MultModel MultSpec.
Local Open Scope nat_scope.

Definition allg (n v : nat) (g : nat -> nat) : Prop := forall k, k < n -> g k = v.
Definition unif (n : nat) (g : nat -> nat) : Prop := exists v, (v = A \/ v = B) /\ allg n v g.
Definition uout (n : nat) (o : nat -> nat) : Prop := exists v, (v = A \/ v = B) /\ uniform n v o.

(** What holds at the places of the main thread and of the other thread. *)
Definition mainv (n r : nat) (s : st) : Prop :=
  match mp s with
  | MLock i | MReady i | MRunLock i => i < r /\ failed s <= i
  | MSet i k => i < r /\ failed s <= i /\ k <= n /\ mtx s = Some true /\ allg k A (gain s)
  | MRun i k => i < r /\ failed s <= i /\ k <= n /\ mtx s = Some true /\
      exists v, (v = A \/ v = B) /\ allg n v (gain s) /\ uniform k v (out s)
  | MClear i | MCheck i => i < r /\ failed s <= i /\ uout n (out s)
  | MEnd => failed s <= r
  | MJoin | MDone => failed s <= r /\ ready s = true
  end.
Definition othinv (n r : nat) (s : st) : Prop :=
  match tp s with
  | TSpin j | TLock j => j < r
  | TSet j k => j < r /\ k <= n /\ mtx s = Some false /\ allg k B (gain s)
  | TDone => True
  end.
Record Inv (n r : nat) (s : st) : Prop := {
  i_main : mainv n r s;
  i_oth : othinv n r s;
  i_free : mtx s = None -> unif n (gain s);
  i_own : match mtx s with
          | Some true => match mp s with MSet _ _ | MRun _ _ => True | _ => False end
          | Some false => match tp s with TSet _ _ => True | _ => False end
          | None => True end;
  i_msgs : msgs s = 0 }.

Lemma allg_upd : forall k v g, allg k v g -> allg (S k) v (upd g k v).
Proof. intros k v g H x L. unfold upd. destruct (Nat.eqb_spec x k); auto. apply H. lia. Qed.
Lemma uni_upd : forall k v g, uniform k v g -> uniform (S k) v (upd g k (S k * v)).
Proof. intros k v g H x L. unfold upd. destruct (Nat.eqb_spec x k); [subst; f_equal; lia|]. apply H. lia. Qed.

Lemma wrong_cases : forall n v o, (v = A \/ v = B) -> uniform n v o ->
  wrong n o = None \/ (wrong n o = Some 0 /\ o 0 = B /\ v = B).
Proof.
  intros n v o [-> | ->] U; unfold wrong.
  - left. destruct (find _ _) eqn:F; auto. apply find_some in F. destruct F as [I F]. apply in_seq in I.
    rewrite U in F by lia. replace (n0 + 1) with (S n0) in F by lia. rewrite Nat.eqb_refl in F. discriminate F.
  - destruct n as [|n]; [left; reflexivity|right]. assert (E : o 0 = B) by (rewrite U by lia; reflexivity).
    cbn [seq find]. rewrite E. cbn. auto.
Qed.
Lemma wrong_A : forall n o, uniform n A o -> wrong n o = None.
Proof. intros n o U. destruct (wrong_cases n A o (or_introl eq_refl) U) as [H | (_ & _ & H)]; auto. discriminate H. Qed.

Lemma inv_init : forall n r, Inv n r (init r).
Proof.
  intros n r. constructor; cbn; auto.
  - unfold mainv, mnext; cbn [init mp failed]; unfold mnext; destruct (Nat.ltb_spec 0 r); cbn; lia.
  - unfold othinv; cbn [init tp w_other]; unfold tnext; destruct (Nat.ltb_spec 0 r); cbn; auto; lia.
  - intros _. exists A. split; auto. intros k _. reflexivity.
Qed.

Lemma inv_main : forall n r s, Inv n r s -> Inv n r (main n r s).
Proof.
  intros n r [m t x o g u f c] [IM IO IF IW IG]. unfold main. cbn [mp mtx ready gain out failed msgs tp] in *.
  unfold mainv in IM. cbn [mp mtx ready gain out failed msgs tp] in *.
  destruct m as [i|i k|i|i|i k|i|i| | |].
  - destruct o as [[|]|]; [contradiction| |].
    + constructor; auto.
    + constructor; cbn; auto; try discriminate.
      * unfold mainv; cbn. repeat split; try lia. intros z L. lia.
      * unfold othinv in *; cbn in *. destruct t; auto. destruct IO as (_ & _ & E & _). discriminate E.
  - destruct IM as (L & Fi & K & -> & G). assert (T : othinv n r (Build_st (MReady i) t x None g u f c) /\
      forall g', othinv n r (Build_st (MSet i (S k)) t x (Some true) g' u f c)).
    { unfold othinv in *; cbn in *. destruct t; auto. destruct IO as (_ & _ & E & _). discriminate E. }
    destruct T as [T1 T2]. destruct (Nat.ltb_spec k n).
    + constructor; cbn; auto; try discriminate; try apply T2. unfold mainv; cbn. repeat split; auto; try lia. apply allg_upd; auto.
    + constructor; cbn; auto; try apply T1.
      intros _. exists A. split; auto. intros z Z. apply G. lia.
  - destruct IM. destruct o as [[|]|]; [contradiction| |]; constructor; auto; unfold mainv; cbn; auto.
  - destruct o as [[|]|]; [contradiction| |].
    + constructor; auto.
    + destruct (IF eq_refl) as (v & V & G). constructor; cbn; auto; try discriminate.
      * unfold mainv; cbn. repeat split; try lia. exists v. repeat split; auto. intros z L. lia.
      * unfold othinv in *; cbn in *. destruct t; auto. destruct IO as (_ & _ & E & _). discriminate E.
  - destruct IM as (L & Fi & K & -> & v & V & G & U). assert (T : othinv n r (Build_st (MClear i) t x None g u f c) /\
      forall u', othinv n r (Build_st (MRun i (S k)) t x (Some true) g u' f c)).
    { unfold othinv in *; cbn in *. destruct t; auto. destruct IO as (_ & _ & E & _). discriminate E. }
    destruct T as [T1 T2]. destruct (Nat.ltb_spec k n).
    + constructor; cbn; auto; try discriminate; try apply T2. unfold mainv; cbn [mp failed mtx gain out w_main]. repeat split; auto; try lia. exists v.
      repeat split; auto. rewrite (G k) by lia. apply uni_upd; auto.
    + constructor; cbn; auto; try apply T1.
      * unfold mainv; cbn. repeat split; auto. exists v. split; auto. intros z Z. apply U. lia.
      * intros _. exists v. auto.
  - destruct IM as (L & Fi & U). destruct o as [[|]|]; [contradiction| |]; constructor; auto; unfold mainv; cbn; auto.
  - destruct IM as (L & Fi & v & V & U).
    assert (Q : forall f', f' <= S i -> Inv n r (Build_st (mnext r (S i)) t x o g u f' c)).
    { intros f' Lf. constructor; cbn; auto.
      - unfold mainv, mnext; cbn [init mp failed]; unfold mnext; destruct (Nat.ltb_spec (S i) r); cbn; lia.
      - destruct o as [[|]|]; auto. contradiction. }
    destruct (wrong_cases n v u V U) as [-> | (-> & E & _)]; unfold w_count; cbn [tp ready mtx gain out].
    + apply Q. lia.
    + rewrite E. change (B =? B) with true. cbv iota. apply Q. lia.
  - destruct o as [[|]|]; [contradiction| |]; constructor; auto; unfold mainv; cbn; auto.
  - destruct t; constructor; auto.
  - constructor; auto.
Qed.

Lemma inv_other : forall n r s, Inv n r s -> Inv n r (other n r s).
Proof.
  intros n r [m t x o g u f c] [IM IO IF IW IG]. unfold other. cbn [mp mtx ready gain out failed msgs tp] in *.
  unfold othinv in IO. cbn [mp mtx ready gain out failed msgs tp] in *.
  destruct t as [j|j|j k|].
  - destruct x; constructor; auto.
  - destruct o as [[|]|]; try (constructor; auto; fail). constructor; cbn; auto; try discriminate.
    + unfold mainv in *; cbn in *. destruct m; auto; destruct IM as (_ & _ & _ & E & _); discriminate E.
    + unfold othinv; cbn. repeat split; auto; try lia. intros z L. lia.
  - destruct IO as (L & K & -> & G).
    assert (T : forall o' g' t', mainv n r (Build_st m t' x o' g' u f c)).
    { intros. unfold mainv in *; cbn in *. destruct m; auto; destruct IM as (_ & _ & _ & E & _); discriminate E. }
    destruct (Nat.ltb_spec k n).
    + constructor; cbn; auto; try discriminate. { apply T. } unfold othinv; cbn. repeat split; auto; try lia. apply allg_upd; auto.
    + constructor; cbn; auto. { apply T. }
      * unfold othinv; cbn [init tp w_other]; unfold tnext; destruct (Nat.ltb_spec (S j) r); cbn; auto; lia.
      * intros _. exists B. split; auto. intros z Z. apply G. lia.
  - constructor; auto.
Qed.
Lemma inv_steps : forall n r ls s, Inv n r s -> Inv n r (steps n r ls s).
Proof.
  intros n r. induction ls as [|l ls IH]; cbn; auto. intros s I. apply IH. unfold step. destruct l; [apply inv_main|apply inv_other]; auto.
Qed.
Lemma inv_reach : forall n r s, reach n r s -> Inv n r s.
Proof. intros n r s [ls ->]. apply inv_steps, inv_init. Qed.
Lemma steps_app : forall n r a b s, steps n r (a ++ b) s = steps n r b (steps n r a s).
Proof. induction a; cbn; auto. Qed.

(** ** C357 *)
Lemma not_mixed : forall n r s i, reach n r s -> mp s = MClear i \/ mp s = MCheck i -> uniform n 10 (out s) \/ uniform n 11 (out s).
Proof.
  intros n r s i R M. pose proof (i_main _ _ _ (inv_reach _ _ _ R)) as I. unfold mainv in I.
  destruct M as [M|M]; rewrite M in I; destruct I as (_ & _ & v & [-> | ->] & U); auto.
Qed.
Lemma no_message : forall n r s, reach n r s -> msgs s = 0.
Proof. intros n r s R. exact (i_msgs _ _ _ (inv_reach _ _ _ R)). Qed.

(** ** C358 *)
Lemma exclusive : forall n r s, reach n r s -> ~ (main_uses_gain s /\ other_uses_gain s).
Proof.
  intros n r s R [M O]. destruct (inv_reach _ _ _ R) as [IM IO _ _ _]. unfold main_uses_gain, other_uses_gain, mainv, othinv in *.
  destruct (tp s); try contradiction. destruct IO as (_ & _ & E & _). rewrite E in IM.
  destruct (mp s); try contradiction; destruct IM as (_ & _ & _ & X & _); discriminate X.
Qed.
Lemma race : exists s, reach 1 1 s /\ main_writes_ready s /\ other_reads_ready s.
Proof. exists (steps 1 1 [true; true; true] (init 1)). split; [eexists; reflexivity|]. repeat split; reflexivity. Qed.

Lemma reach_step : forall n r l s, reach n r s -> reach n r (step n r l s).
Proof. intros n r l s [ls ->]. exists (ls ++ [l]). rewrite steps_app. reflexivity. Qed.
Lemma sets_alone : forall n r k, 0 < r -> k <= n -> exists s, reach n r s /\ mp s = MSet 0 k /\ tp s = TSpin 0.
Proof.
  intros n r k R. induction k as [|k IH]; intros L.
  - exists (step n r true (init r)). split; [apply reach_step; exists []; reflexivity|].
    destruct r; [lia|]. cbn. auto.
  - destruct IH as (s & Rs & M & T); [lia|]. exists (step n r true s). split; [apply reach_step; auto|].
    unfold step, main. rewrite M. destruct (Nat.ltb_spec k n); [|lia]. cbn. auto.
Qed.
Lemma race_any : forall n r, 0 < r -> exists s, reach n r s /\ main_writes_ready s /\ other_reads_ready s.
Proof.
  intros n r R. destruct (sets_alone n r n R (le_n n)) as (s & Rs & M & T). exists (step n r true s). split; [apply reach_step; auto|].
  unfold step, main, main_writes_ready, other_reads_ready. rewrite M. destruct (Nat.ltb_spec n n); [lia|]. cbn. rewrite T. auto.
Qed.

(** ** C359 *)
Definition rank (n r : nat) (t : tpc) : nat :=
  match t with
  | TSpin j => (r - j) * (n + 3)
  | TLock j => (r - j) * (n + 3) - 1
  | TSet j k => (r - j) * (n + 3) - 2 - k
  | TDone => 0
  end.
Lemma rank_le : forall n r s, Inv n r s -> rank n r (tp s) <= r * (n + 3).
Proof. intros n r s I. destruct (tp s); cbn [rank]; nia. Qed.
Lemma waits : forall n r s l, Inv n r s -> mp s = MJoin \/ mp s = MDone ->
  (mp (step n r l s) = MJoin \/ mp (step n r l s) = MDone) /\
  (l = false -> tp s <> TDone -> rank n r (tp (step n r l s)) < rank n r (tp s)) /\ (l = true -> tp (step n r l s) = tp s).
Proof.
  intros n r [m t x o g u f c] l [IM IO IF IW IG] M. unfold mainv, othinv in *. cbn [mp mtx ready gain out failed msgs tp] in *.
  assert (X : x = true) by (destruct M as [-> | ->]; tauto). subst x.
  assert (W : o <> Some true). { intros ->. destruct M as [-> | ->]; contradiction. } clear IM.
  unfold step, main, other. destruct l; cbn [mp mtx ready gain out failed msgs tp].
  - repeat split; try discriminate.
    + destruct M as [-> | ->]; cbn; auto. destruct t; cbn; auto.
    + intros _. destruct M as [-> | ->]; cbn; auto. destruct t; cbn; auto.
  - destruct t as [j|j|j k|].
    + cbn -[Nat.mul]. repeat split; auto; try discriminate. intros. nia.
    + destruct o as [[|]|]; [congruence|contradiction|]. cbn -[Nat.mul]. repeat split; auto; try discriminate. intros. nia.
    + destruct IO as (L & K & -> & G). destruct (Nat.ltb_spec k n); cbn [w_other mp tp].
      * repeat split; auto; try discriminate. intros. cbn [rank]. nia.
      * repeat split; auto; try discriminate. intros _ _. unfold tnext. destruct (Nat.ltb_spec (S j) r); cbn [rank]; nia.
    + cbn. repeat split; auto; try discriminate. congruence.
Qed.
Lemma done_stays : forall n r ls s, tp s = TDone -> tp (steps n r ls s) = TDone.
Proof.
  intros n r. induction ls as [|l ls IH]; cbn; auto. intros s T. apply IH. destruct l; cbn.
  - unfold main. destruct (mp s); auto; try (destruct (mtx s); auto; fail); try (destruct (_ <? _); auto; fail).
    + destruct (wrong n (out s)); cbn; auto.
    + rewrite T. auto.
  - unfold other. rewrite T. auto.
Qed.
Lemma join_ends_aux : forall n r ls s, Inv n r s -> mp s = MJoin \/ mp s = MDone -> rank n r (tp s) <= length (filter is_other ls) ->
  tp (steps n r ls s) = TDone.
Proof.
  intros n r. induction ls as [|l ls IH]; intros s I M L.
  - cbn [filter length steps] in *. destruct I as [_ IO _ _ _]. unfold othinv in IO.
    destruct (tp s); auto; cbn [rank] in L; exfalso; nia.
  - assert (D : tp s = TDone \/ tp s <> TDone) by (destruct (tp s); auto; right; discriminate).
    destruct D as [D|D]; [apply done_stays; auto|].
    destruct (waits n r s l I M) as (M' & Lt & Eq). cbn [steps]. apply IH; auto.
    + apply (inv_steps n r [l]). auto.
    + destruct l; cbn [filter is_other negb length] in L.
      * rewrite Eq; auto.
      * specialize (Lt eq_refl D). lia.
Qed.
Lemma join_ends : forall n r s ls, reach n r s -> mp s = MJoin -> r * (n + 3) <= length (filter is_other ls) ->
  mp (step n r true (steps n r ls s)) = MDone.
Proof.
  intros n r s ls R M L. pose proof (inv_reach _ _ _ R) as I.
  assert (T : tp (steps n r ls s) = TDone). { apply join_ends_aux; auto. pose proof (rank_le n r s I). lia. }
  assert (G : forall ls s, Inv n r s -> mp s = MJoin \/ mp s = MDone -> mp (steps n r ls s) = MJoin \/ mp (steps n r ls s) = MDone).
  { induction ls0 as [|l ls0 IH]; cbn; auto. intros z Iz Mz. apply IH; [apply (inv_steps n r [l]); auto|apply waits; auto]. }
  cbn. unfold main. destruct (G ls s I (or_introl M)) as [-> | E]; [rewrite T|rewrite E, E]; cbn; auto.
Qed.
Lemma no_deadlock : forall n r s, reach n r s -> mp s <> MDone -> exists l, step n r l s <> s.
Proof.
  intros n r s R D. destruct (inv_reach _ _ _ R) as [IM IO _ IW _]. destruct s as [m t x o g u f c].
  unfold mainv, othinv in *. cbn [mp mtx ready gain out failed msgs tp] in *.
  assert (Q : forall a b : st, mp a <> mp b \/ tp a <> tp b -> a <> b) by (intros a b [H|H] ->; auto).
  assert (T : forall j k, t = TSet j k -> other n r (Build_st m t x o g u f c) <> Build_st m t x o g u f c).
  { intros j k ->. apply Q. right. unfold other; cbn [tp mtx]. destruct (k <? n); cbn; [intros [=]; lia|].
    unfold tnext. destruct (S j <? r); discriminate. }
  assert (O : o = Some false -> other n r (Build_st m t x o g u f c) <> Build_st m t x o g u f c).
  { intros ->. destruct t; try contradiction. eapply T; eauto. }
  destruct m as [i|i k|i|i|i k|i|i| | |].
  - destruct o as [[|]|]; [contradiction|exists false; auto|exists true]. apply Q. left. cbn. discriminate.
  - exists true. apply Q. left. unfold step, main; cbn [mp]. destruct (k <? n); cbn; intros [=]; lia.
  - exists true. apply Q. left. cbn. discriminate.
  - destruct o as [[|]|]; [contradiction|exists false; auto|exists true]. apply Q. left. cbn. discriminate.
  - exists true. apply Q. left. unfold step, main; cbn [mp]. destruct (k <? n); cbn; intros [=]; lia.
  - exists true. apply Q. left. cbn. discriminate.
  - exists true. apply Q. left. unfold step, main; cbn [mp out]. destruct (wrong n u); cbn; unfold mnext; destruct (S i <? r); discriminate.
  - exists true. apply Q. left. cbn. discriminate.
  - destruct IM as [_ ->]. destruct t as [j|j|j k|].
    + exists false. apply Q. right. cbn. discriminate.
    + exists false. destruct o as [[|]|]; try contradiction. apply Q. right. cbn. discriminate.
    + exists false. eapply T; eauto.
    + exists true. apply Q. left. cbn. discriminate.
  - congruence.
Qed.

(** ** C360 and C361 *)
Lemma failed_le : forall n r s, reach n r s -> failed s <= r.
Proof.
  intros n r s R. pose proof (i_main _ _ _ (inv_reach _ _ _ R)) as I. unfold mainv in I. destruct (mp s); lia.
Qed.
Lemma may_fail : exists s, reach 1 2 s /\ mp s = MDone /\ failed s = 2.
Proof.
  exists (steps 1 2 ((repeat true 4 ++ repeat false 4 ++ repeat true 5) ++ (repeat true 4 ++ repeat false 4 ++ repeat true 7)) (init 2)).
  split; [eexists; reflexivity|]. repeat split; reflexivity.
Qed.
Lemma may_pass : exists s, reach 1 2 s /\ mp s = MDone /\ failed s = 0.
Proof.
  exists (steps 1 2 (repeat true 19 ++ repeat false 8 ++ [true]) (init 2)). split; [eexists; reflexivity|]. repeat split; reflexivity.
Qed.
Lemma tests_nothing : exists s, reach 1 2 s /\ mp s = MRunLock 0 /\ tp s = TDone.
Proof. exists (steps 1 2 (repeat true 4 ++ repeat false 8) (init 2)). split; [eexists; reflexivity|]. repeat split; reflexivity. Qed.

Definition alone (n f : nat) (s : st) : Prop := tp s = TDone /\ failed s = f /\
  match mp s with
  | MSet _ k => allg k A (gain s)
  | MReady _ | MRunLock _ => allg n A (gain s)
  | MRun _ k => allg n A (gain s) /\ uniform k A (out s)
  | MClear _ | MCheck _ => uniform n A (out s)
  | _ => True
  end.
Lemma alone_step : forall n r f l s, alone n f s -> alone n f (step n r l s).
Proof.
  intros n r f l [m t x o g u fa c] (T & F & H). cbn [mp mtx ready gain out failed msgs tp] in *. subst t fa.
  destruct l; cbn [step]; [|unfold alone; cbn; auto].
  unfold main. cbn [mp mtx ready gain out failed msgs tp]. destruct m as [i|i k|i|i|i k|i|i| | |].
  - destruct o; unfold alone; cbn; repeat split; auto. intros z L. lia.
  - destruct (Nat.ltb_spec k n); unfold alone; cbn; repeat split; auto; [apply allg_upd; auto|]. intros z L. apply H. lia.
  - unfold alone; cbn; auto.
  - destruct o; unfold alone; cbn; repeat split; auto. intros z L. lia.
  - destruct H as [G U]. destruct (Nat.ltb_spec k n); unfold alone; cbn [w_main mp tp failed gain out]; repeat split; auto.
    + rewrite (G k) by lia. apply uni_upd; auto.
    + intros z L. apply U. lia.
  - unfold alone; cbn; auto.
  - rewrite (wrong_A n u H). unfold alone; cbn. repeat split; auto. unfold mnext. destruct (S i <? r); auto.
  - unfold alone; cbn; auto.
  - unfold alone; cbn; auto.
  - unfold alone; cbn; auto.
Qed.
Lemma alone_passes : forall n r s i ls, reach n r s -> mp s = MLock i -> tp s = TDone -> failed (steps n r ls s) = failed s.
Proof.
  intros n r s i ls _ M T. assert (G : forall ls s, alone n (failed s) s -> failed (steps n r ls s) = failed s).
  { induction ls0 as [|l ls0 IH]; cbn; auto. intros z a. pose proof (alone_step n r _ l z a) as b.
    assert (E : failed (step n r l z) = failed z) by apply b. rewrite IH; auto. rewrite E. exact b. }
  apply G. unfold alone. rewrite M, T. auto.
Qed.
(** Before the flag is set for the first time the other thread is at its beginning. *)
Definition early (p : mpc) : bool := match p with MLock 0 | MSet 0 _ | MReady 0 => true | _ => false end.
Lemma early_waits : forall n r s, reach n r s -> early (mp s) = true -> tp s = tnext r 0.
Proof.
  intros n r s [ls ->].
  assert (G : forall ls s, (early (mp s) = true -> ready s = false /\ tp s = tnext r 0) ->
    early (mp (steps n r ls s)) = true -> tp (steps n r ls s) = tnext r 0).
  { clear ls. induction ls as [|l ls IH]; intros s H; cbn [steps]; [intros E; apply H; auto|]. apply IH. clear IH.
    destruct l; cbn [step].
    - unfold main. destruct (mp s) as [i|i k|i|i|i k|i|i| | |] eqn:M.
      + destruct (mtx s); [rewrite M|]; auto.
      + destruct (k <? n); auto.
      + discriminate.
      + destruct (mtx s); [rewrite M|]; auto; discriminate.
      + destruct (k <? n); discriminate.
      + discriminate.
      + unfold mnext. destruct (wrong n (out s)); cbn [w_count mp]; destruct (S i <? r); discriminate.
      + discriminate.
      + destruct (tp s); try (rewrite M; discriminate); discriminate.
      + rewrite M. discriminate.
    - assert (E : mp (other n r s) = mp s /\ ready (other n r s) = ready s).
      { unfold other. destruct (tp s); auto; [destruct (ready s) eqn:X|destruct (mtx s)|destruct (k <? n)]; auto. }
      destruct E as [-> ->]. intros E. destruct (H E) as [X T]. split; auto. rewrite <- T. unfold tnext in T. unfold other.
      destruct (0 <? r); rewrite T; [rewrite X|]; auto. }
  apply G. intros _. split; reflexivity.
Qed.
Lemma starts_late : forall n r s k, reach n r s -> 0 < r -> mp s = MLock 0 \/ mp s = MSet 0 k \/ mp s = MReady 0 -> tp s = TSpin 0.
Proof.
  intros n r s k R L M. rewrite (early_waits n r s R).
  - unfold tnext. destruct (Nat.ltb_spec 0 r); auto. lia.
  - destruct M as [-> | [-> | ->]]; reflexivity.
Qed.
