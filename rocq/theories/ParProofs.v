From Verif Require Import Prelude ParModel ParSpec.
Open Scope nat_scope.

Lemma run_app : forall os1 os2 w, run w (os1 ++ os2) = match run w os1 with Some w1 => run w1 os2 | None => None end.
Proof. induction os1 as [|o os1 IH]; intros os2 w; cbn; [reflexivity|]. destruct (step w o); [apply IH|reflexivity]. Qed.

Lemma run_inv : forall (P : world -> Prop) os w w', P w -> (forall w o w', P w -> In o os -> step w o = Some w' -> P w') ->
  run w os = Some w' -> P w'.
Proof.
  intros P. induction os as [|o os IH]; intros w w' HP Hs; cbn.
  - intros [= <-]. exact HP.
  - destruct (step w o) as [w1|] eqn:E; [|discriminate]. apply IH.
    + apply (Hs w o); [exact HP|left; reflexivity|exact E].
    + intros w2 o2 w3 H2 Hin. apply Hs; [exact H2|right; exact Hin].
Qed.

Lemma caller_eqb_eq : forall a b, caller_eqb a b = true <-> a = b.
Proof.
  intros [[i n]|] [[j m]|]; cbn; split; intros H; try discriminate; try reflexivity.
  - apply andb_prop in H as [H1 H2]. apply Nat.eqb_eq in H1, H2. now subst.
  - injection H as <- <-. now rewrite !Nat.eqb_refl.
Qed.
Lemma caller_eqb_refl : forall a, caller_eqb a a = true.
Proof. intros a. now apply caller_eqb_eq. Qed.
Lemma in_asg_true : forall c l, in_asg c l = true <-> exists i n, In (c, i, n) l.
Proof.
  intros c l. unfold in_asg. rewrite existsb_exists. split.
  - intros ([[c' i] n] & Hin & H). cbn in H. apply caller_eqb_eq in H. subst. eauto.
  - intros (i & n & Hin). exists (c, i, n). split; [exact Hin|]. cbn. apply caller_eqb_refl.
Qed.
Lemma in_asg_false : forall c l, in_asg c l = false -> forall i n, ~ In (c, i, n) l.
Proof.
  intros c l H i n Hin. assert (in_asg c l = true) by (apply in_asg_true; eauto). congruence.
Qed.
Lemma set_run_length : forall l n s, length (set_run l n s) = length l.
Proof. induction l; intros [|n] s; cbn; auto. Qed.
Lemma set_run_nth : forall l n s k, nth_error (set_run l n s) k =
  if k =? n then match nth_error l n with Some _ => Some s | None => None end else nth_error l k.
Proof.
  induction l as [|x l IH]; intros [|n] s [|k]; cbn; auto.
  destruct (k =? n); reflexivity.
Qed.
Lemma upd_same : forall A (f : nat -> A) i x, upd f i x i = x.
Proof. intros. unfold upd. now rewrite Nat.eqb_refl. Qed.
Lemma upd_other : forall A (f : nat -> A) i x k, k <> i -> upd f i x k = f k.
Proof. intros. unfold upd. destruct (k =? i) eqn:E; [apply Nat.eqb_eq in E; congruence|reflexivity]. Qed.
Lemma nth_app_last : forall (l : list rst) s k, nth_error (l ++ [s]) k =
  if k =? length l then Some s else nth_error l k.
Proof.
  intros l s k. destruct (k =? length l) eqn:E.
  - apply Nat.eqb_eq in E. subst. rewrite nth_error_app2 by lia. now rewrite Nat.sub_diag.
  - apply Nat.eqb_neq in E. destruct (Nat.lt_ge_cases k (length l)).
    + now rewrite nth_error_app1.
    + rewrite (proj2 (nth_error_None l k)) by lia. apply nth_error_None. rewrite app_length. cbn. lia.
Qed.
Lemma existsb_active : forall l n a, nth_error l n = Some (Active a) -> existsb is_active l = true.
Proof. intros l n a H. apply existsb_exists. exists (Active a). split; [now apply nth_error_In in H|reflexivity]. Qed.

(** How the state of one sequence changes in a step. *)
Inductive change (w : world) (i : nat) (s s' : sst) : Prop :=
| ch_same : s' = s -> change w i s s'
| ch_abort : q_runs s' = q_runs s -> q_fut s' = q_fut s -> change w i s s'
| ch_wait n r : q_runs s' = q_runs s -> q_fut s = Some n -> nth_error (q_runs s) n = Some (Ended r) -> q_fut s' = None ->
    q_ret s' = Some r -> change w i s s'
| ch_set n a b : nth_error (q_runs s) n = Some a -> is_ended a = false -> q_runs s' = set_run (q_runs s) n b ->
    q_fut s' = q_fut s -> (is_active a = true -> in_asg (Some (i, n)) (w_asg w) = false) ->
    (is_active b = true -> is_active a = true \/ existsb is_active (q_runs s) = false) -> (b = Queued -> False) -> change w i s s'.

(** The steps: either the list of callers is unchanged, or a start, or a return. *)
Inductive stepped (w : world) (o : op) (w' : world) : Prop :=
| st_plain : w_asg w' = w_asg w -> w_race w' = w_race w ->
    (w_wait w' = w_wait w \/ (w_wait w = None /\ in_asg None (w_asg w) = false)
     \/ (exists i l, w_wait w = Some (i :: l) /\ w_wait w' = Some l) \/ (w_wait w = Some [] /\ w_wait w' = None)) ->
    (forall c i, o <> OStart c i) -> (forall c, o <> OReturn c) -> (forall i, change w i (w_seq w i) (w_seq w' i)) -> stepped w o w'
| st_start c i : o = OStart c i -> can_act w c = true -> w' = do_start w c i -> stepped w o w'
| st_return c i n : o = OReturn c -> In (c, i, n) (w_asg w) -> fut_free (w_seq w i) = true ->
    w_asg w' = filter (fun e => negb (caller_eqb (fst (fst e)) c)) (w_asg w) -> w_wait w' = w_wait w ->
    w_race w' = w_race w -> (forall k, k <> i -> w_seq w' k = w_seq w k) ->
    q_runs (w_seq w' i) = q_runs (w_seq w i) -> q_fut (w_seq w' i) = Some n -> q_ret (w_seq w' i) = q_ret (w_seq w i) ->
    q_abort (w_seq w' i) = q_abort (w_seq w i) -> stepped w o w'.

Lemma change_upd : forall w i s' k, change w i (w_seq w i) s' -> change w k (w_seq w k) (upd (w_seq w) i s' k).
Proof.
  intros w i s' k H. destruct (Nat.eq_dec k i) as [->|n].
  - rewrite upd_same. exact H.
  - rewrite upd_other by exact n. now apply ch_same.
Qed.

Lemma do_wait_change : forall w i s', do_wait (w_seq w i) = Some s' -> change w i (w_seq w i) s'.
Proof.
  intros w i s'. unfold do_wait. destruct (q_fut (w_seq w i)) as [n|] eqn:F.
  - destruct (nth_error (q_runs (w_seq w i)) n) as [[|a|r]|] eqn:E; try discriminate.
    intros [= <-]. eapply ch_wait; eauto.
  - intros [= <-]. now apply ch_same.
Qed.

Lemma step_cases : forall w o w', step w o = Some w' -> stepped w o w'.
Proof.
  intros w o w' H. destruct o as [c i|c|i n|i n|i n r|c i|i|l|]; cbn in H.
  - destruct (can_act w c) eqn:C; [|discriminate]. injection H as <-. eapply st_start; eauto.
  - destruct (find _ _) as [[[c' i] n]|] eqn:F; [|discriminate].
    apply find_some in F as [Hin Hc]. cbn in Hc. apply caller_eqb_eq in Hc. subst c'.
    destruct (fut_free (w_seq w i)) eqn:E; [|discriminate]. injection H as <-.
    eapply st_return; cbn; eauto; try (now rewrite upd_same). intros k Hk. now apply upd_other.
  - destruct (nth_error _ n) as [[|a|r]|] eqn:E; try discriminate.
    destruct (existsb is_active _) eqn:A; [discriminate|]. injection H as <-.
    apply st_plain; cbn; auto; [discriminate|discriminate|]. intros k. apply change_upd.
    eapply (ch_set _ _ _ _ n Queued (Active false)); cbn; auto; discriminate.
  - destruct (nth_error _ n) as [[|a|r]|] eqn:E; try discriminate.
    destruct (in_asg _ _) eqn:A; [discriminate|]. injection H as <-.
    apply st_plain; cbn; auto; [discriminate|discriminate|]. intros k. apply change_upd.
    eapply (ch_set _ _ _ _ n (Active a) (Active (a || q_abort (w_seq w i)))); cbn; auto; discriminate.
  - destruct (nth_error _ n) as [[|a|r']|] eqn:E; try discriminate.
    destruct (in_asg _ _) eqn:A; [discriminate|]. injection H as <-.
    apply st_plain; cbn; auto; [discriminate|discriminate|]. intros k. apply change_upd.
    eapply (ch_set _ _ _ _ n (Active a) (Ended r)); cbn; auto; discriminate.
  - destruct (can_act w c) eqn:C; [|discriminate]. destruct (do_wait _) as [s|] eqn:D; [|discriminate].
    injection H as <-. apply st_plain; cbn; auto; [discriminate|discriminate|]. intros k. apply change_upd. now apply do_wait_change.
  - injection H as <-. apply st_plain; cbn; auto; [discriminate|discriminate|]. intros k. apply change_upd. now apply ch_abort.
  - destruct (can_act w None) eqn:C; [|discriminate]. injection H as <-. unfold can_act in C.
    apply andb_prop in C as [C1 C2]. apply negb_true_iff in C1. apply st_plain; cbn; auto; [|discriminate|discriminate|].
    + right. left. split; [|exact C1]. destruct (w_wait w); [discriminate|reflexivity].
    + intros k. now apply ch_same.
  - destruct (w_wait w) as [[|i l]|] eqn:W; [| |discriminate].
    + injection H as <-. apply st_plain; cbn; auto; [discriminate|discriminate|]. intros k. now apply ch_same.
    + destruct (do_wait _) as [s|] eqn:D; [|discriminate]. injection H as <-.
      apply st_plain; cbn; auto; [|discriminate|discriminate|].
      * right. right. left. eauto.
      * intros k. apply change_upd. now apply do_wait_change.
Qed.

(** Invariants of all reachable states. *)
Record inv (w : world) : Prop := {
  i_one : forall i n m a b, nth_error (q_runs (w_seq w i)) n = Some (Active a) ->
          nth_error (q_runs (w_seq w i)) m = Some (Active b) -> n = m;
  i_fut : forall i n, q_fut (w_seq w i) = Some n -> n < length (q_runs (w_seq w i));
  i_asg : forall c i n, In (c, i, n) (w_asg w) -> n < length (q_runs (w_seq w i)) /\
          match c with
          | None => w_wait w = None
          | Some (j, m) => exists a, nth_error (q_runs (w_seq w j)) m = Some (Active a)
          end;
  i_run : forall i n s, nth_error (q_runs (w_seq w i)) n = Some s -> is_ended s = false ->
          q_fut (w_seq w i) = Some n \/ exists c, In (c, i, n) (w_asg w);
  i_uni : forall c i n j m, In (c, i, n) (w_asg w) -> In (c, j, m) (w_asg w) -> i = j /\ n = m }.

Lemma inv0 : inv world0.
Proof.
  constructor; cbn.
  - intros i [|n] m a b H; discriminate.
  - discriminate.
  - intros c i n [].
  - intros i [|n] s H; discriminate.
  - intros c i n j m [].
Qed.

Lemma fut_free_ended : forall s n r, fut_free s = true -> q_fut s = Some n -> nth_error (q_runs s) n = Some r -> is_ended r = true.
Proof. intros s n r H F E. unfold fut_free in H. now rewrite F, E in H. Qed.

Lemma do_start_runs : forall w c i k, q_runs (w_seq (do_start w c i) k) =
  if k =? i then q_runs (w_seq w i) ++ [Queued] else q_runs (w_seq w k).
Proof.
  intros w c i k. unfold do_start. destruct (fut_free _); cbn; unfold upd; destruct (k =? i); reflexivity.
Qed.
Lemma do_start_wait : forall w c i, w_wait (do_start w c i) = w_wait w.
Proof. intros. unfold do_start. destruct (fut_free _); reflexivity. Qed.
Lemma do_start_asg : forall w c i, w_asg (do_start w c i) =
  if fut_free (w_seq w i) then w_asg w else (c, i, length (q_runs (w_seq w i))) :: w_asg w.
Proof. intros. unfold do_start. destruct (fut_free _); reflexivity. Qed.
Lemma do_start_fut : forall w c i k, q_fut (w_seq (do_start w c i) k) =
  if (k =? i) && fut_free (w_seq w i) then Some (length (q_runs (w_seq w i))) else q_fut (w_seq w k).
Proof.
  intros w c i k. unfold do_start. destruct (fut_free _) eqn:E; cbn; unfold upd; destruct (k =? i) eqn:K; cbn; auto.
  apply Nat.eqb_eq in K. now subst.
Qed.
Lemma do_start_race : forall w c i, w_race (do_start w c i) =
  w_race w || existsb (fun e => snd (fst e) =? i) (w_asg w) || match w_wait w with Some (k :: _) => k =? i | _ => false end.
Proof. intros. unfold do_start. destruct (fut_free _); reflexivity. Qed.
Lemma can_act_some : forall w j m, can_act w (Some (j, m)) = true ->
  in_asg (Some (j, m)) (w_asg w) = false /\ exists a, nth_error (q_runs (w_seq w j)) m = Some (Active a).
Proof.
  intros w j m H. unfold can_act in H. apply andb_prop in H as [H1 H2]. apply negb_true_iff in H1. split; [exact H1|].
  destruct (nth_error _ m) as [[|a|r]|]; try discriminate. eauto.
Qed.
Lemma can_act_none : forall w, can_act w None = true -> in_asg None (w_asg w) = false /\ w_wait w = None.
Proof.
  intros w H. unfold can_act in H. apply andb_prop in H as [H1 H2]. apply negb_true_iff in H1. split; [exact H1|].
  destruct (w_wait w); [discriminate|reflexivity].
Qed.

(** A change keeps the runs, except for one which is set. *)
Lemma change_nth : forall w i s s' k x, change w i s s' -> nth_error (q_runs s') k = Some x ->
  exists y, nth_error (q_runs s) k = Some y /\ (is_ended x = false -> is_ended y = false) /\
            (is_active x = true -> is_active y = true \/ existsb is_active (q_runs s) = false).
Proof.
  intros w i s s' k x H E. destruct H as [->|R F|n r R F N F'|n a b N A R F B C D].
  - exists x. split; [exact E|]. split; auto.
  - rewrite R in E. exists x. split; [exact E|]. split; auto.
  - rewrite R in E. exists x. split; [exact E|]. split; auto.
  - rewrite R, set_run_nth in E. destruct (k =? n) eqn:K.
    + apply Nat.eqb_eq in K. subst k. rewrite N in E. injection E as ->. exists a. auto.
    + exists x. split; [exact E|]. split; auto.
Qed.
Lemma change_len : forall w i s s', change w i s s' -> length (q_runs s') = length (q_runs s).
Proof. intros w i s s' [->|R F|n r R F N F'|n a b N A R F B C D]; try rewrite R; auto. apply set_run_length. Qed.
(** An active run of a blocked caller stays active. *)
Lemma change_blocked : forall w i s s' m a, change w i s s' -> in_asg (Some (i, m)) (w_asg w) = true ->
  nth_error (q_runs s) m = Some (Active a) -> nth_error (q_runs s') m = Some (Active a).
Proof.
  intros w i s s' m a [->|R F|n r R F N F'|n x b N A R F B C D] Hb E; try (rewrite R; exact E); auto.
  rewrite R, set_run_nth. destruct (m =? n) eqn:K; [|exact E]. apply Nat.eqb_eq in K. subst m.
  rewrite N in E. injection E as ->. rewrite (B eq_refl) in Hb. discriminate.
Qed.

Lemma inv_step : forall w o w', inv w -> step w o = Some w' -> inv w'.
Proof.
  intros w o w' [I1 I2 I3 I4 I5] H. apply step_cases in H. destruct H as [HA HR HW _ _ HC|c i -> CA ->|c i n -> Hin FF HA HW HR HO HRn HF _ _].
  - constructor.
    + intros i n m a b E1 E2. specialize (HC i).
      destruct HC as [E|R F|k r R F N F'|k x y N A R F B C D].
      * rewrite E in E1, E2. eapply I1; eauto.
      * rewrite R in E1, E2. eapply I1; eauto.
      * rewrite R in E1, E2. eapply I1; eauto.
      * rewrite R, set_run_nth in E1, E2. rewrite N in E1, E2.
        destruct (n =? k) eqn:K1, (m =? k) eqn:K2; try apply Nat.eqb_eq in K1; try apply Nat.eqb_eq in K2; subst; auto.
        -- injection E1 as ->. destruct (C eq_refl) as [HX|HX].
           ++ destruct x; try discriminate. eapply I1; eauto.
           ++ rewrite (existsb_active _ _ _ E2) in HX. discriminate.
        -- injection E2 as ->. destruct (C eq_refl) as [HX|HX].
           ++ destruct x; try discriminate. eapply I1; eauto.
           ++ rewrite (existsb_active _ _ _ E1) in HX. discriminate.
        -- eapply I1; eauto.
    + intros i n E. rewrite (change_len _ _ _ _ (HC i)). specialize (HC i). apply I2.
      destruct HC as [X|R F|k r R F N F'|k x y N A R F B C D]; try rewrite X in E; try rewrite F in E; auto. congruence.
    + intros c i n E. rewrite HA in E. destruct (I3 _ _ _ E) as [L C]. rewrite (change_len _ _ _ _ (HC i)). split; [exact L|].
      destruct c as [[j m]|].
      * destruct C as [a C]. exists a. eapply change_blocked; eauto. apply in_asg_true. eauto.
      * destruct HW as [->|[[_ X]|[(k & l & X & _)|[X _]]]]; [exact C| | |]; exfalso.
        -- eapply in_asg_false; eauto.
        -- congruence.
        -- congruence.
    + intros i n s E NE. rewrite HA. destruct (change_nth _ _ _ _ _ _ (HC i) E) as (y & Ey & Hy & _).
      destruct (I4 _ _ _ Ey (Hy NE)) as [F|F]; [left|right; exact F].
      specialize (HC i). destruct HC as [X|R X|k r R X N F'|k x z N A R X B C D]; try rewrite X; auto.
      rewrite X in F. injection F as ->. rewrite N in Ey. injection Ey as <-. specialize (Hy NE). discriminate.
    + intros c i n j m. rewrite HA. apply I5.
  - assert (RN : forall k m s, nth_error (q_runs (w_seq (do_start w c i) k)) m = Some s ->
      (k = i /\ m = length (q_runs (w_seq w i)) /\ s = Queued) \/ nth_error (q_runs (w_seq w k)) m = Some s).
    { intros k m s E. rewrite do_start_runs in E. destruct (k =? i) eqn:K; [|right; exact E].
      apply Nat.eqb_eq in K. subst k. rewrite nth_app_last in E. destruct (m =? _) eqn:M; [|right; exact E].
      apply Nat.eqb_eq in M. injection E as <-. left. auto. }
    assert (RM : forall k m s, nth_error (q_runs (w_seq w k)) m = Some s -> nth_error (q_runs (w_seq (do_start w c i) k)) m = Some s).
    { intros k m s E. rewrite do_start_runs. destruct (k =? i) eqn:K; [|exact E]. apply Nat.eqb_eq in K. subst k.
      rewrite nth_error_app1; [exact E|]. apply nth_error_Some. congruence. }
    assert (RL : forall k, length (q_runs (w_seq w k)) <= length (q_runs (w_seq (do_start w c i) k))).
    { intros k. rewrite do_start_runs. destruct (k =? i) eqn:K; [|lia]. apply Nat.eqb_eq in K. subst. rewrite app_length. lia. }
    assert (RI : length (q_runs (w_seq w i)) < length (q_runs (w_seq (do_start w c i) i))).
    { rewrite do_start_runs, Nat.eqb_refl, app_length. cbn. lia. }
    constructor.
    + intros k n m a b E1 E2. destruct (RN _ _ _ E1) as [(_ & _ & X)|X1]; [discriminate|].
      destruct (RN _ _ _ E2) as [(_ & _ & X)|X2]; [discriminate|]. eapply I1; eauto.
    + intros k n E. rewrite do_start_fut in E. destruct (k =? i) eqn:K; cbn in E.
      * apply Nat.eqb_eq in K. subst k. destruct (fut_free _) eqn:FF.
        -- injection E as <-. exact RI.
        -- specialize (I2 _ _ E). lia.
      * specialize (I2 _ _ E). specialize (RL k). lia.
    + intros c' k n E. rewrite do_start_asg in E. rewrite do_start_wait.
      assert (OLD : In (c', k, n) (w_asg w) -> n < length (q_runs (w_seq (do_start w c i) k)) /\
        match c' with None => w_wait w = None | Some (j, m) => exists a, nth_error (q_runs (w_seq (do_start w c i) j)) m = Some (Active a) end).
      { intros X. destruct (I3 _ _ _ X) as [L C]. split; [specialize (RL k); lia|].
        destruct c' as [[j m]|]; [|exact C]. destruct C as [a C]. exists a. now apply RM. }
      destruct (fut_free _) eqn:FF; [now apply OLD|]. destruct E as [E|E]; [|now apply OLD].
      injection E as <- <- <-. split; [exact RI|]. destruct c as [[j m]|].
      * apply can_act_some in CA as [_ [a CA]]. exists a. now apply RM.
      * now apply can_act_none in CA as [_ CA].
    + intros k n s E NE. rewrite do_start_asg, do_start_fut. destruct (RN _ _ _ E) as [(-> & -> & ->)|X].
      * rewrite Nat.eqb_refl. destruct (fut_free _); cbn; [left; reflexivity|right]. exists c. left. reflexivity.
      * destruct (I4 _ _ _ X NE) as [F|[c' F]].
        -- left. destruct (k =? i) eqn:K; cbn; [|exact F]. apply Nat.eqb_eq in K. subst k.
           destruct (fut_free _) eqn:FF; [|exact F]. rewrite (fut_free_ended _ _ _ FF F X) in NE. discriminate.
        -- right. exists c'. destruct (fut_free _); [exact F|right; exact F].
    + intros c' k n j m. rewrite do_start_asg. destruct (fut_free _); [apply I5|].
      assert (CN : forall a b, ~ In (c, a, b) (w_asg w)).
      { apply in_asg_false. unfold can_act in CA. apply andb_prop in CA as [CA _]. now apply negb_true_iff in CA. }
      intros [E1|E1] [E2|E2].
      * rewrite E1 in E2. injection E2 as -> ->. auto.
      * injection E1 as <- <- <-. now apply CN in E2.
      * injection E2 as <- <- <-. now apply CN in E1.
      * eapply I5; eauto.
  - assert (RR : forall k, q_runs (w_seq w' k) = q_runs (w_seq w k)).
    { intros k. destruct (Nat.eq_dec k i) as [->|K]; [exact HRn|now rewrite HO]. }
    assert (HS : forall e, In e (w_asg w') -> In e (w_asg w) /\ fst (fst e) <> c).
    { intros e E. rewrite HA in E. apply filter_In in E as [E1 E2]. split; [exact E1|]. intros X. rewrite X, caller_eqb_refl in E2. discriminate. }
    constructor.
    + intros k a b x y. rewrite !RR. apply I1.
    + intros k a E. rewrite RR. destruct (Nat.eq_dec k i) as [->|K].
      * rewrite HF in E. injection E as <-. now apply (I3 _ _ _ Hin).
      * rewrite HO in E by exact K. now apply I2.
    + intros c' k a E. apply HS in E as [E _]. rewrite RR, HW. destruct (I3 _ _ _ E) as [L C]. split; [exact L|].
      destruct c' as [[j m]|]; [|exact C]. now rewrite RR.
    + intros k a s E NE. rewrite RR in E. destruct (I4 _ _ _ E NE) as [F|[c' F]].
      * destruct (Nat.eq_dec k i) as [->|K].
        -- rewrite (fut_free_ended _ _ _ FF F E) in NE. discriminate.
        -- left. now rewrite HO.
      * destruct (caller_eqb c' c) eqn:CE.
        -- apply caller_eqb_eq in CE. subst c'. destruct (I5 _ _ _ _ _ F Hin) as [-> ->]. left. exact HF.
        -- right. exists c'. rewrite HA. apply filter_In. split; [exact F|]. cbn. now rewrite CE.
    + intros c' k a j m E1 E2. apply HS in E1 as [E1 _]. apply HS in E2 as [E2 _]. eapply I5; eauto.
Qed.
Lemma inv_run : forall os w, run world0 os = Some w -> inv w.
Proof. intros os w. apply run_inv; [exact inv0|]. intros w1 o w2 H _. apply inv_step. exact H. Qed.

(** ** start() *)
Lemma start_returns : forall w c i w', step w (OStart c i) = Some w' ->
  (forall n, q_fut (w_seq w i) = Some n -> exists r, nth_error (q_runs (w_seq w i)) n = Some (Ended r)) ->
  ~ blocked w' c.
Proof.
  intros w c i w' H F (k & n & B). cbn in H. destruct (can_act w c) eqn:C; [|discriminate]. injection H as <-.
  rewrite do_start_asg in B. assert (FF : fut_free (w_seq w i) = true).
  { unfold fut_free. destruct (q_fut _) as [m|]; [|reflexivity]. destruct (F m eq_refl) as [r ->]. reflexivity. }
  rewrite FF in B. unfold can_act in C. apply andb_prop in C as [C _]. apply negb_true_iff in C.
  exact (in_asg_false _ _ C _ _ B).
Qed.

(** Self start: the caller waits for its own end. *)
Definition stuck (i n : nat) (w : world) : Prop :=
  q_fut (w_seq w i) = Some n /\ (exists a, nth_error (q_runs (w_seq w i)) n = Some (Active a)) /\
  exists m, In (Some (i, n), i, m) (w_asg w).
Lemma stuck_step : forall i n w o w', inv w -> stuck i n w -> step w o = Some w' -> stuck i n w'.
Proof.
  intros i n w o w' I (F & [a A] & [m M]) H. apply step_cases in H. destruct H as [HA HR HW _ _ HC|c k -> CA ->|c k l -> Hin FF HA HW HR HO HRn HF _ _].
  - assert (IA : in_asg (Some (i, n)) (w_asg w) = true) by (apply in_asg_true; eauto). split; [|split].
    + destruct (HC i) as [X|R X|k r R X N F'|k x z N AA R X B C D]; try (rewrite X; exact F).
      rewrite X in F. injection F as ->. rewrite A in N. discriminate.
    + exists a. eapply change_blocked; eauto.
    + exists m. rewrite HA. exact M.
  - assert (FF : fut_free (w_seq w i) = false) by (unfold fut_free; rewrite F, A; reflexivity). split; [|split].
    + rewrite do_start_fut. destruct (i =? k) eqn:K; cbn; [|exact F]. apply Nat.eqb_eq in K. subst k. now rewrite FF.
    + exists a. rewrite do_start_runs. destruct (i =? k) eqn:K; [|exact A]. apply Nat.eqb_eq in K. subst k.
      rewrite nth_error_app1; [exact A|]. apply nth_error_Some. congruence.
    + exists m. rewrite do_start_asg. destruct (fut_free (w_seq w k)); [exact M|right; exact M].
  - assert (NF : fut_free (w_seq w i) = false) by (unfold fut_free; rewrite F, A; reflexivity).
    assert (K : i <> k) by congruence. split; [|split].
    + now rewrite HO.
    + exists a. now rewrite HO.
    + exists m. rewrite HA. apply filter_In. split; [exact M|]. cbn. apply negb_true_iff.
      destruct (caller_eqb (Some (i, n)) c) eqn:E; [|exact E]. exfalso. apply caller_eqb_eq in E. subst c.
      destruct (i_uni _ I _ _ _ _ _ M Hin) as [X _]. congruence.
Qed.
Lemma self_start : forall os w i n w', run world0 os = Some w -> q_fut (w_seq w i) = Some n ->
  step w (OStart (Some (i, n)) i) = Some w' -> forall os' w'', run w' os' = Some w'' ->
  blocked w'' (Some (i, n)) /\ (forall r, nth_error (q_runs (w_seq w'' i)) n <> Some (Ended r)) /\
  (forall c, step w'' (OWait c i) = None).
Proof.
  intros os w i n w' R F S os' w'' R'. pose proof (inv_run _ _ R) as I. pose proof (inv_step _ _ _ I S) as I'.
  assert (ST : stuck i n w').
  { cbn [step] in S. destruct (can_act w (Some (i, n))) eqn:C; [|discriminate]. injection S as <-.
    apply can_act_some in C as [C1 [a C2]].
    assert (FF : fut_free (w_seq w i) = false) by (unfold fut_free; rewrite F, C2; reflexivity). split; [|split].
    - rewrite do_start_fut, FF, andb_false_r. exact F.
    - exists a. rewrite do_start_runs, Nat.eqb_refl, nth_error_app1; [exact C2|]. apply nth_error_Some. congruence.
    - rewrite do_start_asg, FF. eexists. left. reflexivity. }
  assert (H : inv w'' /\ stuck i n w'').
  { apply (run_inv (fun w => inv w /\ stuck i n w) os' w' w''); [now split| |exact R'].
    intros w1 o w2 [A B] _ E. split; [eapply inv_step; eauto|eapply stuck_step; eauto]. }
  destruct H as [_ (F2 & [a A2] & [m M2])]. split; [|split].
  - exists i, m. exact M2.
  - intros r E. congruence.
  - intros c. cbn. destruct (can_act w'' c); [|reflexivity]. unfold do_wait. now rewrite F2, A2.
Qed.

(** ** Runs *)
Lemma one_active : forall os w i n m a b, run world0 os = Some w ->
  nth_error (q_runs (w_seq w i)) n = Some (Active a) -> nth_error (q_runs (w_seq w i)) m = Some (Active b) -> n = m.
Proof. intros os w i n m a b H. exact (i_one _ (inv_run _ _ H) i n m a b). Qed.
Lemma starts_app : forall i a b, starts i (a ++ b) = starts i a + starts i b.
Proof. intros. unfold starts. rewrite filter_app, app_length. reflexivity. Qed.
Lemma step_len : forall w o w' i, step w o = Some w' -> length (q_runs (w_seq w' i)) = length (q_runs (w_seq w i)) + starts i [o].
Proof.
  intros w o w' i H. apply step_cases in H. destruct H as [HA HR HW HN HM HC|c k -> CA ->|c k l -> Hin FF HA HW HR HO HRn HF _ _].
  - rewrite (change_len _ _ _ _ (HC i)). destruct o; try (cbn; lia). now destruct (HN c i0).
  - rewrite do_start_runs. unfold starts. cbn. rewrite (Nat.eqb_sym k i). destruct (i =? k) eqn:K; [|cbn; lia].
    apply Nat.eqb_eq in K. subst. rewrite app_length. reflexivity.
  - destruct (Nat.eq_dec i k) as [->|K]; [rewrite HRn|rewrite HO by exact K]; cbn; lia.
Qed.
Lemma runs_count : forall os w i, run world0 os = Some w -> length (q_runs (w_seq w i)) = starts i os.
Proof.
  assert (H : forall os w w' i, run w os = Some w' -> length (q_runs (w_seq w' i)) = length (q_runs (w_seq w i)) + starts i os).
  { induction os as [|o os IH]; intros w w' i; cbn [run].
    - intros [= <-]. cbn. lia.
    - destruct (step w o) as [w1|] eqn:E; [|discriminate]. intros H. rewrite (IH _ _ _ H), (step_len _ _ _ _ E).
      change (o :: os) with ([o] ++ os). rewrite starts_app. lia. }
  intros os w i R. now rewrite (H _ _ _ i R).
Qed.

(** ** Results *)
Record last_inv (w : world) : Prop := {
  l_asg : forall c i n, In (c, i, n) (w_asg w) -> S n = length (q_runs (w_seq w i));
  l_uni : forall c c' i n m, In (c, i, n) (w_asg w) -> In (c', i, m) (w_asg w) -> c = c';
  l_fut : forall i n, q_fut (w_seq w i) = Some n -> (forall c m, ~ In (c, i, m) (w_asg w)) -> S n = length (q_runs (w_seq w i)) }.
Lemma last_step : forall w o w', inv w -> (w_race w = false -> last_inv w) -> step w o = Some w' -> w_race w' = false -> last_inv w'.
Proof.
  intros w o w' I L H R. apply step_cases in H. destruct H as [HA HR HW HN HM HC|c k -> CA ->|c k l -> Hin FF HA HW HR HO HRn HF _ _].
  - rewrite HR in R. destruct (L R) as [L1 L2 L3]. constructor; rewrite ?HA.
    + intros c i n E. rewrite (change_len _ _ _ _ (HC i)). eapply L1; eauto.
    + exact L2.
    + intros i n F E. rewrite (change_len _ _ _ _ (HC i)). apply L3; [|exact E].
      destruct (HC i) as [X|Y X|j r Y X N F'|j x z N AA Y X B C D]; rewrite ?X in F; auto. congruence.
  - rewrite do_start_race in R. apply orb_false_iff in R as [R R2]. apply orb_false_iff in R as [R R1].
    destruct (L R) as [L1 L2 L3].
    assert (NI : forall c n, ~ In (c, k, n) (w_asg w)).
    { intros c' n E. assert (X : existsb (fun e => snd (fst e) =? k) (w_asg w) = true); [|congruence].
      apply existsb_exists. exists (c', k, n). split; [exact E|]. cbn. apply Nat.eqb_refl. }
    assert (OLD : forall c' i n, In (c', i, n) (w_asg w) -> i <> k) by (intros c' i n E ->; eapply NI; eauto).
    constructor.
    + intros c' i n E. rewrite do_start_runs. rewrite do_start_asg in E.
      assert (O : In (c', i, n) (w_asg w) -> S n = length (if i =? k then q_runs (w_seq w k) ++ [Queued] else q_runs (w_seq w i))).
      { intros O. pose proof (OLD _ _ _ O) as K. apply Nat.eqb_neq in K. rewrite K. eapply L1; eauto. }
      destruct (fut_free _); [now apply O|]. destruct E as [E|E]; [|now apply O].
      injection E as <- <- <-. rewrite Nat.eqb_refl, app_length. cbn. lia.
    + intros c1 c2 i n m. rewrite do_start_asg. destruct (fut_free _); [apply L2|]. intros [E1|E1] [E2|E2].
      * congruence.
      * injection E1 as <- <- <-. now apply NI in E2.
      * injection E2 as <- <- <-. now apply NI in E1.
      * eapply L2; eauto.
    + intros i n F E. rewrite do_start_fut in F. rewrite do_start_runs. rewrite do_start_asg in E.
      destruct (i =? k) eqn:K; cbn in F.
      * apply Nat.eqb_eq in K. subst i. destruct (fut_free (w_seq w k)) eqn:FF.
        -- injection F as <-. rewrite app_length. cbn. lia.
        -- exfalso. eapply E. left. reflexivity.
      * apply L3; [exact F|]. intros c' m X. apply (E c' m). destruct (fut_free _); [exact X|right; exact X].
  - rewrite HR in R. destruct (L R) as [L1 L2 L3].
    assert (RR : forall j, q_runs (w_seq w' j) = q_runs (w_seq w j)).
    { intros j. destruct (Nat.eq_dec j k) as [->|K]; [exact HRn|now rewrite HO]. }
    assert (HS : forall e, In e (w_asg w') -> In e (w_asg w)) by (intros e E; rewrite HA in E; now apply filter_In in E).
    constructor.
    + intros c' i n E. rewrite RR. eapply L1; eauto.
    + intros c1 c2 i n m E1 E2. eapply L2; eauto.
    + intros i n F E. rewrite RR. destruct (Nat.eq_dec i k) as [->|K].
      * rewrite HF in F. injection F as <-. eapply L1; eauto.
      * rewrite HO in F by exact K. apply L3; [exact F|]. intros c' m X. apply (E c' m). rewrite HA. apply filter_In. split; [exact X|].
        cbn. apply negb_true_iff. destruct (caller_eqb c' c) eqn:CE; [|reflexivity]. apply caller_eqb_eq in CE. subst c'.
        destruct (i_uni _ I _ _ _ _ _ X Hin). congruence.
Qed.
Lemma last_run : forall os w, run world0 os = Some w -> w_race w = false -> last_inv w.
Proof.
  intros os w R. assert (H : inv w /\ (w_race w = false -> last_inv w)); [|exact (proj2 H)].
  apply (run_inv (fun w => inv w /\ (w_race w = false -> last_inv w)) os world0 w); [|  |exact R].
  - split; [exact inv0|]. intros _. constructor; cbn; try (intros; contradiction). discriminate.
  - intros w1 o w2 [A B] _ E. split; [eapply inv_step; eauto|]. eapply last_step; eauto.
Qed.
Lemma wait_result : forall os w c i w', run world0 os = Some w -> w_race w = false -> step w (OWait c i) = Some w' ->
  q_fut (w_seq w i) <> None -> (forall c', ~ (exists n, In (c', i, n) (w_asg w))) ->
  exists r, q_ret (w_seq w' i) = Some r /\ nth_error (q_runs (w_seq w' i)) (starts i os - 1) = Some (Ended r) /\ 0 < starts i os.
Proof.
  intros os w c i w' R NR S F NA. cbn in S. destruct (can_act w c); [|discriminate].
  destruct (do_wait (w_seq w i)) as [s|] eqn:D; [|discriminate]. injection S as <-. cbn. rewrite upd_same.
  unfold do_wait in D. destruct (q_fut (w_seq w i)) as [n|] eqn:E; [|congruence].
  destruct (nth_error (q_runs (w_seq w i)) n) as [[|a|r]|] eqn:N; try discriminate. injection D as <-. cbn.
  exists r. split; [reflexivity|]. pose proof (l_fut _ (last_run _ _ R NR) i n E) as L.
  assert (X : S n = length (q_runs (w_seq w i))) by (apply L; intros c' m HI; apply (NA c'); eauto).
  rewrite (runs_count _ _ i R) in X. rewrite <- X. cbn. rewrite Nat.sub_0_r. split; [exact N|lia].
Qed.

(** ** Abort requests *)
Lemma abort_kept : forall i os w w', q_abort (w_seq w i) = true -> starts i os = 0 -> run w os = Some w' -> q_abort (w_seq w' i) = true.
Proof.
  intros i os w w' A S R. apply (run_inv (fun w => q_abort (w_seq w i) = true) os w w' A); [|exact R].
  clear w w' A R. intros w o w' A Hin H.
  assert (U : forall k s, q_abort s = q_abort (w_seq w k) \/ q_abort s = true -> q_abort (upd (w_seq w) k s i) = true).
  { intros k s E. destruct (Nat.eq_dec i k) as [->|K]; [rewrite upd_same; destruct E; congruence|now rewrite upd_other]. }
  assert (DW : forall s s', do_wait s = Some s' -> q_abort s' = q_abort s).
  { intros s s' D. unfold do_wait in D. destruct (q_fut s); [|now injection D as <-].
    destruct (nth_error _ n) as [[| |]|]; try discriminate. now injection D as <-. }
  destruct o as [c k|c|k n|k n|k n r|c k|k|l|]; cbn in H.
  - destruct (can_act w c); [|discriminate]. injection H as <-.
    assert (K : k <> i).
    { intros ->. unfold starts in S. assert (In (OStart c i) (filter (fun o => match o with OStart _ k => k =? i | _ => false end) os)).
      { apply filter_In. split; [exact Hin|apply Nat.eqb_refl]. }
      destruct (filter _ os); [contradiction|discriminate]. }
    unfold do_start. destruct (fut_free _); cbn; rewrite upd_other; auto.
  - destruct (find _ _) as [[[c' k] n]|]; [|discriminate]. destruct (fut_free _); [|discriminate]. injection H as <-. cbn. apply U. now left.
  - destruct (nth_error _ n) as [[|a|r]|]; try discriminate. destruct (existsb _ _); [discriminate|]. injection H as <-. apply U. now left.
  - destruct (nth_error _ n) as [[|a|r]|]; try discriminate. destruct (in_asg _ _); [discriminate|]. injection H as <-. apply U. now left.
  - destruct (nth_error _ n) as [[|a|r']|]; try discriminate. destruct (in_asg _ _); [discriminate|]. injection H as <-. apply U. now left.
  - destruct (can_act w c); [|discriminate]. destruct (do_wait _) as [s|] eqn:D; [|discriminate]. injection H as <-. apply U. left. now apply DW.
  - injection H as <-. apply U. now right.
  - destruct (can_act w None); [|discriminate]. injection H as <-. exact A.
  - destruct (w_wait w) as [[|k l]|]; [| |discriminate].
    + injection H as <-. exact A.
    + destruct (do_wait _) as [s|] eqn:D; [|discriminate]. injection H as <-. cbn. apply U. left. now apply DW.
Qed.
Lemma abort_noticed : forall i n os w w1 w2 w3, step w (OAbort i) = Some w1 -> run w1 os = Some w2 -> starts i os = 0 ->
  step w2 (OCheck i n) = Some w3 -> nth_error (q_runs (w_seq w3 i)) n = Some (Active true).
Proof.
  intros i n os w w1 w2 w3 A R S C. assert (A1 : q_abort (w_seq w1 i) = true).
  { cbn in A. injection A as <-. cbn. now rewrite upd_same. }
  pose proof (abort_kept i os w1 w2 A1 S R) as A2. cbn in C.
  destruct (nth_error (q_runs (w_seq w2 i)) n) as [[|a|r]|] eqn:E; try discriminate.
  destruct (in_asg _ _); [discriminate|]. injection C as <-. cbn. rewrite upd_same. cbn.
  rewrite set_run_nth, Nat.eqb_refl, E, A2, orb_true_r. reflexivity.
Qed.

(** A start forgets the abort requests made before it. *)
Lemma abort_off : forall i os w w', q_abort (w_seq w i) = false -> ~ In (OAbort i) os -> run w os = Some w' -> q_abort (w_seq w' i) = false.
Proof.
  intros i os w w' A S R. apply (run_inv (fun w => q_abort (w_seq w i) = false) os w w' A); [|exact R].
  clear w w' A R. intros w o w' A Hin H.
  assert (U : forall k s, q_abort s = q_abort (w_seq w k) \/ q_abort s = false -> q_abort (upd (w_seq w) k s i) = false).
  { intros k s E. destruct (Nat.eq_dec i k) as [->|K]; [rewrite upd_same; destruct E; congruence|now rewrite upd_other]. }
  assert (DW : forall s s', do_wait s = Some s' -> q_abort s' = q_abort s).
  { intros s s' D. unfold do_wait in D. destruct (q_fut s); [|now injection D as <-].
    destruct (nth_error _ n) as [[| |]|]; try discriminate. now injection D as <-. }
  destruct o as [c k|c|k n|k n|k n r|c k|k|l|]; cbn in H.
  - destruct (can_act w c); [|discriminate]. injection H as <-.
    unfold do_start. destruct (fut_free _); cbn; apply U; now right.
  - destruct (find _ _) as [[[c' k] n]|]; [|discriminate]. destruct (fut_free _); [|discriminate]. injection H as <-. cbn. apply U. now left.
  - destruct (nth_error _ n) as [[|a|r]|]; try discriminate. destruct (existsb _ _); [discriminate|]. injection H as <-. apply U. now left.
  - destruct (nth_error _ n) as [[|a|r]|]; try discriminate. destruct (in_asg _ _); [discriminate|]. injection H as <-. apply U. now left.
  - destruct (nth_error _ n) as [[|a|r']|]; try discriminate. destruct (in_asg _ _); [discriminate|]. injection H as <-. apply U. now left.
  - destruct (can_act w c); [|discriminate]. destruct (do_wait _) as [s|] eqn:D; [|discriminate]. injection H as <-. apply U. left. now apply DW.
  - assert (K : k <> i) by (intros ->; contradiction). injection H as <-. cbn. now rewrite upd_other by auto.
  - destruct (can_act w None); [|discriminate]. injection H as <-. exact A.
  - destruct (w_wait w) as [[|k l]|]; [| |discriminate].
    + injection H as <-. exact A.
    + destruct (do_wait _) as [s|] eqn:D; [|discriminate]. injection H as <-. cbn. apply U. left. now apply DW.
Qed.
Lemma abort_not_stale : forall c i n os w w1 w2 w3, step w (OStart c i) = Some w1 -> run w1 os = Some w2 -> ~ In (OAbort i) os ->
  nth_error (q_runs (w_seq w2 i)) n = Some (Active false) ->
  step w2 (OCheck i n) = Some w3 -> nth_error (q_runs (w_seq w3 i)) n = Some (Active false).
Proof.
  intros c i n os w w1 w2 w3 A R S E C. assert (A1 : q_abort (w_seq w1 i) = false).
  { cbn in A. destruct (can_act w c); [|discriminate]. injection A as <-. unfold do_start. destruct (fut_free _); cbn; now rewrite upd_same. }
  pose proof (abort_off i os w1 w2 A1 S R) as A2. cbn in C. rewrite E in C.
  destruct (in_asg _ _); [discriminate|]. injection C as <-. cbn. rewrite upd_same. cbn.
  rewrite set_run_nth, Nat.eqb_refl, E, A2. reflexivity.
Qed.

(** ** Sequencer::wait() *)
Definition all_ended (w : world) (i : nat) : Prop := forall n s, nth_error (q_runs (w_seq w i)) n = Some s -> is_ended s = true.
Record winv (N : nat) (w : world) : Prop := {
  v_asg : forall j m i n, In (Some (j, m), i, n) (w_asg w) -> j < i;
  v_out : forall i, N <= i -> q_runs (w_seq w i) = [];
  v_wait : match w_wait w with None => True | Some l => exists k, k <= N /\ l = seq k (N - k) /\ forall i, i < k -> all_ended w i end }.
Lemma winv0 : forall N, winv N world0.
Proof. intros N. constructor; cbn; auto. intros; contradiction. Qed.
Lemma change_ended : forall w i s s', change w i s s' -> (forall n x, nth_error (q_runs s) n = Some x -> is_ended x = true) ->
  forall n x, nth_error (q_runs s') n = Some x -> is_ended x = true.
Proof.
  intros w i s s' H A n x E. destruct (change_nth _ _ _ _ _ _ H E) as (y & Ey & Hy & _). specialize (A _ _ Ey).
  destruct (is_ended x); [reflexivity|]. rewrite (Hy eq_refl) in A. discriminate.
Qed.
Lemma do_wait_ended : forall s s', do_wait s = Some s' ->
  forall n x, q_fut s = Some n -> nth_error (q_runs s) n = Some x -> is_ended x = true.
Proof.
  intros s s' D n x F E. unfold do_wait in D. rewrite F, E in D. destruct x; try discriminate. reflexivity.
Qed.
Lemma do_wait_runs : forall s s', do_wait s = Some s' -> q_runs s' = q_runs s.
Proof.
  intros s s' D. unfold do_wait in D. destruct (q_fut s); [|now injection D as <-].
  destruct (nth_error _ n) as [[| |]|]; try discriminate. now injection D as <-.
Qed.
Lemma winv_step : forall N w o w', inv w -> winv N w -> ordered N [o] -> step w o = Some w' -> winv N w'.
Proof.
  intros N w o w' I [V1 V2 V3] O H. pose proof H as H0. apply step_cases in H.
  destruct H as [HA HR HW HN HM HC|c k -> CA ->|c k l -> Hin FF HA HW HR HO HRn HF _ _].
  - assert (KE : forall i, all_ended w i -> all_ended w' i).
    { intros i A n s E. exact (change_ended _ _ _ _ (HC i) A n s E). }
    constructor.
    + rewrite HA. exact V1.
    + intros i L. pose proof (change_len _ _ _ _ (HC i)) as E. rewrite (V2 i L) in E. now destruct (q_runs (w_seq w' i)).
    + destruct o as [c i|c|i n|i n|i n r|c i|i|l|]; cbn in H0.
      * now destruct (HN c i).
      * now destruct (HM c).
      * destruct (nth_error _ n) as [[|a|r]|]; try discriminate. destruct (existsb _ _); [discriminate|]. injection H0 as <-. cbn in *.
        destruct (w_wait w) as [l|]; [|exact Logic.I]. destruct V3 as (k & L & E & A). exists k. auto.
      * destruct (nth_error _ n) as [[|a|r]|]; try discriminate. destruct (in_asg (Some (i, n)) (w_asg w)); [discriminate|]. injection H0 as <-. cbn in *.
        destruct (w_wait w) as [l|]; [|exact Logic.I]. destruct V3 as (k & L & E & A). exists k. auto.
      * destruct (nth_error _ n) as [[|a|r']|]; try discriminate. destruct (in_asg (Some (i, n)) (w_asg w)); [discriminate|]. injection H0 as <-. cbn in *.
        destruct (w_wait w) as [l|]; [|exact Logic.I]. destruct V3 as (k & L & E & A). exists k. auto.
      * destruct (can_act w c); [|discriminate]. destruct (do_wait _); [|discriminate]. injection H0 as <-. cbn in *.
        destruct (w_wait w) as [l|]; [|exact Logic.I]. destruct V3 as (k & L & E & A). exists k. auto.
      * injection H0 as <-. cbn in *. destruct (w_wait w) as [l|]; [|exact Logic.I]. destruct V3 as (k & L & E & A). exists k. auto.
      * destruct (can_act w None); [|discriminate]. injection H0 as <-. cbn. inversion O; subst.
        exists 0. rewrite Nat.sub_0_r. split; [lia|]. split; [reflexivity|]. intros i L. lia.
      * destruct (w_wait w) as [[|i l]|] eqn:W; [| |discriminate].
        -- injection H0 as <-. exact Logic.I.
        -- destruct (do_wait (w_seq w i)) as [s|] eqn:D; [|discriminate]. injection H0 as <-. cbn [w_wait].
           destruct V3 as (k & L & E & A). assert (KN : k < N).
           { destruct (Nat.eq_dec k N) as [->|]; [|lia]. rewrite Nat.sub_diag in E. discriminate. }
           replace (N - k) with (S (N - S k)) in E by lia. cbn in E. injection E as -> ->.
           exists (S k). split; [lia|]. split; [reflexivity|]. intros j Hj. apply KE. destruct (Nat.eq_dec j k) as [->|NE]; [|apply A; lia].
           intros n x X. destruct (is_ended x) eqn:EX; [reflexivity|].
           destruct (i_run _ I _ _ _ X EX) as [F|[c F]].
           ++ rewrite <- EX. eapply do_wait_ended; eauto.
           ++ exfalso. destruct (i_asg _ I _ _ _ F) as [_ B]. destruct c as [[j m]|]; [|congruence].
              destruct B as [a B]. specialize (A j (V1 _ _ _ _ F) _ _ B). discriminate.
  - assert (NW : forall k0, (match w_wait w with Some l => l = seq k0 (N - k0) /\ forall i, i < k0 -> all_ended w i | None => False end) -> k0 <= k).
    { intros k0 X. destruct (Nat.le_gt_cases k0 k) as [?|G]; [assumption|exfalso]. destruct (w_wait w) as [l|] eqn:W; [|contradiction].
      destruct c as [[j m]|]; [|apply can_act_none in CA as [_ CA]; congruence].
      apply can_act_some in CA as [_ [a CA]]. inversion O as [|? ? Oc]; subst. destruct X as [_ X].
      specialize (X j ltac:(lia) _ _ CA). discriminate. }
    assert (KN : k < N).
    { inversion O as [|? ? Oc]; subst. destruct c as [[j m]|]; lia. }
    constructor.
    + intros j m i n E. rewrite do_start_asg in E. destruct (fut_free _); [eapply V1; eauto|]. destruct E as [E|E]; [|eapply V1; eauto].
      injection E as -> <- <-. inversion O as [|? ? Oc]; subst. lia.
    + intros i L. rewrite do_start_runs. destruct (i =? k) eqn:K; [apply Nat.eqb_eq in K; lia|]. now apply V2.
    + rewrite do_start_wait. destruct (w_wait w) as [l|] eqn:W; [|exact Logic.I]. destruct V3 as (k0 & L & E & A).
      exists k0. split; [exact L|]. split; [exact E|]. intros i Hi n s. rewrite do_start_runs.
      specialize (NW k0 (conj E A)). destruct (i =? k) eqn:K; [apply Nat.eqb_eq in K; lia|]. now apply A.
  - assert (RR : forall j, q_runs (w_seq w' j) = q_runs (w_seq w j)).
    { intros j. destruct (Nat.eq_dec j k) as [->|K]; [exact HRn|now rewrite HO]. }
    constructor.
    + intros j m i n E. rewrite HA in E. apply filter_In in E as [E _]. eapply V1; eauto.
    + intros i L. rewrite RR. now apply V2.
    + rewrite HW. destruct (w_wait w) as [l'|]; [|exact Logic.I]. destruct V3 as (k0 & L & E & A). exists k0.
      split; [exact L|]. split; [exact E|]. intros i Hi n s. rewrite RR. now apply A.
Qed.
Lemma ordered_in : forall N os o, ordered N os -> In o os -> ordered N [o].
Proof. intros N os o H Hin. unfold ordered in *. rewrite Forall_forall in H. constructor; [|constructor]. exact (H o Hin). Qed.
Lemma winv_run : forall N os w, ordered N os -> run world0 os = Some w -> inv w /\ winv N w.
Proof.
  intros N os w O R. apply (run_inv (fun w => inv w /\ winv N w) os world0 w); [|  |exact R].
  - split; [exact inv0|apply winv0].
  - intros w1 o w2 [A B] Hin E. split; [eapply inv_step; eauto|]. eapply winv_step; eauto. eapply ordered_in; eauto.
Qed.
Lemma wait_all : forall N os w, ordered N os -> run world0 (os ++ [OWaitNext]) = Some w -> w_wait w = None -> quiet w.
Proof.
  intros N os w O R W. rewrite run_app in R. destruct (run world0 os) as [w1|] eqn:E; [|discriminate].
  destruct (winv_run _ _ _ O E) as [I [V1 V2 V3]]. cbn in R. destruct (w_wait w1) as [[|i l]|] eqn:W1; [| |discriminate].
  - injection R as <-. destruct V3 as (k & L & X & A). assert (N - k = 0) by (destruct (N - k); [reflexivity|discriminate]).
    intros i n s H1. cbn in H1. assert (is_ended s = true).
    { destruct (Nat.lt_ge_cases i k) as [L1|L1]; [exact (A i L1 n s H1)|]. rewrite V2 in H1 by lia. now destruct n. }
    destruct s; try discriminate. eauto.
  - destruct (do_wait _) as [s|]; [|discriminate]. injection R as <-. discriminate.
Qed.

(** ** Data races *)
Lemma single_in : forall st os o, single st os -> In o os -> single st [o].
Proof. intros st os o H Hin. unfold single in *. rewrite Forall_forall in H. constructor; [|constructor]. exact (H o Hin). Qed.
Lemma no_race : forall N st os w, ordered N os -> single st os -> run world0 os = Some w -> w_race w = false.
Proof.
  intros N st os w O SG R.
  assert (H : (inv w /\ winv N w) /\ w_race w = false /\ forall c i n, In (c, i, n) (w_asg w) -> option_map fst c = st i);
    [|exact (proj1 (proj2 H))].
  apply (run_inv (fun w => (inv w /\ winv N w) /\ w_race w = false /\ forall c i n, In (c, i, n) (w_asg w) -> option_map fst c = st i) os world0 w); [|  |exact R].
  - split; [split; [exact inv0|apply winv0]|]. split; [reflexivity|]. intros c i n [].
  - clear w R. intros w o w' [[I V] [NR SA]] Hin H. pose proof (ordered_in _ _ _ O Hin) as Oo. pose proof (single_in _ _ _ SG Hin) as So.
    split; [split; [eapply inv_step; eauto|eapply winv_step; eauto]|]. apply step_cases in H.
    destruct H as [HA HR HW HN HM HC|c k -> CA ->|c k l -> Hi FF HA HW HR HO HRn HF _ _].
    + rewrite HA, HR. auto.
    + inversion So as [|? ? Sc]; subst. split.
      * rewrite do_start_race, NR. cbn. apply orb_false_iff. split.
        -- destruct (existsb _ _) eqn:X; [exfalso|reflexivity]. apply existsb_exists in X as ([[c' i] n] & X1 & X2). cbn in X2.
           apply Nat.eqb_eq in X2. subst i. pose proof (SA _ _ _ X1) as Sd. rewrite <- Sc in Sd.
           destruct c as [[j m]|], c' as [[j' m']|]; cbn in Sd; try discriminate.
           ++ injection Sd as ->. destruct (i_asg _ I _ _ _ X1) as [_ [a B]]. apply can_act_some in CA as [CA [b C]].
              rewrite (i_one _ I _ _ _ _ _ B C) in X1. eapply in_asg_false; eauto.
           ++ apply can_act_none in CA as [CA _]. eapply in_asg_false; eauto.
        -- destruct (w_wait w) as [[|i l]|] eqn:W; [reflexivity| |reflexivity]. destruct (i =? k) eqn:K; [exfalso|reflexivity].
           apply Nat.eqb_eq in K. subst i. destruct c as [[j m]|]; [|apply can_act_none in CA as [_ CA]; congruence].
           apply can_act_some in CA as [_ [a CA]]. pose proof (v_wait _ _ V) as VW. rewrite W in VW. destruct VW as (k0 & L & E & A).
           inversion Oo as [|? ? Oc]; subst. destruct (N - k0) as [|d]; [discriminate|]. cbn in E. injection E as -> _.
           specialize (A j ltac:(lia) _ _ CA). discriminate.
      * intros c' i n E. rewrite do_start_asg in E. destruct (fut_free _); [eapply SA; eauto|]. destruct E as [E|E]; [|eapply SA; eauto].
        injection E as <- <- <-. exact Sc.
    + rewrite HR. split; [exact NR|]. intros c' i n E. rewrite HA in E. apply filter_In in E as [E _]. eapply SA; eauto.
Qed.

(** ** The list of sequences *)
Lemma reg_run_ok : forall os g, g_dead g = [] -> (forall s, ~ In (GDel s) os) -> reg_run g os <> UB.
Proof.
  induction os as [|o os IH]; intros g D H; cbn [reg_run]; [discriminate|].
  assert (DG : dangling g = false).
  { unfold dangling. rewrite D. induction (g_list g); auto. }
  assert (H' : forall s, ~ In (GDel s) os) by (intros s X; apply (H s); right; exact X).
  destruct o as [s|s|]; cbn [reg_step]; try rewrite DG; cbn [bind].
  - apply IH; assumption.
  - exfalso. apply (H s). left. reflexivity.
  - apply IH; assumption.
Qed.
