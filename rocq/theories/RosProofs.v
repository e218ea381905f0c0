(** Proofs about ROS subscribers and the executor synchronised to a topic. *)
From Verif Require Import Prelude Num RosModel RosSpec.
Open Scope nat_scope.

Lemma subseq_app_r : forall (A : Type) (l k : list A) x, subseq l k -> subseq l (k ++ [x]).
Proof. induction 1; cbn; constructor; assumption. Qed.
Lemma subseq_end : forall (A : Type) (l k : list A) x, subseq l k -> subseq (l ++ [x]) (k ++ [x]).
Proof.
  induction 1; cbn; try (constructor; assumption).
  induction k; cbn; [repeat constructor|now constructor].
Qed.
Lemma subseq_app : forall (A : Type) (l k j : list A), subseq l k -> subseq l (k ++ j).
Proof.
  intros A l k j; revert k; induction j; intros k H; [now rewrite app_nil_r|].
  change (a :: j) with ([a] ++ j). rewrite app_assoc. apply IHj. now apply subseq_app_r.
Qed.
Lemma received_app : forall (M : Type) (es fs : list (rev_ M)), received (es ++ fs) = received es ++ received fs.
Proof. induction es as [|[] es IH]; intros fs; cbn; rewrite ?IH; reflexivity. Qed.
Lemma run_app : forall (M : Type) (es fs : list (rev_ M)) s, ros_run s (es ++ fs) = match ros_run s es with None => None | Some s' => ros_run s' fs end.
Proof. induction es as [|e es IH]; intros fs s; cbn; [reflexivity|]. destruct (ros_step s e); [apply IH|reflexivity]. Qed.

(** The messages handed to the output: a subsequence of the received ones, followed by the pending ones. *)
Definition good {M : Type} (rcv : list M) (s : ros M) : Prop :=
  exists front, rcv = front ++ rs_queue s /\ subseq (rs_parsed s) front /\
    (forall m f, front = f ++ [m] -> exists p, rs_parsed s = p ++ [m]).
Lemma good_step : forall (M : Type) rcv (s s' : ros M) e, good rcv s -> ros_step s e = Some s' -> good (rcv ++ received [e]) s'.
Proof.
  intros M rcv s s' e (front & E & Hs & Hl) H. destruct e; cbn in H.
  - injection H as <-. exists front. cbn. rewrite E, app_assoc. auto.
  - destruct (rs_mode s); try discriminate. cbn. rewrite app_nil_r.
    destruct (rev (rs_queue s)) as [|m q] eqn:Er.
    + injection H as <-. assert (Eq : rs_queue s = []) by (rewrite <- (rev_involutive (rs_queue s)), Er; reflexivity).
      exists front. rewrite Eq in E. cbn. auto.
    + injection H as <-. assert (Eq : rs_queue s = rev q ++ [m]) by (rewrite <- (rev_involutive (rs_queue s)), Er; reflexivity).
      exists (front ++ rev q ++ [m]). cbn. rewrite app_nil_r, E, Eq. split; [reflexivity|]. split.
      * rewrite app_assoc. apply subseq_end. now apply subseq_app.
      * intros m' f Ef. rewrite app_assoc in Ef. apply app_inj_tail in Ef. destruct Ef as [_ <-]. now exists (rs_parsed s).
  - destruct (rs_mode s); try discriminate. injection H as <-. cbn. rewrite app_nil_r. exists front. auto.
  - destruct (rs_mode s); try discriminate. injection H as <-. cbn. rewrite app_nil_r. exists front. auto.
  - injection H as <-. cbn. rewrite app_nil_r. exists front. auto.
  - destruct (rs_mode s); try discriminate. injection H as <-. cbn. rewrite app_nil_r. exists front. auto.
Qed.
Lemma good_run : forall (M : Type) es rcv (s s' : ros M), good rcv s -> ros_run s es = Some s' -> good (rcv ++ received es) s'.
Proof.
  intros M; induction es as [|e es IH]; intros rcv s s' G H; cbn [ros_run] in H.
  - injection H as <-. cbn. now rewrite app_nil_r.
  - destruct (ros_step s e) as [s1|] eqn:E; [|discriminate].
    specialize (IH _ _ _ (good_step _ _ _ _ _ G E) H). rewrite <- app_assoc in IH.
    rewrite <- received_app in IH. exact IH.
Qed.
Lemma parsed_newest : forall (M : Type) (es : list (rev_ M)) s, ros_run ros_start es = Some s ->
  subseq (rs_parsed s) (received es) /\
  forall s', ros_step s ERun = Some s' -> rs_queue s' = [] /\
    forall m f, received es = f ++ [m] -> exists p, rs_parsed s' = p ++ [m].
Proof.
  intros M es s H.
  assert (G0 : good (@nil M) ros_start). { exists []. cbn. split; [reflexivity|]. split; [constructor|]. intros m f Ef. now destruct f. }
  pose proof (good_run M es [] _ _ G0 H) as G. cbn in G.
  split. { destruct G as (front & E & Hs & _). rewrite E. now apply subseq_app. }
  intros s' Hr. assert (Hq : rs_queue s' = []).
  { cbn in Hr. destruct (rs_mode s); try discriminate. destruct (rev (rs_queue s)); injection Hr as <-; reflexivity. }
  split; [assumption|]. intros m f Er.
  destruct (good_step _ _ _ _ _ G Hr) as (front & E & _ & Hl). cbn in E. rewrite app_nil_r, Hq, app_nil_r in E.
  apply (Hl m f). congruence.
Qed.

(** A message arriving during a cycle waits for the next message. *)
Lemma own_stuck_waiting : forall (M : Type) (es : list (rev_ M)) s s', rs_mode s = Waiting -> Forall own es -> ros_run s es = Some s' -> s' = s.
Proof.
  intros M [|e es] s s' Hm Ho H; cbn in H; [now injection H as <-|].
  inversion Ho as [|e' es' He _]; subst. destruct e; try destruct He; cbn in H; rewrite Hm in H; discriminate.
Qed.
Lemma message_waits : exists (es : list (rev_ nat)) s, ros_run ros_start es = Some s /\ In 2 (received es) /\ rs_running s = true /\
  forall fs s', Forall own fs -> ros_run s fs = Some s' -> ~ In 2 (rs_parsed s').
Proof.
  exists [EWait; EMsg 1; ERun; EMsg 2; EEnd; EWait]. eexists. split; [reflexivity|]. split; [cbn; auto|]. split; [reflexivity|].
  intros fs s' Ho H. apply own_stuck_waiting in H; [|reflexivity|assumption]. subst s'. cbn. intros [H|[]]; discriminate.
Qed.
(** A message arriving while the executor waits is handled by the cycle it starts. *)
Lemma message_waiting_handled : forall (M : Type) (s : ros M) m, rs_mode s = Waiting ->
  exists s1 s2, ros_step s (EMsg m) = Some s1 /\ rs_mode s1 = Cycle /\ ros_step s1 ERun = Some s2 /\ rs_parsed s2 = rs_parsed s ++ [m] /\ rs_queue s2 = [].
Proof.
  intros M s m Hm. cbn. rewrite Hm. cbn.
  eexists. eexists. split; [reflexivity|]. split; [reflexivity|]. cbn. rewrite rev_app_distr. cbn.
  split; [reflexivity|]. split; reflexivity.
Qed.
(** A cycle without a message. *)
Lemma cycle_without_message : exists (es : list (rev_ nat)) s, ros_run ros_start es = Some s /\ rs_mode s = Late /\ received es = [].
Proof. exists [EWait; ESpurious; ERun]. eexists. split; [reflexivity|]. split; reflexivity. Qed.

(** Stop between the test of running and the wait: the thread waits for ever. *)
Lemma stop_lost : exists (es : list (rev_ nat)) s, ros_run ros_start (es ++ [EStop; EWait]) = Some s /\
  rs_running s = false /\ rs_mode s = Waiting /\ forall fs s', Forall own fs -> ros_run s fs = Some s' -> rs_mode s' <> Done.
Proof.
  exists [EWait; EMsg 1; ERun; EEnd]. eexists. split; [reflexivity|]. split; [reflexivity|]. split; [reflexivity|].
  intros fs s' Ho H. apply own_stuck_waiting in H; [|reflexivity|assumption]. subst s'. discriminate.
Qed.
(** Stop anywhere else: at most one more cycle. *)
Lemma stop_elsewhere : forall (M : Type) (s s1 : ros M), rs_mode s <> Checked -> ros_step s EStop = Some s1 ->
  exists fs s2, Forall own fs /\ (length fs <= 2)%nat /\ ros_run s1 fs = Some s2 /\ rs_mode s2 = Done.
Proof.
  intros M s s1 Hm H. cbn in H. injection H as <-.
  destruct (rs_mode s) eqn:Em; [congruence| | | |].
  - exists [ERun; EEnd]. cbn. destruct (rev (rs_queue s)); eexists; (split; [repeat constructor|]; split; [lia|]; split; reflexivity).
  - exists [ERun; EEnd]. cbn. destruct (rev (rs_queue s)); eexists; (split; [repeat constructor|]; split; [lia|]; split; reflexivity).
  - exists [EEnd]. cbn. eexists. split; [repeat constructor|]; split; [lia|]; split; reflexivity.
  - exists []. cbn. eexists. split; [constructor|]; split; [lia|]; split; reflexivity.
Qed.
