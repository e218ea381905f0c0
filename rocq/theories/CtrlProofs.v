(** Proofs about connections, ports, signal ids and time domains. *)
From Verif Require Import Prelude Num CtrlModel CtrlSpec.
Open Scope Z_scope.

(** ** Connections *)
Lemma conn_runs_snoc os o : conn_runs (os ++ [o]) = fst (conn_step (conn_runs os) o).
Proof. unfold conn_runs. rewrite fold_left_app. reflexivity. Qed.

Lemma not_connected_b (os : list conn_op) i : conn_runs os i = None ->
  exists a b, os = a ++ b /\ (a = [] \/ exists a', a = a' ++ [CDisconnect i]) /\
    (forall x r', In x b -> ~ connects i r' x).
Proof.
  induction os as [|o os IH] using rev_ind; intros H.
  - exists [], []. split; [reflexivity|]. split; [now left|]. intros x r' [].
  - rewrite conn_runs_snoc in H.
    assert (Hdec : o = CDisconnect i \/ o <> CDisconnect i).
    { destruct o as [j r|j p|j]; try (right; discriminate). destruct (Nat.eq_dec j i); [left; congruence|right; congruence]. }
    destruct Hdec as [->|Hne].
    + exists (os ++ [CDisconnect i]), []. rewrite app_nil_r. split; [reflexivity|]. split; [right; eauto|]. intros x r' [].
    + assert (Hn : conn_runs os i = None /\ forall r, ~ connects i r o).
      { destruct o as [j r|j p|j]; cbn in H.
        - destruct (conn_runs os j) eqn:E; cbn in H.
          + split; auto. intros r' [h|h]; inversion h; subst. congruence.
          + destruct (Nat.eq_dec j i) as [->|n]; [rewrite upd_same in H; discriminate|].
            rewrite upd_other in H by auto. split; auto. intros r' [h|h]; inversion h; congruence.
        - destruct (conn_runs os j) eqn:E; cbn in H.
          + split; auto. intros r' [h|h]; inversion h; subst. congruence.
          + destruct (Nat.eq_dec j i) as [->|n].
            * rewrite upd_same in H. subst p. split; auto. intros r' [h|h]; inversion h.
            * rewrite upd_other in H by auto. split; auto. intros r' [h|h]; inversion h; congruence.
        - rewrite upd_other in H by congruence. split; auto. intros r' [h|h]; inversion h. }
      destruct Hn as [Hn Hc]. destruct (IH Hn) as (a & b & -> & Ha & Hb).
      exists a, (b ++ [o]). rewrite app_assoc. split; [reflexivity|]. split; [auto|].
      intros x r' Hx. apply in_app_or in Hx. destruct Hx as [Hx|[->|[]]]; auto.
Qed.

Lemma conn_first os i r : conn_runs os i = Some r <-> first_since_disconnect i r os.
Proof.
  split.
  - induction os as [|o os IH] using rev_ind; intros H; [discriminate|].
    rewrite conn_runs_snoc in H.
    assert (Hk : (conn_runs os i = Some r /\ o <> CDisconnect i) \/ (conn_runs os i = None /\ connects i r o)).
    { destruct o as [j r0|j p|j]; cbn in H.
      - destruct (conn_runs os j) eqn:E; cbn in H.
        + left. split; [auto|discriminate].
        + destruct (Nat.eq_dec j i) as [->|n].
          * rewrite upd_same in H. injection H as ->. right. split; auto. now left.
          * rewrite upd_other in H by auto. left. split; [auto|discriminate].
      - destruct (conn_runs os j) eqn:E; cbn in H.
        + left. split; [auto|discriminate].
        + destruct (Nat.eq_dec j i) as [->|n].
          * rewrite upd_same in H. subst p. right. split; auto. now right.
          * rewrite upd_other in H by auto. left. split; [auto|discriminate].
      - destruct (Nat.eq_dec j i) as [->|n].
        + rewrite upd_same in H. discriminate.
        + rewrite upd_other in H by auto. left. split; [auto|congruence]. }
    destruct Hk as [[H1 Hne]|[H1 Hc]].
    + destruct (IH H1) as (a & b & o' & c & -> & Ha & Hb & Ho & Hc).
      exists a, b, o', (c ++ [o]). split; [now rewrite <- !app_assoc|]. split; [auto|]. split; [auto|]. split; [auto|].
      intros x Hx. apply in_app_or in Hx. destruct Hx as [Hx|[->|[]]]; auto.
    + destruct (not_connected_b os i H1) as (a & b & -> & Ha & Hb).
      exists a, b, o, []. split; [now rewrite <- app_assoc|]. repeat (split; auto).
  - intros (a & b & o & c & -> & Ha & Hb & Ho & Hc).
    assert (H0 : conn_runs a i = None).
    { destruct Ha as [->|[a' ->]]; [reflexivity|]. rewrite conn_runs_snoc. cbn. apply upd_same. }
    assert (H1 : conn_runs (a ++ b) i = None).
    { clear - H0 Hb. induction b as [|x b IH] using rev_ind; [now rewrite app_nil_r|].
      rewrite app_assoc, conn_runs_snoc.
      assert (IH' : conn_runs (a ++ b) i = None).
      { apply IH. intros y r' Hy. apply Hb. apply in_or_app. now left. }
      assert (Hx : forall r', ~ connects i r' x) by (intros; apply Hb; apply in_or_app; right; now left).
      destruct x as [j r0|j p|j]; cbn.
      - destruct (conn_runs (a ++ b) j) eqn:E; cbn; auto.
        rewrite upd_other; auto. intros <-. apply (Hx r0). now left.
      - destruct (conn_runs (a ++ b) j) eqn:E; cbn; auto.
        destruct (Nat.eq_dec i j) as [<-|n]; [|now rewrite upd_other].
        rewrite upd_same. destruct p as [r0|]; auto. exfalso. apply (Hx r0). now right.
      - destruct (Nat.eq_dec i j) as [<-|n]; [apply upd_same|now rewrite upd_other]. }
    assert (H2 : conn_runs ((a ++ b) ++ [o]) i = Some r).
    { rewrite conn_runs_snoc. destruct Ho as [->| ->]; cbn; rewrite H1; cbn; apply upd_same. }
    replace (a ++ b ++ o :: c) with (((a ++ b) ++ [o]) ++ c) by (rewrite <- !app_assoc; reflexivity).
    clear - H2 Hc. induction c as [|x c IH] using rev_ind; [now rewrite app_nil_r|].
    rewrite app_assoc, conn_runs_snoc.
    assert (IH' : conn_runs (((a ++ b) ++ [o]) ++ c) i = Some r).
    { apply IH. intros y Hy. apply Hc. apply in_or_app. now left. }
    assert (Hx : ~ disconnects i x) by (apply Hc; apply in_or_app; right; now left).
    destruct x as [j r0|j p|j]; cbn.
    + destruct (conn_runs (((a ++ b) ++ [o]) ++ c) j) eqn:E; cbn; auto.
      rewrite upd_other; auto. congruence.
    + destruct (conn_runs (((a ++ b) ++ [o]) ++ c) j) eqn:E; cbn; auto.
      rewrite upd_other; auto. congruence.
    + rewrite upd_other; auto. intros <-. apply Hx. reflexivity.
Qed.

Lemma conn_result c i r o : connects i r o ->
  (is_connected c i = true -> conn_step c o = (c, false)) /\
  (is_connected c i = false -> snd (conn_step c o) = true /\ fst (conn_step c o) i = Some r /\
     forall j, j <> i -> fst (conn_step c o) j = c j).
Proof.
  unfold is_connected. intros H. split; destruct (c i) eqn:E; intros; try discriminate.
  - destruct H as [->| ->]; cbn; rewrite E; reflexivity.
  - destruct H as [->| ->]; cbn; rewrite E; cbn; (split; [reflexivity|]); (split; [apply upd_same|]);
      intros; now apply upd_other.
Qed.

Lemma get_signal_leads c n i r : get_signal n c i = r -> r <> RLoop -> leads_to c i r.
Proof.
  revert i. induction n as [|n IH]; intros i H Hr; cbn in H; [congruence|].
  destruct (c i) as [[s|j]|] eqn:E.
  - subst. now constructor.
  - eapply LSub; eauto.
  - subst. now constructor.
Qed.
Lemma leads_get_signal c i r : leads_to c i r -> exists n, forall k, (n <= k)%nat -> get_signal k c i = r.
Proof.
  induction 1 as [i s H|i H|i j r H _ [n IH]].
  - exists 1%nat. intros [|k] Hk; [lia|]. cbn. now rewrite H.
  - exists 1%nat. intros [|k] Hk; [lia|]. cbn. now rewrite H.
  - exists (S n). intros [|k] Hk; [lia|]. cbn. rewrite H. apply IH. lia.
Qed.
(** Subsystem inputs that are only connected to inputs of enclosing (lower rank) subsystems. *)
Lemma ranked_reads c (rank : nat -> nat) :
  (forall i j, c i = Some (OSub j) -> (rank j < rank i)%nat) ->
  forall i k, (rank i < k)%nat -> get_signal k c i <> RLoop.
Proof.
  intros Hr i k. revert i. induction k as [|k IH]; intros i Hk; [lia|]. cbn.
  destruct (c i) as [[s|j]|] eqn:E; try discriminate. apply IH. specialize (Hr _ _ E). lia.
Qed.
Lemma self_loop n : get_signal n (conn_runs [CConnect 0 (OSub 0)]) 0 = RLoop.
Proof. induction n as [|n IH]; [reflexivity|]. exact IH. Qed.

(** ** Ports *)
Lemma get_port_spec n i : 0 <= i <= 255 ->
  (i < n -> get_port n i = Ok i) /\ (n <= i -> get_port n i = Fault).
Proof.
  intros H. unfold get_port. rewrite Z.mod_small by lia. split; intros Hi.
  - destruct (Z.geb_spec i n); [lia|reflexivity].
  - destruct (Z.geb_spec i n); [reflexivity|lia].
Qed.
Lemma sub_out_spec M out i : 0 <= i <= 255 ->
  (M <= i -> sub_get_out M out i = Fault) /\
  (i < M -> forall o, out i = Some o -> sub_get_out M out i = Ok o).
Proof.
  intros H. unfold sub_get_out. destruct (get_port_spec M i H) as [H1 H2]. split; intros Hi.
  - now rewrite H2.
  - intros o Ho. rewrite H1 by auto. now rewrite Ho.
Qed.

(** ** Signal ids *)
Lemma sig_new_runs n : Z.of_nat n < 65536 ->
  sids (sig_runs (repeat SNew n)) = map (fun k => Z.of_nat k + 1) (seq 0 n) /\
  scounter (sig_runs (repeat SNew n)) = (Z.of_nat n + 1) mod 65536.
Proof.
  unfold sig_runs. induction n as [|n IH]; intros Hn; [split; reflexivity|].
  replace (repeat SNew (S n)) with (repeat SNew n ++ [SNew]) by (symmetry; apply (repeat_cons n)).
  rewrite fold_left_app. destruct IH as [IH1 IH2]; [lia|].
  cbn [fold_left sig_step sids scounter]. change (2 ^ 16) with 65536. rewrite IH1, IH2. split.
  - rewrite (Z.mod_small (Z.of_nat n + 1)) by lia. rewrite seq_S, map_app. reflexivity.
  - rewrite Zplus_mod_idemp_l. f_equal. lia.
Qed.
Lemma NoDup_map_in {A B : Type} (f : A -> B) l :
  (forall x y, In x l -> In y l -> f x = f y -> x = y) -> NoDup l -> NoDup (map f l).
Proof.
  intros Hf H. induction H as [|x l Hx H IH]; cbn; constructor.
  - intros Hin. apply in_map_iff in Hin. destruct Hin as (y & E & Hy).
    assert (y = x) by (apply Hf; auto; [now right|now left]). congruence.
  - apply IH. intros; apply Hf; auto; now right.
Qed.
Lemma sig_ids_unique n : Z.of_nat n <= 65535 ->
  NoDup (map get_id (sids (sig_runs (repeat SNew n)))) /\
  ~ In 0 (map get_id (sids (sig_runs (repeat SNew n)))).
Proof.
  intros Hn. destruct (sig_new_runs n) as [-> _]; [lia|]. rewrite map_map. split.
  - apply NoDup_map_in; [|apply seq_NoDup].
    intros x y Hx Hy. apply in_seq in Hx, Hy. unfold get_id.
    rewrite !Z.mod_small by (change (2 ^ 32) with (65536 * 2 ^ 16); lia). lia.
  - intros H. apply in_map_iff in H. destruct H as (x & Hx & Hin). apply in_seq in Hin. unfold get_id in Hx.
    rewrite Z.mod_small in Hx by (change (2 ^ 32) with (65536 * 2 ^ 16); lia). lia.
Qed.
Lemma sig_mod n : map (fun k => (1 + k) mod 65536) (map Z.of_nat (seq 0 n)) = sids (sig_runs (repeat SNew n)) /\
  scounter (sig_runs (repeat SNew n)) = (1 + Z.of_nat n) mod 65536.
Proof.
  unfold sig_runs. induction n as [|n [IH1 IH2]]; [split; reflexivity|].
  replace (repeat SNew (S n)) with (repeat SNew n ++ [SNew]) by (symmetry; apply (repeat_cons n)).
  rewrite fold_left_app. cbn [fold_left sig_step sids scounter]. change (2 ^ 16) with 65536.
  rewrite <- IH1, IH2, seq_S, !map_app. split; [reflexivity|]. rewrite Zplus_mod_idemp_l. f_equal. lia.
Qed.
(** The counter wraps: signal number k + 65536 has the id of signal number k. *)
Lemma sig_nth n k : (k < n)%nat -> nth k (sids (sig_runs (repeat SNew n))) (-1) = (1 + Z.of_nat k) mod 65536.
Proof.
  intros H. destruct (sig_mod n) as [<- _]. rewrite map_map.
  set (f := fun x => (1 + Z.of_nat x) mod 65536).
  rewrite nth_indep with (d' := f 0%nat) by (rewrite map_length, seq_length; lia).
  rewrite map_nth, seq_nth by lia. reflexivity.
Qed.
Lemma sig_length n : length (sids (sig_runs (repeat SNew n))) = n.
Proof. destruct (sig_mod n) as [<- _]. now rewrite !map_length, seq_length. Qed.
Lemma sig_wrap : exists n i j, (i < j < n)%nat /\
  nth i (sids (sig_runs (repeat SNew n))) (-1) = nth j (sids (sig_runs (repeat SNew n))) (-1) /\
  length (sids (sig_runs (repeat SNew n))) = n.
Proof.
  exists (Z.to_nat 65537), 0%nat, (Z.to_nat 65536). split; [split; lia|]. split; [|apply sig_length].
  rewrite !sig_nth by lia. rewrite Z2Nat.id by lia. reflexivity.
Qed.
Lemma sig_zero : exists n, In 0 (sids (sig_runs (repeat SNew n))).
Proof.
  exists (Z.to_nat 65536).
  replace 0 with (nth (Z.to_nat 65535) (sids (sig_runs (repeat SNew (Z.to_nat 65536)))) (-1)).
  - apply nth_In. rewrite sig_length. lia.
  - rewrite sig_nth by lia. rewrite Z2Nat.id by lia. reflexivity.
Qed.

(** ** Time domain *)
Section TD.
  Context {W : Type} (brun : nat -> W -> W * bres).
  Lemma run_blocks_app l1 l2 w w1 : all_run brun l1 w w1 -> run_blocks brun (l1 ++ l2) w = run_blocks brun l2 w1.
  Proof. induction 1 as [|b bs w w1 w2 H _ IH]; cbn; auto. rewrite H. exact IH. Qed.
  Lemma td_all t w w' : tdrunning t = true -> all_run brun (tdblocks t) w w' -> td_run brun t w = (w', TDone).
  Proof.
    intros Hr H. unfold td_run. rewrite Hr. rewrite <- (app_nil_r (tdblocks t)), (run_blocks_app _ _ _ _ H). reflexivity.
  Qed.
  Lemma td_fault t w l1 b l2 w1 w2 e : tdrunning t = true -> tdblocks t = l1 ++ b :: l2 ->
    all_run brun l1 w w1 -> brun b w1 = (w2, e) -> e <> BNormal ->
    td_run brun t w = (w2, match e with BOther => TOther | _ => if tdsafety t then TEvent else TFault end).
  Proof.
    intros Hr Hb H1 H2 He. unfold td_run. rewrite Hr, Hb, (run_blocks_app _ _ _ _ H1). cbn. rewrite H2.
    destruct e; congruence.
  Qed.
  Lemma td_stopped t w : tdrunning t = false -> td_run brun t w = (w, TDone).
  Proof. intros H. unfold td_run. now rewrite H. Qed.
  (** Every run is of one of these forms. *)
  Lemma td_cases l w : (exists w', all_run brun l w w') \/
    exists l1 b l2 w1 w2 e, l = l1 ++ b :: l2 /\ all_run brun l1 w w1 /\ brun b w1 = (w2, e) /\ e <> BNormal.
  Proof.
    revert w. induction l as [|b l IH]; intros w; [left; eexists; constructor|].
    destruct (brun b w) as [w1 e] eqn:E.
    destruct e.
    - destruct (IH w1) as [[w' H]|(l1 & b' & l2 & w2 & w3 & e & -> & H1 & H2 & H3)].
      + left. eexists. econstructor; eauto.
      + right. exists (b :: l1), b', l2, w2, w3, e. split; [reflexivity|]. split; [econstructor; eauto|]. auto.
    - right. exists [], b, l, w, w1, BNotConnected. split; [reflexivity|]. split; [constructor|]. split; [auto|discriminate].
    - right. exists [], b, l, w, w1, BNaN. split; [reflexivity|]. split; [constructor|]. split; [auto|discriminate].
    - right. exists [], b, l, w, w1, BOther. split; [reflexivity|]. split; [constructor|]. split; [auto|discriminate].
  Qed.
End TD.

Lemma td_blocks_gen os : forall t,
  tdblocks (fold_left td_step os t) =
  filter (fun b => negb (existsb (fun o => match o with TDRemove c => Nat.eqb c b | _ => false end) os)) (tdblocks t)
  ++ still_added os.
Proof.
  induction os as [|o os IH]; intros t; cbn [fold_left].
  - cbn. rewrite app_nil_r. induction (tdblocks t) as [|b l IHl]; cbn; [reflexivity|]. now rewrite <- IHl.
  - rewrite IH. destruct o as [| |b|b|]; cbn [td_step tdblocks still_added existsb]; try reflexivity.
    + rewrite filter_app. cbn.
      destruct (existsb (fun o => match o with TDRemove c => Nat.eqb c b | _ => false end) os) eqn:E; cbn.
      * rewrite app_nil_r. reflexivity.
      * rewrite <- app_assoc. reflexivity.
    + f_equal. induction (tdblocks t) as [|x l IHl]; [reflexivity|].
      cbn [filter]. destruct (Nat.eqb_spec x b) as [->|n]; cbn [negb].
      * rewrite Nat.eqb_refl. cbn [orb negb]. exact IHl.
      * cbn [filter]. destruct (Nat.eqb_spec b x); [congruence|]. cbn [orb].
        destruct (negb (existsb (fun o => match o with TDRemove c => Nat.eqb c x | _ => false end) os));
          [f_equal|]; exact IHl.
Qed.
Lemma td_blocks os : tdblocks (fold_left td_step os td_new) = still_added os.
Proof. rewrite td_blocks_gen. reflexivity. Qed.
