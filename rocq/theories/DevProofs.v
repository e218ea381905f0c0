(** Proofs for the device drivers. *)
From Coq Require Import Reals Lra Psatz Nsatz.
From Coq Require Import Floats.SpecFloat.
From Verif Require Import Prelude Num DevModel DevSpec.
Open Scope Z_scope.

Lemma dev_run_app : forall k ref s a b, dev_run k ref s (a ++ b) = dev_run k ref (dev_run k ref s a) b.
Proof. intros; apply fold_left_app. Qed.

(** *** A thread which waits for ever *)
Lemma inv_run : forall k ref (P : dev -> Prop), (forall s o, P s -> P (dev_step k ref s o)) ->
  forall os s, P s -> P (dev_run k ref s os).
Proof. intros k ref P H; induction os as [|o os IH]; intros s Hs; [exact Hs|]. apply IH, H, Hs. Qed.

Ltac dstep := repeat (match goal with
  | |- context[match ?x with _ => _ end] => destruct x eqn:?
  | |- context[if ?x then _ else _] => destruct x eqn:?
  end; cbn in *; try discriminate; try congruence).

Lemma spin_inv : forall ref os gr,
  d_main (dev_run KJoin ref (dev_start KJoin false false true gr) os) <> [].
Proof.
  intros ref os gr.
  assert (H : (fun s => d_starting s = true /\ d_pc s = TSpin /\
     exists m, d_main s = m /\ (m = [AInit; AUse; AStop; AJoin; AFree] \/ m = [AUse; AStop; AJoin; AFree]
        \/ m = [AStop; AJoin; AFree] \/ m = [AJoin; AFree]))
    (dev_run KJoin ref (dev_start KJoin false false true gr) os)).
  { apply inv_run.
    - intros s o (Ha & Hb & m & Hm & Hc). destruct o; cbn.
      + destruct Hc as [->|[->|[->| ->]]]; rewrite Hm; cbn; rewrite ?Hb, ?Ha; repeat split; eauto 10.
      + rewrite Hb, Ha. repeat split; eauto 10.
    - repeat split. cbn. eauto 10. }
  destruct H as (_ & _ & m & -> & Hc). intuition congruence.
Qed.

Lemma late_inv : forall ref os s, d_running s = true -> d_main s = [AJoin; AFree] -> measuring s ->
  d_main (dev_run KJoin ref s os) = [AJoin; AFree].
Proof.
  intros ref os s Hr Hm Hp.
  assert (H : (fun s => d_running s = true /\ d_main s = [AJoin; AFree] /\ measuring s) (dev_run KJoin ref s os)).
  { apply inv_run; [|auto]. clear. intros s o (Hr & Hm & [Hp|Hp]); destruct o; cbn; rewrite ?Hr, ?Hm, ?Hp; cbn;
      rewrite ?Hr, ?Hm, ?Hp; unfold measuring; cbn; auto. }
  apply H.
Qed.

(** The thread leaves the start loop only after the destructor has cleared running. *)
Definition late_os : list dop := [OMain; OMain; OMain; OThread; OMain; OThread].
Lemma late_hangs : forall ref os,
  d_main (dev_run KJoin ref (dev_start KJoin true false true false) (late_os ++ os)) = [AJoin; AFree].
Proof.
  intros ref os. rewrite dev_run_app. apply late_inv; vm_compute; auto.
Qed.

Lemma uncal_inv : forall ref os gr, let s := dev_run KUsb ref (dev_start KUsb true false true gr) os in d_main s <> [].
Proof.
  intros ref os gr s.
  assert (H : (fun s => d_calib s = false /\ (d_pc s = TSpin \/ d_pc s = TCalib) /\
     exists m, d_main s = m /\ In m [life KUsb true false; [AReady; AUse; AZero; AFree; AStop; AJoin]; [AUse; AZero; AFree; AStop; AJoin];
        [AZero; AFree; AStop; AJoin]; [AFree; AStop; AJoin]; [AStop; AJoin]; [AJoin]]) s).
  { apply inv_run.
    - clear. intros s o (Hc & Hp & m & Hm & Hi). destruct o; cbn.
      + cbn in Hi. rewrite Hm. destruct Hp as [Hp|Hp]; destruct Hi as [Hi|[Hi|[Hi|[Hi|[Hi|[Hi|[Hi|[]]]]]]]]; subst m; rewrite <- Hi; cbn;
          rewrite ?Hp; cbn; repeat split; auto; rewrite ?Hm, <- ?Hi; eauto 12.
      + destruct Hp as [Hp|Hp]; rewrite Hp.
        * destruct (d_starting s) eqn:E; cbn; repeat split; auto; rewrite ?Hm; eauto 12.
        * rewrite Hc. destruct (d_freed s); cbn; repeat split; auto; rewrite ?Hm; eauto 12.
    - repeat split; auto. eexists; split; [reflexivity|]. cbn. auto. }
  destruct H as (_ & _ & m & -> & Hi). cbn in Hi. intuition congruence.
Qed.

(** *** Regular destruction *)
Lemma steps_cons : forall p o os, steps_of p (o :: os) =
  (match p, o with OMain, OMain | OThread, OThread => 1 | _, _ => 0 end + steps_of p os)%nat.
Proof. intros [] [] os; reflexivity. Qed.
Lemma end_run : forall k ref os s, d_pc s = TEnd ->
  let s' := dev_run k ref s os in
  d_pc s' = TEnd /\ d_ub s' = d_ub s /\ d_main s' = skipn (steps_of OMain os) (d_main s).
Proof.
  intros k ref os; induction os as [|o os IH]; intros s Hp; cbn zeta; [auto|].
  change (dev_run k ref s (o :: os)) with (dev_run k ref (dev_step k ref s o) os). rewrite steps_cons.
  destruct o; cbn [dev_step].
  - destruct (d_main s) as [|a m] eqn:E.
    + specialize (IH s Hp). cbn zeta in IH. rewrite E in IH. rewrite skipn_nil in *. exact IH.
    + cbn [Nat.add skipn].
      destruct a; rewrite ?Hp; match goal with |- context[dev_run k ref ?x os] => specialize (IH x eq_refl) || specialize (IH x Hp) end; exact IH.
  - rewrite Hp. exact (IH s Hp).
Qed.
Lemma check_run : forall ref os s, d_running s = false -> d_main s = [AJoin; AFree] -> d_pc s = TCheck -> (1 <= steps_of OThread os)%nat ->
  let s' := dev_run KJoin ref s os in d_pc s' = TEnd /\ d_ub s' = d_ub s /\ exists n, d_main s' = skipn n [AJoin; AFree].
Proof.
  intros ref os; induction os as [|o os IH]; intros s Hr Hm Hp Hn; cbn zeta; [cbn in Hn; lia|].
  change (dev_run KJoin ref s (o :: os)) with (dev_run KJoin ref (dev_step KJoin ref s o) os). rewrite steps_cons in Hn.
  destruct o; cbn [dev_step].
  - rewrite Hm, Hp. apply IH; auto.
  - rewrite Hp, Hr.
    match goal with |- context[dev_run KJoin ref ?x os] => destruct (end_run KJoin ref os x eq_refl) as (A & B & C) end.
    rewrite A, B, C. cbn. rewrite Hm. eauto.
Qed.
Lemma body_run : forall ref os s, d_running s = false -> d_freed s = false -> d_main s = [AJoin; AFree] -> d_pc s = TBody -> (2 <= steps_of OThread os)%nat ->
  let s' := dev_run KJoin ref s os in d_pc s' = TEnd /\ d_ub s' = d_ub s /\ exists n, d_main s' = skipn n [AJoin; AFree].
Proof.
  intros ref os; induction os as [|o os IH]; intros s Hr Hf Hm Hp Hn; cbn zeta; [cbn in Hn; lia|].
  change (dev_run KJoin ref s (o :: os)) with (dev_run KJoin ref (dev_step KJoin ref s o) os). rewrite steps_cons in Hn.
  destruct o; cbn [dev_step].
  - rewrite Hm, Hp. apply IH; auto.
  - rewrite Hp. cbn [Nat.add] in Hn. assert (Hn1 : (1 <= steps_of OThread os)%nat) by lia.
    match goal with |- context[dev_run KJoin ref ?x os] => pose proof (check_run ref os x Hr Hm eq_refl Hn1) as H end.
    cbn in H. rewrite Hf, Bool.orb_false_r in *. exact H.
Qed.
Lemma regular_stop : forall ref s os1 os2, measuring s -> d_freed s = false -> d_main s = dtor KJoin ->
  (2 <= steps_of OThread os1)%nat -> (2 <= steps_of OMain os2)%nat ->
  let s' := dev_run KJoin ref s (OMain :: os1 ++ os2) in destroyed s' /\ d_pc s' = TEnd /\ d_ub s' = d_ub s.
Proof.
  intros ref s os1 os2 Hp Hf Hm H1 H2 s'. subst s'.
  change (dev_run KJoin ref s (OMain :: os1 ++ os2)) with (dev_run KJoin ref (dev_step KJoin ref s OMain) (os1 ++ os2)).
  rewrite dev_run_app. cbn [dev_step]. rewrite Hm. cbn [dtor].
  set (u := {| d_starting := d_starting s; d_running := false; d_calib := d_calib s; d_freed := d_freed s; d_ub := d_ub s;
    d_pc := d_pc s; d_sent := d_sent s; d_main := [AJoin; AFree] |}).
  assert (H : d_pc (dev_run KJoin ref u os1) = TEnd /\ d_ub (dev_run KJoin ref u os1) = d_ub s /\
    exists n, d_main (dev_run KJoin ref u os1) = skipn n [AJoin; AFree]).
  { destruct Hp as [Hp|Hp].
    - apply (check_run ref os1 u); auto. lia.
    - apply (body_run ref os1 u); auto. }
  destruct H as (A & B & n & C).
  destruct (end_run KJoin ref os2 _ A) as (D & E & F). unfold destroyed. rewrite D, E, F, B, C.
  split; [|auto]. rewrite skipn_all2; [reflexivity|]. rewrite skipn_length. change (length [AJoin; AFree]) with 2%nat. lia.
Qed.

(** *** No use after release with join first *)
Lemma skipn_S_tl : forall (A : Type) n (l : list A) a m, skipn n l = a :: m -> skipn (S n) l = m.
Proof.
  intros A n; induction n as [|n IH]; intros [|b l] a m H; try discriminate H.
  - cbn in *. congruence.
  - cbn in H. apply IH in H. exact H.
Qed.
Lemma join_safe : forall ref ok cal gs gr os, d_ub (dev_run KJoin ref (dev_start KJoin ok cal gs gr) os) = false.
Proof.
  intros ref ok cal gs gr os.
  assert (H : (fun s => d_ub s = false /\ (d_freed s = true -> d_pc s = TEnd) /\
     exists n, d_main s = skipn n (life KJoin ok cal) /\ (d_pc s <> TEnd -> In AJoin (d_main s)))
     (dev_run KJoin ref (dev_start KJoin ok cal gs gr) os)).
  { apply inv_run.
    - intros s o (Hu & Hf & n & Hm & Hj). destruct o.
      + cbn [dev_step]. destruct (d_main s) as [|a m] eqn:E.
        * repeat split; auto. exists n. rewrite E. auto.
        * assert (Hm2 : m = skipn (S n) (life KJoin ok cal)).
          { symmetry. apply skipn_S_tl with (a := a). symmetry. exact Hm. }
          assert (Haf : a = AFree -> d_pc s = TEnd).
          { intros ->. destruct (d_pc s) eqn:Ep; try reflexivity; exfalso; clear Hf Hu;
              (assert (Hin : In AJoin (AFree :: m)) by (apply Hj; discriminate)); clear Hj E;
              destruct ok, cal; cbn in Hm; do 8 (destruct n as [|n]; [cbn in Hm; try discriminate; injection Hm as ->; cbn in Hin; intuition discriminate|]);
              cbn in Hm; rewrite ?skipn_nil in Hm; try discriminate; destruct n; discriminate. }
          destruct a; cbn [d_ub d_freed d_pc d_main];
            try (repeat split; auto; exists (S n); split; [exact Hm2|]; intros Hne; destruct (Hj Hne) as [X|X]; [discriminate X|exact X]).
          -- (* AJoin *) destruct (d_pc s) eqn:Ep; cbn; rewrite ?Ep; repeat split; auto;
               try (exists n; rewrite E; split; [exact Hm|intros _; left; reflexivity]).
             exists (S n). split; [exact Hm2|]. congruence.
      + cbn [dev_step]. destruct (d_pc s) eqn:Ep.
        * destruct (d_starting s); cbn; rewrite ?Ep; repeat split; auto; try (intros X; apply Hf in X; discriminate X);
            exists n; split; auto; intros _; apply Hj; congruence.
        * destruct (d_freed s) eqn:Ef; [discriminate (Hf eq_refl)|]. destruct (d_calib s); cbn; rewrite ?Ep, ?Ef; repeat split; auto; try discriminate;
            exists n; split; auto; intros _; apply Hj; congruence.
        * cbn. repeat split; auto; try (intros X; apply Hf in X; discriminate X). exists n; split; auto. intros _; apply Hj; congruence.
        * cbn. repeat split; auto; try (intros X; apply Hf in X; discriminate X). exists n; split; auto. intros _; apply Hj; congruence.
        * cbn. destruct (d_freed s) eqn:Ef; [discriminate (Hf eq_refl)|]. rewrite Hu. repeat split; auto; try discriminate.
          exists n; split; auto. intros _; apply Hj; congruence.
        * repeat split; auto. exists n. split; auto.
    - cbn. repeat split; auto; try discriminate. exists 0%nat. split; [reflexivity|]. intros _. destruct ok, cal; cbn; intuition. }
  apply H.
Qed.

(** *** Measuring while in use *)
Lemma used_measures : forall ref gs gr os,
  let s := dev_run KJoin ref (dev_start KJoin true false gs gr) (OMain :: os) in in_use s -> d_pc s <> TEnd.
Proof.
  intros ref gs gr os s.
  pose (P := fun s : dev => In (d_main s) [[AReady; AUse; AStop; AJoin; AFree]; [AUse; AStop; AJoin; AFree]; [AStop; AJoin; AFree];
       [AJoin; AFree]; [AFree]; []] /\
     (in_use s -> (d_pc s <> TEnd /\ (measuring s -> d_running s = true)))).
  assert (H : P s).
  { refine (inv_run KJoin ref P _ os (dev_step KJoin ref (dev_start KJoin true false gs gr) OMain) _); unfold P.
    - clear P. clear. intros s o (Hm & Hu). destruct o.
      + cbn [dev_step]. cbn in Hm. unfold in_use, measuring in *.
        destruct Hm as [E|[E|[E|[E|[E|[E|[]]]]]]]; rewrite <- E in *; cbn in *.
        * split; [auto|]. intros _. apply Hu. auto.
        * split; [auto|]. intros _. apply Hu. auto.
        * split; [auto|]. intros [X|[X|[]]]; discriminate X.
        * destruct (d_pc s); cbn; (split; [auto 10|intros X; rewrite <- ?E in X; cbn in X; exfalso; intuition discriminate]).
        * split; [auto 10|]. intros [].
        * rewrite <- E. cbn. split; [auto 10|]. intros [].
      + cbn [dev_step]. unfold in_use, measuring in *. destruct (d_pc s) eqn:Ep.
        * destruct (d_starting s); cbn; rewrite ?Ep; (split; [exact Hm|]); intros X; split; try discriminate; intros [Y|Y]; discriminate Y.
        * destruct (d_freed s); cbn; rewrite ?Ep; [split; [exact Hm|]; intros X; split; try discriminate; intros [Y|Y]; discriminate Y|].
          destruct (d_calib s); cbn; rewrite ?Ep; (split; [exact Hm|]); intros X; split; try discriminate; intros [Y|Y]; discriminate Y.
        * cbn. split; [exact Hm|]. intros X. split; [discriminate|reflexivity].
        * cbn. split; [exact Hm|]. intros X. destruct (Hu X) as [_ Y]. rewrite Y by auto. split; [discriminate|auto].
        * cbn. split; [exact Hm|]. intros X. destruct (Hu X) as [_ Y]. rewrite Y by auto. split; [discriminate|auto].
        * split; [exact Hm|]. intros X. destruct (Hu X) as [Y _]. congruence.
    - cbn. split; [auto|]. unfold in_use, measuring. cbn. intros _. split; [discriminate|]. intros [Y|Y]; discriminate Y. }
  intros Hu. apply H. exact Hu.
Qed.

(** *** Last velocity *)
Lemma zero_last : forall ref s os, d_pc s = TCheck -> d_main s = dtor KUart ->
  last_sent (dev_run KUart ref s (OMain :: OMain :: os)) = Some 0.
Proof.
  intros ref s os Hp Hm.
  pose (P := fun u : dev => d_running u = false /\ (d_pc u = TCheck \/ d_pc u = TEnd) /\ last_sent u = Some 0 /\
     In (d_main u) [[AFree; AJoin]; [AJoin]; []]).
  assert (H : P (dev_run KUart ref s (OMain :: OMain :: os))).
  { refine (inv_run KUart ref P _ os (dev_step KUart ref (dev_step KUart ref s OMain) OMain) _); unfold P.
    - clear P. clear. intros s o (Hr & Hp & Hl & Hm). destruct o; cbn [dev_step].
      + cbn in Hm. destruct Hm as [E|[E|[E|[]]]]; rewrite <- E in *; cbn; auto 10.
        destruct Hp as [Hp|Hp]; rewrite Hp; cbn; rewrite <- ?E; cbn; auto 10.
      + destruct Hp as [Hp|Hp]; rewrite Hp, ?Hr; cbn; auto 10.
    - cbn [dev_step]. rewrite Hm. cbn. unfold last_sent. cbn. rewrite rev_app_distr. cbn. auto 10. }
  apply H.
Qed.

(** *** Reading a reply *)
Lemma rd_dot_ok : forall l r acc data, Forall (fun c => c <> 46) l -> (length acc + length l < 100)%nat ->
  rd_dot data acc (map Some (l ++ [46] ++ r)) = RDone (acc ++ l) (map Some r).
Proof.
  induction l as [|c l IH]; intros r acc data Hl Hn.
  - cbn -[tmp_size Nat.leb]. replace (tmp_size <=? length acc)%nat with false.
    + rewrite app_nil_r. reflexivity.
    + symmetry. apply Nat.leb_gt. cbn in Hn. unfold tmp_size. lia.
  - cbn -[tmp_size Nat.leb]. replace (tmp_size <=? length acc)%nat with false.
    + inversion Hl as [|? ? Hc Hl']; subst. destruct (Z.eqb_spec c 46); [congruence|].
      change (map Some (l ++ 46 :: r)) with (map Some (l ++ [46] ++ r)). rewrite IH; auto.
      * rewrite <- app_assoc. reflexivity.
      * rewrite app_length. cbn in *. lia.
    + symmetry. apply Nat.leb_gt. cbn in Hn. unfold tmp_size. lia.
Qed.
Lemma rd_cr_ok : forall l r d, Forall (fun c => c <> 13) l -> rd_cr d (map Some (l ++ [13] ++ r)) = RDone tt (map Some r).
Proof.
  induction l as [|c l IH]; intros r d Hl; cbn; [reflexivity|].
  inversion Hl; subst. destruct (Z.eqb_spec c 13); [congruence|]. apply IH; auto.
Qed.
Lemma dig_text_ok : forall ds, all_digits ds -> Forall (fun c => 48 <= c <= 57) (dig_text ds).
Proof. induction 1 as [|d ds Hd _ IH]; cbn [dig_text map]; constructor; auto. lia. Qed.
Lemma c_str_ok : forall l, Forall (fun c => c <> 0) l -> c_str l = l.
Proof.
  induction l as [|c l IH]; intros H; cbn; [reflexivity|]. inversion H; subst.
  destruct (Z.eqb_spec c 0); [congruence|]. rewrite IH; auto.
Qed.
Lemma digits_val_ok : forall ds a, all_digits ds -> digits_val a (dig_text ds) = a * 10 ^ Z.of_nat (length ds) + place_value ds.
Proof.
  induction ds as [|d ds IH]; intros a H; inversion H; subst.
  - cbn. lia.
  - cbn [dig_text map digits_val place_value length]. unfold is_dig.
    replace (48 <=? 48 + d) with true by (symmetry; apply Z.leb_le; lia).
    replace (48 + d <=? 57) with true by (symmetry; apply Z.leb_le; lia). cbn [andb].
    change (map (fun d0 : Z => 48 + d0) ds) with (dig_text ds). rewrite IH by auto.
    rewrite Nat2Z.inj_succ, Z.pow_succ_r by lia. ring.
Qed.
Lemma stod_ok : forall s ds, all_digits ds -> ds <> [] ->
  stod_int (sgn_text s ++ dig_text ds) = Some ((match s with Minus => -1 | _ => 1 end) * place_value ds).
Proof.
  intros s [|d ds] H Hn; [congruence|].
  pose proof (digits_val_ok (d :: ds) 0 H) as E. change (0 * 10 ^ Z.of_nat (length (d :: ds))) with 0 in E. rewrite Z.add_0_l in E.
  inversion H as [|? ? Hd _]; subst.
  assert (Hi : is_dig (48 + d) = true).
  { unfold is_dig. apply andb_true_intro; split; apply Z.leb_le; lia. }
  destruct s; unfold sgn_text, stod_int; cbn [app dig_text map].
  - destruct (Z.eqb_spec (48 + d) 45); [lia|]. destruct (Z.eqb_spec (48 + d) 43); [lia|].
    rewrite Hi. change ((48 + d) :: map (fun d0 : Z => 48 + d0) ds) with (dig_text (d :: ds)). rewrite E. f_equal; ring.
  - change (45 =? 45) with true. cbv iota. rewrite Hi.
    change ((48 + d) :: map (fun d0 : Z => 48 + d0) ds) with (dig_text (d :: ds)). rewrite E. cbn [option_map]. f_equal; ring.
  - change (43 =? 45) with false. change (43 =? 43) with true. cbv iota. rewrite Hi.
    change ((48 + d) :: map (fun d0 : Z => 48 + d0) ds) with (dig_text (d :: ds)). rewrite E. f_equal; ring.
Qed.
Lemma get_vel_ok : forall s ds fs, all_digits ds -> all_digits fs -> ds <> [] -> (length ds <= 98)%nat ->
  get_vel (reply s ds fs) = RDone ((match s with Minus => -1 | _ => 1 end) * place_value ds) [].
Proof.
  intros s ds fs Hd Hf Hne Hn. unfold get_vel, reply.
  assert (Ht : Forall (fun c => 43 <= c <= 57 /\ c <> 46) (sgn_text s ++ dig_text ds)).
  { apply Forall_app. split; [destruct s; cbn; repeat constructor; lia|].
    eapply Forall_impl; [|apply dig_text_ok; exact Hd]. cbn. intros; lia. }
  rewrite (app_assoc (sgn_text s)), rd_dot_ok.
  - cbn [app]. rewrite c_str_ok.
    + rewrite stod_ok by auto. change (dig_text fs ++ [13; 10]) with (dig_text fs ++ [13] ++ [10]). rewrite rd_cr_ok.
      * cbn [map firstn skipn length]. replace (tmp_size <? length (sgn_text s ++ dig_text ds) + 1)%nat with false; [reflexivity|].
        symmetry. apply Nat.ltb_ge. rewrite app_length. unfold dig_text. rewrite map_length. unfold tmp_size. destruct s; cbn; lia.
      * eapply Forall_impl; [|apply dig_text_ok; exact Hf]. cbn. intros; lia.
    + eapply Forall_impl; [|exact Ht]. cbn. intros; lia.
  - eapply Forall_impl; [|exact Ht]. cbn. intros; lia.
  - rewrite app_length. unfold dig_text. rewrite map_length. destruct s; cbn; lia.
Qed.
(** Too much text before a point leaves the array. *)
Lemma rd_dot_long : forall l acc data, Forall (fun c => c <> 46) l -> (length acc <= 100)%nat -> (100 < length acc + length l)%nat ->
  rd_dot data acc (map Some l) = RUB.
Proof.
  induction l as [|c l IH]; intros acc data Hl Ha Hn; cbn -[tmp_size Nat.leb] in *; [lia|].
  destruct (Nat.leb_spec tmp_size (length acc)) as [Hc|Hc]; [reflexivity|].
  inversion Hl; subst. destruct (Z.eqb_spec c 46); [congruence|]. apply IH; auto; rewrite ?app_length; unfold tmp_size in *; cbn; lia.
Qed.
Lemma get_vel_long : forall l, Forall (fun c => c <> 46) l -> (100 < length l)%nat -> get_vel (map Some l) = RUB.
Proof. intros l Hl Hn. unfold get_vel. rewrite rd_dot_long; auto; cbn; lia. Qed.

(** *** Scan *)
Lemma has_valid_ex : forall ns, has_valid ns = true <-> exists n, In n ns /\ n_dist n <> 0.
Proof.
  induction ns as [|n ns IH]; cbn.
  - split; [discriminate|intros (n & [] & _)].
  - rewrite Bool.orb_true_iff, IH, Bool.negb_true_iff, Z.eqb_neq. split.
    + intros [H|(m & Hm & H)]; eauto.
    + intros (m & [<-|Hm] & H); eauto.
Qed.
Lemma scan_R : forall (inf pi : R) ns, (exists n, In n ns /\ n_dist n <> 0) -> (forall n, In n ns -> 0 <= n_dist n) -> (length ns <= 380)%nat ->
  exists l, scan Rnum inf pi ns = Ok l /\ length l = 380%nat /\
    (forall i n, nth_error ns i = Some n -> nth_error l i =
       Some ((if Z.ltb (n_dist n) 40 then inf else (IZR (n_dist n) / 4000)%R), IZR (n_qual n / 4), (IZR (n_angle n) * 90 / 16384 * pi / 180)%R)) /\
    (forall i, (length ns <= i < 380)%nat -> nth_error l i = Some (inf, inf, inf)).
Proof.
  intros inf pi ns Hv Hpos Hn. unfold scan.
  assert (E1 : has_valid ns = true) by (apply has_valid_ex; exact Hv).
  assert (E2 : has_valid (rev ns) = true).
  { apply has_valid_ex. destruct Hv as (n & Hi & Hd). exists n. split; [apply in_rev; rewrite rev_involutive; exact Hi|exact Hd]. }
  rewrite E1, E2. cbn [andb]. eexists. split; [reflexivity|]. repeat split.
  - rewrite app_length, map_length, repeat_length. unfold laser_max. lia.
  - intros i n Hi. rewrite nth_error_app1 by (rewrite map_length; apply nth_error_Some; congruence).
    rewrite nth_error_map, Hi. cbn [option_map]. f_equal. f_equal. f_equal.
    unfold sc_range. cbn -[IZR].
    assert (H0 : (0 <= IZR (n_dist n))%R) by (apply IZR_le, Hpos; eapply nth_error_In; exact Hi).
    replace (IZR (n_dist n) / 4 / 1000)%R with (IZR (n_dist n) / 4000)%R by field.
    rewrite Rabs_pos_eq by lra. destruct (Z.ltb_spec (n_dist n) 40) as [Hl|Hl].
    + rewrite Flocq.Core.Raux.Rlt_bool_true; [reflexivity|]. apply IZR_lt in Hl. lra.
    + rewrite Flocq.Core.Raux.Rlt_bool_false; [reflexivity|]. apply IZR_le in Hl. lra.
  - intros i Hi. rewrite nth_error_app2 by (rewrite map_length; lia). rewrite map_length.
    apply nth_error_repeat. unfold laser_max. lia.
Qed.
Lemma scan_ub : forall (N : num) (inf pi : N) ns, (forall n, In n ns -> n_dist n = 0) -> scan N inf pi ns = UB.
Proof.
  intros N inf pi ns H. unfold scan. destruct (has_valid ns) eqn:E; [|reflexivity].
  apply has_valid_ex in E. destruct E as (n & Hi & Hd). rewrite H in Hd by exact Hi. congruence.
Qed.

(** *** ODrive over USB *)
Lemma turns_zero : turns Dnum = Ok 0.
Proof. vm_compute. reflexivity. Qed.
Lemma turns_zero_R : turns Rnum = Ok 0.
Proof.
  unfold turns, to_int. cbn. replace (Flocq.Core.Raux.Ztrunc (1 / (628 / 100))) with 0; [reflexivity|].
  symmetry. rewrite Flocq.Core.Raux.Ztrunc_floor by lra. apply Flocq.Core.Raux.Zfloor_imp. cbn. lra.
Qed.
Lemma feed_all : forall n, feed_run 0 n = repeat true n.
Proof. induction n as [|n IH]; cbn; [reflexivity|]. f_equal. exact IH. Qed.
Lemma usb_rounds_ok : forall (T : Type) (ms : list (T * T)),
  u_iq (usb_rounds ms) = None /\ u_vel (usb_rounds ms) = match rev ms with [] => None | m :: _ => Some (fst m) end.
Proof.
  intros T ms. induction ms as [|m ms [IH1 IH2]] using rev_ind; [split; reflexivity|].
  unfold usb_rounds in *. rewrite fold_left_app, rev_app_distr. cbn. split; [exact IH1|reflexivity].
Qed.

(** *** Realsense *)
Lemma t265_rot : forall w x y z : R, (w * w + x * x + y * y + z * z = 1)%R ->
  let m := t265 Rnum w x y z in
  (forall a b, (a < 3)%nat -> (b < 3)%nat -> rot_col m a b = if Nat.eqb a b then 1%R else 0%R) /\ det3 m = 1%R.
Proof.
  intros w x y z H m.
  split.
  - intros a b Ha Hb.
    assert (Ca : a = 0%nat \/ a = 1%nat \/ a = 2%nat) by lia. assert (Cb : b = 0%nat \/ b = 1%nat \/ b = 2%nat) by lia.
    clear Ha Hb. unfold m. clear m.
    destruct Ca as [->|[->| ->]]; destruct Cb as [->|[->| ->]]; unfold rot_col, t265; cbn;
      match goal with |- ?u = ?v => change (@eq R u v) end; nsatz.
  - unfold det3, m, t265. cbn. match goal with |- ?u = ?v => change (@eq R u v) end. nsatz.
Qed.
Lemma get_vel_replies :
  (forall l, Forall (fun c => c <> 46) l -> (100 < length l)%nat -> get_vel (map Some l) = RUB) /\
  (forall s ds fs, all_digits ds -> all_digits fs -> ds <> [] -> (length ds <= 98)%nat -> get_vel (reply s ds fs) <> RUB).
Proof. split; [exact get_vel_long|]. intros s ds fs a b c d. rewrite get_vel_ok by assumption. discriminate. Qed.
