From Verif Require Import Prelude Num KeyModel KeyProofs IdevModel IdevSpec.
Open Scope Z_scope.

(** ** Life cycle *)
Lemma drun_app : forall dv ok a b s, drun dv ok s (a ++ b) = drun dv ok (drun dv ok s a) b.
Proof. intros. unfold drun. apply fold_left_app. Qed.
Lemma drun_inv : forall dv ok (P : dstate -> Prop), (forall s o, P s -> P (dstep dv ok s o)) ->
  forall os s, P s -> P (drun dv ok s os).
Proof. intros dv ok P H. induction os as [|o os IH]; intros s Ps; cbn; [exact Ps|]. apply IH. now apply H. Qed.

Definition mains (os : list dop) : nat := length (filter (fun o => match o with DMain => true | _ => false end) os).
Definition early (ok : bool) (j : nat) (s : dstate) : Prop :=
  d_pc s = TCall /\ d_ub s = false /\ d_main s = skipn j life /\ d_derived s = (1 <=? j)%nat /\ d_file s = if (2 <=? j)%nat then Some ok else None.
Lemma early_run : forall dv ok pre j s, early ok j s -> ~ In DThread pre -> (j + mains pre <= 2)%nat ->
  early ok (j + mains pre) (drun dv ok s pre).
Proof.
  intros dv ok. induction pre as [|o pre IH]; intros j s E N L.
  - cbn. now rewrite Nat.add_0_r.
  - assert (N' : ~ In DThread pre) by (intros X; apply N; right; exact X). destruct o.
    + replace (j + mains (DMain :: pre))%nat with (S j + mains pre)%nat in * by (unfold mains; cbn; lia).
      apply (IH (S j) (dstep dv ok s DMain)); [|exact N'|exact L].
      destruct E as (E1 & E2 & E3 & E4 & E5). destruct j as [|[|j]]; [| |lia].
      * cbn in E3. unfold dstep. rewrite E3. repeat split; cbn; auto.
      * cbn in E3. unfold dstep. rewrite E3. repeat split; cbn; auto.
    + exfalso. apply N. left. reflexivity.
    + replace (j + mains (DEvent :: pre))%nat with (j + mains pre)%nat in * by (unfold mains; cbn; lia).
      apply (IH j (dstep dv ok s DEvent)); [|exact N'|exact L].
      destruct E as (E1 & E2 & E3 & E4 & E5). repeat split; cbn; auto.
Qed.

Definition good (s : dstate) : Prop :=
  d_derived s = true /\ d_file s = Some true /\ d_ub s = false /\ exists k, d_main s = skipn k life /\
  ((k <= 4)%nat -> d_pc s = TCall \/ d_pc s = TSet \/ (d_running s = true /\ (d_pc s = TFile \/ d_pc s = TLoop \/ d_pc s = TRead))).
Lemma good_step : forall dv s o, good s -> good (dstep dv true s o).
Proof.
  intros dv s o (G1 & G2 & G3 & k & M & G4). destruct o; unfold dstep.
  - destruct k as [|[|[|[|[|[|[|k]]]]]]]; cbn in M; rewrite M.
    + split; [reflexivity|]. split; [exact G2|]. split; [exact G3|]. exists 1%nat. split; [reflexivity|]. intros _. apply G4; lia.
    + split; [exact G1|]. split; [reflexivity|]. split; [exact G3|]. exists 2%nat. split; [reflexivity|]. intros _. apply G4; lia.
    + split; [exact G1|]. split; [exact G2|]. split; [exact G3|]. exists 3%nat. split; [reflexivity|]. intros _. apply G4; lia.
    + split; [exact G1|]. split; [exact G2|]. split; [exact G3|]. exists 4%nat. split; [reflexivity|]. intros _. apply G4; lia.
    + split; [exact G1|]. split; [exact G2|]. split; [exact G3|]. exists 5%nat. split; [reflexivity|]. lia.
    + destruct (d_pc s) eqn:E; try (split; [exact G1|]; split; [exact G2|]; split; [exact G3|]; exists 5%nat; split; [exact M|]; lia).
      split; [exact G1|]. split; [exact G2|]. split; [exact G3|]. exists 6%nat. split; [reflexivity|]. lia.
    + split; [exact G1|]. split; [exact G2|]. split.
      { cbn. rewrite G2, G3. destruct dv; reflexivity. }
      exists 7%nat. split; [reflexivity|]. lia.
    + rewrite skipn_nil. split; [exact G1|]. split; [exact G2|]. split; [exact G3|]. exists (S (S (S (S (S (S (S k))))))). split; [exact M|]. lia.
  - destruct (d_pc s) eqn:E.
    + rewrite G1. split; [reflexivity|]. split; [exact G2|]. split; [exact G3|]. exists k. split; [exact M|]. cbn. auto.
    + split; [exact G1|]. split; [exact G2|]. split; [exact G3|]. exists k. split; [exact M|]. cbn. auto.
    + rewrite G2. split; [exact G1|]. split; [reflexivity|]. split; [exact G3|]. exists k. split; [exact M|]. cbn. intros L.
      destruct (G4 L) as [X|[X|[X _]]]; [discriminate|discriminate|]. auto 10.
    + destruct (d_running s) eqn:R.
      * split; [exact G1|]. split; [exact G2|]. split; [exact G3|]. exists k. split; [exact M|]. cbn. intros L. auto 10.
      * split; [exact G1|]. split; [exact G2|]. split; [exact G3|]. exists k. split; [exact M|]. cbn. intros L.
        destruct (G4 L) as [X|[X|[X _]]]; discriminate.
    + assert (W : (k <= 4)%nat -> d_running s = true).
      { intros L. destruct (G4 L) as [X|[X|[X _]]]; [discriminate|discriminate|exact X]. }
      destruct (d_avail s) as [|n].
      * destruct (blocking dv).
        -- split; [exact G1|]. split; [exact G2|]. split; [exact G3|]. exists k. split; [exact M|]. rewrite E. exact G4.
        -- split; [exact G1|]. split; [exact G2|]. split; [exact G3|]. exists k. split; [exact M|]. cbn. intros L. auto 10.
      * split; [exact G1|]. split; [exact G2|]. split; [exact G3|]. exists k. split; [exact M|]. cbn. intros L. auto 10.
    + split; [exact G1|]. split; [exact G2|]. split; [exact G3|]. exists k. split; [exact M|]. rewrite E. exact G4.
  - split; [exact G1|]. split; [exact G2|]. split; [exact G3|]. exists k. split; [exact M|]. exact G4.
Qed.
Lemma late_good : forall dv os, starts_late os -> good (drun dv true dstate0 os).
Proof.
  intros dv os (pre & rest & -> & N & L). rewrite drun_app. apply (drun_inv dv true good).
  - intros s o. apply good_step.
  - assert (E0 : early true 0 dstate0) by (repeat split).
    assert (E : early true (0 + mains pre) (drun dv true dstate0 pre)) by (apply early_run; [exact E0|exact N|unfold mains; rewrite L; lia]).
    unfold mains in E. rewrite L in E. destruct E as (E1 & E2 & E3 & E4 & E5). split; [exact E4|]. split; [exact E5|].
    split; [exact E2|]. exists 2%nat. split; [exact E3|]. auto.
Qed.
Lemma late_works : forall dv os, starts_late os -> let s := drun dv true dstate0 os in
  d_ub s = false /\ (in_use s -> alive s).
Proof.
  intros dv os H s. destruct (late_good dv os H) as (G1 & G2 & G3 & k & M & G4). fold s in G1, G2, G3, M, G4. split; [exact G3|].
  intros [m U]. rewrite M in U. assert (L : (k <= 4)%nat).
  { destruct k as [|[|[|[|[|[|[|k]]]]]]]; try lia; cbn in U; try discriminate. rewrite skipn_nil in U. discriminate. }
  unfold alive. destruct (G4 L) as [X|[X|[_ [X|[X|X]]]]]; rewrite X; discriminate.
Qed.

(** The destructor was executed before the thread set running: it never returns. *)
Definition hangs (s : dstate) : Prop := d_running s = true /\ d_main s = [MJoin; MClose] /\ d_file s = Some true /\
  (d_pc s = TFile \/ d_pc s = TLoop \/ d_pc s = TRead).
Lemma hangs_step : forall dv s o, hangs s -> hangs (dstep dv true s o).
Proof.
  intros dv s o (H1 & H2 & H3 & H4). destruct o; unfold dstep.
  - rewrite H2. destruct (d_pc s) eqn:E; try (repeat split; auto; fail); try (split; [exact H1|split; [exact H2|split; [exact H3|rewrite E; exact H4]]]).
    destruct H4 as [X|[X|X]]; discriminate.
  - destruct H4 as [X|[X|X]]; rewrite X.
    + rewrite H3. repeat split; cbn; auto.
    + rewrite H1. repeat split; cbn; auto.
    + destruct (d_avail s); [destruct (blocking dv)|]; repeat split; cbn; auto.
  - repeat split; auto.
Qed.
Lemma hangs_for_ever : exists os, forall dv os', ~ destroyed (drun dv true dstate0 (os ++ os')).
Proof.
  exists [DMain; DMain; DMain; DMain; DThread; DMain; DThread]. intros dv os' D. rewrite drun_app in D.
  assert (H : hangs (drun dv true (drun dv true dstate0 [DMain; DMain; DMain; DMain; DThread; DMain; DThread]) os')).
  { apply (drun_inv dv true hangs); [intros s o; apply hangs_step|]. repeat split; cbn; auto. }
  unfold destroyed in D. destruct H as (_ & H & _). rewrite D in H. discriminate.
Qed.
(** A blocking device without further events. *)
Definition waits (s : dstate) : Prop := d_avail s = 0%nat /\ d_pc s = TRead /\ exists m, d_main s = MStop :: MJoin :: m \/ d_main s = MJoin :: m.
Lemma waits_step : forall dv s o, blocking dv = true -> o <> DEvent -> waits s -> waits (dstep dv true s o).
Proof.
  intros dv s o B NE (H1 & H2 & m & H3). destruct o; unfold dstep.
  - destruct H3 as [M|M]; rewrite M.
    + split; [exact H1|]. split; [exact H2|]. exists m. right. reflexivity.
    + rewrite H2. split; [exact H1|]. split; [exact H2|]. exists m. right. exact M.
  - rewrite H2, H1, B. split; [exact H1|]. split; [exact H2|]. exists m. exact H3.
  - congruence.
Qed.
Lemma waits_for_event : exists os, forall dv, blocking dv = true -> in_use (drun dv true dstate0 os) /\
  forall os', ~ In DEvent os' -> ~ destroyed (drun dv true dstate0 (os ++ os')).
Proof.
  exists [DMain; DMain; DMain; DMain; DThread; DThread; DThread; DThread]. intros dv B. split.
  - exists [MJoin; MClose]. reflexivity.
  - intros os'. set (s := drun dv true dstate0 [DMain; DMain; DMain; DMain; DThread; DThread; DThread; DThread]). intros N D. rewrite drun_app in D. fold s in D.
    assert (W : forall os s, ~ In DEvent os -> waits s -> waits (drun dv true s os)).
    { induction os as [|o os IH]; intros t Nt Wt; cbn; [exact Wt|]. apply IH; [intros X; apply Nt; right; exact X|].
      apply waits_step; [exact B| |exact Wt]. intros ->. apply Nt. left. reflexivity. }
    assert (Ws : waits s) by (split; [reflexivity|split; [reflexivity|exists [MClose]; left; reflexivity]]).
    destruct (W os' s N Ws) as (_ & _ & m & [M|M]); unfold destroyed in D; rewrite D in M; discriminate.
Qed.
(** From the loop on the destructor returns after one more event. *)
Lemma loop_ends : forall dv s, d_main s = [MStop; MJoin; MClose] -> (d_pc s = TLoop \/ d_pc s = TRead) ->
  destroyed (drun dv true s [DMain; DEvent; DThread; DThread; DThread; DMain; DMain]).
Proof.
  intros dv s M P. unfold drun. cbn [fold_left].
  assert (E1 : dstep dv true s DMain = {| d_derived := d_derived s; d_file := d_file s; d_running := false; d_avail := d_avail s; d_done := d_done s; d_ub := d_ub s; d_pc := d_pc s; d_main := [MJoin; MClose] |}).
  { unfold dstep. rewrite M. reflexivity. }
  rewrite E1. destruct P as [P|P]; rewrite P; reflexivity.
Qed.

(** ** Space navigator *)
Lemma set_at_len : forall A (l : list A) k v, length (set_at l k v) = length l.
Proof. induction l; intros [|k] v; cbn; auto. Qed.
Lemma set_at_all : forall A (P : A -> Prop) l k v, Forall P l -> P v -> Forall P (set_at l k v).
Proof. induction l as [|x l IH]; intros [|k] v H Pv; cbn; auto; inversion H; subst; constructor; auto. Qed.
Lemma nav_axis_defined : forall es, let s := nav_events nav0 es in
  Forall (fun v => v <> None) (n_axis s) /\ Forall (fun v => v <> None) (n_but s) /\ length (n_axis s) = 3%nat /\ length (n_but s) = 2%nat.
Proof.
  intros es. cbn zeta. assert (H : forall (l : list (Z * Z * Z)) s, (Forall (fun v => v <> None) (n_axis s) /\ Forall (fun v => v <> None) (n_but s) /\ length (n_axis s) = 3%nat /\ length (n_but s) = 2%nat) ->
    Forall (fun v => v <> None) (n_axis (nav_events s l)) /\ Forall (fun v => v <> None) (n_but (nav_events s l)) /\ length (n_axis (nav_events s l)) = 3%nat /\ length (n_but (nav_events s l)) = 2%nat).
  { induction l as [|[[t c] v] l IH]; intros s H; [exact H|]. cbn [nav_events fold_left fst snd]. apply IH. destruct H as (A & B & C & D).
    unfold nav_event. destruct (t =? 1).
    - destruct (_ || _); [|auto]. cbn. rewrite set_at_len. repeat split; auto. apply set_at_all; [exact B|discriminate].
    - destruct (_ || _); [|auto]. destruct (_ && _); [|destruct (_ && _)]; cbn; auto. rewrite set_at_len. repeat split; auto.
      apply set_at_all; [exact A|discriminate]. }
  apply H. cbn. repeat split; repeat constructor; discriminate.
Qed.
Lemma set_at_nth : forall A (l : list A) k v j, (k < length l)%nat -> nth_error (set_at l k v) j = if Nat.eqb j k then Some v else nth_error l j.
Proof. induction l as [|x l IH]; intros [|k] v [|j] H; cbn in *; try lia; try reflexivity. apply IH. lia. Qed.
Lemma axis_step : forall s t c v i, length (n_axis s) = 3%nat -> (i < 3)%nat ->
  nth_error (n_axis (nav_event s t c v)) i = if is_pos t && (c =? Z.of_nat i) then Some (Some v) else nth_error (n_axis s) i.
Proof.
  intros s t c v i L H. unfold nav_event. destruct (Z.eqb_spec t 1) as [->|T]; [cbn [is_pos andb]; destruct (_ || _); reflexivity|].
  fold (is_pos t). destruct (is_pos t); [|reflexivity]. cbn [andb]. destruct ((0 <=? c) && (c <=? 2)) eqn:E.
  - cbn [n_axis]. rewrite set_at_nth by lia. destruct (Nat.eqb_spec i (Z.to_nat c)), (Z.eqb_spec c (Z.of_nat i)); try reflexivity; lia.
  - destruct (Z.eqb_spec c (Z.of_nat i)); [lia|]. destruct ((3 <=? c) && (c <=? 5)); reflexivity.
Qed.
Lemma rot_step : forall s t c v i, length (n_rot s) = 3%nat -> (i < 3)%nat ->
  nth_error (n_rot (nav_event s t c v)) i = if is_pos t && (c =? Z.of_nat i + 3) then Some (Some v) else nth_error (n_rot s) i.
Proof.
  intros s t c v i L H. unfold nav_event. destruct (Z.eqb_spec t 1) as [->|T]; [cbn [is_pos andb]; destruct (_ || _); reflexivity|].
  fold (is_pos t). destruct (is_pos t); [|reflexivity]. cbn [andb]. destruct ((0 <=? c) && (c <=? 2)) eqn:E.
  - destruct (Z.eqb_spec c (Z.of_nat i + 3)); [lia|reflexivity].
  - destruct ((3 <=? c) && (c <=? 5)) eqn:F; cbn [n_rot].
    + rewrite set_at_nth by lia. destruct (Nat.eqb_spec i (Z.to_nat (c - 3))), (Z.eqb_spec c (Z.of_nat i + 3)); try reflexivity; lia.
    + destruct (Z.eqb_spec c (Z.of_nat i + 3)); [lia|reflexivity].
Qed.
Lemma but_step : forall s t c v i, length (n_but s) = 2%nat -> (i < 2)%nat ->
  nth_error (n_but (nav_event s t c v)) i = if is_key t && (c =? Z.of_nat i + 256) then Some (Some (negb (v =? 0))) else nth_error (n_but s) i.
Proof.
  intros s t c v i L H. unfold nav_event, is_key. destruct (Z.eqb_spec t 1) as [->|T].
  - cbn [andb]. destruct ((c =? 256) || (c =? 257)) eqn:E.
    + cbn [n_but]. rewrite set_at_nth by lia. destruct (Nat.eqb_spec i (Z.to_nat (c - 256))), (Z.eqb_spec c (Z.of_nat i + 256)); try reflexivity; lia.
    + destruct (Z.eqb_spec c (Z.of_nat i + 256)); [lia|reflexivity].
  - cbn [andb]. destruct (_ || _); [|reflexivity]. destruct (_ && _); [reflexivity|]. destruct (_ && _); reflexivity.
Qed.
Lemma nav_rot_len : forall l s, length (n_rot (nav_events s l)) = length (n_rot s).
Proof.
  unfold nav_events. induction l as [|e l IH]; intros s; [reflexivity|]. cbn [fold_left]. rewrite IH. unfold nav_event.
  destruct (_ =? 1); [destruct (_ || _); reflexivity|]. destruct (_ || _); [|reflexivity]. destruct (_ && _); [reflexivity|].
  destruct (_ && _); [cbn; apply set_at_len|reflexivity].
Qed.
Lemma nav_latest : forall es, let s := nav_events nav0 es in
  (forall i, (i < 3)%nat -> nth_error (n_axis s) i = Some (Some (match latest is_pos (Z.of_nat i) es with Some v => v | None => 0 end))) /\
  (forall i, (i < 3)%nat -> nth_error (n_rot s) i = Some (latest is_pos (Z.of_nat i + 3) es)) /\
  (forall i, (i < 2)%nat -> nth_error (n_but s) i = Some (Some (match latest is_key (Z.of_nat i + 256) es with Some v => negb (v =? 0) | None => false end))).
Proof.
  intros es. cbn zeta. induction es as [|[[t c] v] es IH] using rev_ind.
  - repeat split; intros [|[|[|i] ] ] H; try lia; reflexivity.
  - destruct (nav_axis_defined es) as (_ & _ & LA & LB). pose proof (nav_rot_len es nav0) as LR.
    assert (N : nav_events nav0 (es ++ [(t, c, v)]) = nav_event (nav_events nav0 es) t c v) by (unfold nav_events; now rewrite fold_left_app).
    assert (M : forall p k, latest p k (es ++ [(t, c, v)]) = if p t && (c =? k) then Some v else latest p k es)
      by (intros; unfold latest; now rewrite fold_left_app).
    rewrite N. destruct IH as (A & B & C). repeat split; intros i H; rewrite M.
    + rewrite axis_step by assumption. destruct (_ && _); [reflexivity|now apply A].
    + rewrite rot_step by assumption. destruct (_ && _); [reflexivity|now apply B].
    + rewrite but_step by assumption. destruct (_ && _); [reflexivity|now apply C].
Qed.

Lemma fuel_enough : forall f1 f2 s bs, (length bs <= f1)%nat -> (length bs <= f2)%nat -> nav_raw f1 s bs = nav_raw f2 s bs.
Proof.
  induction f1 as [|f1 IH]; intros f2 s bs L1 L2.
  - destruct bs; [|cbn in L1; lia]. destruct f2; reflexivity.
  - destruct f2 as [|f2]; [destruct bs; [reflexivity|cbn in L2; lia]|]. destruct bs as [|h r]; [reflexivity|]. cbn [nav_raw]. cbn in L1, L2.
    destruct (h =? 1); [|destruct (h =? 3)].
    + destruct (13 <=? length r)%nat; [|reflexivity]. apply IH; rewrite skipn_length; lia.
    + destruct (2 <=? length r)%nat; [|reflexivity]. apply IH; rewrite skipn_length; lia.
    + apply IH; lia.
Qed.
Lemma read_move : forall s b r, length b = 13%nat -> nav_read s (1 :: b ++ r) = nav_read (sn_packet s (1 :: b)) r.
Proof.
  intros s b r L. unfold nav_read. cbn [length nav_raw]. change (1 =? 1) with true. cbn iota.
  rewrite app_length, L. replace (13 <=? 13 + length r)%nat with true by (symmetry; apply Nat.leb_le; lia).
  rewrite firstn_app, L, Nat.sub_diag, firstn_O, app_nil_r, firstn_all2 by lia.
  rewrite skipn_app, L, Nat.sub_diag, skipn_O, skipn_all2 by lia. cbn [app]. apply fuel_enough; lia.
Qed.
Lemma nav_raw_S : forall f s h rest, nav_raw (S f) s (h :: rest) =
  if h =? 1 then if (13 <=? length rest)%nat then nav_raw f (sn_packet s (h :: firstn 13 rest)) (skipn 13 rest) else s
  else if h =? 3 then if (2 <=? length rest)%nat then nav_raw f (sn_packet s (h :: firstn 2 rest)) (skipn 2 rest) else s
  else nav_raw f s rest.
Proof. reflexivity. Qed.
Lemma read_but : forall s a b r, nav_read s (3 :: a :: b :: r) = nav_read (sn_packet s [3; a; b]) r.
Proof.
  intros s a b r. unfold nav_read. change (length (3 :: a :: b :: r)) with (S (S (S (length r)))). rewrite nav_raw_S.
  change (3 =? 1) with false. change (3 =? 3) with true. change (2 <=? length (a :: b :: r))%nat with true. cbv iota.
  change (firstn 2 (a :: b :: r)) with [a; b]. change (skipn 2 (a :: b :: r)) with r. apply fuel_enough; lia.
Qed.
Lemma nav_aligned : forall ps s, Forall wf ps -> nav_read s (concat (map encode ps)) = fold_left apply ps s.
Proof.
  induction ps as [|p ps IH]; intros s W; [reflexivity|]. inversion W as [|? ? Wp Wr]; subst. cbn [map concat fold_left].
  destruct p as [x y z rx ry rz|l r].
  - destruct Wp as (Wx & Wy & Wz & W1 & W2 & W3). unfold encode at 1. cbn [app bytes16]. 
    change (nav_read s (1 :: [x mod 256; x / 256 mod 256; y mod 256; y / 256 mod 256; z mod 256; z / 256 mod 256; 2; rx mod 256; rx / 256 mod 256; ry mod 256; ry / 256 mod 256; rz mod 256; rz / 256 mod 256] ++ concat (map encode ps)) = fold_left apply ps (apply s (Move x y z rx ry rz))).
    rewrite read_move by reflexivity. rewrite IH by exact Wr. f_equal. unfold sn_packet. cbn [nth]. change (1 =? 1) with true. cbn iota.
    rewrite !decode_ok by assumption. reflexivity.
  - unfold encode at 1. cbn [app]. rewrite read_but. rewrite IH by exact Wr. f_equal. destruct l, r; reflexivity.
Qed.
(** A stream of equal packets of which the first byte was missed. *)
Definition pk : packet := Move 257 0 0 0 0 0.
Definition chunk : list Z := [1; 1; 0; 0; 0; 0; 2; 0; 0; 0; 0; 0; 0; 1].
Lemma shifted : forall n, skipn 1 (concat (map encode (repeat pk (S n)))) = concat (repeat chunk n) ++ [1; 1; 0; 0; 0; 0; 2; 0; 0; 0; 0; 0; 0].
Proof.
  induction n as [|n IH]; [reflexivity|]. cbn [repeat concat]. rewrite <- app_assoc, <- IH. reflexivity.
Qed.
Lemma never_found : forall n s, nav_read s (skipn 1 (concat (map encode (repeat pk (S (S n)))))) =
  {| sp_axis := [1; 0; 512]; sp_rot := [0; 0; 256]; sp_l := sp_l s; sp_r := sp_r s |}.
Proof.
  intros n s. rewrite shifted. revert s. induction n as [|n IH]; intros s.
  - reflexivity.
  - change (concat (repeat chunk (S (S n)))) with (chunk ++ concat (repeat chunk (S n))). rewrite <- app_assoc.
    change (nav_read s (1 :: [1; 0; 0; 0; 0; 2; 0; 0; 0; 0; 0; 0; 1] ++ (concat (repeat chunk (S n)) ++ [1; 1; 0; 0; 0; 0; 2; 0; 0; 0; 0; 0; 0])) = {| sp_axis := [1; 0; 512]; sp_rot := [0; 0; 256]; sp_l := sp_l s; sp_r := sp_r s |}).
    rewrite read_move by reflexivity. rewrite IH. reflexivity.
Qed.

(** ** Semaphore *)
Definition sem_inv (v : Z) (s : sem) : Prop :=
  s_count s = v + s_posts s - s_taken s /\ (0 <= v -> 0 <= s_count s) /\
  ((0 < s_sleep s)%nat -> s_count s <= Z.of_nat (s_note s + s_wake s) \/ s_count s <= 0).
Lemma sem_inv_step : forall v s o s', sem_inv v s -> sem_step s o = Some s' -> sem_inv v s'.
Proof.
  intros v s o s' (I1 & I2 & I3) H. destruct o; cbn in H.
  - injection H as <-. unfold sem_inv; cbn. split; [lia|]. split; [lia|]. intros L. destruct (I3 L); left; lia.
  - destruct (s_note s) as [|n] eqn:N; [discriminate|]. destruct (s_sleep s) as [|k] eqn:K; injection H as <-; unfold sem_inv; cbn.
    + split; [lia|]. split; [exact I2|]. lia.
    + split; [lia|]. split; [exact I2|]. intros _. assert (X : (0 < S k)%nat) by lia. destruct (I3 X); lia.
  - destruct (0 <? s_count s) eqn:C; injection H as <-; unfold sem_inv; cbn; [apply Z.ltb_lt in C|apply Z.ltb_ge in C].
    + split; [lia|]. split; [lia|]. intros L. destruct (I3 L); lia.
    + split; [lia|]. split; [exact I2|]. lia.
  - destruct (s_wake s) as [|n] eqn:N; [discriminate|]. destruct (0 <? s_count s) eqn:C; injection H as <-; unfold sem_inv; cbn; [apply Z.ltb_lt in C|apply Z.ltb_ge in C].
    + split; [lia|]. split; [lia|]. intros L. destruct (I3 L); lia.
    + split; [lia|]. split; [exact I2|]. lia.
  - destruct (s_wake s) as [|n] eqn:N; [discriminate|]. destruct (0 <? s_count s) eqn:C; injection H as <-; unfold sem_inv; cbn; [apply Z.ltb_lt in C|apply Z.ltb_ge in C].
    + split; [lia|]. split; [lia|]. intros L. destruct (I3 L); lia.
    + split; [lia|]. split; [exact I2|]. lia.
  - destruct (s_sleep s) as [|k] eqn:K; [discriminate|]. injection H as <-. unfold sem_inv; cbn. split; [lia|]. split; [exact I2|].
    intros L. assert (X : (0 < S k)%nat) by lia. destruct (I3 X); lia.
Qed.
Lemma sem_inv_run : forall v os s, sem_run (sem_new v) os = Some s -> sem_inv v s.
Proof.
  assert (H : forall os v s s', sem_inv v s -> sem_run s os = Some s' -> sem_inv v s').
  { induction os as [|o os IH]; intros v s s' I; cbn [sem_run]; [intros [= <-]; exact I|].
    destruct (sem_step s o) as [s1|] eqn:E; [|discriminate]. apply IH. eapply sem_inv_step; eauto. }
  intros v os s. apply H. unfold sem_inv. cbn. split; [lia|]. split; [lia|]. lia.
Qed.
Lemma sem_counts : forall v os s, 0 <= v -> sem_run (sem_new v) os = Some s ->
  s_taken s <= v + s_posts s /\ s_count s = v + s_posts s - s_taken s /\ 0 <= s_count s.
Proof. intros v os s V R. destruct (sem_inv_run _ _ _ R) as (A & B & _). specialize (B V). lia. Qed.
Lemma sem_no_lost_wakeup : forall v os s, sem_run (sem_new v) os = Some s -> s_note s = 0%nat -> s_wake s = 0%nat ->
  0 < s_count s -> s_sleep s = 0%nat.
Proof.
  intros v os s R N W C. destruct (sem_inv_run _ _ _ R) as (_ & _ & I). destruct (s_sleep s); [reflexivity|].
  assert (X : (0 < S n)%nat) by lia. destruct (I X) as [Y|Y]; rewrite ?N, ?W in Y; cbn in Y; lia.
Qed.
Lemma sem_fail_means_empty : forall s s', sem_step s SLeave = Some s' -> s_fails s' = s_fails s + 1 -> s_count s <= 0.
Proof.
  intros s s' H F. cbn in H. destruct (s_wake s); [discriminate|]. destruct (0 <? s_count s) eqn:C.
  - injection H as <-. cbn in F. lia.
  - now apply Z.ltb_ge in C.
Qed.
