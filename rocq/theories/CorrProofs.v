(** Proofs about the corrector. *)
From Coq Require Import Reals Lra.
From Flocq Require Import Core.Raux.
From Verif Require Import Prelude Num CorrModel CorrSpec.
Open Scope R_scope.

Definition det_t (t : tri) : R :=
  (fst (t_p1 t) - fst (t_p0 t)) * (snd (t_p2 t) - snd (t_p0 t)) - (fst (t_p2 t) - fst (t_p0 t)) * (snd (t_p1 t) - snd (t_p0 t)).
Definition map_of (t : tri) : cmap Rnum :=
  {| c_aref := t_p0 t : v2 Rnum; c_tiref := inv2 Rnum (edges Rnum (t_p0 t) (t_p1 t) (t_p2 t));
     c_amapped := t_q0 t : v2 Rnum; c_tmapped := edges Rnum (t_q0 t) (t_q1 t) (t_q2 t) |}.

Lemma load_file : forall ts, load_maps Rnum (file ts) = map map_of (filter (fun t => negb (Req_bool (det_t t) 0)) ts).
Proof.
  induction ts as [|t ts IH]; [reflexivity|].
  change (file (t :: ts)) with (lines t ++ file ts). unfold lines. cbn [app load_maps].
  rewrite IH. cbn [filter]. change (neqb Rnum (det2 Rnum (edges Rnum (t_p0 t) (t_p1 t) (t_p2 t))) (nofZ Rnum 0)) with (Req_bool (det_t t) 0).
  destruct (Req_bool (det_t t) 0); reflexivity.
Qed.
Lemma proper_det : forall t, proper t <-> negb (Req_bool (det_t t) 0) = true.
Proof.
  intros t; unfold proper, det_t. destruct (Req_bool_spec
    ((fst (t_p1 t) - fst (t_p0 t)) * (snd (t_p2 t) - snd (t_p0 t)) - (fst (t_p2 t) - fst (t_p0 t)) * (snd (t_p1 t) - snd (t_p0 t))) 0); cbn; split; intros H1; try congruence; try (exfalso; apply H1; lra).
  intros H2. apply H. lra.
Qed.

(** The inverse is an inverse. *)
Lemma inv2_ok : forall m : m22 Rnum, det2 Rnum m <> 0 -> forall v w : v2 Rnum,
  mv Rnum (inv2 Rnum m) v = w <-> mv Rnum m w = v.
Proof.
  intros [a b c d] Hd [x y] [x' y']. unfold det2 in Hd. cbn in Hd. unfold inv2.
  destruct (orth2 Rnum _) eqn:Eo.
  - unfold orth2 in Eo. cbn in Eo. rewrite !andb_true_iff in Eo.
    destruct Eo as [[[E1 E2] _] E4].
    assert (F1 : 0 + a * a + b * b = 1). { destruct (Req_bool_spec (0 + a * a + b * b) 1); [assumption|discriminate]. }
    assert (F2 : 0 + a * c + b * d = 0). { destruct (Req_bool_spec (0 + a * c + b * d) 0); [assumption|discriminate]. }
    assert (F4 : 0 + c * c + d * d = 1). { destruct (Req_bool_spec (0 + c * c + d * d) 1); [assumption|discriminate]. }
    clear E1 E2 E4.
    (* columns are orthonormal, too *)
    assert (D2 : (a * d - b * c) * (a * d - b * c) = 1).
    { replace ((a * d - b * c) * (a * d - b * c)) with ((0 + a * a + b * b) * (0 + c * c + d * d) - (0 + a * c + b * d) * (0 + a * c + b * d)) by ring.
      rewrite F1, F2, F4. ring. }
    assert (Ea : a = (a * d - b * c) * d).
    { assert (a * 1 = (a * d - b * c) * d); [|lra]. rewrite <- F4. 
      replace ((a * d - b * c) * d) with (a * (d * d) - c * (b * d)) by ring. replace (b * d) with (- (a * c)) by lra. ring. }
    assert (Eb : b = - (a * d - b * c) * c).
    { assert (b * 1 = - (a * d - b * c) * c); [|lra]. rewrite <- F4.
      replace (- (a * d - b * c) * c) with (b * (c * c) - d * (a * c)) by ring. replace (a * c) with (- (b * d)) by lra. ring. }
    assert (G1 : a * a + c * c = 1).
    { replace (a * a) with ((a * d - b * c) * (a * d - b * c) * (d * d)); [rewrite D2; lra|]. rewrite Ea at 3. rewrite Ea at 4. ring. }
    assert (G3 : b * b + d * d = 1).
    { assert (a * a + b * b + (c * c + d * d) = 2) by lra. lra. }
    assert (G2 : a * b + c * d = 0).
    { assert (H : a * b + c * d = - ((a * d - b * c) * (a * d - b * c)) * (c * d) + c * d); [|rewrite D2 in H; lra].
      rewrite Ea at 1. rewrite Eb at 2. ring. }
    unfold mv; cbn. split; intros H; injection H as <- <-; apply f_equal2.
    + replace (0 + a * (0 + a * x + c * y) + b * (0 + b * x + d * y)) with ((0 + a * a + b * b) * x + (0 + a * c + b * d) * y) by ring. rewrite F1, F2; ring.
    + replace (0 + c * (0 + a * x + c * y) + d * (0 + b * x + d * y)) with ((0 + a * c + b * d) * x + (0 + c * c + d * d) * y) by ring. rewrite F4, F2; ring.
    + replace (0 + a * (0 + a * x' + b * y') + c * (0 + c * x' + d * y')) with ((a * a + c * c) * x' + (a * b + c * d) * y') by ring. rewrite G1, G2; ring.
    + replace (0 + b * (0 + a * x' + b * y') + d * (0 + c * x' + d * y')) with ((b * b + d * d) * y' + (a * b + c * d) * x') by ring. rewrite G3, G2; ring.
  - unfold mv; cbn. unfold det2. cbn. split; intros H; injection H as <- <-; apply f_equal2; field; exact Hd.
Qed.

(** The local coordinates are the weights of the second and third corner. *)
Lemma local_spec : forall t p, proper t ->
  (forall l, local Rnum (map_of t) p = Some l -> inside t p (1 - fst l - snd l) (fst l) (snd l)) /\
  (forall u v w, inside t p u v w -> local Rnum (map_of t) p = Some (v, w)).
Proof.
  intros t p Hp.
  assert (Hd : det2 Rnum (edges Rnum (t_p0 t) (t_p1 t) (t_p2 t)) <> 0).
  { unfold proper in Hp. unfold det2. cbn. intros H. apply Hp. lra. }
  split.
  - intros l H. unfold local in H. cbn [map_of c_tiref c_aref] in H.
    set (l0 := mv Rnum _ _) in H.
    assert (E : mv Rnum (edges Rnum (t_p0 t) (t_p1 t) (t_p2 t)) l0 = vsub Rnum p (t_p0 t)).
    { apply (inv2_ok _ Hd). reflexivity. }
    clearbody l0. destruct l0 as [u v]. cbn in H.
    destruct (Rlt_bool_spec (u) 0) as [H1|H1]; cbn in H; [discriminate|].
    destruct (Rlt_bool_spec 1 (u)) as [H2|H2]; cbn in H; [discriminate|].
    destruct (Rlt_bool_spec (v) 0) as [H3|H3]; cbn in H; [discriminate|].
    destruct (Rlt_bool_spec 1 (v)) as [H4|H4]; cbn in H; [discriminate|].
    destruct (Rlt_bool_spec 1 (u + v)) as [H5|H5]; cbn in H; [discriminate|].
    injection H as <-. cbn [fst snd]. unfold inside. repeat split; try lra.
    unfold weigh. destruct p as [x y]. unfold mv, vsub, edges in E. cbn in E |- *. injection E as E1 E2.
    apply f_equal2; lra.
  - intros u v w (Hu & Hv & Hw & Hs & Hq).
    unfold local. cbn [map_of c_tiref c_aref].
    assert (E : mv Rnum (inv2 Rnum (edges Rnum (t_p0 t) (t_p1 t) (t_p2 t))) (vsub Rnum p (t_p0 t)) = (v, w)).
    { apply (inv2_ok _ Hd). rewrite <- Hq. unfold weigh, mv, edges, vsub. cbn. replace u with (1 - v - w) by lra. apply f_equal2; ring. }
    rewrite E. cbn.
    rewrite (Rlt_bool_false v 0) by lra. rewrite (Rlt_bool_false 1 v) by lra. rewrite (Rlt_bool_false w 0) by lra.
    rewrite (Rlt_bool_false 1 w) by lra. rewrite (Rlt_bool_false 1 (v + w)) by lra. reflexivity.
Qed.
Lemma mapped_spec : forall t u v w, u + v + w = 1 ->
  vadd Rnum (mv Rnum (c_tmapped Rnum (map_of t)) (v, w)) (c_amapped Rnum (map_of t)) = weigh u v w (t_q0 t) (t_q1 t) (t_q2 t).
Proof.
  intros t u v w H. unfold vadd, mv, weigh. cbn. replace u with (1 - v - w) by lra. apply f_equal2; ring.
Qed.

(** What [collect] returns with a buffer which is large enough. *)
Lemma collect_ok : forall ts size n p, Forall proper ts -> (n + length ts <= size)%nat ->
  exists qs, collect Rnum size n (map map_of ts) p = Ok qs /\
    (forall q, In q qs <-> exists t, In t ts /\ image t p q).
Proof.
  induction ts as [|t ts IH]; intros size n p Hp Hn; cbn [map collect].
  - exists []. split; [reflexivity|]. intros q; split; [intros []|intros (t & [] & _)].
  - inversion Hp as [|t' ts' Ht Hts]; subst. cbn [length] in Hn.
    destruct (local_spec t p Ht) as [L1 L2].
    destruct (local Rnum (map_of t) p) as [[v w]|] eqn:El.
    + destruct (IH size (S n) p Hts ltac:(lia)) as (qs & E & Hq).
      rewrite (proj2 (Nat.ltb_lt n size)) by lia. rewrite E. cbn [bind].
      specialize (L1 _ eq_refl). cbn [fst snd] in L1.
      exists (weigh (1 - v - w) v w (t_q0 t) (t_q1 t) (t_q2 t) :: qs). split.
      { rewrite <- (mapped_spec t (1 - v - w) v w); [reflexivity|]. cbn in v, w. ring. }
      intros q; split.
      * intros [<-|H].
        -- exists t. split; [now left|]. exists (1 - v - w), v, w. split; [assumption|reflexivity].
        -- apply Hq in H. destruct H as (t' & Hi & Him). exists t'. split; [now right|assumption].
      * intros (t' & [<-|Hi] & (u' & v' & w' & Hin & ->)).
        -- left. specialize (L2 _ _ _ Hin). injection L2 as -> ->. destruct Hin as (_ & _ & _ & Hs & _). replace u' with (1 - v' - w') by lra. reflexivity.
        -- right. apply Hq. exists t'. split; [assumption|]. exists u', v', w'. split; [assumption|reflexivity].
    + destruct (IH size n p Hts ltac:(lia)) as (qs & E & Hq). exists qs. split; [assumption|].
      intros q; rewrite Hq; split; intros (t' & Hi & Him).
      * exists t'. split; [now right|assumption].
      * destruct Hi as [<-|Hi]; [|exists t'; split; assumption].
        destruct Him as (u & v & w & Hin & _). specialize (L2 _ _ _ Hin). discriminate.
Qed.
Lemma fold_const : forall (qs : list (R * R)) (q s : R * R), (forall x, In x qs -> x = q) ->
  fold_left (vadd Rnum) qs s = (fst s + INR (length qs) * fst q, snd s + INR (length qs) * snd q).
Proof.
  induction qs as [|x qs IH]; intros q s H.
  - cbn [fold_left length INR]. destruct s; cbn [fst snd]. apply f_equal2; match goal with |- @eq _ ?x ?y => change (@eq R x y) end; ring.
  - cbn [fold_left]. rewrite (IH q) by (intros y Hy; apply H; now right).
    rewrite (H x) by now left. cbn [length]. rewrite S_INR. unfold vadd. cbn [fst snd nadd Rnum]. destruct s as [s1 s2], q as [q1 q2]; cbn [fst snd]. apply f_equal2; match goal with |- @eq _ ?x ?y => change (@eq R x y) end; ring.
Qed.

Lemma filter_proper : forall ts, Forall proper (filter (fun t => negb (Req_bool (det_t t) 0)) ts).
Proof. intros ts. apply Forall_forall. intros t Ht. apply filter_In in Ht. now apply proper_det. Qed.
Lemma in_filter_proper : forall ts t, In t (filter (fun t => negb (Req_bool (det_t t) 0)) ts) <-> In t ts /\ proper t.
Proof. intros ts t. rewrite filter_In. now rewrite <- proper_det. Qed.

Lemma mean_same : forall n a, n <> 0 -> (0 + n * a) / n = a.
Proof. intros; field; assumption. Qed.
Lemma filter_len : forall (A : Type) (f : A -> bool) l, (length (filter f l) <= length l)%nat.
Proof. induction l; cbn; [constructor|]. destruct (f a); cbn; lia. Qed.

(** All containing triangles agree: their value is the result. *)
Lemma get_consistent : forall ts size p q, (length ts <= size)%nat ->
  (exists t, In t ts /\ proper t /\ image t p q) -> (forall t q', In t ts -> proper t -> image t p q' -> q' = q) ->
  get Rnum {| co_maps := load_maps Rnum (file ts); co_size := size |} p = Ok q.
Proof.
  intros ts size p q Hs (t0 & Ht0 & Hp0 & Hq0) Hall.
  unfold get. cbn [co_size co_maps]. rewrite load_file.
  set (ts' := filter _ ts).
  destruct (collect_ok ts' size 0 p (filter_proper ts)) as (qs & E & Hq).
  { pose proof (filter_len _ (fun t => negb (Req_bool (det_t t) 0)) ts). fold ts' in H. cbn. lia. }
  rewrite E. cbn [bind].
  assert (Hin : In q qs). { apply Hq. exists t0. split; [apply in_filter_proper; now split|assumption]. }
  assert (Hc : forall x, In x qs -> x = q).
  { intros x Hx. apply Hq in Hx. destruct Hx as (t & Ht & Hi). apply in_filter_proper in Ht. destruct Ht. now apply (Hall t). }
  destruct qs as [|q1 qs]; [destruct Hin|].
  rewrite (fold_const (q1 :: qs) q _ Hc).
  cbn [fst snd nofZ ndiv Rnum]. rewrite <- INR_IZR_INZ.
  assert (Hn : INR (length (q1 :: qs)) <> 0). { cbn [length]. apply not_0_INR. lia. }
  destruct q as [a b]. cbn [fst snd]. f_equal. apply f_equal2; apply mean_same; exact Hn.
Qed.
(** No triangle contains the point: it is unchanged, whatever the size of the buffer. *)
Lemma collect_none : forall ts size n p, Forall proper ts -> (forall t u v w, In t ts -> ~ inside t p u v w) -> collect Rnum size n (map map_of ts) p = Ok [].
Proof.
  induction ts as [|t ts IH]; intros size n p Hp Hn; cbn [map collect]; [reflexivity|].
  inversion Hp as [|t' ts' Ht Hts]; subst.
  destruct (local_spec t p Ht) as [L1 _].
  destruct (local Rnum (map_of t) p) as [l|].
  - exfalso. apply (Hn t _ _ _ (or_introl eq_refl) (L1 l eq_refl)).
  - apply IH; [assumption|]. intros; apply Hn; now right.
Qed.
Lemma get_outside : forall ts size p, (forall t u v w, In t ts -> proper t -> ~ inside t p u v w) ->
  get Rnum {| co_maps := load_maps Rnum (file ts); co_size := size |} p = Ok p.
Proof.
  intros ts size p H. unfold get. cbn [co_size co_maps]. rewrite load_file, collect_none; [reflexivity|apply filter_proper|].
  intros t u v w Ht. apply in_filter_proper in Ht. destruct Ht. now apply H.
Qed.
(** The code as it is: any point in a triangle. *)
Lemma collect_ub : forall ts p, Forall proper ts -> (exists t u v w, In t ts /\ inside t p u v w) -> collect Rnum 0 0 (map map_of ts) p = UB.
Proof.
  induction ts as [|t ts IH]; intros p Hp (t0 & u & v & w & Ht & Hi); [destruct Ht|]. cbn [map collect].
  inversion Hp as [|t' ts' Ht' Hts]; subst.
  destruct (local_spec t p Ht') as [_ L2].
  destruct (local Rnum (map_of t) p) as [l|] eqn:El; [reflexivity|].
  apply IH; [assumption|]. destruct Ht as [<-|Ht].
  - specialize (L2 _ _ _ Hi). discriminate.
  - now exists t0, u, v, w.
Qed.
Lemma size_load : forall es c, co_size Rnum (fst (load Rnum es c)) = co_size Rnum c.
Proof. intros es c. unfold load. destruct (load_maps Rnum es); reflexivity. Qed.
Lemma maps_load : forall es c, snd (load Rnum es c) = true -> co_maps Rnum (fst (load Rnum es c)) = load_maps Rnum es.
Proof. intros es c. unfold load. destruct (load_maps Rnum es); [discriminate|reflexivity]. Qed.
Lemma load_true : forall ts c, (exists t, In t ts /\ proper t) -> snd (load Rnum (file ts) c) = true.
Proof.
  intros ts c (t & Ht & Hp). unfold load. rewrite load_file.
  destruct (filter _ ts) as [|t' ts'] eqn:E; [|reflexivity].
  assert (H : In t (filter (fun t => negb (Req_bool (det_t t) 0)) ts)) by (apply in_filter_proper; now split).
  rewrite E in H. destruct H.
Qed.
Lemma get_ub : forall ts p t u v w, In t ts -> proper t -> inside t p u v w ->
  get Rnum (fst (load Rnum (file ts) (corr0 Rnum))) p = UB.
Proof.
  intros ts p t u v w Ht Hp Hi. unfold get.
  rewrite size_load, maps_load by (apply load_true; now exists t). cbn [corr0 co_size].
  rewrite load_file, collect_ub; [reflexivity|apply filter_proper|].
  exists t, u, v, w. split; [now apply in_filter_proper|assumption].
Qed.
Lemma get_outside_code : forall ts p, (forall t u v w, In t ts -> proper t -> ~ inside t p u v w) ->
  get Rnum (fst (load Rnum (file ts) (corr0 Rnum))) p = Ok p.
Proof.
  intros ts p H. destruct (snd (load Rnum (file ts) (corr0 Rnum))) eqn:E.
  - pose proof (get_outside ts 0 p H) as G. unfold get in *. rewrite size_load, maps_load by assumption. exact G.
  - unfold load in *. destruct (load_maps Rnum (file ts)); [reflexivity|discriminate].
Qed.
Definition unit_tri : tri := {| t_p0 := (0, 0); t_p1 := (1, 0); t_p2 := (0, 1); t_q0 := (1, 1); t_q1 := (2, 1); t_q2 := (1, 3) |}.
Lemma unit_proper : proper unit_tri.
Proof. unfold proper; cbn; lra. Qed.
Lemma unit_inside : inside unit_tri (1 / 2, 1 / 4) (1 / 4) (1 / 2) (1 / 4).
Proof. unfold inside, weigh; cbn. repeat split; try lra. apply f_equal2; lra. Qed.
Lemma get_ub_witness : exists ts p, snd (load Rnum (file ts) (corr0 Rnum)) = true /\ get Rnum (fst (load Rnum (file ts) (corr0 Rnum))) p = UB.
Proof.
  exists [unit_tri], (1 / 2, 1 / 4). split.
  - apply load_true. exists unit_tri. split; [now left|apply unit_proper].
  - apply (get_ub [unit_tri] _ unit_tri _ _ _ (or_introl eq_refl) unit_proper unit_inside).
Qed.
(** The corners of a triangle are in it. *)
Lemma corner_image : forall t, image t (t_p0 t) (t_q0 t) /\ image t (t_p1 t) (t_q1 t) /\ image t (t_p2 t) (t_q2 t).
Proof.
  intros [[a b] [c d] [e f] [g h] [i j] [k l]]; unfold image, inside, weigh; cbn. repeat split.
  - exists 1, 0, 0. repeat split; try lra; apply f_equal2; ring.
  - exists 0, 1, 0. repeat split; try lra; apply f_equal2; ring.
  - exists 0, 0, 1. repeat split; try lra; apply f_equal2; ring.
Qed.
