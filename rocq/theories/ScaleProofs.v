(** Proofs about the scale calculation. *)
From Coq Require Import String Reals Lra.
From Flocq Require Import Core.
From Verif Require Import Prelude Num ScaleModel ScaleSpec.
Open Scope R_scope.

Lemma find_range_ok rs it r : range_for rs it r -> find_range Rnum rs (item_id it) = (Some r, r_nolimit Rnum r).
Proof.
  intros (Hin & Hid & Hu).
  assert (K : forall l acc, (forall r', In r' l -> r_id Rnum r' = item_id it -> r' = r) -> (In r l \/ acc = (Some r, r_nolimit Rnum r)) ->
    (acc = (None, false) \/ acc = (Some r, r_nolimit Rnum r)) ->
    fold_left (fun acc r => if String.eqb (r_id Rnum r) (item_id it) then (Some r, snd acc || r_nolimit Rnum r) else acc) l acc = (Some r, r_nolimit Rnum r)).
  { induction l as [|r' l IH]; intros acc Hl Hi Ha; cbn [fold_left].
    - destruct Hi as [[]|Hi]; exact Hi.
    - destruct (String.eqb_spec (r_id Rnum r') (item_id it)) as [E|E].
      + assert (r' = r) as -> by (apply Hl; [now left|exact E]).
        assert (Q : snd acc || r_nolimit Rnum r = r_nolimit Rnum r) by (destruct Ha as [-> | ->]; cbn; [reflexivity|apply orb_diag]).
        rewrite Q. apply IH; [intros; apply Hl; [now right|assumption]|now right|now right].
      + apply IH; [intros; apply Hl; [now right|assumption]| |exact Ha]. destruct Hi as [[->|Hi]|Hi]; [congruence|now left|now right]. }
  apply K; [exact Hu|now left|now left].
Qed.

Definition entry_of (it : item) : entry Rnum :=
  match it with
  | Ends i a b c d => Build_entry Rnum i a b c d 1 0 false
  | Direct i s o => Build_entry Rnum i 0 0 0 0 s o true
  end.
Lemma read_props it : read_entry Rnum (props_of it) = Ok (entry_of it) /\ e_id Rnum (entry_of it) = item_id it.
Proof. destruct it; split; reflexivity. Qed.

Lemma scale_ok it r x : encloses_zero it r ->
  let '(s, o) := scale_of Rnum (entry_of it) (fst (out_limits it r)) (snd (out_limits it r)) in x * s + o = conv it x.
Proof.
  destruct it as [i a b c d|i s o]; cbn [entry_of scale_of e_direct e_minIn e_maxIn e_minOut e_maxOut e_scale e_offset conv]; [|intros _; cbn; ring].
  unfold encloses_zero. generalize (out_limits (Ends i a b c d) r). intros [lo hi]. cbn [fst snd]. intros (Hab & Hcd & Hz & Hlt).
  unfold scale_of. cbn [e_direct e_minIn e_maxIn e_minOut e_maxOut Rnum nadd nsub nmul ndiv nabs nofZ].
  rewrite (Rabs_left1 lo), (Rabs_right hi) by lra. field. repeat split; try lra.
  replace (_ - _ - _) with ((hi - lo) * (b - a)) by ring. apply Rmult_integral_contrapositive_currified; lra.
Qed.

(** ** One entry *)
Definition val (s : res Rnum) (x : R) : R := x * s_scale Rnum s + s_offset Rnum s.
Lemma apply_ok dmin dmax it r s : encloses_zero it r ->
  exists s', apply_entry Rnum (fun _ => true) dmin dmax (entry_of it) r (r_nolimit Rnum r) s = Ok s' /\
    (forall x, val s' x = conv it (val s x)).
Proof.
  intros He. unfold apply_entry.
  assert (K : forall x, let '(sc, o) := scale_of Rnum (entry_of it) (fst (out_limits it r)) (snd (out_limits it r)) in x * sc + o = conv it x) by (intros; now apply scale_ok).
  set (q := if r_nolimit Rnum r then _ else (r_minIn Rnum r, _, _, _)).
  assert (Hq : exists a b, q = (a, b, fst (out_limits it r), snd (out_limits it r))).
  { unfold q, out_limits. destruct (r_nolimit Rnum r); [|eauto]. destruct it; cbn; eauto. }
  destruct Hq as (a & b & ->). destruct (scale_of Rnum (entry_of it) _ _) as [sc off].
  destruct (r_nolimit Rnum r), (s_first Rnum s); cbn -[Rmult Rplus]; (eexists; split; [reflexivity|]); intros x; rewrite <- K; unfold val; cbn -[Rmult Rplus]; ring.
Qed.

Lemma calc_fold dmin dmax rs its s :
  (forall it, In it its -> exists r, range_for rs it r /\ encloses_zero it r) ->
  exists s', fold_left (fun o ps => bind o (fun s => one_entry Rnum (fun _ => true) dmin dmax rs s ps)) (map props_of its) (Ok s) = Ok s' /\
    forall x, val s' x = chain its (val s x).
Proof.
  revert s. induction its as [|it its IH]; intros s H; cbn [map fold_left].
  - exists s. split; [reflexivity|]. reflexivity.
  - destruct (H it) as (r & Hr & He); [now left|]. cbn [bind]. unfold one_entry at 2. destruct (read_props it) as [-> Ei]. cbn [bind]. rewrite Ei, (find_range_ok rs it r Hr).
    destruct (apply_ok dmin dmax it r s He) as (s1 & -> & E1). destruct (IH s1) as (s2 & E2 & E3); [intros; apply H; now right|].
    exists s2. split; [exact E2|]. intros x. rewrite E3, E1. reflexivity.
Qed.
Lemma calc_ok dmin dmax rs its : (forall it, In it its -> exists r, range_for rs it r /\ encloses_zero it r) ->
  exists s, calcR dmin dmax rs its = Ok s /\ forall x, x * s_scale Rnum s + s_offset Rnum s = chain its x.
Proof.
  intros H. destruct (calc_fold dmin dmax rs its (res0 Rnum) H) as (s & E & K). exists s. split; [exact E|]. intros x.
  change (val s x = chain its x). rewrite K. f_equal. unfold val. cbn. ring.
Qed.
Lemma conv_ends i a b c d : a <> b -> conv (Ends i a b c d) a = c /\ conv (Ends i a b c d) b = d.
Proof. intros H. cbn [conv]. split; field; lra. Qed.

(** ** Ranges *)
Lemma narrow_ok s lo hi x : 0 < s_scale Rnum s ->
  s_min Rnum (narrow Rnum s lo hi) <= x <= s_max Rnum (narrow Rnum s lo hi) <-> (s_min Rnum s <= x <= s_max Rnum s /\ lo <= val s x <= hi).
Proof.
  intros Hs. unfold narrow, val. cbn -[Rdiv Rminus Rmult Rplus]. set (a := s_scale Rnum s) in *. set (b := s_offset Rnum s).
  assert (E1 : (lo - b) / a <= x <-> lo <= x * a + b).
  { split; intros H.
    - apply Rmult_le_compat_r with (r := a) in H; [|lra]. replace ((lo - b) / a * a) with (lo - b) in H by (field; lra). lra.
    - apply Rmult_le_reg_r with a; [lra|]. replace ((lo - b) / a * a) with (lo - b) by (field; lra). lra. }
  assert (E2 : x <= (hi - b) / a <-> x * a + b <= hi).
  { split; intros H.
    - apply Rmult_le_compat_r with (r := a) in H; [|lra]. replace ((hi - b) / a * a) with (hi - b) in H by (field; lra). lra.
    - apply Rmult_le_reg_r with a; [lra|]. replace ((hi - b) / a * a) with (hi - b) by (field; lra). lra. }
  rewrite <- E1, <- E2. generalize ((lo - b) / a) ((hi - b) / a). intros l h.
  destruct (Rlt_bool_spec (s_min Rnum s) l), (Rlt_bool_spec h (s_max Rnum s)); lra.
Qed.
Lemma range_fun rs it r r' : range_for rs it r -> range_for rs it r' -> r = r'.
Proof. intros (_ & _ & H) (H1 & H2 & _). symmetry. now apply H. Qed.

Lemma slope it r : encloses_zero it r -> rising it -> fst (scale_of Rnum (entry_of it) (fst (out_limits it r)) (snd (out_limits it r))) = match it with Ends _ a b c d => (d - c) / (b - a) | Direct _ s _ => s end.
Proof.
  destruct it as [i a b c d|i s o]; [|reflexivity]. unfold encloses_zero. generalize (out_limits (Ends i a b c d) r). intros [lo hi]. cbn [fst snd]. intros (Hab & Hcd & Hz & Hlt) _.
  unfold scale_of. cbn [entry_of e_direct e_minIn e_maxIn e_minOut e_maxOut Rnum nadd nsub nmul ndiv nabs nofZ fst].
  rewrite (Rabs_left1 lo), (Rabs_right hi) by lra. match goal with |- @eq _ ?x ?y => change (@eq R x y) end. field. repeat split; try lra.
  replace (_ - _ - _) with ((hi - lo) * (b - a)) by ring. apply Rmult_integral_contrapositive_currified; lra.
Qed.

Lemma apply_range dmin dmax it r s : encloses_zero it r -> rising it -> r_nolimit Rnum r = false -> 0 < s_scale Rnum s ->
  (s_first Rnum s = true -> forall x, val s x = x) ->
  exists s', apply_entry Rnum (fun _ => true) dmin dmax (entry_of it) r false s = Ok s' /\ 0 < s_scale Rnum s' /\ s_first Rnum s' = false /\
    (forall x, val s' x = conv it (val s x)) /\
    forall x, s_min Rnum s' <= x <= s_max Rnum s' <->
      ((s_first Rnum s = false -> s_min Rnum s <= x <= s_max Rnum s) /\ r_minIn Rnum r <= val s x <= r_maxIn Rnum r /\ r_minOut Rnum r <= conv it (val s x) <= r_maxOut Rnum r).
Proof.
  intros He Hr Hn Hs Hf. unfold apply_entry.
  assert (K : forall x, let '(sc, o) := scale_of Rnum (entry_of it) (fst (out_limits it r)) (snd (out_limits it r)) in x * sc + o = conv it x) by (intros; now apply scale_ok).
  pose proof (slope it r He Hr) as S.
  assert (Hp : 0 < fst (scale_of Rnum (entry_of it) (fst (out_limits it r)) (snd (out_limits it r)))) by (rewrite S; destruct it; exact Hr).
  unfold out_limits in K, Hp. rewrite Hn in K, Hp. cbn [fst snd] in K, Hp.
  destruct (scale_of Rnum (entry_of it) (r_minOut Rnum r) (r_maxOut Rnum r)) as [sc off]. cbn [fst] in Hp.
  set (s1 := if s_first Rnum s then _ else s).
  assert (A1 : s_scale Rnum s1 = s_scale Rnum s /\ s_offset Rnum s1 = s_offset Rnum s /\ s_first Rnum s1 = false /\
    s_min Rnum s1 = (if s_first Rnum s then r_minIn Rnum r else s_min Rnum s) /\ s_max Rnum s1 = (if s_first Rnum s then r_maxIn Rnum r else s_max Rnum s))
    by (unfold s1; destruct (s_first Rnum s) eqn:F; cbn; auto).
  clearbody s1. destruct A1 as (B1 & B2 & B3 & B4 & B5).
  set (s2 := narrow Rnum s1 (r_minIn Rnum r) (r_maxIn Rnum r)).
  assert (N2 : forall x, s_min Rnum s2 <= x <= s_max Rnum s2 <-> (s_min Rnum s1 <= x <= s_max Rnum s1 /\ r_minIn Rnum r <= val s1 x <= r_maxIn Rnum r)) by (intros; apply narrow_ok; lra).
  assert (C2 : s_scale Rnum s2 = s_scale Rnum s /\ s_offset Rnum s2 = s_offset Rnum s /\ s_first Rnum s2 = false) by (unfold s2, narrow; cbn; auto).
  clearbody s2. destruct C2 as (C1 & C2 & C3).
  set (s3 := {| s_scale := _; s_offset := _; s_min := _; s_max := _; s_first := _ |}).
  assert (V3 : forall x, val s3 x = conv it (val s x)).
  { intros x. rewrite <- K. unfold val, s3. cbn -[Rmult Rplus]. rewrite C1, C2. ring. }
  assert (P3 : 0 < s_scale Rnum s3) by (unfold s3; cbn -[Rmult]; rewrite C1; now apply Rmult_lt_0_compat).
  assert (M3 : s_min Rnum s3 = s_min Rnum s2 /\ s_max Rnum s3 = s_max Rnum s2 /\ s_first Rnum s3 = false) by (unfold s3; cbn; auto).
  clearbody s3. cbn [negb andb orb]. eexists. split; [reflexivity|].
  split; [unfold narrow; cbn; exact P3|]. split; [unfold narrow; cbn; apply M3|].
  split; [intros x; rewrite <- V3; reflexivity|].
  intros x. rewrite narrow_ok by exact P3. rewrite V3. destruct M3 as (-> & -> & _). rewrite N2, B4, B5.
  assert (V1 : val s1 x = val s x) by (unfold val; now rewrite B1, B2). rewrite V1.
  destruct (s_first Rnum s) eqn:F.
  - rewrite (Hf eq_refl x). intuition discriminate.
  - tauto.
Qed.

Lemma range_fold dmin dmax rs its s :
  (forall it, In it its -> exists r, range_for rs it r /\ encloses_zero it r /\ r_nolimit Rnum r = false /\ rising it) ->
  0 < s_scale Rnum s -> s_first Rnum s = false ->
  exists s', fold_left (fun o ps => bind o (fun s => one_entry Rnum (fun _ => true) dmin dmax rs s ps)) (map props_of its) (Ok s) = Ok s' /\
    forall x, s_min Rnum s' <= x <= s_max Rnum s' <-> (s_min Rnum s <= x <= s_max Rnum s /\ within rs its (val s x)).
Proof.
  revert s. induction its as [|it its IH]; intros s H Hs Hf; cbn [map fold_left within].
  - exists s. split; [reflexivity|]. tauto.
  - destruct (H it) as (r & Hr & He & Hn & Hu); [now left|]. cbn [bind]. unfold one_entry at 2. destruct (read_props it) as [-> Ei]. cbn [bind]. rewrite Ei, (find_range_ok rs it r Hr), Hn.
    destruct (apply_range dmin dmax it r s He Hu Hn Hs) as (s1 & -> & P1 & F1 & V1 & E1); [congruence|]. destruct (IH s1) as (s2 & E2 & E3); [intros; apply H; now right|exact P1|exact F1|].
    exists s2. split; [exact E2|]. intros x. rewrite E3, E1, V1. split.
    + intros ((A & B & C) & D). split; [now apply A|]. split; [|exact D]. intros r' Hr'. rewrite <- (range_fun rs it r r' Hr Hr'). tauto.
    + intros (A & B & C). specialize (B r Hr). tauto.
Qed.
Lemma range_ok dmin dmax rs its : its <> [] ->
  (forall it, In it its -> exists r, range_for rs it r /\ encloses_zero it r /\ r_nolimit Rnum r = false /\ rising it) ->
  exists s, calcR dmin dmax rs its = Ok s /\ forall x, s_min Rnum s <= x <= s_max Rnum s <-> within rs its x.
Proof.
  intros Hne H. destruct its as [|it its]; [congruence|]. unfold calcR, calc_scale. cbn [map fold_left within].
  destruct (H it) as (r & Hr & He & Hn & Hu); [now left|]. cbn [bind]. unfold one_entry at 2. destruct (read_props it) as [-> Ei]. cbn [bind]. rewrite Ei, (find_range_ok rs it r Hr), Hn.
  assert (V0 : forall x, val (res0 Rnum) x = x) by (intros; unfold val; cbn; ring).
  destruct (apply_range dmin dmax it r (res0 Rnum) He Hu Hn) as (s1 & -> & P1 & F1 & V1 & E1); [cbn; lra|auto|].
  destruct (range_fold dmin dmax rs its s1) as (s2 & E2 & E3); [intros; apply H; now right|exact P1|exact F1|].
  exists s2. split; [exact E2|]. intros x. rewrite E3, E1, V1, V0. cbn [s_first res0]. split.
  - intros ((A & B & C) & D). split; [|exact D]. intros r' Hr'. rewrite <- (range_fun rs it r r' Hr Hr'). tauto.
  - intros (B & C). specialize (B r Hr). split; [|exact C]. split; [discriminate|tauto].
Qed.

(** ** Faults *)
Lemma calc_unknown_prop T fin dmin dmax rs es ps : In ps es -> In (PUnknown T) ps ->
  forall s, calc_scale T fin dmin dmax rs es <> Ok s.
Proof.
  intros H Hp.
  assert (R : read_entry T ps = Fault).
  { unfold read_entry. revert Hp. generalize (entry0 T). induction ps as [|p ps IH]; intros e Hp; [destruct Hp|]. cbn [fold_left bind].
    assert (K : fold_left (fun o p => bind o (fun e => read_prop T e p)) ps Fault = Fault) by (clear; induction ps; [reflexivity|assumption]).
    destruct Hp as [->|Hp]; [exact K|]. destruct (read_prop T e p) eqn:E; [|exact K|destruct p; discriminate].
    clear H. revert v E. intros v _. clear K. revert v Hp. clear IH. induction ps as [|q ps IH]; intros v Hp; [destruct Hp|]. cbn [fold_left bind].
    assert (K : fold_left (fun o p => bind o (fun e => read_prop T e p)) ps Fault = Fault) by (clear; induction ps; [reflexivity|assumption]).
    destruct Hp as [->|Hp]; [exact K|]. destruct (read_prop T v q) eqn:E; [now apply IH|exact K|destruct q; discriminate]. }
  unfold calc_scale.
  assert (K : forall l o, o <> UB -> (forall s, o <> Ok s) -> forall s, fold_left (fun o ps => bind o (fun s => one_entry T fin dmin dmax rs s ps)) l o <> Ok s).
  { induction l as [|y l IH]; intros o U O s; cbn [fold_left]; [apply O|]. destruct o as [v| |]; [exfalso; now apply (O v)| |congruence]. now apply IH. }
  revert H. generalize (Ok (res0 T)) as o. induction es as [|q es IH]; intros o H s; [destruct H|]. cbn [fold_left].
  destruct H as [->|H]; [|now apply IH].
  assert (Q : forall l o, (forall s, o <> Ok s) -> forall s, fold_left (fun o ps => bind o (fun s => one_entry T fin dmin dmax rs s ps)) l o <> Ok s).
  { induction l as [|y l IHl]; intros o' O s'; cbn [fold_left]; [apply O|]. apply IHl. intros s''. destruct o' as [v| |]; [exfalso; now apply (O v)| |]; discriminate. }
  apply Q. intros s'. destruct o; [|discriminate|discriminate]. cbn [bind]. unfold one_entry. rewrite R. discriminate.
Qed.
Lemma calc_no_range T fin dmin dmax rs es ps e : In ps es -> read_entry T ps = Ok e -> (forall r, In r rs -> r_id T r <> e_id T e) ->
  forall s, calc_scale T fin dmin dmax rs es <> Ok s.
Proof.
  intros H Re Hr. unfold calc_scale.
  assert (F : find_range T rs (e_id T e) = (None, false)).
  { unfold find_range. assert (G : forall l acc, (forall r, In r l -> r_id T r <> e_id T e) -> fold_left (fun acc r => if String.eqb (r_id T r) (e_id T e) then (Some r, snd acc || r_nolimit T r) else acc) l acc = acc).
    { induction l as [|r l IH]; intros acc Hl; [reflexivity|]. cbn [fold_left]. destruct (String.eqb_spec (r_id T r) (e_id T e)) as [E|_]; [exfalso; apply (Hl r); [now left|exact E]|]. apply IH. intros; apply Hl; now right. }
    now apply G. }
  assert (Q : forall l o, (forall s, o <> Ok s) -> forall s, fold_left (fun o ps => bind o (fun s => one_entry T fin dmin dmax rs s ps)) l o <> Ok s).
  { induction l as [|y l IHl]; intros o' O s'; cbn [fold_left]; [apply O|]. apply IHl. intros s''. destruct o' as [v| |]; [exfalso; now apply (O v)| |]; discriminate. }
  revert H. generalize (Ok (res0 T)) as o. induction es as [|q es IH]; intros o H s; [destruct H|]. cbn [fold_left].
  destruct H as [->|H]; [|now apply IH]. apply Q. intros s'. destruct o; [|discriminate|discriminate]. cbn [bind]. unfold one_entry. rewrite Re. cbn [bind]. rewrite F. discriminate.
Qed.
Lemma calc_finite T fin dmin dmax rs es s : es <> nil -> calc_scale T fin dmin dmax rs es = Ok s ->
  fin (s_scale T s) = true /\ fin (s_offset T s) = true.
Proof.
  intros NE. destruct (exists_last NE) as (l & ps & ->). unfold calc_scale. rewrite fold_left_app. cbn [fold_left].
  generalize (fold_left (fun o ps => bind o (fun s => one_entry T fin dmin dmax rs s ps)) l (Ok (res0 T))). intros o.
  destruct o as [s0| |]; cbn [bind]; [|discriminate|discriminate]. unfold one_entry.
  destruct (read_entry T ps) as [e| |]; cbn [bind]; [|discriminate|discriminate].
  destruct (find_range T rs (e_id T e)) as [[r|] nolim]; [|discriminate]. unfold apply_entry.
  destruct (if nolim then _ else _) as [[[a b] c] d]. destruct (scale_of T e c d) as [sc off].
  match goal with |- (if ?q then _ else if ?p then _ else Ok ?x) = _ -> _ => destruct q; [discriminate|]; destruct p eqn:P; [discriminate|]; intros H; injection H as <- end.
  apply Bool.orb_false_iff in P. destruct P as [P1 P2]. apply Bool.negb_false_iff in P1, P2. now split.
Qed.
