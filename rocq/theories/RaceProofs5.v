(** * Which members of the blocks are safe to use from several threads *)
From Coq Require Import List String Bool Arith Lia.
From Verif Require Import RaceModel RaceSpec RaceProofs RaceProofs2 RaceProofs3 RaceProofs4.
Import ListNotations.
Local Open Scope string_scope.
Local Open Scope list_scope.
Local Open Scope nat_scope.

(** ** The check, piece by piece *)
Section Ok.
Variable once : bool.
Variable o : obj.
Variable xs : list string.
Definition ok1 (rb b d : bool) (c : cmd) : Prop :=
  lk once o xs rb b d c = Some None \/ lk once o xs rb b d c = Some (Some (b, d)).

Lemma ok_skip rb b d : ok1 rb b d Skip.
Proof. now right. Qed.
Lemma ok_throw b d : ok1 b b d Throw.
Proof. left. cbn. now rewrite Bool.eqb_reflx. Qed.
Lemma ok_sq rb b d a c : ok1 rb b d a -> ok1 rb b d c -> ok1 rb b d (Sq a c).
Proof. unfold ok1. cbn [lk]. intros [E|E] F; rewrite E; auto. Qed.
Lemma ok_alt rb b d a c : ok1 rb b d a -> ok1 rb b d c -> ok1 rb b d (Alt a c).
Proof.
  unfold ok1. cbn [lk]. intros [E|E] [F|F]; rewrite E, F; cbn; auto. rewrite Bool.eqb_reflx.
  destruct d; auto.
Qed.
Lemma ok_rep rb b d a : ok1 rb b d a -> ok1 rb b d (Rep a).
Proof. unfold ok1. cbn [lk]. intros [E|E]; rewrite E; auto. rewrite !Bool.eqb_reflx. auto. Qed.
Lemma ok_seq rb b d l : (forall c, In c l -> ok1 rb b d c) -> ok1 rb b d (seq l).
Proof.
  induction l as [|c l IH]; intros F; [now right|]. cbn [seq fold_right].
  apply ok_sq; [apply F; now left|]. apply IH. intros; apply F; now right.
Qed.
Lemma ok_map {A} rb b d (f : A -> cmd) l : (forall a, ok1 rb b d (f a)) -> ok1 rb b d (seq (map f l)).
Proof. intros F. apply ok_seq. intros c H. apply in_map_iff in H. destruct H as (a & <- & _). auto. Qed.
Lemma ok_rd rb d x : ok1 rb true d (Rd x).
Proof. unfold ok1. cbn [lk]. unfold acc_ok. cbn. rewrite andb_false_r. auto. Qed.
Lemma ok_wr rb d x : ok1 rb true d (Wr x).
Proof. unfold ok1. cbn [lk]. unfold acc_ok. cbn. rewrite andb_false_r. auto. Qed.
Lemma ok_rd_un rb b d o' x : existsb (String.eqb x) xs = false -> ok1 rb b d (Rd (o', x)).
Proof. intros E. unfold ok1. cbn [lk]. unfold acc_ok, prot. cbn [fst snd]. rewrite E, andb_false_r. auto. Qed.
Lemma ok_wr_un rb b d o' x : existsb (String.eqb x) xs = false -> ok1 rb b d (Wr (o', x)).
Proof. intros E. unfold ok1. cbn [lk]. unfold acc_ok, prot. cbn [fst snd]. rewrite E, andb_false_r. auto. Qed.
Lemma ok_lk rb b d m : m <> o -> ok1 rb b d (Lk m).
Proof. intros N. unfold ok1. cbn [lk]. destruct (Nat.eqb_spec m o); [congruence|auto]. Qed.
Lemma ok_un rb b d m : m <> o -> ok1 rb b d (Un m).
Proof. intros N. unfold ok1. cbn [lk]. destruct (Nat.eqb_spec m o); [congruence|auto]. Qed.
Lemma ok_guard a : ok1 true true once a -> meth_ok once o xs (Guard o a) = true.
Proof. unfold ok1, meth_ok. cbn [lk]. rewrite Nat.eqb_refl. cbn. intros [E|E]; rewrite E; auto. Qed.
Lemma ok_guard_in a : once = false -> ok1 true true once a -> ok1 false false false (Guard o a).
Proof.
  unfold ok1. cbn [lk]. rewrite Nat.eqb_refl. cbn. intros O [E|E]; rewrite E; auto. rewrite O. auto.
Qed.
Lemma ok_meth c : ok1 false false false c -> meth_ok once o xs c = true.
Proof. unfold ok1, meth_ok. intros [E|E]; rewrite E; auto. Qed.
(** lock, a body that does not raise, unlock, the rest *)
Lemma ok_lock l k : (forall c, In c l -> lk once o xs false true once c = Some (Some (true, once))) ->
  ok1 false false once (seq k) ->
  lk once o xs false false false (seq (Lk o :: l ++ Un o :: k)) = Some None \/
  lk once o xs false false false (seq (Lk o :: l ++ Un o :: k)) = Some (Some (false, once)).
Proof.
  intros F K. cbn [seq fold_right app lk]. rewrite Nat.eqb_refl. cbn [orb].
  change (fold_right Sq Skip (l ++ Un o :: k)) with (seq (l ++ Un o :: k)).
  assert (E : lk once o xs false true once (seq (l ++ Un o :: k)) = lk once o xs false false once (seq k)).
  { induction l as [|c l IH].
    - cbn [app seq fold_right lk]. now rewrite Nat.eqb_refl.
    - cbn [app seq fold_right lk]. rewrite (F c (or_introl eq_refl)). apply IH.
      intros; apply F; now right. }
  rewrite E. exact K.
Qed.
Lemma ok_lock_meth l k : (forall c, In c l -> lk once o xs false true once c = Some (Some (true, once))) ->
  ok1 false false once (seq k) ->
  meth_ok once o xs (seq (Lk o :: l ++ Un o :: k)) = true.
Proof. intros F K. unfold meth_ok. destruct (ok_lock l k F K) as [E|E]; rewrite E; auto. Qed.
End Ok.

Lemma ok_inv_ once o xs d src : ok1 once o xs true true d (in_v src).
Proof. destruct src; [apply ok_rd|apply ok_throw]. Qed.
Lemma ok_int once o xs d src : ok1 once o xs true true d (in_t src).
Proof. destruct src; [apply ok_rd|apply ok_throw]. Qed.
Lemma ok_int_un once o xs d src : existsb (String.eqb "out.timestamp") xs = false ->
  ok1 once o xs false false d (in_t src).
Proof. intros E. destruct src; [now apply ok_rd_un|apply ok_throw]. Qed.

Ltac okk := repeat first
  [ apply ok_skip | apply ok_throw | apply ok_rd | apply ok_wr
  | (apply ok_rd_un; reflexivity) | (apply ok_wr_un; reflexivity)
  | (apply ok_lk; congruence) | (apply ok_un; congruence)
  | apply ok_inv_ | apply ok_int | (apply ok_int_un; reflexivity)
  | apply ok_sq | apply ok_alt | apply ok_rep
  | (apply ok_guard_in; [reflexivity|])
  | (apply ok_seq; eachin) | (apply ok_map; intros) ].

Ltac ms := match goal with |- forallb _ ?l = true => let l' := eval hnf in l in change l with l' end;
  cbn [forallb]; repeat (apply andb_true_iff; split); try reflexivity.
Ltac rf := intros; first [apply race_free_ok | apply call_atomic_ok];
  apply forallb_forall; cbn [In sc_methods i_methods g_methods rl_methods sa_methods wa_methods
     sp_methods sw_methods pp_methods so_methods]; eachin;
  first [ (apply ok_guard; okk; fail) | (apply ok_meth; okk; fail) | idtac ].

Definition sc_members := ["lowerLimit"; "upperLimit"; "fired"; "safetySystem"; "safetyEvent";
                          "activeLevel"; "offRange"].

Lemma sc_race_free o src : o <> 0 -> race_free o (sc_methods o src) sc_members.
Proof. rf. Qed.

Lemma sc_atomic o src : o <> 0 -> call_atomic o (sc_methods o src) sc_members.
Proof. rf. Qed.

Definition g_members := ["gain"; "maxGain"; "minGain"; "targetGain"; "gainDiff"; "parabolicSwitchPoint"].

Lemma g_race_free o src : o <> 0 -> race_free o (g_methods o src) g_members.
Proof. rf. Qed.
Lemma g_atomic o src : o <> 0 -> call_atomic o (g_methods o src) g_members.
Proof. rf. Qed.

Lemma ct_race_free o : o <> 0 -> race_free o [ct_run o; ct_setValue o] ["value"].
Proof. rf. Qed.

Lemma i_race_free o src : o <> 0 ->
  race_free o (i_methods o src) ["first"; "prev.timestamp"; "safetySystem"; "activeLevel"].
Proof. rf. Qed.

Lemma rl_race_free o src : o <> 0 ->
  race_free o (rl_methods o src) ["fallingRate"; "risingRate"; "outPrev"].
Proof. rf. Qed.
Lemma rl_atomic o src : o <> 0 ->
  call_atomic o (rl_methods o src) ["fallingRate"; "risingRate"; "outPrev"].
Proof. rf. Qed.

Lemma wa_race_free o src : o <> 0 -> race_free o (wa_methods o src) ["minVal"; "maxVal"].
Proof. rf. Qed.
Lemma wa_atomic o src : o <> 0 -> call_atomic o (wa_methods o src) ["minVal"; "maxVal"].
Proof. rf. Qed.

Lemma po_race_free o hw src : o <> 0 -> race_free o [po_run o hw src; po_getValue o] ["val"].
Proof. rf. Qed.
Lemma po_atomic o hw src : o <> 0 -> call_atomic o [po_run o hw src; po_getValue o] ["val"].
Proof. rf. Qed.

Lemma pp_race_free o : o <> 0 -> race_free o (pp_methods o) ["t"; "range"].
Proof. rf. Qed.

Lemma rb_race_free o : o <> 0 -> race_free o [rb_push o; rb_pop o] ["len"; "tail"; "items"].
Proof. rf. Qed.
Lemma rb_atomic o : o <> 0 -> call_atomic o [rb_push o; rb_pop o] ["len"; "tail"; "items"].
Proof. rf. Qed.

Lemma so_race_free o : o <> 0 -> race_free o (so_methods o) ["txBuf"].
Proof. rf. Qed.
Lemma so_atomic o : o <> 0 -> call_atomic o [so_setSendBuffer o] ["txBuf"].
Proof. rf. Qed.

(** *** Transition with a connected input *)
Lemma sq_meth once o xs a c : ok1 once o xs false false false a -> meth_ok once o xs c = true ->
  meth_ok once o xs (Sq a c) = true.
Proof. unfold ok1, meth_ok. cbn [lk]. intros [E|E] F; rewrite E; auto. Qed.
Ltac trl := cbn [lk in_sig in_v in_t]; unfold acc_ok; cbn; rewrite ?andb_false_r; reflexivity.
Definition tr_calls (o b src : obj) : list cmd :=
  [tr_in_steady o (Some src); tr_out_steady o b].
Lemma tr_steady_race_free o b src : o <> 0 -> race_free o (tr_calls o b src) ["in"].
Proof.
  rf.
  - apply (ok_lock_meth _ o ["in"] [in_sig (Some src); Wr (o, "in")] []); [eachin; trl|okk].
  - apply (ok_lock_meth _ o ["in"] [Rd (o, "in"); Wr (v b); Rd (o, "in"); Wr (ts b)] []);
      [eachin; trl|okk].
Qed.
Lemma tr_steady_atomic o b src : o <> 0 -> call_atomic o (tr_calls o b src) ["in"].
Proof.
  rf.
  - apply (ok_lock_meth _ o ["in"] [in_sig (Some src); Wr (o, "in")] []); [eachin; trl|okk].
  - apply (ok_lock_meth _ o ["in"] [Rd (o, "in"); Wr (v b); Rd (o, "in"); Wr (ts b)] []);
      [eachin; trl|okk].
Qed.
Lemma tr_out_up_ok once o b xs : existsb (String.eqb "refresh") xs = false ->
  existsb (String.eqb "out.value") xs = false -> existsb (String.eqb "out.timestamp") xs = false ->
  meth_ok once o xs (tr_out_up o b) = true.
Proof.
  intros E1 E2 E3.
  assert (A : lk once o xs false false false
     (seq (Lk o :: [Rd (o, "prevIn"); Rd (o, "in"); Wr (o, "refresh")] ++ [Un o])) = Some (Some (false, once))).
  { destruct (ok_lock once o xs [Rd (o, "prevIn"); Rd (o, "in"); Wr (o, "refresh")] []) as [E|E].
    - eachin; trl.
    - now right.
    - exfalso. revert E. cbn. rewrite !Nat.eqb_refl. cbn. unfold acc_ok. cbn. rewrite !andb_false_r.
      discriminate.
    - exact E. }
  assert (B : ok1 once o xs false false once (seq [Wr (v b); Wr (ts b)])).
  { apply ok_seq; eachin; now apply ok_wr_un. }
  unfold meth_ok, tr_out_up, v, ts in *. cbn [app] in A.
  assert (C : acc_ok o xs (o, "refresh") false false = Some (Some (false, false))).
  { unfold acc_ok, prot. cbn [fst snd]. now rewrite E1, andb_false_r. }
  unfold seq at 1. cbn [fold_right]. cbn [lk]. rewrite C.
  change (Sq (Lk o) (Sq (Rd (o, "prevIn")) (Sq (Rd (o, "in")) (Sq (Wr (o, "refresh")) (Sq (Un o) Skip)))))
    with (seq [Lk o; Rd (o, "prevIn"); Rd (o, "in"); Wr (o, "refresh"); Un o]).
  rewrite A. cbn [join Bool.eqb orb].
  change (Sq (Wr (b, "out.value")) (Sq (Wr (b, "out.timestamp")) Skip))
    with (seq [Wr (b, "out.value"); Wr (b, "out.timestamp")]) in *.
  cbn [ok1 seq fold_right lk] in B. unfold ok1 in B. cbn [seq fold_right lk] in B.
  destruct B as [B|B]; rewrite B; reflexivity.
Qed.
Lemma tr_up_race_free o b src : o <> 0 ->
  race_free o [tr_in_up o (Some src); tr_out_up o b] ["in"; "prevIn"].
Proof.
  rf.
  - apply (ok_lock_meth _ o ["in"; "prevIn"] [Rd (o, "in"); Wr (o, "prevIn"); in_sig (Some src);
             Wr (o, "in"); Wr (o, "refresh")] []); [eachin; trl|okk].
  - now apply tr_out_up_ok.
Qed.
Lemma tr_up_atomic o b src : o <> 0 ->
  call_atomic o [tr_in_up o (Some src); tr_out_up o b] ["in"; "prevIn"].
Proof.
  rf.
  - apply (ok_lock_meth _ o ["in"; "prevIn"] [Rd (o, "in"); Wr (o, "prevIn"); in_sig (Some src);
             Wr (o, "in"); Wr (o, "refresh")] []); [eachin; trl|okk].
  - now apply tr_out_up_ok.
Qed.
Lemma tr_down_race_free o b src src' : o <> 0 ->
  race_free o [tr_in_down o (Some src); tr_out_down o b src'] ["buf"].
Proof.
  rf.
  - apply (ok_lock_meth _ o ["buf"] [in_sig (Some src); Wr (o, "buf")] []); [eachin; trl|okk].
  - unfold tr_out_down. cbn [seq fold_right]. apply sq_meth; [now apply ok_int_un|].
    apply (ok_lock_meth _ o ["buf"] [Rep (Rd (o, "buf")); Rd (o, "buf"); Wr (o, "buf")]
             [Wr (v b); Wr (ts b)]).
    + eachin; [|trl|trl]. cbn [lk]. unfold acc_ok. cbn [negb]. rewrite andb_false_r. reflexivity.
    + okk.
Qed.

(** *** Kalman filter *)
Definition kf_members := ["x"; "P"; "u"; "y"; "K"; "CPCTR"; "dy"; "first"].

Lemma kf_pred_ok once o xs us : meth_ok once o xs (kf_prediction o us) = true.
Proof. apply ok_guard. unfold kf_out. okk. Qed.
Lemma kf_corr_ok once o xs us ys : meth_ok once o xs (kf_correction o us ys) = true.
Proof. apply ok_guard. unfold kf_out. okk. Qed.

Lemma kf_race_free o us ys xs :
  race_free o [kf_prediction o us; kf_correction o us ys] xs.
Proof. apply race_free_ok. cbn [forallb]. now rewrite kf_pred_ok, kf_corr_ok. Qed.
Lemma kf_atomic o us ys xs :
  call_atomic o [kf_prediction o us; kf_correction o us ys] xs.
Proof. apply call_atomic_ok. cbn [forallb]. now rewrite kf_pred_ok, kf_corr_ok. Qed.
