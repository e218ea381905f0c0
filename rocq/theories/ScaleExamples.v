(** Concrete scale configurations. *)
From Coq Require Import String Reals Lra SpecFloat.
From Flocq Require Import Core.
From Verif Require Import Prelude Num ScaleModel ScaleSpec ScaleProofs.
Open Scope R_scope.

Definition rg (i : string) (nl : bool) (a b c d : R) : range Rnum := Build_range Rnum i nl a b c d.

(** 0..10 V stand for 1..11: the output range 1..11 does not contain zero. *)
Definition off_range := [rg "a" false 0 10 1 11].
Definition off_item := [Ends "a" 0 10 1 11].
Lemma off_wrong dmin dmax : exists s, calcR dmin dmax off_range off_item = Ok s /\ 0 * s_scale Rnum s + s_offset Rnum s <> 1.
Proof.
  unfold calcR, calc_scale, off_range, off_item, rg. cbn -[Rdiv Rmult Rplus Rminus Rabs Rlt_bool apply_entry]. unfold apply_entry.
  cbn -[Rdiv Rmult Rplus Rminus Rabs Rlt_bool]. eexists. split; [reflexivity|]. cbn -[Rdiv Rmult Rplus Rminus Rabs Rlt_bool].
  rewrite (Rabs_right 1), (Rabs_right 11) by lra. intros H. match type of H with ?l = _ => replace l with (17 / 5) in H by (field; lra) end. lra.
Qed.
(** Sign reversal: the range comes out empty although 0..10 is allowed. *)
Definition neg_range := [rg "a" false 0 10 (-10) 0].
Definition neg_item := [Direct "a" (-1) 0].
Lemma neg_empty dmin dmax : exists s, calcR dmin dmax neg_range neg_item = Ok s /\ s_min Rnum s = 10 /\ s_max Rnum s = 0.
Proof.
  unfold calcR, calc_scale, neg_range, neg_item, rg. cbn -[Rdiv Rmult Rplus Rminus Rabs Rlt_bool apply_entry]. unfold apply_entry.
  cbn -[Rdiv Rmult Rplus Rminus Rabs Rlt_bool]. eexists. split; [reflexivity|]. cbn -[Rdiv Rmult Rplus Rminus Rabs Rlt_bool].
  rewrite (Rlt_bool_false 0 ((0 - 0) / 1)), (Rlt_bool_false ((10 - 0) / 1) 10) by lra.
  replace ((-10 - (0 * -1 + 0)) / (1 * -1)) with 10 by (field; lra). replace ((0 - (0 * -1 + 0)) / (1 * -1)) with 0 by (field; lra).
  rewrite !Rlt_bool_true by lra. split; reflexivity.
Qed.
Lemma neg_within : within neg_range neg_item 5.
Proof.
  cbn [within neg_item conv]. split; [|exact I]. intros r (H & _ & _). cbn [neg_range In] in H. destruct H as [<-|[]]. unfold rg. cbn [r_minIn r_maxIn r_minOut r_maxOut]. lra.
Qed.
(** A range without limit: numeric_limits<double>::min() is not the most negative number. *)
Definition two_ranges := [rg "a" false (-10) 10 (-10) 10; rg "b" true 0 0 0 0].
Definition two_items := [Direct "a" 1 0; Direct "b" 1 0].
Lemma two_discards dmin dmax : exists s, calcR dmin dmax two_ranges two_items = Ok s /\ s_min Rnum s = dmin /\ s_max Rnum s = dmax.
Proof.
  unfold calcR, calc_scale, two_ranges, two_items, rg. cbn -[Rdiv Rmult Rplus Rminus Rabs Rlt_bool apply_entry]. unfold apply_entry.
  cbn -[Rdiv Rmult Rplus Rminus Rabs Rlt_bool]. eexists. split; [reflexivity|]. split; reflexivity.
Qed.

(** A correct chain: 4..20 to 0..16, then doubled. *)
Definition good_ranges := [rg "a" false 4 20 0 16; rg "b" false (-20) 20 (-30) 30].
Definition good_items := [Ends "a" 4 20 0 16; Direct "b" 2 0].
Lemma good_ok : forall it, In it good_items -> exists r, range_for good_ranges it r /\ encloses_zero it r /\ r_nolimit Rnum r = false /\ rising it.
Proof.
  intros it [<-|[<-|[]]].
  - exists (rg "a" false 4 20 0 16). split; [|split; [|split]]; [| |reflexivity|].
    + split; [now left|]. split; [reflexivity|]. intros r' [<-|[<-|[]]] E; [reflexivity|discriminate].
    + unfold encloses_zero, out_limits, rg. cbn [r_nolimit r_minOut r_maxOut fst snd]. lra.
    + cbn [rising]. lra.
  - exists (rg "b" false (-20) 20 (-30) 30). split; [|split; [|split]]; [|exact I|reflexivity|cbn [rising]; lra].
    split; [right; now left|]. split; [reflexivity|]. intros r' [<-|[<-|[]]] E; [discriminate|reflexivity].
Qed.
Lemma good_chain : chain good_items 12 = 16.
Proof. unfold chain, good_items. cbn [fold_left conv]. field. Qed.

(** Doubles: the first configuration gives offset 3.4. *)
Definition dfinite (x : dbl) : bool := match x with S754_zero _ | S754_finite _ _ _ => true | _ => false end.
Lemma off_dbl : match calc_scale Dnum dfinite (dofZ 0) (dofZ 0) [Build_range Dnum "a" false (dofZ 0) (dofZ 10) (dofZ 1) (dofZ 11)]
    [[PId Dnum "a"; PMinIn Dnum (dofZ 0); PMaxIn Dnum (dofZ 10); PMinOut Dnum (dofZ 1); PMaxOut Dnum (dofZ 11)]] with
  | Ok s => nltb Dnum (dofZ 3) (s_offset Dnum s) | _ => false end = true.
Proof. vm_compute. reflexivity. Qed.
(** Division by zero in the configuration (equal end points) is caught. *)
Lemma flat_dbl : match calc_scale Dnum dfinite (dofZ 0) (dofZ 0) [Build_range Dnum "a" false (dofZ 0) (dofZ 10) (dofZ 0) (dofZ 10)]
    [[PId Dnum "a"; PMinIn Dnum (dofZ 1); PMaxIn Dnum (dofZ 1); PMinOut Dnum (dofZ 0); PMaxOut Dnum (dofZ 10)]] with
  | Fault => true | _ => false end = true.
Proof. vm_compute. reflexivity. Qed.
