(** Analog terminals over binary64 numbers. *)
From Coq Require Import Reals Lra Floats.SpecFloat.
From Flocq Require Import Core.Raux.
From Verif Require Import Prelude Num NumOrd NumDbl NumDbl2 BusModel BusSpec.
Open Scope Z_scope.

Definition lsb4004 : Dnum := dlit 32767 10.
Definition d10 : Dnum := dofZ 10.
Definition d0 : Dnum := dofZ 0.
Definition clamp10 (v : Dnum) : Dnum :=
  let v := if nltb Dnum v d0 then d0 else v in if nltb Dnum d10 v then d10 else v.

Lemma lsb_facts : dvalid lsb4004 /\ dfin lsb4004 /\ SFleb (S754_zero false) lsb4004 = true.
Proof. split; [reflexivity|]. split; [exact I|reflexivity]. Qed.
Lemma d10_facts : dvalid d10 /\ dfin d10 /\ dfin (nmul Dnum d10 lsb4004) /\ ntrunc Dnum (nmul Dnum d10 lsb4004) = Some 32767.
Proof. split; [reflexivity|]. split; [exact I|]. split; [exact I|reflexivity]. Qed.

Lemma clamp_facts v : dvalid v -> v <> S754_nan ->
  dvalid (clamp10 v) /\ dfin (clamp10 v) /\ SFleb d0 (clamp10 v) = true /\ SFleb (clamp10 v) d10 = true.
Proof.
  intros V H. unfold clamp10.
  assert (O0 : Dok d0) by discriminate. assert (O1 : Dok d10) by discriminate.
  destruct (nltb Dnum v d0) eqn:E1.
  - assert (nltb Dnum d10 d0 = false) as -> by reflexivity. split; [reflexivity|]. split; [exact I|]. split; reflexivity.
  - destruct (nltb Dnum d10 v) eqn:E2.
    + split; [reflexivity|]. split; [exact I|]. split; reflexivity.
    + pose proof (ol_nlt_le Dnum_ord v d0 H O0 E1) as A. pose proof (ol_nlt_le Dnum_ord d10 v O1 H E2) as B.
      split; [exact V|]. split; [|split; assumption].
      destruct v as [s|[]| |s m e]; try exact I; try discriminate; congruence.
Qed.
Lemma clamp_mono v w : v <> S754_nan -> w <> S754_nan -> SFleb v w = true -> SFleb (clamp10 v) (clamp10 w) = true.
Proof.
  intros Hv Hw L. unfold clamp10.
  assert (O0 : Dok d0) by discriminate. assert (O1 : Dok d10) by discriminate.
  destruct (nltb Dnum v d0) eqn:E1.
  - assert (nltb Dnum d10 d0 = false) as -> by reflexivity.
    destruct (nltb Dnum w d0) eqn:E2; [reflexivity|].
    destruct (nltb Dnum d10 w); [reflexivity|]. apply (ol_nlt_le Dnum_ord w d0 Hw O0 E2).
  - assert (nltb Dnum w d0 = false) as ->.
    { destruct (nltb Dnum w d0) eqn:E; [exfalso|reflexivity].
      pose proof (ol_nlt_le Dnum_ord v d0 Hv O0 E1) as A.
      pose proof (ol_le_trans Dnum_ord d0 v w A L) as B. apply (ol_le_nlt Dnum_ord) in B. congruence. }
    destruct (nltb Dnum d10 v) eqn:E3.
    + assert (nltb Dnum d10 w = true) as ->; [|reflexivity].
      destruct (nltb Dnum d10 w) eqn:E; [reflexivity|exfalso].
      pose proof (ol_nlt_le Dnum_ord d10 w O1 Hw E) as A.
      pose proof (ol_le_trans Dnum_ord v w d10 L A) as B. apply (ol_le_nlt Dnum_ord) in B. congruence.
    + destruct (nltb Dnum d10 w); [|exact L]. apply (ol_nlt_le Dnum_ord d10 v O1 Hv E3).
Qed.

Lemma conv_clamp v : el4004_conv Dnum lsb4004 v = to_i16 Dnum (nmul Dnum (clamp10 v) lsb4004).
Proof. reflexivity. Qed.

Theorem el4004_range (v : Dnum) : dvalid v -> v <> S754_nan -> exists z, el4004_conv Dnum (dlit 32767 10) v = Ok z /\ 0 <= z <= 32767.
Proof.
  intros V H. destruct (clamp_facts v V H) as (C1 & C2 & C3 & C4). destruct lsb_facts as (L1 & L2 & L3). destruct d10_facts as (D1 & D2 & D3 & D4).
  destruct (dmul_mono (clamp10 v) d10 lsb4004 C1 D1 L1 C2 D2 L2 C3 C4 L3 D3) as (_ & _ & _ & a & b & A & B & R).
  rewrite D4 in B. injection B as <-. fold lsb4004. rewrite conv_clamp. unfold to_i16. rewrite A. exists a. split; [|lia].
  destruct (Z.leb_spec (-32768) a); [|lia]. destruct (Z.leb_spec a 32767); [reflexivity|lia].
Qed.
Theorem el4004_mono (v w : Dnum) : dvalid v -> dvalid w -> nleb Dnum v w = true ->
  exists a b, el4004_conv Dnum (dlit 32767 10) v = Ok a /\ el4004_conv Dnum (dlit 32767 10) w = Ok b /\ a <= b.
Proof.
  intros V W L. destruct (ol_le_ok _ _ Dnum_ord _ _ L) as [Hv Hw].
  destruct (clamp_facts v V Hv) as (C1 & C2 & C3 & C4). destruct (clamp_facts w W Hw) as (W1 & W2 & W3 & W4).
  destruct lsb_facts as (L1 & L2 & L3). destruct d10_facts as (D1 & D2 & D3 & D4).
  destruct (dmul_mono (clamp10 w) d10 lsb4004 W1 D1 L1 W2 D2 L2 W3 W4 L3 D3) as (F & _ & _ & a' & b' & A' & B' & R').
  rewrite D4 in B'. injection B' as <-.
  destruct (dmul_mono (clamp10 v) (clamp10 w) lsb4004 C1 W1 L1 C2 W2 L2 C3 (clamp_mono v w Hv Hw L) L3 F) as (_ & _ & _ & a & b & A & B & R).
  rewrite A' in B. injection B as <-.
  exists a, a'. fold lsb4004. rewrite !conv_clamp. unfold to_i16. rewrite A, A'.
  destruct (Z.leb_spec (-32768) a); [|lia]. destruct (Z.leb_spec a 32767); [|lia].
  destruct (Z.leb_spec (-32768) a'); [|lia]. destruct (Z.leb_spec a' 32767); [|lia]. split; [reflexivity|]. split; [reflexivity|lia].
Qed.
Lemma el4004_ends : el4004_conv Dnum (dlit 32767 10) (dofZ 0) = Ok 0 /\ el4004_conv Dnum (dlit 32767 10) (dofZ 10) = Ok 32767.
Proof. split; reflexivity. Qed.
Lemma el4004_nan : exists v : Dnum, dvalid v /\ el4004_conv Dnum (dlit 32767 10) v = UB.
Proof. exists S754_nan. split; reflexivity. Qed.

(** Real arithmetic: range of the input terminal, and accuracy of an output wired to an input. *)
Open Scope R_scope.
Theorem el3004_range (raw : Z) : (-32768 <= raw <= 32767)%Z -> -10 <= el3004_conv Rnum (32768 / 10) raw < 10.
Proof.
  intros [A B]. unfold el3004_conv. cbn [ndiv nofZ Rnum]. apply IZR_le in A, B. split.
  - apply Rmult_le_reg_r with (32768 / 10); [lra|]. unfold Rdiv. rewrite Rmult_assoc, Rinv_l by lra. lra.
  - apply Rmult_lt_reg_r with (32768 / 10); [lra|]. unfold Rdiv. rewrite Rmult_assoc, Rinv_l by lra. lra.
Qed.
Theorem el_loop (v : R) : 0 <= v <= 10 -> exists z, el4004_conv Rnum (32767 / 10) v = Ok z /\ (0 <= z <= 32767)%Z /\
  0 <= v - el3004_conv Rnum (32768 / 10) z < 1 / 1600.
Proof.
  intros H. unfold el4004_conv. cbn [nltb nofZ Rnum nmul].
  rewrite (Rlt_bool_false v 0) by lra. rewrite (Rlt_bool_false 10 v) by lra. unfold to_i16. cbn [ntrunc Rnum].
  rewrite Ztrunc_floor by lra. set (z := Zfloor (v * (32767 / 10))).
  assert (A : IZR z <= v * (32767 / 10)) by apply Zfloor_lb. assert (B : v * (32767 / 10) < IZR z + 1) by apply Zfloor_ub.
  assert (Z1 : (0 <= z)%Z). { apply Zfloor_lub. lra. }
  assert (Z2 : (z <= 32767)%Z). { apply le_IZR. lra. }
  exists z. destruct (Z.leb_spec (-32768) z); [|lia]. destruct (Z.leb_spec z 32767); [|lia]. split; [reflexivity|]. split; [lia|].
  unfold el3004_conv. cbn [ndiv nofZ Rnum]. apply (IZR_le 0) in Z1.
  assert (E : IZR z = IZR z / (32768 / 10) * (32768 / 10)) by (field; lra). set (q := IZR z / (32768 / 10)) in *. split; lra.
Qed.

(** C144 *)
Lemma elmo_calls (m : elmo_mode) (pos vel tor tmax v : Z) :
  (In (TargetPosition v) (elmo_run m pos vel tor tmax) <-> m = ProfilePosition /\ v = pos) /\
  (In (TargetVelocity v) (elmo_run m pos vel tor tmax) <-> m = ProfileVelocity /\ v = vel) /\
  (In (TargetTorque v) (elmo_run m pos vel tor tmax) <-> m = ProfileTorque /\ v = tor) /\
  (In (MaximumTorque v) (elmo_run m pos vel tor tmax) <-> m <> OtherMode /\ v = tmax).
Proof.
  destruct m; cbn; (split; [|split; [|split]]); split; intros H;
    repeat match goal with
    | H : _ \/ _ |- _ => destruct H
    | H : _ /\ _ |- _ => destruct H
    | H : False |- _ => destruct H
    | H : _ = _ |- _ => discriminate H
    end; subst; auto; try congruence;
    try (injection H as <-; split; [try reflexivity; discriminate|reflexivity]); try (exfalso; congruence);
    split; congruence.
Qed.
