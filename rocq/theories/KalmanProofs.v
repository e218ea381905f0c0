(** Witness: with five outputs a correction of the Kalman filter leaves a covariance that is not symmetric. *)
From Coq Require Import ZArith List.
From Verif Require Import Prelude Num NumDbl MatModel KalmanModel ZProofs.
Import ListNotations.
Open Scope nat_scope.
Definition eyeD (n : nat) : mem Dnum := fun i => if Nat.eqb (i / n) (i mod n) then dz 1 else dz 0.
Definition zeroD : mem Dnum := fun _ => dz 0.
(** 5 by 2, column major: rows (1,0) (0,1) (0,0) (1,0) (1,0) *)
Definition cD : mem Dnum := fun i => nth i [dz 1; dz 0; dz 0; dz 1; dz 1; dz 0; dz 1; dz 0; dz 0; dz 0] (dz 0).
(** The history: constructed with identity covariance and noises, then two corrections (the first one only starts the filter) *)
Definition history (g : mem Dnum) : outcome (state Dnum) :=
  bind (construct Dnum 2 2 g (eyeD 2) zeroD cD zeroD (eyeD 2) (eyeD 2) (eyeD 5) (eyeD 2) zeroD) (fun p =>
    run Dnum 1 5 2 g (fst p) [Correct zeroD zeroD; Correct zeroD zeroD] (snd p)).
Definition entries (o : outcome (state Dnum)) : option (list (Dnum : Type)) := match o with Ok s => Some (map (k_P s) [0; 1; 2; 3]) | _ => None end.
Definition eighth : Dnum := SpecFloat.S754_finite false 4503599627370496 (-55).
Lemma history_value : entries (history (eyeD 4)) = Some [dz 1; eighth; dz 0; SpecFloat.S754_finite false 7881299347898368 (-53)].
Proof. vm_compute. reflexivity. Qed.
Lemma entries_ok o l : entries o = Some l -> exists s, o = Ok s /\ map (k_P s) [0; 1; 2; 3] = l.
Proof. destruct o as [s| |]; cbn [entries]; intro H; [|discriminate H|discriminate H]. exists s. split; [reflexivity|]. exact (f_equal (fun x => match x with Some y => y | None => l end) H). Qed.
Lemma not_symmetric : exists g s, history g = Ok s /\ k_P s 1 <> k_P s 2.
Proof.
  destruct (entries_ok _ _ history_value) as (s & E & H). exists (eyeD 4), s. split; [exact E|]. clear E.
  assert (H1 : k_P s 1 = eighth) by exact (f_equal (fun l => nth 1 l (dz 0)) H). assert (H2 : k_P s 2 = dz 0) by exact (f_equal (fun l => nth 2 l (dz 0)) H).
  rewrite H1, H2. intro Q. vm_compute in Q. discriminate Q.
Qed.
(** With zeros in that memory the covariance does not change at all: the measurements are ignored. *)
Lemma ignored : entries (history zeroD) = Some [dz 1; dz 0; dz 0; dz 1].
Proof. vm_compute. reflexivity. Qed.
Lemma correct_example : exists s', correction Dnum 1 1 2 (fun _ => dz 0) (Build_filter Dnum (eyeD 2) zeroD (eyeD 2) zeroD zeroD (eyeD 1)) (fun _ => dz 4) zeroD (Build_state Dnum zeroD (eyeD 2) false) = Ok s' /\ k_x s' 0 = dz 2.
Proof.
  assert (H : match correction Dnum 1 1 2 (fun _ => dz 0) (Build_filter Dnum (eyeD 2) zeroD (eyeD 2) zeroD zeroD (eyeD 1)) (fun _ => dz 4) zeroD (Build_state Dnum zeroD (eyeD 2) false) with Ok s' => Some (k_x s' 0) | _ => None end = Some (dz 2)) by (vm_compute; reflexivity).
  destruct (correction Dnum 1 1 2 _ _ _ _ _) as [s'| |]; [|discriminate H|discriminate H]. exists s'. split; [reflexivity|]. exact (f_equal (fun x => match x with Some y => y | None => dz 0 end) H).
Qed.
Lemma not_symmetric_full : exists (g : mem Dnum) (s : state Dnum),
  bind (construct Dnum 2 2 g (eyeD 2) zeroD cD zeroD (eyeD 2) (eyeD 2) (eyeD 5) (eyeD 2) zeroD) (fun p => run Dnum 1 5 2 g (fst p) [Correct zeroD zeroD; Correct zeroD zeroD] (snd p)) = Ok s /\
  k_P s 1 <> k_P s 2.
Proof. generalize not_symmetric. unfold history. exact (fun H => H). Qed.
