(** The z transfer function block. *)
From Coq Require Import Reals.
From Verif Require Import Prelude Num MatModel MatProofs ZModel ZSpec.
Open Scope nat_scope.
Section Z.
Context (T : num).
Notation state := (state T).
Lemma sum_from n : forall k num den (s : state) pu py y, (forall i, k <= i < k + n -> z_in s (S i) = Some (pu i) /\ z_out s (S i) = Some (py i)) ->
  loop_from (S k) n (fun i y => bind (read T (z_in s) i) (fun u => bind (read T (z_out s) i) (fun w => Ok (nadd T y (nsub T (nmul T u (num i)) (nmul T w (den i))))))) y =
  Ok (fold_left (fun acc i => nadd T acc (nsub T (nmul T (pu i) (num (S i))) (nmul T (py i) (den (S i))))) (seq k n) y).
Proof.
  induction n as [|n IH]; intros k num den s pu py y H; [reflexivity|]. cbn [loop_from seq fold_left]. unfold read at 1 2. destruct (H k ltac:(lia)) as [-> ->]. cbn [bind].
  apply IH. intros i Hi. apply H. lia.
Qed.
Lemma shift_ok i : forall a b (s : state), (forall k, k + 1 < i -> z_in s k <> None /\ z_out s k <> None) ->
  exists s', shift T i (Some a) (Some b) s = Ok s' /\ forall k, k + 1 < i -> z_in s' (S k) = z_in s k /\ z_out s' (S k) = z_out s k.
Proof.
  assert (G : forall i a b (s : state), (forall k, k + 1 < i -> z_in s k <> None /\ z_out s k <> None) ->
    exists s', shift T i (Some a) (Some b) s = Ok s' /\ (forall k, k + 1 < i -> z_in s' (S k) = z_in s k /\ z_out s' (S k) = z_out s k) /\ (forall k, i <= k -> z_in s' k = z_in s k /\ z_out s' k = z_out s k)).
  { clear i. induction i as [|i IH]; intros a b s H; [exists s; split; [reflexivity|]; split; [intros k Hk; lia|auto]|].
    destruct i as [|i].
    - eexists. split; [reflexivity|]. cbn. split; [intros k Hk; lia|]. intros k Hk. unfold upd. destruct (Nat.eqb_spec k 0); [lia|auto].
    - cbn [shift]. unfold read. destruct (H i ltac:(lia)) as [Ha Hb]. destruct (z_in s i) as [x|] eqn:Ex; [|congruence]. destruct (z_out s i) as [y|] eqn:Ey; [|congruence]. cbn [bind].
      destruct (IH a b {| z_in := upd (z_in s) (S i) (Some x); z_out := upd (z_out s) (S i) (Some y) |}) as (s' & E & K1 & K2).
      + intros k Hk. cbn. unfold upd. destruct (Nat.eqb_spec k (S i)); [lia|]. apply H. lia.
      + exists s'. split; [exact E|]. cbn [z_in z_out] in *. split.
        * intros k Hk. destruct (Nat.eq_dec k i) as [->|Hne].
          -- destruct (K2 (S i) ltac:(lia)) as [-> ->]. unfold upd. rewrite Nat.eqb_refl, Ex, Ey. auto.
          -- destruct (K1 k ltac:(lia)) as [-> ->]. unfold upd. destruct (Nat.eqb_spec k (S i)); [lia|auto].
        * intros k Hk. destruct (K2 k ltac:(lia)) as [-> ->]. unfold upd. destruct (Nat.eqb_spec k (S i)); [lia|auto]. }
  intros a b s H. destruct (G i a b s H) as (s' & E & K & _). exists s'. auto.
Qed.
Lemma run_ok o num den ja jb (s : state) u pu py : holds T o s pu py ->
  exists s', run T (o + 1) num den (Some ja) (Some jb) s u = Ok (s', eval T o num den pu py u) /\ holds T o s' (push T u pu) (push T (eval T o num den pu py u) py).
Proof.
  intros H. unfold run, sum. replace (o + 1 - 1) with o by lia.
  set (s0 := {| z_in := upd (z_in s) 0 (Some u); z_out := z_out s |}).
  assert (H0 : forall i, 0 <= i < 0 + o -> z_in s0 (S i) = Some (pu i) /\ z_out s0 (S i) = Some (py i)) by (intros i Hi; cbn; unfold upd; cbn; apply H; lia).
  rewrite (sum_from o 0 num den s0 pu py _ H0). cbn [bind]. fold (eval T o num den pu py u).
  set (s1 := {| z_in := z_in s0; z_out := upd (z_out s0) 0 (Some (eval T o num den pu py u)) |}).
  destruct (shift_ok (o + 1) ja jb s1) as (s' & E & K).
  - intros [|k] Hk; cbn; unfold upd; cbn; [split; discriminate|]. destruct (H k ltac:(lia)) as [-> ->]. split; discriminate.
  - exists s'. match goal with |- context [shift T (o + 1) (Some ja) (Some jb) ?st] => change st with s1 end. rewrite E. cbn [bind]. split; [reflexivity|].
    intros [|k] Hk.
    + destruct (K 0 ltac:(lia)) as [A B]. rewrite A, B. cbn. auto.
    + destruct (K (S k) ltac:(lia)) as [A B]. rewrite A, B. cbn. unfold upd. cbn. apply H. lia.
Qed.
Lemma runs_ok o num den us : forall (s : state) pu py, holds T o s pu py -> Forall (fun p => fst (snd p) <> None /\ snd (snd p) <> None) us ->
  runs T (o + 1) num den s us = Ok (response T o num den pu py (map fst us)).
Proof.
  induction us as [|[u [a b]] us IH]; intros s pu py H F; [reflexivity|]. inversion F as [|? ? [Fa Fb] F']; subst. cbn in Fa, Fb. destruct a as [a|]; [|congruence]. destruct b as [b|]; [|congruence].
  cbn [runs map fst response]. destruct (run_ok o num den a b s u pu py H) as (s' & E & H'). rewrite E. cbn [bind]. rewrite (IH s' _ _ H' F'). reflexivity.
Qed.
(** Strictly: every cycle is undefined. *)
Lemma shift_strict i ja jb (s : state) : 0 < i -> ja = None \/ jb = None -> shift T i ja jb s = UB.
Proof.
  intros Hi J. revert s. induction i as [|i IH]; [lia|]. intros s. destruct i as [|i]; [cbn; destruct J as [-> | ->]; [reflexivity|now destruct ja]|].
  cbn [shift]. unfold read. destruct (z_in s i); [|reflexivity]. cbn [bind]. destruct (z_out s i); [|reflexivity]. cbn [bind]. apply IH. lia.
Qed.
Lemma loop_ok_or_ub n : forall k num den (s : state) y, exists r, loop_from k n (fun i y => bind (read T (z_in s) i) (fun u => bind (read T (z_out s) i) (fun w => Ok (nadd T y (nsub T (nmul T u (num i)) (nmul T w (den i))))))) y = r /\ (r = UB \/ exists v, r = Ok v).
Proof.
  induction n as [|n IH]; intros k num den s y; [eexists; split; [reflexivity|]; right; eexists; reflexivity|]. cbn [loop_from]. unfold read at 1 2. destruct (z_in s k); [|eexists; split; [reflexivity|]; now left]. cbn [bind].
  destruct (z_out s k); [|eexists; split; [reflexivity|]; now left]. cbn [bind]. apply IH.
Qed.
Lemma run_strict o num den ja jb (s : state) u : ja = None \/ jb = None -> run T (o + 1) num den ja jb s u = UB.
Proof.
  intros J. unfold run, sum. match goal with |- bind ?x _ = UB => assert (X : x = UB \/ exists v, x = Ok v) end.
  { destruct (loop_ok_or_ub (o + 1 - 1) 1 num den {| z_in := upd (z_in s) 0 (Some u); z_out := z_out s |} (nmul T u (num 0))) as (r & E & Hr). rewrite E. exact Hr. }
  destruct X as [-> | (v & ->)]; [reflexivity|]. cbn [bind]. rewrite shift_strict by (lia || assumption). reflexivity.
Qed.
Lemma run_fresh o num den ja jb u : 0 < o -> run T (o + 1) num den ja jb (fresh T) u = UB.
Proof. intros Ho. destruct o as [|o]; [lia|]. unfold run, sum. replace (S o + 1 - 1) with (S o) by lia. cbn [loop_from]. unfold read at 1. cbn. reflexivity. Qed.
End Z.
Definition dz (z : Z) : Dnum := dofZ z.
Definition full (z : Z) : state Dnum := {| z_in := fun _ => Some (dz z); z_out := fun _ => Some (dz z) |}.
Lemma old_memory : runs Dnum 2 (fun _ => dz 1) (fun _ => dz 1) (full 0) [(dz 1, (Some (dz 0), Some (dz 0)))] = Ok [dz 1] /\
  runs Dnum 2 (fun i => dz (Z.of_nat i + 1)) (fun _ => dz 1) (full 3) [(dz 1, (Some (dz 0), Some (dz 0)))] = Ok [dz 4] /\
  runs Dnum 2 (fun i => dz (Z.of_nat i + 1)) (fun _ => dz 1) (full 0) [(dz 1, (Some (dz 0), Some (dz 0)))] = Ok [dz 1].
Proof. repeat split. Qed.
Lemma not_from_rest : exists s num den us, runs Dnum 2 num den s us <> runs Dnum 2 num den (full 0) us /\ holds Dnum 1 (full 0) (fun _ => dz 0) (fun _ => dz 0).
Proof.
  exists (full 3), (fun i => dz (Z.of_nat i + 1)), (fun _ => dz 1), [(dz 1, (Some (dz 0), Some (dz 0)))]. destruct old_memory as (_ & A & B). rewrite A, B. split; [discriminate|]. intros i Hi. split; reflexivity.
Qed.
