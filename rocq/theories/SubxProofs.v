(** Proofs of C362-C363. *)
From Verif Require Import Prelude SubxModel SubxSpec.
Local Open Scope Z_scope.

(** The number of the next element; an element has been written when the time domain is beyond it or has completed a run. *)
Definition num (b : block) (e : bool) : nat :=
  match b, e with
  | BConst, false => 0 | BConst, true => 1 | BGain, false => 2 | BGain, true => 3
  | BSum, false => 4 | BSum, true => 5 | BOut, false => 6 | BOut, true => 7 end.
Definition past (n : nat) (b : block) (e : bool) (i : nat) (x : Z) : option Z :=
  if match n with O => false | S _ => true end || (i <? num b e)%nat then Some x else None.
Definition isn (x : option Z) (z : Z) : Prop := x = None \/ x = Some z.
Record Inv (c : Z * Z) (s : st) : Prop := {
  i_v : let p := past (runs s) (blk s) (el s) in
        vc s = (p 0%nat (fst c), p 1%nat (snd c)) /\ vg s = (p 2%nat (3 * fst c), p 3%nat (3 * snd c)) /\
        vs s = (p 4%nat (fst c + 3 * fst c), p 5%nat (snd c + 3 * snd c)) /\
        vo s = (p 6%nat (2 * (fst c + 3 * fst c)), p 7%nat (2 * (snd c + 3 * snd c)));
  i_r : match rd s with R1 x => isn x (2 * (fst c + 3 * fst c)) | R0 => True end;
  i_l : Forall (partly c) (log s) }.

Lemma past_isn : forall n b e i x, isn (past n b e i x) x.
Proof. intros. unfold past, isn. destruct (_ || _); auto. Qed.
Lemma inv_init : forall c, Inv c init.
Proof. intros c. constructor; cbn; auto. Qed.
Lemma inv_mon : forall c s, Inv c s -> Inv c (monitor s).
Proof.
  intros c s [V R L]. unfold monitor. destruct (rd s) eqn:E; constructor; cbn; auto; destruct V as (_ & _ & _ & ->).
  - apply past_isn.
  - constructor; auto. split; [exact R|apply past_isn].
Qed.
Lemma inv_dom : forall c s, Inv c s -> Inv c (domain c s).
Proof.
  intros [a d] [vc vg vs vo b e n r l] [V R L]. cbn [SubxModel.vc SubxModel.vg SubxModel.vs SubxModel.vo blk el runs rd log fst snd] in *.
  destruct V as (-> & -> & -> & ->).
  destruct b, e; (constructor; [|exact R|exact L]); unfold domain;
    cbn [SubxModel.vc SubxModel.vg SubxModel.vs SubxModel.vo blk el runs rd log fst snd]; destruct n; cbn -[Z.mul Z.add]; repeat split; auto.
Qed.
Lemma inv_steps : forall c ls s, Inv c s -> Inv c (steps c ls s).
Proof. intros c. induction ls as [|l ls IH]; cbn; auto. intros s I. apply IH. destruct l; cbn; [apply inv_dom|apply inv_mon]; auto. Qed.
Lemma inv_reach : forall c s, reach c s -> Inv c s.
Proof. intros c s [ls ->]. apply inv_steps, inv_init. Qed.

Lemma after_run : forall c s, reach c s -> (1 <= runs s)%nat -> vo s = result c.
Proof.
  intros c s R L. destruct (inv_reach c s R) as [(_ & _ & _ & V) _ _]. rewrite V. unfold past. destruct (runs s); [lia|]. reflexivity.
Qed.
Lemma eight : forall c ls, (8 <= length (filter (fun l => l) ls))%nat -> (1 <= runs (steps c ls init))%nat.
Proof.
  intros c ls. assert (G : forall ls s, (8 * runs (steps c ls s) + num (blk (steps c ls s)) (el (steps c ls s)) =
    8 * runs s + num (blk s) (el s) + length (filter (fun l => l) ls))%nat).
  { induction ls0 as [|l ls0 IH]; intros s; cbn [steps filter length]; [lia|]. rewrite IH. destruct l; cbn [step length].
    - unfold domain. destruct (blk s), (el s); cbn -[Nat.mul]; lia.
    - unfold monitor. destruct (rd s); cbn -[Nat.mul]; lia. }
  intros L. specialize (G ls init). assert (B : forall b e, (num b e <= 7)%nat) by (intros [] []; cbn; lia).
  specialize (B (blk (steps c ls init)) (el (steps c ls init))). cbn [init runs blk el num] in G. lia.
Qed.
Lemma in_time : forall c ls, (8 <= length (filter (fun l => l) ls))%nat -> vo (steps c ls init) = result c.
Proof. intros c ls L. apply after_run; [exists ls; reflexivity|apply eight; auto]. Qed.

Lemma logged : forall c s v, reach c s -> In v (log s) -> partly c v.
Proof. intros c s v R H. pose proof (i_l _ _ (inv_reach c s R)) as L. rewrite Forall_forall in L. auto. Qed.
Lemma torn : exists s, reach (2, 3) s /\ log s = [(None, Some 24); (None, None)].
Proof. exists (steps (2, 3) ([false; false; false] ++ repeat true 8 ++ [false]) init). split; [eexists; reflexivity|reflexivity]. Qed.
Lemma torn2 : exists s, reach (2, 3) s /\ log s = [(Some 16, None)].
Proof. exists (steps (2, 3) (repeat true 7 ++ [false; false]) init). split; [eexists; reflexivity|reflexivity]. Qed.
Lemma then_whole : forall c s ls, reach c s -> (1 <= runs s)%nat -> rd s = R0 ->
  exists new, log (steps c ls s) = new ++ log s /\ forall v, In v new -> v = result c.
Proof.
  intros c s ls R L E.
  assert (G : forall ls s, reach c s -> (1 <= runs s)%nat -> match rd s with R0 => True | R1 x => x = fst (result c) end ->
    exists new, log (steps c ls s) = new ++ log s /\ forall v, In v new -> v = result c).
  { clear s ls R L E. induction ls as [|l ls IH]; intros s R L E; cbn [steps].
    - exists []. split; auto. intros v [].
    - pose proof (after_run c s R L) as V. assert (R' : reach c (step c l s)).
      { destruct R as [k ->]. exists (k ++ [l]). clear. generalize init. induction k; cbn; auto. }
      destruct l.
      + destruct (IH (step c true s) R') as (new & H1 & H2).
        * cbn. unfold domain. destruct (blk s); cbn; lia.
        * cbn. unfold domain. destruct (blk s); cbn; auto.
        * exists new. split; auto. rewrite H1. f_equal. cbn. unfold domain. destruct (blk s); auto.
      + cbn [step] in *. unfold monitor in *. destruct (rd s) as [|x]; destruct (IH _ R') as (new & H1 & H2); auto.
        * cbn. rewrite V. reflexivity.
        * exists new. auto.
        * cbn. auto.
        * exists (new ++ [result c]). rewrite H1. cbn [log]. rewrite V, E. cbn. rewrite <- app_assoc. split; auto.
          intros v H. apply in_app_or in H. destruct H as [H|[H|[]]]; auto. }
  apply G; auto. rewrite E. auto.
Qed.
