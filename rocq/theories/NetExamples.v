(** Examples and witnesses for networks of blocks and the whole of time domains and safety system. *)
From Coq Require Import Reals Lra List ZArith Lia.
From Verif Require Import Prelude Num SafetyModel SafetySpec SafetyExamples CtrlModel CtrlModel2 CtrlSpec NetModel NetSpec NetProofs NetProofs2 NetProofs3.
Import ListNotations.
Open Scope nat_scope.

(** Blocks 0 -> 1 -> 2 -> 0: each adds one to its input; block 0 sees block 2 one cycle later. *)
Definition ring_net : net unit nat :=
  {| n_src := fun b => match b with 0 => [Some (2, 0)] | 1 => [Some (0, 0)] | 2 => [Some (1, 0)] | _ => [None] end;
     n_fun := fun b s ins => (s, fun _ => S (hd 0 ins), if Nat.ltb (hd 0 ins) 100 then BNormal else BNaN) |}.
Definition ring_w (k : nat) : world unit nat := {| w_st := fun _ => tt; w_out := fun _ _ => k |}.
Lemma ring_runs : exists w', all_run (block_run ring_net) [0; 1; 2] (ring_w 5) w' /\ map (fun b => w_out w' b 0) [0; 1; 2] = [6; 7; 8].
Proof. eexists. split; [repeat (econstructor; [reflexivity|]); constructor|reflexivity]. Qed.
Lemma ring_other_order : exists w', all_run (block_run ring_net) [2; 1; 0] (ring_w 5) w' /\ map (fun b => w_out w' b 0) [0; 1; 2] = [7; 6; 6].
Proof. eexists. split; [repeat (econstructor; [reflexivity|]); constructor|reflexivity]. Qed.
Lemma ring_order_matters : exists (n : net unit nat) l l' w w' w2, NoDup l /\ Permutation.Permutation l l' /\
  all_run (block_run n) l w w' /\ all_run (block_run n) l' w w2 /\ ~ same_world w' w2.
Proof.
  destruct ring_runs as (w1 & R1 & O1), ring_other_order as (w2 & R2 & O2).
  exists ring_net, [0; 1; 2], [2; 1; 0], (ring_w 5), w1, w2.
  split; [repeat constructor; cbn; intuition lia|]. split; [exact (Permutation.Permutation_rev [0; 1; 2])|].
  split; [exact R1|]. split; [exact R2|]. intros S. destruct (S 0) as [_ E]. injection O1 as A _ _. injection O2 as B _ _.
  rewrite E in A. congruence.
Qed.

(** A world of one number; block 7 finds NaN, block 8 throws another exception. *)
Definition fb (b : nat) (w : nat) : nat * bres := if Nat.eqb b 7 then (w, BNaN) else if Nat.eqb b 8 then (w, BOther) else (S w, BNormal).
Definition dom (b : nat) (e : evid) : tdsys := {| ts_running := true; ts_blocks := [1; b; 2]; ts_event := Some e |}.
Definition ex_begin : list (@xop) := [XTrigger 1%Z false; XSafety ex_ok []].

Lemma ex_levels : map (fun l => lid (pheap ex_p l)) [0; 1; 2] = [0; 1; 2]%Z. Proof. reflexivity. Qed.
Lemma ex_set : setProperties ex_p (fun _ => 0%Z) = Ok (Some ex_s0). Proof. reflexivity. Qed.
Lemma ex_closed : forall l e pr d, In l (plevels ex_p) -> leads (pheap ex_p) l e pr d -> In d (plevels ex_p).
Proof.
  intros l e pr d Hl (priv & F & _).
  assert (D : d = 0 \/ d = 1 \/ d = 2).
  { change (plevels ex_p) with [0; 1; 2] in Hl.
    destruct Hl as [<- | [<- | [<- | [ ] ] ] ]; cbn in F;
      repeat match type of F with context [if Z.eqb ?a ?b then _ else _] => destruct (Z.eqb a b) end;
      try discriminate; injection F as <- _; auto. }
  change (plevels ex_p) with [0; 1; 2]. destruct D as [-> | [-> | ->] ]; cbn; auto.
Qed.
(** The program enters level 1; block 7 faults; the next cycle executes level 0 and drives output 0. *)
Lemma ex_reaction : exists x log, xruns (pheap ex_p) fb {| x_w := 0; x_s := ex_s0 |} (ex_begin ++ [XDomain (dom 7 9%Z); XSafety ex_ok []]) = Ok (x, log) /\
  filter (fun f => match f with EExec _ | ESet _ _ | ETrig _ _ => true | _ => false end) log =
  [ETrig 1%Z false; EExec 1; ESet 1 0; ETrig 9%Z false; EExec 0; ESet 1 0] /\ x_w x = 1.
Proof. eexists. eexists. split; [vm_compute; reflexivity|]. split; reflexivity. Qed.
(** Another exception ends the thread. *)
Lemma ex_other : exists p n0 s0 brun w0 t c x log,
  setProperties p n0 = Ok (Some s0) /\ xruns (pheap p) brun {| x_w := w0 : nat; x_s := s0 |} ex_begin = Ok (x, log) /\
  cur (x_s x) = Some c /\ ts_running t = true /\ (exists e d, ts_event t = Some e /\ leads (pheap p) c e false d /\ (lid (pheap p d) < lid (pheap p c))%Z) /\
  (exists l1 b l2 w1 w2, ts_blocks t = l1 ++ b :: l2 /\ all_run brun l1 (x_w x) w1 /\ brun b w1 = (w2, BOther)) /\
  xstep (pheap p) brun x (XDomain t) = Fault.
Proof.
  exists ex_p, (fun _ => 0%Z), ex_s0, fb, 0, (dom 8 9%Z), 1. eexists. eexists.
  split; [reflexivity|]. split; [vm_compute; reflexivity|]. split; [reflexivity|]. split; [reflexivity|]. split.
  { exists 9%Z, 0. split; [reflexivity|]. split; [exists false; split; [reflexivity|now left]|reflexivity]. }
  split; [|reflexivity].
  exists [1], 8, [2], 1, 1. split; [reflexivity|]. split; [|reflexivity]. econstructor; [reflexivity|constructor].
Qed.
(** An event registered as private in the current level is ignored: the level stays. *)
Lemma ex_private : exists p n0 s0 brun w0 t c e d x log,
  setProperties p n0 = Ok (Some s0) /\ xruns (pheap p) brun {| x_w := w0 : nat; x_s := s0 |} ex_begin = Ok (x, log) /\
  cur (x_s x) = Some c /\ ts_running t = true /\ ts_event t = Some e /\ faults brun t (x_w x) /\
  leads (pheap p) c e true d /\ d <> c /\
  exists x' log', xruns (pheap p) brun x [XDomain t; XSafety ex_ok []] = Ok (x', log') /\ ~ In (EExec d) log' /\ In (EExec c) log' /\ cur (x_s x') = Some c.
Proof.
  exists ex_p, (fun _ => 0%Z), ex_s0, fb, 0, (dom 7 2%Z), 1, 2%Z, 2. eexists. eexists.
  split; [reflexivity|]. split; [vm_compute; reflexivity|]. split; [reflexivity|]. split; [reflexivity|]. split; [reflexivity|]. split.
  { exists [1], 7, [2], 1, 1, BNaN. split; [reflexivity|]. split; [econstructor; [reflexivity|constructor]|]. split; [reflexivity|now right]. }
  split; [exists true; split; [reflexivity|now right]|]. split; [discriminate|].
  eexists. eexists. split; [vm_compute; reflexivity|]. split; [|split; [|reflexivity]].
  - cbn. intuition discriminate.
  - cbn. auto 10.
Qed.

(** Reference 2, gain 10, plant starting at 0, cycles of 10 ms: the error shrinks to less than 0.7 of itself in four cycles. *)
Lemma loop_example : exists y, w_out (loop_cycles Rnum (loop_start 2 10 (-100) 100 0 (-1000) 1000 (fun _ _ => mksig (0%R : nT Rnum) 0%Z)) [0; 10000000; 20000000; 30000000; 40000000]%Z) 3%nat 0%nat = mksig (y : nT Rnum) 40000000%Z /\
  (Rabs (y - 2) <= 1.4)%R.
Proof.
  destruct (loop_converges 2 10 (-100) 100 (-1000) 1000 ltac:(lra)) with (y0 := 0%R) (junk := fun (_ _ : nat) => mksig (0%R : nT Rnum) 0%Z) (q := 0.9%R) (t0 := 0%Z)
    (ts := [10000000; 20000000; 30000000; 40000000]%Z) as (y & E & H).
  all: try lra.
  - replace (0 - 2)%R with (-2)%R by lra. rewrite Rabs_left; lra.
  - replace (0 - 2)%R with (-2)%R by lra. rewrite Rabs_left; lra.
  - cbn. repeat split; apply Rabs_le; lra.
  - exists y. split; [exact E|]. replace (0 - 2)%R with (-2)%R in H by lra. rewrite (Rabs_left (-2)) in H by lra. cbn in H. lra.
Qed.
Lemma ring_same_order : same_order ring_net [0; 1; 2; 9] [9; 0; 1; 2].
Proof.
  assert (D : NoDup [0; 1; 2; 9]) by (repeat constructor; cbn; intuition lia).
  assert (D' : NoDup [9; 0; 1; 2]) by (repeat constructor; cbn; intuition lia).
  intros b s p Hb Hs Hin.
  assert (C : (b = 0 /\ s = 2) \/ (b = 1 /\ s = 0) \/ (b = 2 /\ s = 1)).
  { cbn in Hb. destruct Hb as [<- | [<- | [<- | [<- | [ ] ] ] ] ]; cbn in Hin; destruct Hin as [E | [ ] ]; try discriminate; injection E as <- <-; auto. }
  destruct C as [ [-> ->] | [ [-> ->] | [-> ->] ] ].
  - split; intros H; exfalso.
    + change [0; 1; 2; 9] with ([] ++ 0 :: [1; 2; 9]) in H, D. exact (before_split _ _ _ _ D H).
    + change [9; 0; 1; 2] with ([9] ++ 0 :: [1; 2]) in H, D'. apply (before_split _ _ _ _ D') in H. cbn in H. intuition discriminate.
  - split; intros _.
    + apply (before_intro [9; 0] [2] 0 1). cbn. auto.
    + exact (before_intro [0] [2; 9] 0 1 (or_introl eq_refl)).
  - split; intros _.
    + apply (before_intro [9; 0; 1] [] 1 2). cbn. auto.
    + apply (before_intro [0; 1] [9] 1 2). cbn. auto.
Qed.
Lemma dom_faults : faults fb (dom 7 9%Z) 5.
Proof. exists [1], 7, [2], 6, 6, BNaN. split; [reflexivity|]. split; [econstructor; [reflexivity|constructor]|]. split; [reflexivity|now right]. Qed.
