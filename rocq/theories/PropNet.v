(** Networks of blocks, and time domains together with the safety system: C228-C232. *)
From Coq Require Import Reals List ZArith Permutation.
From Verif Require Import Prelude Num SafetyModel SafetySpec SafetyExamples CtrlModel CtrlModel2 CtrlSpec NetModel NetSpec NetProofs NetProofs2 NetProofs3 NetExamples.
Import ListNotations.
Open Scope nat_scope.

(** C228: a time domain solves the equations of its block diagram, and these have no other solution. *)
Theorem C228_solves : forall (St Sig : Type) (n : net St Sig) l w w', NoDup l -> all_run (block_run n) l w w' -> solves n l w w'.
Proof. exact @run_solves. Qed.
Print Assumptions C228_solves.
Theorem C228_unique : forall (St Sig : Type) (n : net St Sig) l w w1 w2, NoDup l -> solves n l w w1 -> solves n l w w2 -> same_world w1 w2.
Proof. exact @run_unique. Qed.
Print Assumptions C228_unique.
Example C228_example : exists w', all_run (block_run ring_net) [0; 1; 2] (ring_w 5) w' /\ map (fun b => w_out w' b 0) [0; 1; 2] = [6; 7; 8].
Proof. exact ring_runs. Qed.

(** C229: the order in which the blocks were added matters only between connected blocks. *)
Theorem C229_order : forall (St Sig : Type) (n : net St Sig) l l' w w', NoDup l -> Permutation l l' -> same_order n l l' ->
  all_run (block_run n) l w w' -> exists w2, all_run (block_run n) l' w w2 /\ same_world w' w2.
Proof. exact @run_order. Qed.
Print Assumptions C229_order.
Example C229_example : exists (n : net unit nat) l l' w w' w2, NoDup l /\ Permutation l l' /\
  all_run (block_run n) l w w' /\ all_run (block_run n) l' w w2 /\ ~ same_world w' w2.
Proof. exact ring_order_matters. Qed.
Example C229_applies : same_order ring_net [0; 1; 2; 9] [9; 0; 1; 2].
Proof. exact ring_same_order. Qed.

(** C230: after a fault the rest of the cycle is left out. *)
Theorem C230_frame : forall (St Sig : Type) (n : net St Sig) l1 b l2 w w1 w2 e, NoDup (l1 ++ b :: l2) ->
  all_run (block_run n) l1 w w1 -> block_run n b w1 = (w2, e) -> e <> BNormal ->
  run_blocks (block_run n) (l1 ++ b :: l2) w = (w2, e) /\ forall c, In c l2 -> w_st w2 c = w_st w c /\ w_out w2 c = w_out w c.
Proof. exact @fault_frame. Qed.
Print Assumptions C230_frame.
Example C230_example : snd (run_blocks (block_run ring_net) [0; 1; 2] (ring_w 99)) = BNaN /\
  map (fun b => w_out (fst (run_blocks (block_run ring_net) [0; 1; 2] (ring_w 99))) b 0) [0; 1; 2] = [100; 101; 99].
Proof. split; reflexivity. Qed.

(** C231: a fault in a time domain reaches the critical outputs with the next cycle of the safety system.  The full statement
    says so for every exception of a block and every registered event of the time domain: [C231_other_refuted] and
    [C231_private_refuted] show programs for which it is false. *)
Theorem C231_reaches_outputs_partial : forall (W : Type) (brun : nat -> W -> W * bres) p n0 s0 w0 os0 env0 acts0 x log0 c os1 t os2 x1 log1 x2 log2 e d env acts,
  setProperties p n0 = Ok (Some s0) ->
  (forall l, pentry p = Some l -> In l (plevels p)) ->
  (forall l e pr d, In l (plevels p) -> leads (pheap p) l e pr d -> In d (plevels p)) ->
  xruns (pheap p) brun {| x_w := w0; x_s := s0 |} (os0 ++ [XSafety env0 acts0]) = Ok (x, log0) -> cur (x_s x) = Some c ->
  quiet (os1 ++ XDomain t :: os2) ->
  xruns (pheap p) brun x os1 = Ok (x1, log1) -> faults brun t (x_w x1) -> ts_running t = true -> ts_event t = Some e ->
  leads (pheap p) c e false d ->
  xruns (pheap p) brun x1 (XDomain t :: os2) = Ok (x2, log2) ->
  (forall e' p', In (ETrig e' p') (log1 ++ log2) -> ~ leads (pheap p) c e' p' c) ->
  exists x3 log3 n, xstep (pheap p) brun x2 (XSafety env acts) = Ok (x3, log3) /\
    In (EExec n) log3 /\ (lid (pheap p n) <= lid (pheap p d))%Z /\ In n (plevels p) /\
    (exists e' p', In (ETrig e' p') (log1 ++ log2) /\ leads (pheap p) c e' p' n) /\
    (forall o, In o (pcritOut p) -> driven log3 o /\ exists a, In (Some a) (lout (pheap p n)) /\ oa_output a = o /\ In (ESet (oa_id a) o) log3).
Proof. exact @fault_reaches_outputs. Qed.
Print Assumptions C231_reaches_outputs_partial.
Theorem C231_other_partial : forall (W : Type) (brun : nat -> W -> W * bres) h x t l1 b l2 w1 w2,
  ts_running t = true -> ts_blocks t = l1 ++ b :: l2 -> all_run brun l1 (x_w x) w1 -> brun b w1 = (w2, BOther) ->
  xstep h brun x (XDomain t) = Fault.
Proof. exact @other_escapes. Qed.
Print Assumptions C231_other_partial.
Theorem C231_unregistered_partial : forall (W : Type) (brun : nat -> W -> W * bres) h x t e c,
  faults brun t (x_w x) -> ts_running t = true -> ts_event t = Some e -> cur (x_s x) = Some c -> leads_nowhere h c e false ->
  exists x', xstep h brun x (XDomain t) = Ok (x', [ETrig e false]) /\ x_s x' = x_s x.
Proof. exact @unregistered_ignored. Qed.
Print Assumptions C231_unregistered_partial.
Theorem C231_other_refuted : exists p n0 s0 brun w0 t c x log,
  setProperties p n0 = Ok (Some s0) /\ xruns (pheap p) brun {| x_w := w0 : nat; x_s := s0 |} ex_begin = Ok (x, log) /\
  cur (x_s x) = Some c /\ ts_running t = true /\ (exists e d, ts_event t = Some e /\ leads (pheap p) c e false d /\ (lid (pheap p d) < lid (pheap p c))%Z) /\
  (exists l1 b l2 w1 w2, ts_blocks t = l1 ++ b :: l2 /\ all_run brun l1 (x_w x) w1 /\ brun b w1 = (w2, BOther)) /\
  xstep (pheap p) brun x (XDomain t) = Fault.
Proof. exact ex_other. Qed.
Print Assumptions C231_other_refuted.
Theorem C231_private_refuted : exists p n0 s0 brun w0 t c e d x log,
  setProperties p n0 = Ok (Some s0) /\ xruns (pheap p) brun {| x_w := w0 : nat; x_s := s0 |} ex_begin = Ok (x, log) /\
  cur (x_s x) = Some c /\ ts_running t = true /\ ts_event t = Some e /\ faults brun t (x_w x) /\
  leads (pheap p) c e true d /\ d <> c /\
  exists x' log', xruns (pheap p) brun x [XDomain t; XSafety ex_ok []] = Ok (x', log') /\ ~ In (EExec d) log' /\ In (EExec c) log' /\ cur (x_s x') = Some c.
Proof. exact ex_private. Qed.
Print Assumptions C231_private_refuted.
Example C231_example : exists x log, xruns (pheap ex_p) fb {| x_w := 0; x_s := ex_s0 |} (ex_begin ++ [XDomain (dom 7 9%Z); XSafety ex_ok []]) = Ok (x, log) /\
  filter (fun f => match f with EExec _ | ESet _ _ | ETrig _ _ => true | _ => false end) log =
  [ETrig 1%Z false; EExec 1; ESet 1 0; ETrig 9%Z false; EExec 0; ESet 1 0] /\ x_w x = 1.
Proof. exact ex_reaction. Qed.
Example C231_applies : setProperties ex_p (fun _ => 0%Z) = Ok (Some ex_s0) /\ faults fb (dom 7 9%Z) 5 /\
  forall l e pr d, In l (plevels ex_p) -> leads (pheap ex_p) l e pr d -> In d (plevels ex_p).
Proof. split; [reflexivity|split; [exact dom_faults|exact ex_closed]]. Qed.

(** C232: reference, Sum, Gain and I in a loop. *)
Theorem C232_converges : forall r K mn mx lo hi, (mn <= K <= mx)%R -> forall y0 junk q t0 ts,
  (0 <= q <= 1)%R -> (lo < r - Rabs (y0 - r))%R -> (r + Rabs (y0 - r) < hi)%R -> shrinking K q t0 ts ->
  exists y, w_out (loop_cycles Rnum (loop_start r K mn mx y0 lo hi junk) (t0 :: ts)) 3 0 = mksig (y : nT Rnum) (last ts t0) /\
    (Rabs (y - r) <= q ^ length ts * Rabs (y0 - r))%R.
Proof. exact loop_converges. Qed.
Print Assumptions C232_converges.
Example C232_example : exists y, w_out (loop_cycles Rnum (loop_start 2 10 (-100) 100 0 (-1000) 1000 (fun _ _ => mksig (0%R : nT Rnum) 0%Z)) [0; 10000000; 20000000; 30000000; 40000000]%Z) 3 0 = mksig (y : nT Rnum) 40000000%Z /\
  (Rabs (y - 2) <= 1.4)%R.
Proof. exact loop_example. Qed.
