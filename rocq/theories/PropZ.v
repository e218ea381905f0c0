(** Properties C64, C133: the z transfer function. *)
From Verif Require Import Prelude Num MatModel PolyModel ZModel ZSpec ZProofs.
From mathcomp Require Import all_ssreflect all_algebra.
From Verif Require Import MatRing ZMain.
Import GRing.Theory.
Local Open Scope ring_scope.
Local Notation mem := MatModel.mem.

(** C64: every cycle accesses memory outside of the arrays, whatever the order, coefficients, state and input are. *)
Theorem C64_outside_refuted : exists o, forall (T : num) num den s u, run T (o + 1)%coq_nat num den None None s u = UB.
Proof. exact (ex_intro _ 0%N (fun T num den s u => @run_strict T 0 num den None None s u (or_introl erefl))). Qed.
Print Assumptions C64_outside_refuted.
Theorem C64_always_outside : forall (T : num) o num den ja jb s u, ja = None \/ jb = None -> run T (o + 1)%coq_nat num den ja jb s u = UB.
Proof. exact run_strict. Qed.
Print Assumptions C64_always_outside.
(** Also if these accesses are harmless, the first cycle of a block of order 1 or more reads memory that was never written. *)
Theorem C64_uninitialised_refuted : exists o, forall (T : num) num den a b u, run T (o + 1)%coq_nat num den (Some a) (Some b) (fresh T) u = UB.
Proof. exact (ex_intro _ 1%N (fun T num den a b u => @run_fresh T 1 num den (Some a) (Some b) u (le_n 1))). Qed.
Print Assumptions C64_uninitialised_refuted.
(** If that memory is read, the block does not start from rest: its old contents show in the output. *)
Theorem C64_not_from_rest_refuted : exists s num den us, runs Dnum 2 num den s us <> runs Dnum 2 num den (full 0) us /\ holds Dnum 1 (full 0) (fun _ => dz 0) (fun _ => dz 0).
Proof. exact not_from_rest. Qed.
Print Assumptions C64_not_from_rest_refuted.
(** Provided that the accesses outside are harmless, whatever they read, the block continues the difference equation from
    the history that its memory contains. *)
Theorem C64_difference_equation_partial : forall (T : num) o num den us (s : state T) pu py, holds T o s pu py -> Forall (fun p => fst (snd p) <> None /\ snd (snd p) <> None) us ->
  runs T (o + 1)%coq_nat num den s us = Ok (response T o num den pu py (List.map fst us)).
Proof. exact runs_ok. Qed.
Print Assumptions C64_difference_equation_partial.
(** Over a field, from zeroed memory: a_0 y_k + ... + a_o y_(k-o) = b_0 u_k + ... + b_o u_(k-o). *)
Theorem C64_equation_partial : forall (F : fieldType) o (num den : nat -> F) s us, den 0%N != 0 -> holds (Unum F) o s (fun _ => 0) (fun _ => 0) ->
  Forall (fun p => fst (snd p) <> None /\ snd (snd p) <> None) us ->
  exists ys, runs (Unum F) (o + 1)%coq_nat num den s us = Ok ys /\ size ys = size us /\
    forall k, (k < size us)%N -> \sum_(i < o.+1) den i * (if (i <= k)%N then ys`_(k - i) else 0) = \sum_(i < o.+1) num i * (if (i <= k)%N then (List.map fst us)`_(k - i) else 0).
Proof. exact block_eq. Qed.
Print Assumptions C64_equation_partial.
Example C64_example : runs Dnum 2 (fun i => dz (Z.of_nat i + 1)) (fun _ => dz 1) (full 0) [:: (dz 1, (Some (dz 0), Some (dz 7))); (dz 0, (Some (dz 8), Some (dz 9))); (dz 0, (Some (dz 5), Some (dz 5)))] = Ok [:: dz 1; dz 1; dz (-1)] /\
  holds Dnum 1 (full 0) (fun _ => dz 0) (fun _ => dz 0).
Proof. by split. Qed.

(** C133: connecting transfer functions. [resp o f us] is the answer of the difference equation from rest to the inputs us. *)
Theorem C133_series : forall (F : fieldType) o r (f h : PolyModel.frac (Unum F)) g us, (f.2 0%N : F) != 0 -> (h.2 0%N : F) != 0 ->
  exists c, f_mul (Unum F) o r f h g = Ok c /\ resp (o + r) c us = resp r h (resp o f us).
Proof. exact series. Qed.
Print Assumptions C133_series.
Theorem C133_parallel : forall (F : fieldType) o r (f h : PolyModel.frac (Unum F)) g us, (f.2 0%N : F) != 0 -> (h.2 0%N : F) != 0 ->
  exists c, f_add (Unum F) o r f h g = Ok c /\ resp (o + r) c us = [seq p.1 + p.2 | p <- zip (resp o f us) (resp r h us)].
Proof. exact parallel. Qed.
Print Assumptions C133_parallel.
Theorem C133_gain : forall (F : fieldType) o (f : PolyModel.frac (Unum F)) (k : F) g us, (f.2 0%N : F) != 0 ->
  exists c, f_scale (Unum F) o f k g = Ok c /\ resp o c us = [seq y * k | y <- resp o f us].
Proof. exact scaled. Qed.
Print Assumptions C133_gain.
Theorem C133_feed_through : forall (F : fieldType) o (f : PolyModel.frac (Unum F)) (k : F) g us, (f.2 0%N : F) != 0 ->
  exists c, f_adds (Unum F) o f k g = Ok c /\ resp o c us = [seq p.1 + p.2 * k | p <- zip (resp o f us) us].
Proof. exact raised. Qed.
Print Assumptions C133_feed_through.
Example C133_example (F : fieldType) : resp 1 (fun i => (i == 1%N)%:R : F, fun i => (i == 0%N)%:R : F) [:: 1; 0; 1] = [:: 0; 1; 0] :> seq F.
Proof. rewrite /resp /= /eval /= /ZSpec.push /rest /= !(mulr0, mul0r, add0r, invr1, mulr1, subr0, subrr, addr0, oppr0). by []. Qed.
