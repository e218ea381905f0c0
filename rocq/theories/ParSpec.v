(** Specification of sequences with their own thread. *)
From Verif Require Import Prelude ParModel.
Open Scope nat_scope.

(** The caller waits in start(). *)
Definition blocked (w : world) (c : caller) : Prop := exists i n, In (c, i, n) (w_asg w).
(** Number of calls of start() of sequence [i]. *)
Definition starts (i : nat) (os : list op) : nat :=
  length (filter (fun o => match o with OStart _ k => k =? i | _ => false end) os).
(** Every sequence is started by the main program or by a sequence with a smaller number, the main program waits for the
    sequences in the order of their numbers. *)
Definition ordered (N : nat) (os : list op) : Prop := Forall (fun o => match o with
  | OStart (Some (j, _)) i => j < i < N
  | OStart None i => i < N
  | OWaitAll l => l = seq 0 N
  | _ => True
  end) os.
(** [st i]: the only sequence (or the main program) which starts sequence i. *)
Definition single (st : nat -> option nat) (os : list op) : Prop := Forall (fun o => match o with
  | OStart c i => option_map fst c = st i
  | _ => True
  end) os.
(** All threads of all sequences have ended. *)
Definition quiet (w : world) : Prop := forall i n s, nth_error (q_runs (w_seq w i)) n = Some s -> exists r, s = Ended r.
