(** What C357-C361 say about multithreading.cpp. *)
From Verif Require Import Prelude MultModel.
Local Open Scope nat_scope.

Definition reach (n r : nat) (s : st) : Prop := exists ls, s = steps n r ls (init r).
(** The whole output was calculated with the gain [v]. *)
Definition uniform (n v : nat) (o : nat -> nat) : Prop := forall k, k < n -> o k = (k + 1) * v.
(** The next access of the main thread and of the other thread to [ready], to the elements of the gain. *)
Definition main_writes_ready (s : st) : Prop := match mp s with MReady _ | MClear _ | MEnd => True | _ => False end.
Definition other_reads_ready (s : st) : Prop := match tp s with TSpin _ => True | _ => False end.
Definition main_uses_gain (s : st) : Prop := match mp s with MSet _ _ | MRun _ _ => True | _ => False end.
Definition other_uses_gain (s : st) : Prop := match tp s with TSet _ _ => True | _ => False end.
Definition is_other (l : bool) : bool := negb l.
