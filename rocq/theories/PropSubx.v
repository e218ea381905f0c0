(** Properties C362-C363: SubSystemTest. *)
From Verif Require Import Prelude SubxModel SubxSpec SubxProofs.
Local Open Scope Z_scope.

Theorem C362_after_run : forall c s, reach c s -> (1 <= runs s)%nat -> vo s = result c.
Proof. exact after_run. Qed.
Theorem C362_in_time : forall c ls, (8 <= length (filter (fun l => l) ls))%nat -> vo (steps c ls init) = result c.
Proof. exact in_time. Qed.
Example C362_nonvacuous : vo (steps (2, 3) (repeat true 8) init) = (Some 16, Some 24).
Proof. reflexivity. Qed.

(** Full statement of C363: forall c s v, reach c s -> In v (log s) -> v = (None, None) \/ v = result c. *)
Theorem C363_torn_refuted : exists s, reach (2, 3) s /\ log s = [(None, Some 24); (None, None)].
Proof. exact torn. Qed.
Theorem C363_torn_other_refuted : exists s, reach (2, 3) s /\ log s = [(Some 16, None)].
Proof. exact torn2. Qed.
Theorem C363_elements_partial : forall c s v, reach c s -> In v (log s) -> partly c v.
Proof. exact logged. Qed.
Theorem C363_then_whole_partial : forall c s ls, reach c s -> (1 <= runs s)%nat -> rd s = R0 ->
  exists new, log (steps c ls s) = new ++ log s /\ forall v, In v new -> v = result c.
Proof. exact then_whole. Qed.
Example C363_nonvacuous : exists s, reach (2, 3) s /\ (1 <= runs s)%nat /\ rd s = R0.
Proof. exists (steps (2, 3) (repeat true 8) init). split; [eexists; reflexivity|]. cbn. auto. Qed.

Print Assumptions C362_after_run.
Print Assumptions C362_in_time.
Print Assumptions C363_torn_refuted.
Print Assumptions C363_torn_other_refuted.
Print Assumptions C363_elements_partial.
Print Assumptions C363_then_whole_partial.
