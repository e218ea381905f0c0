(** What C362-C363 say about SubSystemTest. *)
From Verif Require Import Prelude SubxModel.
Local Open Scope Z_scope.

Definition reach (c : Z * Z) (s : st) : Prop := exists ls, s = steps c ls init.
(** The result for the constant [c]: twice the sum of c and three times c. *)
Definition result (c : Z * Z) : vec := (Some (2 * (fst c + 3 * fst c)), Some (2 * (snd c + 3 * snd c))).
(** Each element is nan or the result. *)
Definition partly (c : Z * Z) (v : vec) : Prop :=
  (fst v = None \/ fst v = fst (result c)) /\ (snd v = None \/ snd v = snd (result c)).
