(** Vocabulary of the statements about ROS. *)
From Verif Require Import Prelude Num RosModel.

(** [l] results from [k] by dropping elements. *)
Inductive subseq {A : Type} : list A -> list A -> Prop :=
| sub_nil : forall k, subseq [] k
| sub_take : forall x l k, subseq l k -> subseq (x :: l) (x :: k)
| sub_drop : forall x l k, subseq l k -> subseq l (x :: k).
(** The messages received in a history. *)
Fixpoint received {M : Type} (es : list (rev_ M)) : list M :=
  match es with [] => [] | EMsg m :: es => m :: received es | _ :: es => received es end.
(** The event is one of the executor thread itself (not a message, a stop request or a spurious wake up). *)
Definition own {M : Type} (e : rev_ M) : Prop := match e with ERun | EEnd | EWait => True | _ => False end.
