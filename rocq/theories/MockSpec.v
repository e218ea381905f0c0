(** What is wanted of the mock robot. *)
From Coq Require Import QArith.
From Verif Require Import Prelude SafetyModel MockModel.

(** A state that some interleaving reaches. *)
Definition reach (s : st) : Prop := exists s0 ls, initial s0 /\ steps ls s0 = Ok s.

Definition level_at (s : st) (l : lref) : Prop := cur (ss s) = Some l.

(** Both axes are at 1 or beyond. *)
Definition homed (s : st) : Prop :=
  match iout s with Some v => (1 <= fst v)%Q /\ (1 <= snd v)%Q | None => False end.

(** The sequencer thread is in the homing sequence. *)
Definition in_homing (p : pc) : bool :=
  match p with PHom | PHomAct | PHomMon | PHomV0 _ | PHomV1 _ _ | PHomX _ _ _ | PHomY _ _ _ | PHomT _ _ _ => true | _ => false end.

(** A label of the sequencer thread. *)
Definition is_seq (l : label) : bool := match l with LSeq _ => true | _ => false end.
