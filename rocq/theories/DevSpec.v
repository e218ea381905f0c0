(** Specifications for the device drivers. *)
From Verif Require Import Prelude Num DevModel.
From Coq Require Import Reals.
Open Scope Z_scope.

(** The destructor of the driver has returned. *)
Definition destroyed (s : dev) : Prop := d_main s = [].
(** The thread executes its measuring loop. *)
Definition measuring (s : dev) : Prop := d_pc s = TCheck \/ d_pc s = TBody.
(** The driver was constructed and its destructor has not ordered the thread to stop. *)
Definition in_use (s : dev) : Prop := In AStop (d_main s).
Definition steps_of (o : dop) (os : list dop) : nat :=
  length (filter (fun p => match o, p with OMain, OMain | OThread, OThread => true | _, _ => false end) os).
Definition last_sent (s : dev) : option Z := match rev (d_sent s) with [] => None | v :: _ => Some v end.

(** Reply of the drive "<sign><digits>.<fraction>\r\n" as bytes; digits are 0 to 9. *)
Inductive sgn := Plain | Minus | Plus.
Definition sgn_text (s : sgn) : list Z := match s with Plain => [] | Minus => [45] | Plus => [43] end.
Definition dig_text (ds : list Z) : list Z := map (fun d => 48 + d) ds.
Definition reply (s : sgn) (ds fs : list Z) : list (option Z) :=
  map Some (sgn_text s ++ dig_text ds ++ [46] ++ dig_text fs ++ [13; 10]).
Definition all_digits (ds : list Z) : Prop := Forall (fun d => 0 <= d <= 9) ds.
(** Positional value of a list of digits. *)
Fixpoint place_value (ds : list Z) : Z :=
  match ds with [] => 0 | d :: ds => d * 10 ^ Z.of_nat (length ds) + place_value ds end.
(** Ten to the number of fraction digits times the number which was sent. *)
Definition sent_scaled (s : sgn) (ds fs : list Z) : Z :=
  (match s with Minus => -1 | _ => 1 end) * (place_value ds * 10 ^ Z.of_nat (length fs) + place_value fs).

(** A rotation: orthonormal columns, determinant 1. *)
Definition rot_col (m : nat -> nat -> R) (a b : nat) : R := (m 0%nat a * m 0%nat b + m 1%nat a * m 1%nat b + m 2%nat a * m 2%nat b)%R.
Definition det3 (m : nat -> nat -> R) : R :=
  (m 0%nat 0%nat * (m 1%nat 1%nat * m 2%nat 2%nat - m 1%nat 2%nat * m 2%nat 1%nat)
   - m 0%nat 1%nat * (m 1%nat 0%nat * m 2%nat 2%nat - m 1%nat 2%nat * m 2%nat 0%nat)
   + m 0%nat 2%nat * (m 1%nat 0%nat * m 2%nat 1%nat - m 1%nat 1%nat * m 2%nat 0%nat))%R.
