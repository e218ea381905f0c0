(** What an odometry message should say. *)
From Coq Require Import Reals List String ZArith.
From Verif Require Import OdomModel.
Import ListNotations.
Local Open Scope list_scope.
Local Open Scope R_scope.

(** Turning a vector about the axes x, y and z. *)
Definition rotx (a : R) (v : v3) : v3 :=
  let '(x, y, z) := v in (x, cos a * y - sin a * z, sin a * y + cos a * z).
Definition roty (a : R) (v : v3) : v3 :=
  let '(x, y, z) := v in (cos a * x + sin a * z, y, cos a * z - sin a * x).
Definition rotz (a : R) (v : v3) : v3 :=
  let '(x, y, z) := v in (cos a * x - sin a * y, sin a * x + cos a * y, z).

(** The Hamilton product; a vector turned by q is q v q*. *)
Definition qmul (p q : quat) : quat :=
  {| qw := qw p * qw q - qx p * qx q - qy p * qy q - qz p * qz q;
     qx := qw p * qx q + qx p * qw q + qy p * qz q - qz p * qy q;
     qy := qw p * qy q - qx p * qz q + qy p * qw q + qz p * qx q;
     qz := qw p * qz q + qx p * qy q - qy p * qx q + qz p * qw q |}.
Definition qconj (q : quat) : quat := {| qw := qw q; qx := - qx q; qy := - qy q; qz := - qz q |}.
Definition qturn (q : quat) (v : v3) : v3 :=
  let '(x, y, z) := v in
  let r := qmul (qmul q {| qw := 0; qx := x; qy := y; qz := z |}) (qconj q) in (qx r, qy r, qz r).

(** Everything needed is connected. *)
Definition connected (b : block) (p a l w : sig v3) (c d : sig (list R)) : Prop :=
  conn (ins b 0) = Some p /\ conn (ins b 1) = Some a /\ conn (ins b 2) = Some l /\ conn (ins b 3) = Some w /\
  conn (cp b) = Some c /\ conn (ct b) = Some d.
Definition some_unconnected (b : block) : Prop :=
  conn (ins b 0) = None \/ conn (ins b 1) = None \/ conn (ins b 2) = None \/ conn (ins b 3) = None \/
  conn (cp b) = None \/ conn (ct b) = None.

(** The text of a fault in the block with this name. *)
Definition fault_in (name : string) : string :=
  ("Read from an unconnected input in block '" ++ name ++ "'")%string.
