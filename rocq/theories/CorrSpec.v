(** Vocabulary of the statements about the corrector. *)
From Coq Require Import Reals.
From Verif Require Import Prelude.
Open Scope R_scope.

(** A triangle with the image of its corners. *)
Record tri := { t_p0 : R * R; t_p1 : R * R; t_p2 : R * R; t_q0 : R * R; t_q1 : R * R; t_q2 : R * R }.
(** Its lines in the file. *)
Definition lines (t : tri) : list ((R * R) * (R * R)) := [(t_p0 t, t_q0 t); (t_p1 t, t_q1 t); (t_p2 t, t_q2 t)].
Definition file (ts : list tri) : list ((R * R) * (R * R)) := concat (map lines ts).
(** The weighted mean of three points. *)
Definition weigh (u v w : R) (a b c : R * R) : R * R :=
  (u * fst a + v * fst b + w * fst c, u * snd a + v * snd b + w * snd c).
(** [p] lies in the triangle (border included) with these weights of the corners. *)
Definition inside (t : tri) (p : R * R) (u v w : R) : Prop :=
  0 <= u /\ 0 <= v /\ 0 <= w /\ u + v + w = 1 /\ weigh u v w (t_p0 t) (t_p1 t) (t_p2 t) = p.
(** The area of the triangle is not zero. *)
Definition proper (t : tri) : Prop :=
  (fst (t_p1 t) - fst (t_p0 t)) * (snd (t_p2 t) - snd (t_p0 t)) <> (fst (t_p2 t) - fst (t_p0 t)) * (snd (t_p1 t) - snd (t_p0 t)).
(** [q] is the image of [p] by triangle [t]. *)
Definition image (t : tri) (p q : R * R) : Prop :=
  exists u v w, inside t p u v w /\ q = weigh u v w (t_q0 t) (t_q1 t) (t_q2 t).
