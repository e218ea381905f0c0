(** Specification of scale entries over the reals. *)
From Coq Require Import String Reals.
From Verif Require Import Prelude Num ScaleModel.
Open Scope R_scope.

(** A scale entry as written in a configuration: end points, or scale and offset. *)
Inductive item :=
| Ends (i : string) (minIn maxIn minOut maxOut : R)
| Direct (i : string) (scale offset : R).
Definition item_id (it : item) : string := match it with Ends i _ _ _ _ => i | Direct i _ _ => i end.
Definition props_of (it : item) : list (prop Rnum) :=
  match it with
  | Ends i a b c d => [PId Rnum i; PMinIn Rnum a; PMaxIn Rnum b; PMinOut Rnum c; PMaxOut Rnum d]
  | Direct i s o => [PId Rnum i; PScale Rnum s; POffset Rnum o]
  end.

(** The conversion it stands for: the straight line through the end points. *)
Definition conv (it : item) (x : R) : R :=
  match it with
  | Ends _ a b c d => c + (x - a) * ((d - c) / (b - a))
  | Direct _ s o => x * s + o
  end.
Definition chain (its : list item) (x : R) : R := fold_left (fun x it => conv it x) its x.

(** [r] is the only range entry for [it]. *)
Definition range_for (rs : list (range Rnum)) (it : item) (r : range Rnum) : Prop :=
  In r rs /\ r_id Rnum r = item_id it /\ forall r', In r' rs -> r_id Rnum r' = item_id it -> r' = r.

(** The output limits used for an entry: those of its range, or its own end points if the range has no limit. *)
Definition out_limits (it : item) (r : range Rnum) : R * R :=
  if r_nolimit Rnum r then match it with Ends _ _ _ c d => (c, d) | Direct _ _ _ => (0, 0) end
  else (r_minOut Rnum r, r_maxOut Rnum r).
(** Entries for which the formula is right: the output limits enclose zero. *)
Definition encloses_zero (it : item) (r : range Rnum) : Prop :=
  match it with
  | Ends _ a b c d => a <> b /\ c <> d /\ fst (out_limits it r) <= 0 <= snd (out_limits it r) /\ fst (out_limits it r) < snd (out_limits it r)
  | Direct _ _ _ => True
  end.
Definition rising (it : item) : Prop := match it with Ends _ a b c d => 0 < (d - c) / (b - a) | Direct _ s _ => 0 < s end.

(** An input value respects the limits of all entries on its way. *)
Fixpoint within (rs : list (range Rnum)) (its : list item) (x : R) : Prop :=
  match its with
  | [] => True
  | it :: its => (forall r, range_for rs it r -> r_minIn Rnum r <= x <= r_maxIn Rnum r /\ r_minOut Rnum r <= conv it x <= r_maxOut Rnum r) /\ within rs its (conv it x)
  end.

(** The parser on real numbers (every real number is finite). *)
Definition calcR (dmin dmax : R) rs its := calc_scale Rnum (fun _ => true) dmin dmax rs (map props_of its).
