(** Specification of signal claims, read off a history of calls and results. *)
From Coq Require Import String List Bool Arith.
From Verif Require Import Prelude HalModel.

Definition history := list (op * result).

(** Which requests an object of a given kind answers. *)
Definition fits (w : want) (k : kind) : Prop :=
  match w with RAny => True | RLogic => k = Logic | RScalable => k = Scalable end.

(** The claim on signal [n]. *)
Inductive status := Free | Exclusive | Shared.
Definition track1 (n : string) (c : status) (e : op * result) : status :=
  match e with
  | (Get _ m x, Ret _) => if String.eqb m n then (if x then Exclusive else Shared) else c
  | (Release m, Ret _) => if String.eqb m n then Free else c
  | _ => c
  end.
Definition track (n : string) (h : history) : status := fold_left (track1 n) h Free.

(** Number of non-exclusive claims of [n] not yet given back. *)
Definition count1 (n : string) (c : nat) (e : op * result) : nat :=
  match e with
  | (Get _ m false, Ret _) => if String.eqb m n then c + 1 else c
  | (Release m, Ret _) => if String.eqb m n then c - 1 else c
  | _ => c
  end.
Definition users (n : string) (h : history) : nat := fold_left (count1 n) h 0.

(** [n] was registered with object [a]. *)
Definition registered (Ob : objects) (h : history) (n : string) (a : nat) : Prop :=
  id_of Ob a = n /\ In (Add (Some a), Ret None) h.

Definition is_release (n : string) (o : op) : Prop := o = Release n.
