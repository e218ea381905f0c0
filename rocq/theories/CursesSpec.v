(** Vocabulary for the properties of the text user interface. *)
From Coq Require Import List ZArith Bool.
From Verif Require Import CursesModel.
Import ListNotations.
Open Scope Z_scope.

(** The last [k] entries of a history. *)
Definition last_entries {A} (k : nat) (l : list A) : list A :=
  skipn (length l - k) l.

(** Number of occurrences. *)
Definition occurrences {A} (p : A -> bool) (l : list A) : nat :=
  length (filter p l).

(** A list of areas (lists of rows) fits on a screen of [lines] rows when every
    row is on the screen and no row belongs to two areas. *)
Definition on_screen (lines : Z) (areas : list (list Z)) : Prop :=
  forall a r, In a areas -> In r a -> 0 <= r < lines.
Definition separate (areas : list (list Z)) : Prop :=
  forall i j a b r,
    nth_error areas i = Some a -> nth_error areas j = Some b ->
    In r a -> In r b -> i = j.

(** The value of a sequence of decimal digits, most significant first. *)
Definition decimal (ds : list Z) : Z :=
  fold_left (fun v d => 10 * v + d) ds 0.
Definition digits_ok (ds : list Z) : Prop := Forall (fun d => 0 <= d <= 9) ds.
(** The characters of the digits. *)
Definition typed (ds : list Z) : list Z := map (fun d => 48 + d) ds.

(** Steps of the thread and attempts to create an interface. *)
Definition is_thread (e : ui_ev) : bool :=
  match e with EThread => true | _ => false end.
Definition is_new (o : inst_op) : bool :=
  match o with INew => true | IDelete => false end.
