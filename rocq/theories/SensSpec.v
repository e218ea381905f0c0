(** Vocabulary for the properties of sensor blocks, ROS1 blocks and device
    buttons. *)
From Coq Require Import List ZArith Bool String.
From Verif Require Import Prelude SensModel.
Import List ListNotations.
Open Scope list_scope.
Open Scope nat_scope.

(** After a run every output of the block carries its quantity and the time of
    the run, whatever it carried before. *)
Definition complete (b : sblock) : Prop :=
  forall (V : Type) (data : nat -> V) ts s o, o < sb_outs b ->
    sb_step b data ts s o = (Some (data o), Some ts).

(** The messages that arrived, and the last one for subscriber [k]. *)
Definition arrivals {M} (os : list (rop M)) : list (nat * M) :=
  flat_map (fun o => match o with RArrive k m => [(k, m)] | RRun _ => [] end) os.
Definition last_for {M} (k : nat) (l : list (nat * M)) : option M :=
  fold_left (fun a c => if fst c =? k then Some (snd c) else a) l None.

(** What the gamepad reported about button [n], oldest first. *)
Definition reports (n : nat) (es : list js_event) : list bool :=
  flat_map (fun e => match j_kind e with
    | JButton => if j_num e =? n then [negb (j_val e =? 0)%Z] else []
    | _ => [] end) es.
(** The button is held: the last report says so. *)
Definition held (h : list bool) : bool := last h false.
(** The last report is a press, or a release. *)
Definition pressed (h : list bool) : bool := held h && negb (held (removelast h)).
Definition released (h : list bool) : bool := negb (held h) && held (removelast h).
(** Genuine (not synthetic) events of the eight buttons. *)
Definition genuine (es : list js_event) : list (nat * Z) :=
  flat_map (fun e => match j_kind e with
    | JButton => if (j_num e <? 8) && negb (j_init e) then [(j_num e, j_val e)] else []
    | _ => [] end) es.

(** The documented buttons. *)
Open Scope string_scope.
Definition xbox_table : list (string * nat) :=
  [("XBoxButtonA", 0); ("XBoxButtonB", 1); ("XBoxButtonX", 2); ("XBoxButtonY", 3);
   ("XBoxButtonLB", 4); ("XBoxButtonRB", 5); ("XBoxButtonBack", 6);
   ("XBoxButtonStart", 7)]%nat.
Definition mouse_table : list (string * nat) :=
  [("leftMouseButton", 0); ("middleMouseButton", 1); ("rightMouseButton", 2)]%nat.
Definition spacenav_table : list (string * nat) :=
  [("SpaceNavButtonL", 0); ("SpaceNavButtonR", 1)]%nat.
Close Scope string_scope.
(** An input with identifier [id] reads the button of the table, and nothing
    when the table has no such identifier. *)
Definition reads_table (get : string -> (nat -> bool) -> bool)
    (table : list (string * nat)) : Prop :=
  forall id button,
    (forall k, In (id, k) table -> get id button = button k) /\
    ((forall k, ~ In (id, k) table) -> get id button = false).
