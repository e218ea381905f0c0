(** What a configuration of the HAL means, independently of the order in which it is read. *)
From Coq Require Import String.
From Verif Require Import Prelude JsonModel.
Import List ListNotations.
Open Scope string_scope.
Open Scope list_scope.

Definition one_of (l : list string) (t : string) : bool := existsb (String.eqb t) l.
Definition is_input (t : string) : bool := one_of ["DigIn"; "AnalogIn"; "Fqd"; "Watchdog"] t.
Definition is_real (t : string) : bool := one_of ["AnalogIn"; "AnalogOut"; "Pwm"; "Fqd"] t.
Definition is_type (t : string) : bool := one_of ["DigIn"; "DigOut"; "AnalogIn"; "AnalogOut"; "Pwm"; "Fqd"; "Watchdog"] t.

Section Spec.
  Context {V : Type} (one zero : V).
  Notation channel := (@channel V). Notation subentry := (@subentry V). Notation deventry := (@deventry V). Notation obj := (@obj V).

  (** The values of the keys library, devHandle and type, wherever they are; empty when missing. *)
  Definition libs_in (d : list deventry) : list string := flat_map (fun e => match e with DLib s => [s] | _ => [] end) d.
  Definition handles_in (d : list deventry) : list string := flat_map (fun e => match e with DHandle s => [s] | _ => [] end) d.
  Definition types_in (ss : list subentry) : list string := flat_map (fun e => match e with SType s => [s] | _ => [] end) ss.
  Definition the (l : list string) : string := hd "" l.
  (** Keys within an object are unique. *)
  Definition unique (c : config) : Prop := forall d, In d c -> (length (libs_in d) <= 1)%nat /\ (length (handles_in d) <= 1)%nat /\
    forall n ss, In (DSub n ss) d -> (length (types_in ss) <= 1)%nat.

  (** The type of a channel is its own or that of its subdevice. *)
  Definition type_for (t : string) (c : channel) : string := if String.eqb (c_type c) "" then t else c_type c.
  (** The object for channel [n] of subdevice [sub] of type [t] of a device. *)
  Definition object (lib dev t : string) (sub n : Z) (c : channel) : obj :=
    let t := type_for t c in
    let enc := String.eqb t "Fqd" && comedi lib in
    let value x := match x with Some v => v | None => 0%Z end in
    {| o_in := is_input t; o_real := is_real t; o_id := c_sig c; o_type := t; o_lib := lib; o_dev := dev; o_sub := sub;
       o_chan := if enc then (let '(a, b, z) := c_enc c in [value a; value b; value z]) else [n];
       o_inv := if is_real t then false else c_inv c;
       o_cal := if is_real t then match c_cal c with Some k => k | None => (one, zero, zero, zero) end else (one, zero, zero, zero);
       o_safe := if is_real t && negb (is_input t) then c_safe c else None;
       o_unit := if is_real t then match c_unit c with Some u => u | None => "" end else "";
       o_args := if enc then "" else c_args c |}.
  Definition of_sub (lib dev t : string) (sub : Z) (ss : list subentry) : list obj :=
    flat_map (fun e => match e with SChan n c => [object lib dev t sub n c] | _ => [] end) ss.
  Definition of_device (lib dev : string) (d : list deventry) : list obj :=
    flat_map (fun e => match e with DSub n ss => of_sub lib dev (the (types_in ss)) n ss | _ => [] end) d.
  (** The objects of a configuration, in its order. *)
  Definition meant (c : config) : list obj := flat_map (fun d => of_device (the (libs_in d)) (the (handles_in d)) d) c.

  (** Identifiers are unique per direction. *)
  Definition ids (l : list obj) : list (bool * string) := map (fun o => (o_in o, o_id o)) l.

  (** The library and the handle stand before the subdevices, and the type before the channels which need it. *)
  Definition in_order (d : list deventry) : Prop := forall a n ss b, d = a ++ DSub n ss :: b ->
    the (libs_in a) <> "" /\ the (handles_in a) <> "" /\
    forall a' m c b', ss = a' ++ SChan m c :: b' -> c_type c = "" -> the (types_in a') <> "".
  (** A channel which can be created with the libraries [L]. *)
  Definition possible (L : libs) (lib t : string) (n : Z) (c : channel) : Prop :=
    (n <= 2147483647)%Z /\ c_sig c <> "" /\ c_cal c <> None /\ is_type (type_for t c) = true /\ has L lib (type_for t c) = true /\
    (type_for t c = "Fqd" -> three L lib = comedi lib /\
       (comedi lib = true -> let '(a, b, z) := c_enc c in a <> Some (-1)%Z /\ b <> Some (-1)%Z)).
  Definition usable (L : libs) (d : list deventry) : Prop :=
    (forall l, In l (libs_in d) -> opens L l = true) /\
    forall n ss, In (DSub n ss) d -> (n <= 2147483647)%Z /\
      (forall k, ~ In (SOther k) ss) /\ forall m c, In (SChan m c) ss -> possible L (the (libs_in d)) (the (types_in ss)) m c.
End Spec.
