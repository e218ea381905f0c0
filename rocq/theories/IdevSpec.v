(** Specifications for the input devices and the semaphore. *)
From Verif Require Import Prelude KeyModel IdevModel.
Open Scope Z_scope.

(** The constructor has returned and the destructor has not begun. *)
Definition in_use (s : dstate) : Prop := exists m, d_main s = MStop :: m.
Definition destroyed (s : dstate) : Prop := d_main s = [].
(** The thread still exists. *)
Definition alive (s : dstate) : Prop := d_pc s <> TEnd.
(** No step of the device thread before the device was opened (two steps of the owner). *)
Definition starts_late (os : list dop) : Prop := exists pre rest, os = pre ++ rest /\ ~ In DThread pre /\
  length (filter (fun o => match o with DMain => true | _ => false end) pre) = 2%nat.

(** What the space navigator sends: positions and rotations, or the state of the buttons. *)
Inductive packet := Move (x y z rx ry rz : Z) | Buttons (l r : bool).
Definition bytes16 (x : Z) : list Z := [x mod 256; (x / 256) mod 256].
Definition encode (p : packet) : list Z :=
  match p with
  | Move x y z rx ry rz => 1 :: bytes16 x ++ bytes16 y ++ bytes16 z ++ 2 :: bytes16 rx ++ bytes16 ry ++ bytes16 rz
  | Buttons l r => [3; (if l then 1 else 0) + (if r then 2 else 0); 0]
  end.
Definition fits (x : Z) : Prop := -32768 <= x <= 32767.
Definition wf (p : packet) : Prop :=
  match p with Move x y z rx ry rz => fits x /\ fits y /\ fits z /\ fits rx /\ fits ry /\ fits rz | Buttons _ _ => True end.
(** The state after a packet. *)
Definition apply (s : space) (p : packet) : space :=
  match p with
  | Move x y z rx ry rz => {| sp_axis := [x; y; z]; sp_rot := [rx; ry; rz]; sp_l := sp_l s; sp_r := sp_r s |}
  | Buttons l r => {| sp_axis := sp_axis s; sp_rot := sp_rot s; sp_l := l; sp_r := r |}
  end.

(** The value of the last event with one of the types [t] and the code [c]. *)
Definition latest (t : Z -> bool) (c : Z) (es : list (Z * Z * Z)) : option Z :=
  fold_left (fun o e => if t (fst (fst e)) && (snd (fst e) =? c) then Some (snd e) else o) es None.
Definition is_pos (t : Z) : bool := (t =? 2) || (t =? 3).
Definition is_key (t : Z) : bool := t =? 1.
