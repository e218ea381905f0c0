(** Model of the input devices of the HAL: keyboard keys, gamepad, mouse, space navigator, sysfs pins. *)
From Coq Require Import String Ascii.
From Verif Require Import Prelude Num.
Open Scope Z_scope.

(** ** KeyList.hpp 18-56, KeyboardDigIn.hpp 41-50, Keyboard.cpp 21-34
    The lists key, asciiCode and event always have the same length and are one list here; [state] is never read.
    The key list is a static object, so nofKeys (uint8_t) is 0 before the first addKeys. *)
Record keyrec := { k_name : string; k_code : ascii; k_event : bool }.
Record keys := { k_nof : nat; k_list : list keyrec }.
Definition keys0 : keys := {| k_nof := 0%nat; k_list := [] |}.

(** KeyList.hpp 40-49: name[nofKeys] past the end of the vector is undefined behaviour; nofKeys wraps at 256. *)
Fixpoint add_keys_loop (codes : list ascii) (names : list string) (l : keys) : outcome keys :=
  match codes with
  | [] => Ok l
  | c :: cs =>
    match nth_error names (k_nof l) with
    | None => UB
    | Some n => add_keys_loop cs names
        {| k_nof := Nat.modulo (k_nof l + 1) 256; k_list := k_list l ++ [{| k_name := n; k_code := c; k_event := false |}] |}
    end
  end.
Definition add_keys (codes : list ascii) (names : list string) (l : keys) : outcome keys :=
  add_keys_loop codes names {| k_nof := 0%nat; k_list := k_list l |}.

(** Keyboard.cpp 25-31: one character read; only the first nofKeys entries are considered. *)
Fixpoint press_in (n : nat) (c : ascii) (l : list keyrec) : list keyrec :=
  match n, l with
  | S n, k :: l => (if Ascii.eqb c (k_code k) then {| k_name := k_name k; k_code := k_code k; k_event := true |} else k) :: press_in n c l
  | _, _ => l
  end.
Definition press (c : ascii) (l : keys) : keys := {| k_nof := k_nof l; k_list := press_in (k_nof l) c (k_list l) |}.

(** KeyboardDigIn.hpp 41-50 *)
Fixpoint read_in (n : nat) (id : string) (l : list keyrec) : list keyrec * bool :=
  match n, l with
  | S n, k :: l =>
    if String.eqb (k_name k) id then ({| k_name := k_name k; k_code := k_code k; k_event := false |} :: l, k_event k)
    else let '(l', r) := read_in n id l in (k :: l', r)
  | _, _ => (l, false)
  end.
Definition read_key (id : string) (l : keys) : keys * bool :=
  let '(l', r) := read_in (k_nof l) id (k_list l) in ({| k_nof := k_nof l; k_list := l' |}, r).

Inductive kev := Press (c : ascii) | ReadKey (id : string).
Definition kstep (l : keys) (e : kev) : keys * option bool :=
  match e with
  | Press c => (press c l, None)
  | ReadKey i => let '(l', r) := read_key i l in (l', Some r)
  end.
Definition krun (l : keys) (es : list kev) : keys := fold_left (fun l e => fst (kstep l e)) es l.

(** ** XBox.cpp 78-118, XBox.hpp 10-25.  Event types: 1 button, 2 axis, +128 initial event. *)
Record jsev := { j_type : Z; j_number : nat; j_value : Z }.
Section XBox.
  Variable T : num.
  Record xbox := { x_axis : nat -> T; x_state : nat -> bool; x_up : nat -> bool; x_down : nat -> bool; x_last : nat -> bool }.
  Definition xbox0 : xbox :=
    {| x_axis := fun _ => nofZ T 0; x_state := fun _ => false; x_up := fun _ => false; x_down := fun _ => false; x_last := fun _ => false |}.
  Definition xbox_event (x : xbox) (e : jsev) : xbox :=
    let x1 :=
      if (j_type e =? 129) || (j_type e =? 1) then
        if (j_number e <? 8)%nat then
          let v := negb (j_value e =? 0) in
          let b := j_number e in
          {| x_axis := x_axis x; x_state := upd (x_state x) b v; x_up := upd (x_up x) b (negb v && x_last x b);
             x_down := upd (x_down x) b (v && negb (x_last x b)); x_last := x_last x |}
        else x
      else if (j_type e =? 130) || (j_type e =? 2) then
        if (j_number e <? 8)%nat then
          {| x_axis := upd (x_axis x) (j_number e) (ndiv T (nofZ T (j_value e)) (nofZ T 32767)); x_state := x_state x; x_up := x_up x; x_down := x_down x; x_last := x_last x |}
        else x
      else x in
    {| x_axis := x_axis x1; x_state := x_state x1; x_up := x_up x1; x_down := x_down x1; x_last := x_state x1 |}.
  Definition xbox_run (x : xbox) (es : list jsev) : xbox := fold_left xbox_event es x.
End XBox.

(** ** Mouse.cpp 72-105: type 1 = EV_KEY, codes 272/273/274; type 2 = EV_REL, codes 0, 1, 8, 6 (linux/input-event-codes.h).
    Axes are signed int; overflow is undefined behaviour. *)
Record mouse := { m_left : Z; m_right : Z; m_middle : Z; m_x : Z; m_y : Z; m_z : Z; m_r : Z }.
Definition mouse0 : mouse := {| m_left := 0; m_right := 0; m_middle := 0; m_x := 0; m_y := 0; m_z := 0; m_r := 0 |}.
Record inev := { i_type : Z; i_code : Z; i_value : Z }.
Definition int_add (a b : Z) : outcome Z := if (-2147483648 <=? a + b) && (a + b <=? 2147483647) then Ok (a + b) else UB.
Definition mouse_event (m : mouse) (e : inev) : outcome mouse :=
  let v := i_value e in
  if i_type e =? 1 then
    Ok (if i_code e =? 272 then {| m_left := v; m_right := m_right m; m_middle := m_middle m; m_x := m_x m; m_y := m_y m; m_z := m_z m; m_r := m_r m |}
        else if i_code e =? 274 then {| m_left := m_left m; m_right := m_right m; m_middle := v; m_x := m_x m; m_y := m_y m; m_z := m_z m; m_r := m_r m |}
        else if i_code e =? 273 then {| m_left := m_left m; m_right := v; m_middle := m_middle m; m_x := m_x m; m_y := m_y m; m_z := m_z m; m_r := m_r m |}
        else m)
  else if i_type e =? 2 then
    if i_code e =? 0 then omap (fun s => {| m_left := m_left m; m_right := m_right m; m_middle := m_middle m; m_x := s; m_y := m_y m; m_z := m_z m; m_r := m_r m |}) (int_add (m_x m) v)
    else if i_code e =? 1 then omap (fun s => {| m_left := m_left m; m_right := m_right m; m_middle := m_middle m; m_x := m_x m; m_y := s; m_z := m_z m; m_r := m_r m |}) (int_add (m_y m) v)
    else if i_code e =? 8 then omap (fun s => {| m_left := m_left m; m_right := m_right m; m_middle := m_middle m; m_x := m_x m; m_y := m_y m; m_z := s; m_r := m_r m |}) (int_add (m_z m) v)
    else if i_code e =? 6 then omap (fun s => {| m_left := m_left m; m_right := m_right m; m_middle := m_middle m; m_x := m_x m; m_y := m_y m; m_z := m_z m; m_r := s |}) (int_add (m_r m) v)
    else Ok m
  else Ok m.
Definition mouse_run (m : mouse) (es : list inev) : outcome mouse := fold_left (fun o e => bind o (fun m => mouse_event m e)) es (Ok m).

(** ** SpaceNavigator.cpp 96-135: decoding of one 16 bit value from two bytes of a raw packet.
    int16_t conversion of an int, two's complement: *)
Definition to_int16 (x : Z) : Z := (x + 32768) mod 65536 - 32768.
Definition sn_decode (lo hi : Z) : Z :=
  Z.lor (to_int16 (Z.land (Z.shiftl (to_int16 hi) 8) 65280)) (Z.land (to_int16 lo) 255).
(** axis, rotAxis and button after one packet (a list of bytes starting with the header). *)
Record space := { sp_axis : list Z; sp_rot : list Z; sp_l : bool; sp_r : bool }.
Definition sn_packet (s : space) (p : list Z) : space :=
  let b k := nth k p 0 in
  if b 0%nat =? 1 then
    {| sp_axis := [sn_decode (b 1%nat) (b 2%nat); sn_decode (b 3%nat) (b 4%nat); sn_decode (b 5%nat) (b 6%nat)];
       sp_rot := [sn_decode (b 8%nat) (b 9%nat); sn_decode (b 10%nat) (b 11%nat); sn_decode (b 12%nat) (b 13%nat)]; sp_l := sp_l s; sp_r := sp_r s |}
  else if b 0%nat =? 3 then
    if b 1%nat =? 0 then {| sp_axis := sp_axis s; sp_rot := sp_rot s; sp_l := false; sp_r := false |}
    else if b 1%nat =? 1 then {| sp_axis := sp_axis s; sp_rot := sp_rot s; sp_l := true; sp_r := false |}
    else if b 1%nat =? 2 then {| sp_axis := sp_axis s; sp_rot := sp_rot s; sp_l := false; sp_r := true |}
    else if b 1%nat =? 3 then {| sp_axis := sp_axis s; sp_rot := sp_rot s; sp_l := true; sp_r := true |}
    else s
  else s.

(** ** SysFsDigIn.cpp 6-31 and 36-42.
    The member [inverted] is never set (the constructor ignores its parameter): [sf_inv = None].
    The value file is a formatted input stream: white space is skipped, then digits are extracted; at the end
    of the file the extraction fails and leaves the (uninitialised) variable [value] untouched. *)
Record sysfs := { sf_open : bool; sf_rest : list ascii; sf_failed : bool; sf_inv : option bool }.
Definition sysfs_new (opened : bool) (content : list ascii) (inverted : bool) : sysfs :=
  {| sf_open := opened; sf_rest := content; sf_failed := false; sf_inv := None |}.
Definition is_ws (c : ascii) : bool := let n := nat_of_ascii c in (n =? 32)%nat || ((9 <=? n) && (n <=? 13))%nat.
Fixpoint skip_ws (l : list ascii) : list ascii := match l with c :: l' => if is_ws c then skip_ws l' else l | [] => [] end.
Fixpoint digits (l : list ascii) (acc : option Z) : option Z * list ascii :=
  match l with
  | c :: l' => let n := Z.of_nat (nat_of_ascii c) in
    if (48 <=? n) && (n <=? 57) then digits l' (Some (10 * match acc with Some a => a | None => 0 end + (n - 48))) else (acc, l)
  | [] => (acc, [])
  end.
(** [None]: the variable keeps its indeterminate value. A failed conversion of other characters stores 0. *)
Definition extract (s : sysfs) : sysfs * option Z :=
  if sf_failed s then (s, None)
  else match skip_ws (sf_rest s) with
       | [] => ({| sf_open := sf_open s; sf_rest := []; sf_failed := true; sf_inv := sf_inv s |}, None)
       | l => match digits l None with
              | (Some v, rest) => ({| sf_open := sf_open s; sf_rest := rest; sf_failed := match rest with [] => true | _ => false end; sf_inv := sf_inv s |}, Some v)
              | (None, rest) => ({| sf_open := sf_open s; sf_rest := rest; sf_failed := true; sf_inv := sf_inv s |}, Some 0)
              end
       end.
Definition sysfs_get (s : sysfs) : outcome (sysfs * bool) :=
  if negb (sf_open s) then Ok (s, false)
  else let '(s', v) := extract s in
    match v, sf_inv s' with
    | Some v, Some i => Ok (s', if i then (v =? 0) else negb (v =? 0))
    | _, _ => UB
    end.
