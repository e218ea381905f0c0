(** Model of the control blocks reading mouse and keyboard. *)
From Coq Require Import Ascii.
From Verif Require Import Prelude Num.
Open Scope Z_scope.

(** ** MouseInput.cpp and MouseInput.hpp 37-53 *)
Section MouseInput.
  Variable T : num.
  (** axisScale, min and max of one axis. *)
  Record axis := { a_scale : T; a_min : T; a_max : T }.
  (** The four axes x, y, z, r, and the counts of the device (Mouse::current.axis, integers). *)
  Record quad (A : Type) := { q_x : A; q_y : A; q_z : A; q_r : A }.
  Global Arguments q_x {A}. Global Arguments q_y {A}. Global Arguments q_z {A}. Global Arguments q_r {A}.
  (** The members x, y, z, r (offsets) and first; the value of the output. *)
  Record minput := { mi_off : quad T; mi_first : bool; mi_out : quad T }.

  (** Lines 39-42 (and 44-57 for the other axes): new offset and output value. *)
  Definition axis_step (a : axis) (off : T) (count : Z) : T * T :=
    let v := nmul T (a_scale a) (nofZ T count) in
    let off' := if nltb T (nadd T off v) (a_min a) then nsub T (a_min a) v
                else if nltb T (a_max a) (nadd T off v) then nsub T (a_max a) v else off in
    (off', nadd T v off').
  (** run(), lines 30-65; the first run takes the offsets from the counts, x from y and y from x (32-33). *)
  Definition minput_run (ax : quad axis) (m : minput) (c : quad Z) : minput :=
    let off := if mi_first m then
        {| q_x := nmul T (a_scale (q_x ax)) (nofZ T (- q_y c)); q_y := nmul T (a_scale (q_y ax)) (nofZ T (- q_x c));
           q_z := nmul T (a_scale (q_z ax)) (nofZ T (- q_z c)); q_r := nmul T (a_scale (q_r ax)) (nofZ T (- q_r c)) |}
      else mi_off m in
    let x := axis_step (q_x ax) (q_x off) (q_x c) in
    let y := axis_step (q_y ax) (q_y off) (q_y c) in
    let z := axis_step (q_z ax) (q_z off) (q_z c) in
    let r := axis_step (q_r ax) (q_r off) (q_r c) in
    {| mi_off := {| q_x := fst x; q_y := fst y; q_z := fst z; q_r := fst r |}; mi_first := false;
       mi_out := {| q_x := snd x; q_y := snd y; q_z := snd z; q_r := snd r |} |}.
  (** reset(), lines 80-85, and setInitPos(), lines 71-74; again x uses the count of y and y the count of x. *)
  Definition minput_init (ax : quad axis) (m : minput) (p : quad T) (c : quad Z) : minput :=
    {| mi_off := {| q_x := nsub T (q_x p) (nmul T (a_scale (q_x ax)) (nofZ T (q_y c)));
                    q_y := nsub T (q_y p) (nmul T (a_scale (q_y ax)) (nofZ T (q_x c)));
                    q_z := nsub T (q_z p) (nmul T (a_scale (q_z ax)) (nofZ T (q_z c)));
                    q_r := nsub T (q_r p) (nmul T (a_scale (q_r ax)) (nofZ T (q_r c))) |};
       mi_first := mi_first m; mi_out := p |}.
  (** The constructors, lines 8-28: setInitPos(0, 0, 0, 0), then first = true. *)
  Definition minput_new (ax : quad axis) (c : quad Z) : minput :=
    let zero := nofZ T 0 in
    let p := {| q_x := zero; q_y := zero; q_z := zero; q_r := zero |} in
    minput_init ax {| mi_off := p; mi_first := true; mi_out := p |} p c.
End MouseInput.

(** ** KeyboardInput.hpp 36-86 with KeyList.hpp 40-56 and Keyboard.cpp 21-34
    The static key list: nofKeys (uint8_t) and for every key its name (a number stands for the string), code and state.
    The events read by the safety system are modelled in [KeyModel].  A block has N outputs and shares the list with all
    other blocks.  The specialisation for one output (109-138) accesses state[0] directly; it is the case N = 1 of
    this model when exactly one key is given. *)
Record kentry := { k_name : nat; k_code : ascii; k_state : bool }.
Record klist := { kl_nof : nat; kl_keys : list kentry }.
Definition klist0 : klist := {| kl_nof := 0%nat; kl_keys := [] |}.
(** KeyList.hpp 40-49; name[nofKeys] past the end is undefined behaviour, nofKeys is a uint8_t. *)
Fixpoint kb_add_loop (nof : nat) (codes : list ascii) (names : list nat) (l : list kentry) : outcome klist :=
  match codes with
  | [] => Ok {| kl_nof := nof; kl_keys := l |}
  | c :: codes => match nth_error names nof with
    | None => UB
    | Some n => kb_add_loop (Nat.modulo (S nof) 256) codes names (l ++ [{| k_name := n; k_code := c; k_state := false |}])
    end
  end.
Definition kb_add (codes : list ascii) (names : list nat) (l : klist) : outcome klist := kb_add_loop 0 codes names (kl_keys l).
(** KeyboardInput.hpp 40-43 with HAL.cpp 71-80: registering a name which already exists throws. *)
Fixpoint kb_register (names : list nat) (hal : list nat) : outcome (list nat) :=
  match names with
  | [] => Ok hal
  | n :: names => if existsb (Nat.eqb n) hal then Fault else kb_register names (n :: hal)
  end.
(** The constructor, KeyboardInput.hpp 36-44, on the HAL's input names and the key list. *)
Definition kb_construct (codes : list ascii) (names : list nat) (s : list nat * klist) : outcome (list nat * klist) :=
  bind (kb_add codes names (snd s)) (fun l =>
  bind (kb_register (map k_name (firstn (kl_nof l) (kl_keys l))) (fst s)) (fun hal => Ok (hal, l))).
(** Keyboard.cpp 25-31 *)
Fixpoint kb_press_in (n : nat) (c : ascii) (l : list kentry) : list kentry :=
  match n, l with
  | S n, k :: l => {| k_name := k_name k; k_code := k_code k; k_state := if Ascii.eqb c (k_code k) then true else k_state k |} :: kb_press_in n c l
  | _, _ => l
  end.
Definition kb_press (c : ascii) (l : klist) : klist := {| kl_nof := kl_nof l; kl_keys := kb_press_in (kl_nof l) c (kl_keys l) |}.
(** KeyboardInput.hpp 81-86 *)
Fixpoint kb_clear (i : nat) (l : list kentry) : list kentry :=
  match l, i with
  | [], _ => []
  | k :: l, O => {| k_name := k_name k; k_code := k_code k; k_state := false |} :: l
  | k :: l, S i => k :: kb_clear i l
  end.
Definition kb_reset (i : nat) (l : klist) : outcome klist :=
  if (i <? kl_nof l)%nat then Ok {| kl_nof := kl_nof l; kl_keys := kb_clear i (kl_keys l) |} else Fault.
(** KeyboardInput.hpp 54-61: the outputs written by run() of a block with N outputs; out[i] for i >= N and state[i] past
    the end of the list are undefined behaviour. *)
Definition kb_run (N : nat) (l : klist) : outcome (list bool) :=
  if (kl_nof l <=? N)%nat && (kl_nof l <=? length (kl_keys l))%nat then Ok (map k_state (firstn (kl_nof l) (kl_keys l))) else UB.

(** A character read by the keyboard thread, or a call of reset(i). *)
Inductive kbev := KbPress (c : ascii) | KbReset (i : nat).
Definition kb_step (l : klist) (e : kbev) : outcome klist :=
  match e with KbPress c => Ok (kb_press c l) | KbReset i => kb_reset i l end.
Fixpoint kb_events (l : klist) (es : list kbev) : outcome klist :=
  match es with [] => Ok l | e :: es => bind (kb_step l e) (fun l' => kb_events l' es) end.
