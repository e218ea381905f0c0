(** Camera driver PixyCam: localisation by four markers, PixyCam.hpp 117-215; limits 229-234.
    Pixel coordinates are 16 bit numbers; they are kept as integers, which is what the conversion to double gives
    (123-127). *)
From Verif Require Import Prelude Num.
Open Scope Z_scope.

Definition dot := (Z * Z)%type.
(** Search of the extremal dot: lines 135-146; the index is replaced when the comparison is strict. *)
Definition extremal (better : Z -> Z -> bool) (co : dot -> Z) (ds : nat -> dot) : nat :=
  fold_left (fun k i => if better (co (ds i)) (co (ds k)) then i else k) [0; 1; 2; 3]%nat 0%nat.
Definition i_x_min := extremal Z.ltb fst.
Definition i_x_max := extremal Z.gtb fst.
Definition i_y_min := extremal Z.ltb snd.
Definition i_y_max := extremal Z.gtb snd.
(** markersInRange: lines 167-177. *)
Definition in_x (x : Z) : bool := (10 <? x) && (x <? 316 - 10).
Definition in_y (y : Z) : bool := (10 <? y) && (y <? 208 - 10).
Definition in_range (ds : nat -> dot) : bool :=
  in_x (fst (ds (i_x_min ds))) && in_x (fst (ds (i_x_max ds))) && in_x (fst (ds (i_y_min ds))) && in_x (fst (ds (i_y_max ds))) &&
  in_y (snd (ds (i_x_min ds))) && in_y (snd (ds (i_x_max ds))) && in_y (snd (ds (i_y_min ds))) && in_y (snd (ds (i_y_max ds))).

Section Pixy.
Context (N : num) (sqrt : N -> N) (atan2 : N -> N -> N).
Let lit (n d : Z) : N := ndiv N (nofZ N n) (nofZ N d).
Let add := nadd N. Let sub := nsub N. Let mul := nmul N. Let div := ndiv N.
Let px (p : dot) : N := nofZ N (fst p).
Let py (p : dot) : N := nofZ N (snd p).
(** Middle of the dots, from the middle of the picture: lines 132-138, 148-150. *)
Definition middle (co : dot -> N) (half : N) (ds : nat -> dot) : N :=
  sub (fold_left (fun a i => add a (div (co (ds i)) (nofZ N 4))) [0; 1; 2; 3]%nat (nofZ N 0)) half.
Definition x_o := middle px (lit 316 2).
Definition y_o := middle py (lit 208 2).
(** distCam: lines 154-157. *)
Definition dist (a b : dot) : N :=
  sqrt (add (mul (sub (px a) (px b)) (sub (px a) (px b))) (mul (sub (py a) (py b)) (sub (py a) (py b)))).
Definition dist_cam (ds : nat -> dot) : N :=
  div (add (dist (ds (i_x_max ds)) (ds (i_x_min ds))) (dist (ds (i_y_max ds)) (ds (i_y_min ds)))) (nofZ N 2).
(** height and valid: lines 160-162, 179-180. *)
Definition height (ds : nat -> dot) : N := div (mul (nofZ N 93) (lit 915 1000)) (dist_cam ds).
Definition valid (ds : nat -> dot) : bool := nltb N (height ds) (lit 12 10) && in_range ds.
(** Raw position: lines 152-153, 182-186. *)
Definition dist_world : N := mul (lit 335 1000) (div (lit 302 100) (add (lit 302 100) (lit 143 100))).
Record pose := { p_x : N; p_y : N; p_phi : N }.
Definition raw_pose (ds : nat -> dot) : pose :=
  let a := ds (i_x_max ds) in let b := ds (i_x_min ds) in let c := ds (i_y_max ds) in let d := ds (i_y_min ds) in
  {| p_x := div (mul (x_o ds) dist_world) (dist_cam ds); p_y := div (mul (y_o ds) dist_world) (dist_cam ds);
     p_phi := div (add (atan2 (sub (py a) (py b)) (sub (px a) (px b))) (atan2 (sub (px d) (px c)) (sub (py c) (py d)))) (nofZ N 2) |}.
(** The low pass filter with its memory (None: first round) and the output, in which x and y are exchanged:
    lines 188-212. *)
Definition mix (alpha new old : N) : N := add (mul new alpha) (mul old (sub (nofZ N 1) alpha)).
Definition smooth (prev : option pose) (r : pose) : pose :=
  match prev with
  | None => r
  | Some p => {| p_x := mix (lit 5 100) (p_x r) (p_x p); p_y := mix (lit 5 100) (p_y r) (p_y p);
                 p_phi := mix (lit 1 10) (p_phi r) (p_phi p) |}
  end.
Definition out_pose (f : pose) : pose := {| p_x := p_y f; p_y := p_x f; p_phi := p_phi f |}.
(** The memory after a list of rounds. *)
Definition smooth_run (prev : option pose) (rs : list pose) : option pose :=
  fold_left (fun p r => Some (smooth p r)) rs prev.
(** One round: what the camera reports is [nblocks] markers; the four dots are taken from the array of blocks
    whatever their number (121-127).  The result is isDataValid(), getPosRaw() and the new memory. *)
Definition pixy_round (prev : option pose) (nblocks : nat) (mem : nat -> dot) : bool * pose * pose :=
  (valid mem, raw_pose mem, smooth prev (raw_pose mem)).
End Pixy.
Arguments p_x {N}. Arguments p_y {N}. Arguments p_phi {N}.
