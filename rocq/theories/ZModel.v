(** Model of the z transfer function block, /repo/includes/eeros/control/ZTransferFunction.hpp 61-82.
    The arrays last_in[N] and last_out[N] (N = ORDER + 1) are never initialised (17-21), and the shifting loop reads the
    elements at index -1. Both are undefined behaviour. To be able to say something about what the code computes
    nevertheless, reads outside of the arrays are answered by an oracle ([None]: undefined behaviour, as in the C++
    standard; [Some v]: the memory there happens to contain v), and an element of the history may be undefined. *)
From Verif Require Import Prelude Num MatModel.
Open Scope nat_scope.

Section Z.
Context (T : num).
Notation hist := (nat -> option T).
Record state := { z_in : hist; z_out : hist }.
(** The state after construction: memory that was never written *)
Definition fresh : state := {| z_in := fun _ => None; z_out := fun _ => None |}.
Definition read (a : hist) (i : nat) : outcome T := match a i with Some v => Ok v | None => UB end.

(** 64-66: the sum over i = 1 ... N-1 *)
Definition sum (N : nat) (num den : nat -> T) (s : state) (y : T) : outcome T :=
  loop_from 1 (N - 1) (fun i y => bind (read (z_in s) i) (fun u => bind (read (z_out s) i) (fun w =>
    Ok (nadd T y (nsub T (nmul T u (num i)) (nmul T w (den i))))))) y.
(** 72-75: i = N-1, ..., 0; element -1 is answered by the oracle. The copy of an undefined element is undefined. *)
Fixpoint shift (i : nat) (junk_in junk_out : option T) (s : state) : outcome state :=
  match i with
  | O => Ok s
  | 1 => match junk_in, junk_out with
         | Some a, Some b => Ok {| z_in := upd (z_in s) 0 (Some a); z_out := upd (z_out s) 0 (Some b) |}
         | _, _ => UB
         end
  | S (S i as j) => bind (read (z_in s) i) (fun a => bind (read (z_out s) i) (fun b =>
       shift j junk_in junk_out {| z_in := upd (z_in s) j (Some a); z_out := upd (z_out s) j (Some b) |}))
  end.
(** 61-76 with input u: the new state and the output *)
Definition run (N : nat) (num den : nat -> T) (junk_in junk_out : option T) (s : state) (u : T) : outcome (state * T) :=
  let s := {| z_in := upd (z_in s) 0 (Some u); z_out := z_out s |} in
  bind (sum N num den s (nmul T u (num 0))) (fun y =>
    let y := ndiv T y (den 0) in
    let s := {| z_in := z_in s; z_out := upd (z_out s) 0 (Some y) |} in
    bind (shift N junk_in junk_out s) (fun s => Ok (s, y))).
(** A sequence of cycles *)
Fixpoint runs (N : nat) (num den : nat -> T) (s : state) (us : list (T * (option T * option T))) : outcome (list T) :=
  match us with
  | [] => Ok []
  | (u, (a, b)) :: us => bind (run N num den a b s u) (fun '(s, y) => omap (cons y) (runs N num den s us))
  end.
End Z.
Arguments z_in {T}. Arguments z_out {T}.
