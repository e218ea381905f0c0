(** Model of the remaining operations of Matrix.hpp: constructor with values, operators with a number on the left,
    compound operators, columns and rows as std::vector, createVector2, createVector3, createDiag and the output to a
    stream.  Conventions as in [MatModel]. *)
From Coq Require Import Ascii List Bool.
From Verif Require Import Prelude Num MatModel.
Import ListNotations.
Open Scope nat_scope.

Section Matrix.
  Context (T : num).
  Notation mem := (mem T). Notation zero := (nofZ T 0%Z).

  (** Lines 59-62: value{v...}; the number of values is checked by the compiler. *)
  Definition m_values (vs : list T) : mem := fun i => nth i vs zero.

  (** Lines 883-939: number op matrix, and the unary minus for constant matrices *)
  Definition m_left (f : T -> T -> T) (M N : nat) (c : T) (a g : mem) : outcome mem :=
    each T M N (fun m n => bind (rd T M N a m n) (fun x => Ok (f c x))) g.
  Definition m_ladd := m_left (nadd T).
  Definition m_lsub := m_left (nsub T).
  Definition m_ldiv := m_left (ndiv T).
  Definition m_cneg (M N : nat) (a g : mem) : outcome mem :=
    each T M N (fun m n => bind (rd T M N a m n) (fun x => Ok (mopp T x))) g.
  (** Lines 622-625 and 647-650: the new value of the left matrix; [g] is the temporary of operator+ or operator-. *)
  Definition m_addto (M N : nat) (a b g : mem) : outcome mem := m_add T M N a b g.
  Definition m_subfrom (M N : nat) (a b g : mem) : outcome mem := m_sub T M N a b g.

  (** Lines 166-172 and 182-188 *)
  Definition m_colvec (M N : nat) (a : mem) (n : nat) : outcome (list T) :=
    loop M (fun m l => bind (rd T M N a m n) (fun v => Ok (l ++ [v]))) [].
  Definition m_rowvec (M N : nat) (a : mem) (m : nat) : outcome (list T) :=
    loop N (fun n l => bind (rd T M N a m n) (fun v => Ok (l ++ [v]))) [].

  (** Lines 781-794 *)
  Definition m_vector2 (x y : T) (g : mem) : outcome mem := bind (wr1 T 2 1 g 0 x) (fun r => wr1 T 2 1 r 1 y).
  Definition m_vector3 (x y z : T) (g : mem) : outcome mem :=
    bind (wr1 T 3 1 g 0 x) (fun r => bind (wr1 T 3 1 r 1 y) (fun r => wr1 T 3 1 r 2 z)).
  (** Lines 796-800 *)
  Definition m_diag (M N : nat) (v : T) (g g' : mem) : outcome mem := bind (m_eye T M N g) (fun d => m_scale T M N d v g').

  (** Lines 943-956; [show]: the text of a number.  All accesses are in range. *)
  Definition print_col (show : T -> list ascii) (M : nat) (a : mem) (n : nat) : list ascii :=
    "["%char :: concat (map (fun m => show (a (M * n + m)) ++ (if m <? M - 1 then [" "%char] else [])) (seq 0 M))
    ++ ["]"%char; "'"%char; " "%char].
  Definition m_print (show : T -> list ascii) (M N : nat) (a : mem) : list ascii :=
    (if 1 <? N then ["["%char; " "%char] else []) ++ concat (map (print_col show M a) (seq 0 N)) ++
    (if 1 <? N then ["]"%char] else []).
End Matrix.
