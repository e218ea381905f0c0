(** * Vocabulary for the printed matrices *)
From Coq Require Import Ascii List Bool.
Import ListNotations.

(** Blanks, brackets and quotes separate the numbers of a text. *)
Definition separator (c : ascii) : bool :=
  Ascii.eqb c " " || Ascii.eqb c "[" || Ascii.eqb c "]" || Ascii.eqb c "'".
(** The words of a text. *)
Fixpoint words_from (w : list ascii) (t : list ascii) : list (list ascii) :=
  match t with
  | [] => match w with [] => [] | _ => [rev w] end
  | c :: t => if separator c then match w with [] => words_from [] t | _ => rev w :: words_from [] t end
              else words_from (c :: w) t
  end.
Definition words (t : list ascii) : list (list ascii) := words_from [] t.
(** A number is written without separators. *)
Definition word (w : list ascii) : Prop := w <> [] /\ forall c, In c w -> separator c = false.
