(** Vocabulary of the statements about SequencerUI. *)
From Coq Require Import Ascii.
From Verif Require Import Prelude UiModel.

(** The characters which arrive before the connection ends. *)
Fixpoint arrived (calls : list call) : list ascii :=
  match calls with
  | [] => []
  | c :: calls => match res c with
    | RChar x => x :: (if late c then [] else arrived calls)
    | REof => if late c then [] else arrived calls
    | RErr => []
    end
  end.
(** How the connection ends: None not yet, Some true with a character (time out while reading it), Some false without one. *)
Fixpoint ending (calls : list call) : option bool :=
  match calls with
  | [] => None
  | c :: calls => match res c with
    | RChar _ => if late c then Some true else ending calls
    | REof => if late c then Some false else ending calls
    | RErr => Some false
    end
  end.
(** The key bindings: the characters by their codes. *)
Definition key_table : list (nat * list cmd) := [(98, [Block_]); (99, [Restart]); (115, [Block_; Step])].
Definition commands_of (c : ascii) : list cmd :=
  match find (fun p => Nat.eqb (fst p) (nat_of_ascii c)) key_table with Some p => snd p | None => [] end.
