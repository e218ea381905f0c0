(** Model of configurations, /repo/src/config/Config.cpp and /repo/includes/eeros/config/FileConfig.hpp.
    Text is a list of characters. Integer, integer array and string properties are modelled; the double
    properties are treated at the level of values in ConfDouble.v. *)
From Coq Require Import Ascii.
From Verif Require Import Prelude.
Open Scope Z_scope.

Definition text := list ascii.
Definition newline : ascii := "010"%char.
Definition comma : ascii := ",".
Definition text_eqb (a b : text) : bool := if list_eq_dec ascii_dec a b then true else false.

(** ** C++ library functions *)
(** std::isspace in the C locale *)
Definition is_space (c : ascii) : bool := let n := nat_of_ascii c in (n =? 32)%nat || ((9 <=? n) && (n <=? 13))%nat.
Definition digit (d : Z) : ascii := ascii_of_nat (48 + Z.to_nat d).
Definition digit_val (c : ascii) : option Z := let n := Z.of_nat (nat_of_ascii c) in if (48 <=? n) && (n <=? 57) then Some (n - 48) else None.
(** Decimal digits of n; ten digits are enough for an int. *)
Fixpoint digits_of (fuel : nat) (n : Z) : text :=
  match fuel with
  | O => []
  | S f => if n <? 10 then [digit n] else digits_of f (n / 10) ++ [digit (n mod 10)]
  end.
(** std::to_string(int), and operator<<(int) on a stringstream *)
Definition to_string (z : Z) : text := if z <? 0 then "-"%char :: digits_of 11 (- z) else digits_of 11 z.

Fixpoint skip_space (l : text) : text := match l with c :: l' => if is_space c then skip_space l' else l | [] => [] end.
Fixpoint read_digits (l : text) (acc : option Z) : option Z :=
  match l with
  | c :: l' => match digit_val c with Some d => read_digits l' (Some (10 * match acc with Some a => a | None => 0 end + d)) | None => acc end
  | [] => acc
  end.
(** std::stoi: leading white space, optional sign, longest run of digits; exceptions if there is none or the value is no int. *)
Definition stoi (l : text) : outcome Z :=
  let '(neg, l) := match skip_space l with
                   | c :: l' => if Ascii.eqb c "-" then (true, l') else if Ascii.eqb c "+" then (false, l') else (false, c :: l')
                   | [] => (false, [])
                   end in
  match read_digits l None with
  | None => Fault
  | Some v => let z := if neg then - v else v in if (-2147483648 <=? z) && (z <=? 2147483647) then Ok z else Fault
  end.
(** The strings delivered by repeated std::getline with a delimiter. *)
Fixpoint split_aux (d : ascii) (l : text) (cur : text) : list text :=
  match l with
  | [] => match cur with [] => [] | _ => [cur] end
  | c :: l' => if Ascii.eqb c d then cur :: split_aux d l' [] else split_aux d l' (cur ++ [c])
  end.
Definition split (d : ascii) (l : text) : list text := split_aux d l [].
(** operator>>(string): the next word and the rest. *)
Fixpoint word (l : text) : text * text :=
  match l with
  | c :: l' => if is_space c then ([], l) else let '(w, r) := word l' in (c :: w, r)
  | [] => ([], [])
  end.

(** ** Properties *)
Inductive value :=
| VInt (z : Z)
| VArr (default : Z) (l : list Z)      (* the array has length l elements *)
| VStr (s : text).
Definition conf := list (text * value). (* std::map: at most one entry per name, in the order of the map *)

Definition find_prop (n : text) (c : conf) : option value :=
  match find (fun p => text_eqb (fst p) n) c with Some (_, v) => Some v | None => None end.
Definition set_prop (n : text) (v : value) (c : conf) : conf := map (fun p => if text_eqb (fst p) n then (fst p, v) else p) c.

(** Config::add, Config.cpp 8-21, 102-116; for arrays (38-68) [len] and the distance between start and end must agree. *)
Definition conf_add (n : text) (v : value) (len : nat) (c : conf) : outcome conf :=
  if match v with VArr _ l => negb (len =? length l)%nat | _ => false end then Fault
  else match find_prop n c with Some _ => Fault | None => Ok (c ++ [(n, v)]) end.

(** The "set" accessors: value to text, 14-16, 47-54, 108-110 *)
Fixpoint join (l : list Z) : text :=
  match l with
  | [] => []
  | [z] => to_string z
  | z :: l' => to_string z ++ [comma; " "%char] ++ join l'
  end.
Definition print_value (v : value) : text :=
  match v with VInt z => to_string z | VArr _ l => join l | VStr s => s end.

(** The "get" accessors: text to variable, 17-19, 55-66, 111-114.
    Result: the new value and how the call ended; writing past the end of the array is undefined behaviour. *)
Fixpoint read_elems (els : list text) (i : nat) (l : list Z) : list Z * outcome nat :=
  match els with
  | [] => (l, Ok i)
  | e :: els => match stoi e with
                | Ok v => if (i <? length l)%nat then read_elems els (S i) (firstn i l ++ [v] ++ skipn (S i) l) else (l, UB)
                | Fault => (l, Fault)
                | UB => (l, UB)
                end
  end.
Definition read_value (v : value) (t : text) : value * outcome unit :=
  match v with
  | VInt z => match stoi t with Ok z' => (VInt z', Ok tt) | Fault => (v, Fault) | UB => (v, UB) end
  | VArr d l => match read_elems (split comma t) 0 l with
                | (l', Ok i) => (VArr d (firstn i l' ++ repeat d (length l' - i)), Ok tt)
                | (l', Fault) => (VArr d l', Fault)
                | (l', UB) => (VArr d l', UB)
                end
  | VStr s => (VStr (match t with [] => [] | _ :: t' => t' end), Ok tt)
  end.

(** ** FileConfig.hpp 35-49 *)
Definition save_line (p : text * value) : text := fst p ++ [" "; "="; " "]%char ++ print_value (snd p) ++ [newline].
Definition save (c : conf) : text := flat_map save_line c.

(** ** FileConfig.hpp 63-66: key and remaining text of a line.
    iss >> key >> val reads two words; if the second one ends the line the following getline fails and val keeps that word. *)
Definition parse_line (l : text) : text * text :=
  let '(key, r) := word (skip_space l) in
  let '(val, r2) := word (skip_space r) in
  match val, r2 with
  | [], _ => (key, [])
  | _, [] => (key, val)
  | _, _ => (key, r2)
  end.
(** 68-72 *)
Definition load_line (c : conf) (l : text) : conf * outcome unit :=
  let '(key, t) := parse_line l in
  match find_prop key c with
  | None => (c, Ok tt)
  | Some v => let '(v', r) := read_value v t in (set_prop key v' c, r)
  end.
Fixpoint load_lines (ls : list text) (c : conf) : conf * outcome unit :=
  match ls with
  | [] => (c, Ok tt)
  | l :: ls => match load_line c l with
               | (c', Ok _) => load_lines ls c'
               | (c', r) => (c', r)
               end
  end.
Definition load (file : text) (c : conf) : conf * outcome unit := load_lines (split newline file) c.
