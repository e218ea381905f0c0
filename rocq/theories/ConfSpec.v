(** Specification of saving and restoring configurations. *)
From Coq Require Import Ascii.
From Verif Require Import Prelude ConfModel.
Open Scope Z_scope.

Definition int_range (z : Z) : Prop := -2147483648 <= z <= 2147483647.
(** Names without white space; strings without line breaks; arrays with at least one element. *)
Definition good_name (n : text) : Prop := n <> [] /\ forall c, In c n -> is_space c = false.
Definition good_value (v : value) : Prop :=
  match v with
  | VInt z => int_range z
  | VArr _ l => l <> [] /\ forall z, In z l -> int_range z
  | VStr s => ~ In newline s
  end.
Definition good_conf (c : conf) : Prop := NoDup (map fst c) /\ forall n v, In (n, v) c -> good_name n /\ good_value v.

(** Same type (and array length). *)
Definition same_type (v w : value) : Prop :=
  match v, w with
  | VInt _, VInt _ => True
  | VArr _ l, VArr _ k => length l = length k
  | VStr _, VStr _ => True
  | _, _ => False
  end.
(** The variable [v] after it was given the saved value [w]; the default of an array is not saved. *)
Definition restored (v w : value) : value := match v, w with VArr d _, VArr _ l => VArr d l | _, _ => w end.
(** What loading may not change: the type and the number of elements of a variable. *)
Definition shape (v : value) : value := match v with VInt _ => VInt 0 | VArr d l => VArr d (map (fun _ => 0) l) | VStr _ => VStr [] end.
