(** Fine-grained model of triggerEvent called from several threads concurrently with the
    safety cycle: SafetySystem.cpp:49-63, 83 and 118.

    Steps of one triggerEvent call: (1) line 51 reads currentLevel and computes the
    destination, without the mutex; (2) line 55 takes the mutex, lines 56/59 compare;
    (3) lines 57/60 write nextLevel, line 63 releases the mutex.  The cycle adopts the
    pending level (lines 83/118) in one step, without the mutex.  Each access is atomic
    here; in C++ the unprotected accesses to currentLevel and nextLevel are in addition a
    data race (undefined behaviour). *)
From Verif Require Import Prelude SafetyModel.
Open Scope Z_scope.

(** Position of a call that has passed step (1) or (2). *)
Inductive call :=
| Read (d : lref)      (* destination computed, mutex not held *)
| Tested (d : lref) (write : bool).  (* mutex held, comparison done *)

(** [rseen]: ghost, all levels that have been current so far (newest first). *)
Record rstate := { rcur : lref; rnxt : lref; rcalls : list call; rseen : list lref }.

Inductive rop :=
| RRead (e : evid) (p : bool)
| RTest (i : nat)
| RWrite (i : nat)
| RAdopt.

Definition is_tested (c : call) : bool := match c with Tested _ _ => true | Read _ => false end.
Fixpoint set_nth {A} (l : list A) (i : nat) (x : A) : list A :=
  match l, i with
  | [], _ => []
  | _ :: t, O => x :: t
  | y :: t, S i => y :: set_nth t i x
  end.
Fixpoint del_nth {A} (l : list A) (i : nat) : list A :=
  match l, i with
  | [], _ => []
  | _ :: t, O => t
  | y :: t, S i => y :: del_nth t i
  end.

(** [None]: the step is not enabled. *)
Definition rstep (h : heap) (s : rstate) (o : rop) : option rstate :=
  match o with
  | RRead e p =>
    match getDestLevelForEvent (h (rcur s)) e p with
    | None => Some s
    | Some d => Some {| rcur := rcur s; rnxt := rnxt s; rcalls := rcalls s ++ [Read d];
                        rseen := rseen s |}
    end
  | RTest i =>
    if existsb is_tested (rcalls s) then None else
    match nth_error (rcalls s) i with
    | Some (Read d) =>
      let w := Nat.eqb (rnxt s) (rcur s) || (lid (h d) <? lid (h (rnxt s))) in
      Some {| rcur := rcur s; rnxt := rnxt s; rcalls := set_nth (rcalls s) i (Tested d w);
              rseen := rseen s |}
    | _ => None
    end
  | RWrite i =>
    match nth_error (rcalls s) i with
    | Some (Tested d w) =>
      Some {| rcur := rcur s; rnxt := if w then d else rnxt s;
              rcalls := del_nth (rcalls s) i; rseen := rseen s |}
    | _ => None
    end
  | RAdopt =>
    Some {| rcur := rnxt s; rnxt := rnxt s; rcalls := rcalls s; rseen := rnxt s :: rseen s |}
  end.

Fixpoint rruns (h : heap) (s : rstate) (os : list rop) : option rstate :=
  match os with
  | [] => Some s
  | o :: os' => match rstep h s o with Some s' => rruns h s' os' | None => None end
  end.

Definition rinit (e : lref) : rstate := {| rcur := e; rnxt := e; rcalls := []; rseen := [e] |}.
