(** Common definitions: outcomes of C++ calls.

    [Ok v]    the call returned [v];
    [Fault]   the call raised a C++ exception;
    [UB]      the call has undefined behaviour (null dereference, out-of-bounds
              access, division by zero on integers, ...). *)
From Coq Require Export List Arith ZArith Lia Bool.
Export ListNotations.

Inductive outcome (A : Type) : Type :=
| Ok (v : A)
| Fault
| UB.
Arguments Ok {A} v.
Arguments Fault {A}.
Arguments UB {A}.

Definition bind {A B : Type} (x : outcome A) (f : A -> outcome B) : outcome B :=
  match x with
  | Ok v => f v
  | Fault => Fault
  | UB => UB
  end.

Definition omap {A B : Type} (f : A -> B) (x : outcome A) : outcome B :=
  bind x (fun v => Ok (f v)).

(** Function update, used for memories indexed by [nat] (pointers). *)
Definition upd {A : Type} (f : nat -> A) (k : nat) (v : A) : nat -> A :=
  fun k' => if Nat.eqb k' k then v else f k'.

Lemma upd_same : forall (A : Type) (f : nat -> A) k v, upd f k v k = v.
Proof. intros; unfold upd; rewrite Nat.eqb_refl; reflexivity. Qed.

Lemma upd_other : forall (A : Type) (f : nat -> A) k v k', k' <> k -> upd f k v k' = f k'.
Proof. intros A f k v k' H; unfold upd; destruct (Nat.eqb_spec k' k); congruence. Qed.
