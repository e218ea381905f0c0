(** Concrete histories of the signal registry. *)
From Coq Require Import String.
From Verif Require Import Prelude HalModel HalSpec HalProofs.
Open Scope string_scope.
Open Scope list_scope.

(** Object 0 is the logic signal "led", object 1 the scalable signal "enc". *)
Definition demo : objects := {| id_of := fun a => if Nat.eqb a 0 then "led" else "enc"; kind_of := fun a => if Nat.eqb a 0 then Logic else Scalable |}.

(** Unknown names share the null pointer: releasing y gives x free. *)
Lemma unknown_shared : let os := [Get RAny "x" true; Release "y"] in
  track "x" (hist demo side0 os) = Exclusive /\ next_get demo os RAny "x" true = Ret None.
Proof. split; reflexivity. Qed.
(** Two users, one gives back its claim. *)
Lemma two_users : let os := [Add (Some 0); Get RLogic "led" false; Get RLogic "led" false; Release "led"] in
  registered demo (hist demo side0 os) "led" 0 /\ users "led" (hist demo side0 os) = 1 /\ next_get demo os RLogic "led" true = Ret (Some 0).
Proof. split; [|split; reflexivity]. split; [reflexivity|]. now left. Qed.
(** getInput of an unknown name returns a null pointer. *)
Lemma unknown_null : unknown demo [] "led" /\ next_get demo [] RAny "led" true = Ret None.
Proof. split; [|reflexivity]. intros a [_ []]. Qed.
(** A failed getLogicInput makes a later registration of that name fail. *)
Lemma unknown_blocks : next_get demo [] RLogic "led" true = Exc /\
  snd (run demo side0 [Add (Some 0)]) = [Ret None] /\ snd (run demo side0 [Get RLogic "led" true; Add (Some 0)]) = [Exc; Exc].
Proof. split; [|split]; reflexivity. Qed.
Lemma demo_claims : let os := [Add (Some 0); Add (Some 1); Get RLogic "led" true] in
  registered demo (hist demo side0 os) "led" 0 /\ track "led" (hist demo side0 os) = Exclusive /\ track "enc" (hist demo side0 os) = Free /\
  next_get demo os RAny "led" false = Exc /\ next_get demo os RScalable "enc" false = Ret (Some 1).
Proof. split; [split; [reflexivity|now left]|]. split; [|split; [|split]]; reflexivity. Qed.
