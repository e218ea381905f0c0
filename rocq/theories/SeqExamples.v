(** Configurations used by examples and refutations of PropSeq. *)
From Coq Require Import String.
From Verif Require Import Prelude Num SeqModel SeqSpec SeqProofs4.
Open Scope Z_scope.
Open Scope list_scope.

(** A chain: 0 is a step of sequence 1, 1 is a blocking sub-sequence of 2. *)
Definition ch_stack (s : nat) : list nat :=
  match s with 0 => [0; 1; 2] | 1 => [1; 2] | 3 => [3; 1; 2] | _ => [s] end%nat.
Definition nth_orc (l : list bool) (n : nat) : bool := nth n l false.

Lemma ch_suffix : forall q pre s suf, ch_stack q = pre ++ s :: suf -> ch_stack s = s :: suf.
Proof.
  intros q pre s suf H.
  destruct q as [|[|[|[|q]]]]; cbn in H;
    repeat (destruct pre as [|? pre]; cbn in H; inversion H; subst; clear H;
            try reflexivity; try (destruct pre; discriminate);
            repeat match goal with H : _ :: _ = _ |- _ => revert H end; intros);
    try (destruct pre; discriminate); try reflexivity.
  all: repeat match goal with
       | H : _ :: _ = ?p ++ _ |- _ => destruct p; cbn in H; inversion H; subst; clear H; try reflexivity
       | H : [] = ?p ++ _ |- _ => destruct p; discriminate
       end.
Qed.

(** Caller 1 has an abort monitor 1, the outermost sequence 2 a resume monitor 2. *)
Definition mk_defs (s : nat) : seqdef :=
  {| sstack := ch_stack s;
     smons := match s with 1 => [1] | 2 => [2] | _ => [] end%nat;
     sbody := match s with
              | 0%nat => Ret 7
              | 1%nat => Call 0 (fun _ => Ret 1)
              | 2%nat => Call 1 (fun _ => Ret 2)
              | _ => Ret 0
              end |}.
Definition mk_mons (m : nat) : mondef :=
  match m with
  | 2%nat => {| mowner := 2; mbeh := Resume; mexc := None |}
  | _ => {| mowner := 1; mbeh := Abort; mexc := None |}
  end.
Lemma mk_wf : wf_config mk_defs mk_mons.
Proof.
  split; [intros [|[|[|[|s]]]]; cbn; eauto|]. split; [exact ch_suffix|].
  split; [intros [|[|[|s]]] m Hm; cbn in Hm; try (destruct Hm as [<-|[]]; reflexivity); destruct Hm|].
  split.
  - intros [|[|[|s]]]; cbn; repeat (constructor; try reflexivity; intros).
  - intros [|[|[|m]]] e H; discriminate.
Qed.
(** both monitors are true in three polls of step 0, whose exit condition is true in the last. *)
Definition mk_orc : nat -> bool := nth_orc
  [false; true; false; false; true; false; false; true;
   true; true; false;  true; true; false;  true; true; true;
   false; true].

(** Step 0 has an own restart monitor 0, its caller 1 the abort monitor 1. *)
Definition rs_defs (s : nat) : seqdef :=
  {| sstack := ch_stack s;
     smons := match s with 0 => [0] | 1 => [1] | _ => [] end%nat;
     sbody := match s with
              | 0%nat => Ret 7
              | 1%nat => Call 0 (fun _ => Ret 1)
              | 2%nat => Call 1 (fun _ => Ret 2)
              | _ => Ret 0
              end |}.
Definition rs_mons (m : nat) : mondef :=
  match m with
  | 0%nat => {| mowner := 0; mbeh := Restart; mexc := None |}
  | _ => {| mowner := 1; mbeh := Abort; mexc := None |}
  end.
Lemma rs_wf : wf_config rs_defs rs_mons.
Proof.
  split; [intros [|[|[|[|s]]]]; cbn; eauto|]. split; [exact ch_suffix|].
  split; [intros [|[|[|s]]] m Hm; cbn in Hm; try (destruct Hm as [<-|[]]; reflexivity); destruct Hm|].
  split.
  - intros [|[|[|s]]]; cbn; repeat (constructor; try reflexivity; intros).
  - intros [|[|m]] e H; discriminate.
Qed.
(** Both monitors are true in the first poll of step 0. *)
Definition rs_orc : nat -> bool := nth_orc
  [true; (* pre 2 *) false; true; (* 1: abort false, pre 1 *) false; false; true; (* start of 0 *)
   true; true; (* both true *) true; (* pre 0 again *) false; false; true; (* poll, exit *)
   true].

(** Sequence 1 calls the steps 0 and 3; its abort monitor 1 is true during one poll of step 0. *)
Definition nl_defs (s : nat) : seqdef :=
  {| sstack := ch_stack s;
     smons := match s with 1 => [1] | _ => [] end%nat;
     sbody := match s with
              | 0%nat => Ret 7
              | 1%nat => Call 0 (fun _ => Call 3 (fun _ => Ret 1))
              | 2%nat => Call 1 (fun _ => Ret 2)
              | _ => Ret 3
              end |}.
Definition nl_mons (m : nat) : mondef := {| mowner := 1; mbeh := Abort; mexc := None |}.
Lemma nl_wf : wf_config nl_defs nl_mons.
Proof.
  split; [intros [|[|[|[|s]]]]; cbn; eauto|]. split; [exact ch_suffix|].
  split; [intros [|[|s]] m Hm; cbn in Hm; try (destruct Hm as [<-|[]]; reflexivity); destruct Hm|].
  split.
  - intros [|[|[|s]]]; cbn; repeat (constructor; try reflexivity; intros).
  - intros m e H; discriminate.
Qed.
Definition nl_orc : nat -> bool := nth_orc
  [true; (* pre 2 *) false; true; (* 1 *) false; true; (* start of 0 *)
   true; false; (* poll: abort, exit condition of 0 *)
   false; true; (* start of 3 *) false; true; (* poll of 3, exit *)
   true].

(** A monitor with an exception sequence 4 and resume behaviour on sequence 1. *)
Definition ex_defs (s : nat) : seqdef :=
  {| sstack := ch_stack s;
     smons := match s with 1 => [1] | _ => [] end%nat;
     sbody := match s with
              | 0%nat => Ret 7
              | 1%nat => Call 0 (fun r => Ret r)
              | 2%nat => Call 1 (fun r => Ret r)
              | 4%nat => Ret 40
              | _ => Ret 3
              end |}.
Definition ex_mons (m : nat) : mondef := {| mowner := 1; mbeh := Resume; mexc := Some 4%nat |}.
Lemma ex_wf : wf_config ex_defs ex_mons.
Proof.
  split; [intros [|[|[|[|s]]]]; cbn; eauto|]. split; [exact ch_suffix|].
  split; [intros [|[|s]] m Hm; cbn in Hm; try (destruct Hm as [<-|[]]; reflexivity); destruct Hm|].
  split.
  - intros [|[|[|[|[|s]]]]]; cbn; repeat (constructor; try reflexivity; intros).
  - intros m e H; inversion H; left; reflexivity.
Qed.
Definition ex_orc : nat -> bool := nth_orc
  [true; false; true; false; true; (* poll of 0: *) true; (* 4: pre, exit *) true; true; (* exit of 0 *) true;
   false; true; true].

Definition run_log (x : result (world * Z)) : option (list ev * Z) :=
  match x with Fin (w, r) => Some (wlog w, r) | _ => None end.
