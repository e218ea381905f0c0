(** What is wanted of signal handlers. *)
From Verif Require Import Prelude SafetyModel SigModel.
Local Open Scope nat_scope.

(** States after any steps. *)
Definition reach (h : heap) (x : evid) (s : st) : Prop := exists c ls, steps h x ls (start c) = Some (Ok s).

(** The call is between lock and unlock. *)
Definition locked (f : option pos) : bool := match f with Some (PTest _ | PWrite _ _ | PUnlock) => true | _ => false end.
(** The call is inside a function that is not async-signal-safe. *)
Definition inside (f : option pos) : bool := match f with Some (PIn | PLogE) => true | _ => false end.

(** The signal finds its thread outside of both. *)
Definition good (l : label) (s : st) : Prop :=
  match l with LSig t => locked (body (th s t)) = false /\ inside (body (th s t)) = false | _ => True end.
Inductive reach_good (h : heap) (x : evid) : st -> Prop :=
| rg_start c : reach_good h x (start c)
| rg_step s l s' : reach_good h x s -> good l s -> step h x l s = Some (Ok s') -> reach_good h x s'.

(** [d] is registered as the destination of some event at level [c]. *)
Definition registered (h : heap) (c d : lref) : Prop := exists e p, getDestLevelForEvent (h c) e p = Some d.

(** Level 0 below two others: event 0 leads from level 1 to 0 and from level 2 to 1, event 1 from level 1 to 2, event 3
    from level 2 to 0. *)
Definition demo : heap := fun l =>
  {| lid := Z.of_nat l; lin := []; lout := []; lact := false;
     ltrans := match l with
               | 1 => [(0%Z, (0, false)); (1%Z, (2, false))]
               | 2 => [(0%Z, (1, false)); (3%Z, (0, false))]
               | _ => [] end |}.
