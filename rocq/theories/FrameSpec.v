(** Vocabulary for the properties of frames. *)
From Verif Require Import Prelude Num MatModel ConfModel FrameModel.
Open Scope nat_scope.
Section Spec.
Context (T : num).
(** No use of the copy constructor, neither written nor for the result of a product. *)
Definition plain (o : op T) : Prop := match o with CopyFrame _ _ => False | Mul _ _ _ e _ => e = true | _ => True end.
(** The objects of a call exist and new objects get free addresses. *)
Definition legal (s : state T) (o : op T) : Prop :=
  match o with
  | NewCS addr _ => cs s addr = None
  | DelCS addr => cs s addr <> None
  | NewFrame addr a b _ | NewFrameT addr a b _ | NewFrameRT addr a b _ _ _ => fr s addr = None /\ cs s a <> None /\ cs s b <> None
  | CopyFrame addr f => fr s addr = None /\ fr s f <> None
  | DelFrame f | SetT f _ | SetRT f _ _ => fr s f <> None
  | Mul addr f1 f2 _ _ => fr s addr = None /\ fr s f1 <> None /\ fr s f2 <> None
  | GetCS _ | GetFrame _ _ | NofFrames => True
  end.
End Spec.
