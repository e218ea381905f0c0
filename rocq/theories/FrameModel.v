(** Model of coordinate systems and frames, /repo/src/math/CoordinateSystem.cpp and Frame.cpp.
    Objects are identified by their addresses, which the environment chooses among the free ones (so addresses are
    reused). A call with a destroyed object is undefined. Thrown exceptions are results: the program may go on. *)
From Coq Require Import Ascii.
From Verif Require Import Prelude Num MatModel ConfModel.
Open Scope nat_scope.

Section Frame.
Context (T : num).
Record frame := { f_a : nat; f_b : nat; f_T : mem T }.
Record state := {
  cs : nat -> option text;                 (* live coordinate systems with their ids *)
  cs_list : list (text * option nat);      (* CoordinateSystem::list; None: null pointer *)
  fr : nat -> option frame;                (* live frames *)
  fr_list : list nat                       (* Frame::list *)
}.
Definition state0 : state := {| cs := fun _ => None; cs_list := []; fr := fun _ => None; fr_list := [] |}.

Inductive res := Done | Thrown | Ptr (p : option nat) | Count (n : nat).
Inductive op :=
| NewCS (addr : nat) (id : text)
| DelCS (addr : nat)
| GetCS (id : text)
| NewFrame (addr a b : nat) (g : mem T)             (* g: contents of the memory before *)
| NewFrameT (addr a b : nat) (M : mem T)
| NewFrameRT (addr a b : nat) (R r g : mem T)
| CopyFrame (addr f : nat)                          (* implicitly declared copy constructor *)
| DelFrame (f : nat)
| SetT (f : nat) (M : mem T)
| SetRT (f : nat) (R r : mem T)
| Mul (addr f1 f2 : nat) (elided : bool) (g : mem T)  (* elided: the compiler constructs the result in place (allowed, not required) *)
| GetFrame (a b : nat)
| NofFrames.

Definition lookup (id : text) (l : list (text * option nat)) : option (option nat) :=
  match find (fun p => text_eqb (fst p) id) l with Some (_, p) => Some p | None => None end.
Definition erase (id : text) (l : list (text * option nat)) : list (text * option nat) := filter (fun p => negb (text_eqb (fst p) id)) l.

(** Frame.cpp 46-57: both loops write T(m, n) = R(m, n), then the fourth column, then the fourth row *)
Definition set_rt (M R r : mem T) : mem T :=
  fun i => let m := i mod 4 in let n := i / 4 in
           if i <? 16 then if m =? 3 then (if n =? 3 then nofZ T 1 else nofZ T 0) else if n =? 3 then r m else R (3 * n + m) else M i.

(** Frame.cpp 79-84; reading a destroyed frame is undefined *)
Fixpoint find_frame (l : list nat) (s : state) (a b : nat) : outcome (option nat) :=
  match l with
  | [] => Ok None
  | f :: l => match fr s f with
              | None => UB
              | Some x => if (f_a x =? a) && (f_b x =? b) then Ok (Some f) else find_frame l s a b
              end
  end.
Definition set_fr (s : state) (f : nat) (x : option frame) (l : list nat) : state :=
  {| cs := cs s; cs_list := cs_list s; fr := upd (fr s) f x; fr_list := l |}.
(** Frame.cpp 9-36 after the matrix was set up: check, then push_back *)
Definition construct (s : state) (addr a b : nat) (M : mem T) : outcome (state * res) :=
  bind (find_frame (fr_list s) s a b) (fun p =>
    match p with
    | Some _ => Ok (s, Thrown)
    | None => Ok (set_fr s addr (Some {| f_a := a; f_b := b; f_T := M |}) (fr_list s ++ [addr]), Done)
    end).
Definition live_cs (s : state) (a : nat) : bool := match cs s a with Some _ => true | None => false end.
Definition remove_addr (f : nat) (l : list nat) : list nat := filter (fun g => negb (g =? f)) l.

Definition step (s : state) (o : op) : outcome (state * res) :=
  match o with
  (* CoordinateSystem.cpp 11-17 *)
  | NewCS addr id =>
      match cs s addr with
      | Some _ => UB
      | None => match lookup id (cs_list s) with
                | Some _ => Ok (s, Thrown)
                | None => Ok ({| cs := upd (cs s) addr (Some id); cs_list := cs_list s ++ [(id, Some addr)]; fr := fr s; fr_list := fr_list s |}, Done)
                end
      end
  (* 19-21 *)
  | DelCS addr =>
      match cs s addr with
      | None => UB
      | Some id => Ok ({| cs := upd (cs s) addr None; cs_list := erase id (cs_list s); fr := fr s; fr_list := fr_list s |}, Done)
      end
  (* 31-33: operator[] inserts a null pointer when there is no entry *)
  | GetCS id =>
      match lookup id (cs_list s) with
      | Some p => Ok (s, Ptr p)
      | None => Ok ({| cs := cs s; cs_list := cs_list s ++ [(id, None)]; fr := fr s; fr_list := fr_list s |}, Ptr None)
      end
  (* Frame.cpp 9-17 *)
  | NewFrame addr a b g =>
      match fr s addr with
      | Some _ => UB
      | None => if live_cs s a && live_cs s b then bind (m_eye T 4 4 g) (fun M => construct s addr a b M) else UB
      end
  (* 19-26 *)
  | NewFrameT addr a b M =>
      match fr s addr with
      | Some _ => UB
      | None => if live_cs s a && live_cs s b then construct s addr a b M else UB
      end
  (* 28-36 *)
  | NewFrameRT addr a b R r g =>
      match fr s addr with
      | Some _ => UB
      | None => if live_cs s a && live_cs s b then construct s addr a b (set_rt g R r) else UB
      end
  (* Frame.hpp declares no copy constructor: members are copied, the list is not changed *)
  | CopyFrame addr f =>
      match fr s addr, fr s f with
      | None, Some x => Ok (set_fr s addr (Some x) (fr_list s), Done)
      | _, _ => UB
      end
  (* Frame.cpp 38-40 *)
  | DelFrame f => match fr s f with None => UB | Some _ => Ok (set_fr s f None (remove_addr f (fr_list s)), Done) end
  (* 42-44 *)
  | SetT f M => match fr s f with None => UB | Some x => Ok (set_fr s f (Some {| f_a := f_a x; f_b := f_b x; f_T := M |}) (fr_list s), Done) end
  | SetRT f R r => match fr s f with None => UB | Some x => Ok (set_fr s f (Some {| f_a := f_a x; f_b := f_b x; f_T := set_rt (f_T x) R r |}) (fr_list s), Done) end
  (* 71-77; without elision the result is a copy of a registered local frame that is destroyed (and removed from the list) *)
  | Mul addr f1 f2 elided g =>
      match fr s addr, fr s f1, fr s f2 with
      | None, Some x, Some y =>
          if f_b x =? f_a y then
            bind (m_mul T 4 4 4 (f_T x) (f_T y) g) (fun M =>
              bind (construct s addr (f_a x) (f_b y) M) (fun '(s', r) =>
                match r with
                | Thrown => Ok (s, Thrown)
                | _ => Ok (if elided then s' else {| cs := cs s'; cs_list := cs_list s'; fr := fr s'; fr_list := fr_list s |}, Done)
                end))
          else Ok (s, Thrown)
      | _, _, _ => UB
      end
  (* 79-88 *)
  | GetFrame a b => bind (find_frame (fr_list s) s a b) (fun p => Ok (s, Ptr p))
  | NofFrames => Ok (s, Count (length (fr_list s)))
  end.
Fixpoint run (s : state) (ops : list op) : outcome (state * list res) :=
  match ops with
  | [] => Ok (s, [])
  | o :: ops => bind (step s o) (fun '(s, r) => bind (run s ops) (fun '(s, rs) => Ok (s, r :: rs)))
  end.
End Frame.
Arguments Build_frame {T}. Arguments f_a {T}. Arguments f_b {T}. Arguments f_T {T}.
Arguments cs {T}. Arguments cs_list {T}. Arguments fr {T}. Arguments fr_list {T}.
Arguments NewCS {T}. Arguments DelCS {T}. Arguments GetCS {T}. Arguments NewFrame {T}. Arguments NewFrameT {T}. Arguments NewFrameRT {T}. Arguments CopyFrame {T}. Arguments DelFrame {T}.
Arguments SetT {T}. Arguments SetRT {T}. Arguments Mul {T}. Arguments GetFrame {T}. Arguments NofFrames {T}.
