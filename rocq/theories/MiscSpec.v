(** Specifications for the small parts. *)
From Verif Require Import Prelude Num HalModel MiscModel.
Open Scope Z_scope.

(** Smallest value of an integral type. *)
Definition least (t : itype) : Z :=
  match t with IBool => 0 | IUnsigned _ => 0 | ISigned b => - 2 ^ (b - 1) end.
(** The numbers the constant block outputs by default: the least number of 32 bits, as far as it fits; true for bool. *)
Definition int_bits (t : itype) : Z := match t with IBool => 1 | ISigned b | IUnsigned b => b end.
Definition default_value (t : itype) : Z :=
  match t with
  | IBool => 1
  | ISigned b => if b <=? 31 then 0 else - 2 ^ 31
  | IUnsigned b => if b <=? 31 then 0 else 2 ^ b - 2 ^ 31
  end.
(** The priorities of syslog.h: alert 1, err 3, warning 4, info 6, debug 7. *)
Definition severity (l : level) : Z := nth (match l with FATAL => 0 | ERROR => 1 | WARN => 2 | INFO => 3 | TRACE => 4 end)%nat [1; 3; 4; 6; 7] 0.
(** Level numbers grow from fatal to trace. *)
Definition rank (l : level) : Z := match l with FATAL => 0 | ERROR => 1 | WARN => 2 | INFO => 3 | TRACE => 4 end.
(** What a writer should produce for a list of messages with their levels. *)
Definition wanted {M : Type} (visible : level) (ms : list (level * M)) : list (Z * M) :=
  map (fun m => (severity (fst m), snd m)) (filter (fun m => rank (fst m) <=? rank visible) ms).
(** Value of the last output of the [n] first ones which a buffer of [cap] has written out: whole buffers, the last one only when the next level comes. *)
Definition written_out (cap n : nat) : nat := ((n - 1) / cap * cap)%nat.
(** The claims of a registry side. *)
Definition same_claims (s t : side) : Prop := forall p, excl s p = excl t p /\ shared s p = shared t p.
