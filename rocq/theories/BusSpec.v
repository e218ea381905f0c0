(** Vocabulary of the statements about the bus blocks. *)
From Verif Require Import Prelude Num BusModel.
Open Scope Z_scope.

(** Number of whole bytes of objects with the given lengths in bits. *)
Definition bytes_of (lens : list nat) : nat := list_sum (map (fun l => Nat.div l 8) lens).
(** The n-byte content of a number, as unsigned number. *)
Definition low (n : nat) (v : Z) : Z := v mod 2 ^ (8 * Z.of_nat n).
(** A 32 bit pattern as signed number. *)
Definition signed32 (u : Z) : Z := if u <? 2 ^ 31 then u else u - 2 ^ 32.

(** Signal index [i] of a node with float inputs [fi], digital inputs [di] and scale factor [sc] denotes a number which
    can be transmitted, and the receiver has a place for it. *)
Definition transmissible (T : num) (fi : list T) (di : list Z) (sc : T) (nf nd : nat) (i : Z) : Prop :=
  (0 < i -> exists x z, nth_error fi (Z.to_nat (i - 1)) = Some x /\ ntrunc T (nmul T x sc) = Some z /\ 0 <= z < 2 ^ 32 /\ (Z.to_nat (i - 1) < nf)%nat) /\
  (i < 0 -> exists v, nth_error di (Z.to_nat (- i - 1)) = Some v /\ (Z.to_nat (- i - 1) < nd)%nat).

(** A call of configureRPDO or configureTPDO: node id, PDO number, lengths and signal indices of the objects. *)
Record request := { q_id : Z; q_nr : Z; q_len : list nat; q_idx : list Z }.
Definition config (nodes : list Z) (qs : list request) : list pdo :=
  fold_left (fun ps q => configure nodes ps (q_id q) (q_nr q) (q_len q) (q_idx q)) qs [].
(** The identification of a request and of a message. *)
Definition q_key (q : request) : Z * Z := (q_id q, q_nr q).
Definition m_key (m : busmsg) : option (Z * Z) := match m with Sync => None | Pdo id nr _ => Some (id, nr) end.
(** The messages among the results of PDOreceive, which also reports errors. *)
Definition carried (rx : list (option (Z * Z * list Z))) : list busmsg :=
  flat_map (fun x => match x with Some (id, nr, data) => [Pdo id nr data] | None => [] end) rx.
(** The value of the receiver's signal [i] of node number [k]. *)
Inductive value (T : num) := Float (x : option T) | Digital (x : option Z) | Status (x : Z).
Arguments Float {T}. Arguments Digital {T}. Arguments Status {T}.
Definition signal (T : num) (r : receiver T) (k : nat) (i : Z) : value T :=
  if 0 <? i then Float (nth_error (r_out T r k) (Z.to_nat (i - 1)))
  else if i <? 0 then Digital (nth_error (r_dig T r k) (Z.to_nat (- i - 1))) else Status (r_status T r k).
(** It holds what the sender has put into an object of [l] bits. *)
Definition arrived (T : num) (s : sender T) (r : receiver T) (k l : nat) (i : Z) : Prop :=
  (0 < i -> exists x z, nth_error (s_in T s k) (Z.to_nat (i - 1)) = Some x /\ ntrunc T (nmul T x (s_scale T s k)) = Some z /\
              signal T r k i = Float (Some (nofZ T (signed32 (low (l / 8) z))))) /\
  (i < 0 -> exists v, nth_error (s_dig T s k) (Z.to_nat (- i - 1)) = Some v /\ signal T r k i = Digital (Some (low (l / 8) v))) /\
  (i = 0 -> signal T r k i = Status (Z.land (low (l / 8) (s_ctrl T s k)) 623)).
