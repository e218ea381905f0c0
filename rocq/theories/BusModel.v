(** Model of the blocks talking to field buses: CAN, CANopen and EtherCAT.
    The bus libraries (CAN.hpp, CANopen.hpp, ecmasterlib) are not part of /repo.  Of their functions the model assumes:
    encodeU32(p, v, n) stores the n (at most 4) low order bytes of v, least significant first, at p;
    getPDOdata(p, a, b) assembles the bytes a to b in the same order; a device access returns or stores the given value.
    Bytes are numbers in Z; [list Z] of bytes. *)
From Verif Require Import Prelude Num.
Open Scope Z_scope.

(** The n low order bytes of v, least significant first, and back. *)
Fixpoint le_bytes (n : nat) (v : Z) : list Z :=
  match n with O => [] | S n => (v mod 256) :: le_bytes n (v / 256) end.
Fixpoint le_value (l : list Z) : Z := match l with [] => 0 | b :: l => b + 256 * le_value l end.

(** encodeU32(buf + pos, v, n): a write outside the buffer is undefined behaviour. *)
Definition encode (buf : list Z) (pos : nat) (v : Z) (n : nat) : outcome (list Z) :=
  if (n <=? 4)%nat && (pos + n <=? length buf)%nat then Ok (firstn pos buf ++ le_bytes n v ++ skipn (pos + n) buf) else UB.
(** getPDOdata(buf, pos, pos + n - 1) on the [length data] bytes received; the rest of the buffer is indeterminate. *)
Definition decode (data : list Z) (pos n : nat) : outcome Z :=
  if (n <=? 4)%nat && (pos + n <=? length data)%nat then Ok (le_value (firstn n (skipn pos data))) else UB.

(** Conversions: (uint32_t)double, undefined behaviour outside the range; uint32_t to int32_t, two's complement. *)
Definition to_u32 (T : num) (x : T) : outcome Z :=
  match ntrunc T x with Some z => if (0 <=? z) && (z <? 4294967296) then Ok z else UB | None => UB end.
Definition to_u16 (T : num) (x : T) : outcome Z :=
  match ntrunc T x with Some z => if (0 <=? z) && (z <? 65536) then Ok z else UB | None => UB end.
Definition to_i32 (z : Z) : Z := (z + 2147483648) mod 4294967296 - 2147483648.

(** One entry of the list pdo, CANopenSend.hpp 203-204 and CANopenReceive.hpp 215-216:
    node index, node id, PDO number, length in bits of all objects, signal index of all objects. *)
Record pdo := { p_node : nat; p_id : Z; p_nr : Z; p_len : list nat; p_idx : list Z }.

(** configureRPDO / configureTPDO, CANopenSend.hpp 171-183, CANopenReceive.hpp 183-195: a node id which is not in the
    list leads to a warning only; the object lengths are not checked. *)
Fixpoint find_node (nodes : list Z) (nid : Z) : option nat :=
  match nodes with [] => None | x :: l => if x =? nid then Some 0%nat else option_map S (find_node l nid) end.
Definition configure (nodes : list Z) (ps : list pdo) (nid nr : Z) (lens : list nat) (idx : list Z) : list pdo :=
  match find_node nodes nid with
  | None => ps
  | Some k => ps ++ [{| p_node := k; p_id := nid; p_nr := nr; p_len := lens; p_idx := idx |}]
  end.

Section CanOpen.
  Variable T : num.
  (** Number of nodes, float signals per node, integer signals per node. *)
  Variables N M P : nat.

  (** *** CANopenSend.hpp
      The inputs and members read by run(): connected float and digital inputs, control words, scale.  The matrix scale is
      stored column by column (Matrix.hpp 237), so element (k, s) is number N * s + k.
      Simplification: line 92 assigns a Matrix<M,1> to a Matrix<N,M>, which is accepted by the compiler for special sizes
      only; the model takes the product as a vector with M elements. *)
  Record sender := { s_enabled : bool; s_in : nat -> list T; s_dig : nat -> list Z; s_ctrl : nat -> Z; s_scale : nat -> T; s_pdo : list pdo }.

  (** Lines 91-99: the number to be encoded for signal index [i] of node number [k]. *)
  Definition sig_value (s : sender) (k : nat) (i : Z) : outcome Z :=
    if 0 <? i then
      match nth_error (s_in s k) (Z.to_nat (i - 1)) with
      | Some v => to_u32 T (nmul T v (s_scale s k))
      | None => Fault
      end
    else if i <? 0 then
      match nth_error (s_dig s k) (Z.to_nat (- i - 1)) with Some v => Ok v | None => Fault end
    else if (k <? N)%nat then Ok (s_ctrl s k) else Fault.

  (** Lines 88-102: the loop over the objects of one PDO; reading sigIdx past its end is undefined behaviour. *)
  Fixpoint pack (value : Z -> outcome Z) (lens : list nat) (idx : list Z) (pos : nat) (buf : list Z) : outcome (list Z * nat) :=
    match lens with
    | [] => Ok (buf, pos)
    | l :: lens =>
      match idx with
      | [] => UB
      | i :: idx =>
        bind (value i) (fun v => bind (encode buf pos v (l / 8)) (fun buf' => pack value lens idx (pos + l / 8) buf'))
      end
    end.

  (** What is put on the bus. *)
  Inductive busmsg := Sync | Pdo (id nr : Z) (data : list Z).

  (** Lines 81-105.  [garbage] is the indeterminate initial content of buf[8]; [err] tells which transmissions fail. *)
  Fixpoint send_pdos (s : sender) (garbage : list Z) (err : nat -> bool) (n : nat) (ps : list pdo) : outcome (list busmsg) :=
    match ps with
    | [] => Ok []
    | p :: ps =>
      bind (pack (sig_value s (p_node p)) (p_len p) (p_idx p) 0 garbage) (fun '(buf, len) =>
        if err n then Fault
        else omap (cons (Pdo (p_id p) (p_nr p) (firstn len buf))) (send_pdos s garbage err (S n) ps))
    end.
  (** run(), lines 76-107 *)
  Definition send_run (s : sender) (garbage : list Z) (err : nat -> bool) : outcome (list busmsg) :=
    if s_enabled s then
      if err 0%nat then Fault else omap (cons Sync) (send_pdos s garbage err 1 (s_pdo s))
    else Ok [].

  (** *** CANopenReceive.hpp
      The outputs: float signals, digital signals and status words; the member scale is set by setScale (153-155) and never used. *)
  Record receiver := { r_out : nat -> list T; r_dig : nat -> list Z; r_status : nat -> Z; r_scale : nat -> T }.
  Fixpoint set_nth {A} (l : list A) (k : nat) (v : A) : list A :=
    match l, k with [], _ => [] | _ :: l, O => v :: l | x :: l, S k => x :: set_nth l k v end.

  (** Lines 97-113: one object; [v] is the int32_t val of line 99. *)
  Definition store (k : nat) (i v : Z) (r : receiver) : outcome receiver :=
    if negb (k <? N)%nat then Fault
    else if 0 <? i then
      if (Z.to_nat (i - 1) <? length (r_out r k))%nat then
        Ok {| r_out := upd (r_out r) k (set_nth (r_out r k) (Z.to_nat (i - 1)) (nofZ T v)); r_dig := r_dig r; r_status := r_status r; r_scale := r_scale r |}
      else Fault
    else if i <? 0 then
      if (Z.to_nat (- i - 1) <? length (r_dig r k))%nat then
        Ok {| r_out := r_out r; r_dig := upd (r_dig r) k (set_nth (r_dig r k) (Z.to_nat (- i - 1)) (v mod 4294967296)); r_status := r_status r; r_scale := r_scale r |}
      else Fault
    else Ok {| r_out := r_out r; r_dig := r_dig r; r_status := upd (r_status r) k (Z.land v 623); r_scale := r_scale r |}.
  Fixpoint unpack (k : nat) (lens : list nat) (idx : list Z) (start : nat) (data : list Z) (r : receiver) : outcome receiver :=
    match lens with
    | [] => Ok r
    | l :: lens =>
      bind (decode data start (l / 8)) (fun raw =>
        match idx with
        | [] => UB
        | i :: idx => bind (store k i (to_i32 raw) r) (fun r' => unpack k lens idx (start + l / 8) data r')
        end)
    end.
  (** Lines 88-115: all registered PDOs with this node id and number. *)
  Fixpoint dispatch (ps : list pdo) (id nr : Z) (data : list Z) (r : receiver) : outcome receiver :=
    match ps with
    | [] => Ok r
    | p :: ps =>
      bind (if (id =? p_id p) && (nr =? p_nr p) then unpack (p_node p) (p_len p) (p_idx p) 0 data r else Ok r)
           (fun r' => dispatch ps id nr data r')
    end.
  (** run(), lines 80-119: [rx] are the results of the nofPDO calls of PDOreceive, [None] for an error. *)
  Fixpoint recv_loop (ps : list pdo) (rx : list (option (Z * Z * list Z))) (r : receiver) : outcome receiver :=
    match rx with
    | [] => Ok r
    | None :: rx => recv_loop ps rx r
    | Some (id, nr, data) :: rx => bind (dispatch ps id nr data r) (recv_loop ps rx)
    end.
  Definition recv_run (enabled : bool) (ps : list pdo) (rx : list (option (Z * Z * list Z))) (r : receiver) : outcome receiver :=
    if enabled then recv_loop ps rx r else Ok r.

  (** *** CANsend.hpp 54-69.  One frame: identifier and 8 data bytes; data[1] is never written ([g] is its content).
      [speed] and [pos] are the values of the members and of the input. *)
  Fixpoint cansend (i : nat) (nodes : list Z) (inp scale speed : list T) (g : Z) (err : nat -> bool) : outcome (list (Z * list Z)) :=
    match nodes with
    | [] => Ok []
    | id :: nodes =>
      match nth_error inp i, nth_error scale i, nth_error speed i with
      | Some x, Some sc, Some sp =>
        bind (to_u32 T (nmul T x sc)) (fun pos =>
        bind (to_u16 T sp) (fun v =>
          if err i then Fault
          else omap (cons (320 + id, 165 :: g :: le_bytes 2 v ++ le_bytes 4 pos)) (cansend (S i) nodes inp scale speed g err)))
      | _, _, _ => Fault
      end
    end.
  (** *** CANreceive.hpp 55-68: one frame per node, in the order of arrival; the identifier is not considered. *)
  Fixpoint canrecv (i : nat) (nodes : list Z) (rx : list (option (Z * list Z))) (scale : list T) (angle : list T) : outcome (list T) :=
    match nodes with
    | [] => Ok angle
    | _ :: nodes =>
      match rx with
      | Some (_, d) :: rx =>
        match nth_error scale i with
        | Some sc => if (i <? length angle)%nat then
            canrecv (S i) nodes rx scale (set_nth angle i (nmul T (nofZ T (Z.lor (Z.shiftl (nth 7 d 0) 8) (nth 6 d 0))) sc))
            else Fault
        | None => Fault
        end
      | _ => Fault
      end
    end.
End CanOpen.
Arguments busmsg : clear implicits.

(** *** EtherCAT terminals.  EL1008.hpp 46-53: *)
Definition el1008_run (val : Z) : list bool := map (fun i => negb (Z.land val (Z.shiftl 1 (Z.of_nat i)) =? 0)) (seq 0 8).
(** EL2008.hpp 32-40: the loop on the local variable val. *)
Fixpoint el2008_loop (i : nat) (ins : list bool) (val : Z) : Z :=
  match ins with
  | [] => val
  | b :: ins => el2008_loop (S i) ins (if b then Z.lor val (Z.shiftl 1 (Z.of_nat i)) else Z.land val (Z.lnot (Z.shiftl 1 (Z.of_nat i))))
  end.
(** The variable val is not initialised (line 33); [None] is its indeterminate value, reading it is undefined behaviour. *)
Definition el2008_run (val : option Z) (ins : list bool) : outcome Z :=
  match ins, val with [], Some v => Ok v | _ :: _, Some v => Ok (el2008_loop 0 ins v) | _, None => UB end.
Definition el2008 (ins : list bool) : outcome Z := el2008_run None ins.

(** EL3004.hpp 38 and EL4004.hpp 36-39; [lsb] is the constant 3276.8 respectively 3276.7. *)
Definition el3004_conv (T : num) (lsb : T) (raw : Z) : T := ndiv T (nofZ T raw) lsb.
Definition to_i16 (T : num) (x : T) : outcome Z :=
  match ntrunc T x with Some z => if (-32768 <=? z) && (z <=? 32767) then Ok z else UB | None => UB end.
Definition el4004_conv (T : num) (lsb : T) (v : T) : outcome Z :=
  let v := if nltb T v (nofZ T 0) then nofZ T 0 else v in
  let v := if nltb T (nofZ T 10) v then nofZ T 10 else v in
  to_i16 T (nmul T v lsb).

(** ElmoOutput.hpp 35-54: the calls made on the drive. *)
Inductive elmo_mode := ProfilePosition | ProfileVelocity | ProfileTorque | OtherMode.
Inductive elmo_call := TargetPosition (v : Z) | TargetVelocity (v : Z) | TargetTorque (v : Z) | MaximumTorque (v : Z).
Definition elmo_run (m : elmo_mode) (pos vel tor tmax : Z) : list elmo_call :=
  match m with
  | ProfilePosition => [TargetPosition pos; MaximumTorque tmax]
  | ProfileVelocity => [TargetVelocity vel; MaximumTorque tmax]
  | ProfileTorque => [TargetTorque tor; MaximumTorque tmax]
  | OtherMode => []
  end.
