(** Properties C135 to C144: CAN, CANopen and EtherCAT blocks. *)
From Coq Require Import Reals Lra Floats.SpecFloat.
From Verif Require Import Prelude Num NumDbl BusModel BusSpec BusProofs BusProofs2 BusProofs3 BusProofs4.
Open Scope Z_scope.

(** C135: every value packed into a PDO arrives at the signal configured for it. *)
Theorem C135_roundtrip : forall (T : num) (N : nat) (s : sender T) (p : pdo) (garbage : list Z) (r : receiver T),
  length garbage = 8%nat -> length (p_len p) = length (p_idx p) -> NoDup (p_idx p) -> (bytes_of (p_len p) <= 8)%nat ->
  (forall l, In l (p_len p) -> (l / 8 <= 4)%nat) -> (p_node p < N)%nat ->
  (forall i, In i (p_idx p) ->
     transmissible T (s_in T s (p_node p)) (s_dig T s (p_node p)) (s_scale T s (p_node p))
       (length (r_out T r (p_node p))) (length (r_dig T r (p_node p))) i) ->
  exists data r',
    send_pdos T N s garbage (fun _ => false) 1 [p] = Ok [Pdo (p_id p) (p_nr p) data] /\
    (length data <= 8)%nat /\
    dispatch T N [p] (p_id p) (p_nr p) data r = Ok r' /\
    forall k l i, nth_error (p_len p) k = Some l -> nth_error (p_idx p) k = Some i ->
      (0 < i -> exists x z, nth_error (s_in T s (p_node p)) (Z.to_nat (i - 1)) = Some x /\
                 ntrunc T (nmul T x (s_scale T s (p_node p))) = Some z /\
                 nth_error (r_out T r' (p_node p)) (Z.to_nat (i - 1)) = Some (nofZ T (signed32 (low (l / 8) z)))) /\
      (i < 0 -> exists v, nth_error (s_dig T s (p_node p)) (Z.to_nat (- i - 1)) = Some v /\
                 nth_error (r_dig T r' (p_node p)) (Z.to_nat (- i - 1)) = Some (low (l / 8) v)) /\
      (i = 0 -> r_status T r' (p_node p) = Z.land (low (l / 8) (s_ctrl T s (p_node p))) 623).
Proof. exact pdo_roundtrip. Qed.
Print Assumptions C135_roundtrip.
(** A whole cycle: after the sync message the known nodes get their PDOs, in order; whatever part of them is received, in any order
    and with errors in between, every signal received has the value sent and every other signal keeps its value. *)
Theorem C135_cycle : forall (T : num) (nodes : list Z) (qs : list request) (s : sender T) (r : receiver T) (garbage : list Z),
  length garbage = 8%nat -> s_enabled T s = true -> s_pdo T s = config nodes qs -> NoDup nodes -> NoDup (map q_key qs) ->
  NoDup (flat_map (fun q => map (pair (q_id q)) (q_idx q)) qs) ->
  (forall q, In q qs -> length (q_len q) = length (q_idx q) /\ (bytes_of (q_len q) <= 8)%nat /\ (forall l, In l (q_len q) -> (l / 8 <= 4)%nat) /\
     forall k i, nth_error nodes k = Some (q_id q) -> In i (q_idx q) ->
       transmissible T (s_in T s k) (s_dig T s k) (s_scale T s k) (length (r_out T r k)) (length (r_dig T r k)) i) ->
  exists ms, send_run T (length nodes) s garbage (fun _ => false) = Ok (Sync :: ms) /\
    map m_key ms = map (fun q => Some (q_key q)) (filter (fun q => existsb (Z.eqb (q_id q)) nodes) qs) /\
    forall rx, (forall m, In m (carried rx) -> In m ms) ->
      exists r', recv_run T (length nodes) true (config nodes qs) rx r = Ok r' /\
        (forall q k n l i, In q qs -> nth_error nodes k = Some (q_id q) -> (exists d, In (Pdo (q_id q) (q_nr q) d) (carried rx)) ->
           nth_error (q_len q) n = Some l -> nth_error (q_idx q) n = Some i -> arrived T s r' k l i) /\
        (forall k i, (forall q, In q qs -> (exists d, In (Pdo (q_id q) (q_nr q) d) (carried rx)) -> ~ (nth_error nodes k = Some (q_id q) /\ In i (q_idx q))) ->
           signal T r' k i = signal T r k i).
Proof. exact cycle. Qed.
Print Assumptions C135_cycle.
Theorem C135_disabled : forall (T : num) (N : nat) (s : sender T) (garbage : list Z) (err : nat -> bool), s_enabled T s = false ->
  send_run T N s garbage err = Ok [].
Proof. exact send_disabled. Qed.
Print Assumptions C135_disabled.
(** Two nodes with a PDO each, a request for an unknown node, and an error while receiving. *)
Definition ex_qs : list request := [{| q_id := 7; q_nr := 1; q_len := [16%nat]; q_idx := [0] |}; {| q_id := 9; q_nr := 1; q_len := [16%nat]; q_idx := [0] |};
  {| q_id := 3; q_nr := 2; q_len := [8; 16]%nat; q_idx := [-1; -2] |}].
Definition ex_sender2 : sender Rnum :=
  {| s_enabled := true; s_in := fun _ => []; s_dig := fun _ => [300; 4660]; s_ctrl := fun k => Z.of_nat k + 14; s_scale := fun _ => 1%R : nT Rnum; s_pdo := config [3; 7] ex_qs |}.
Definition ex_receiver2 : receiver Rnum := {| r_out := fun _ => []; r_dig := fun _ => [0; 0]; r_status := fun _ => 0; r_scale := fun _ => 1%R : nT Rnum |}.
Example C135_cycle_example :
  NoDup [3; 7] /\ NoDup (map q_key ex_qs) /\ NoDup (flat_map (fun q => map (pair (q_id q)) (q_idx q)) ex_qs) /\
  send_run Rnum 2 ex_sender2 [9; 9; 9; 9; 9; 9; 9; 9] (fun _ => false) = Ok [Sync; Pdo 7 1 [15; 0]; Pdo 3 2 [44; 52; 18]] /\
  exists r', recv_run Rnum 2 true (config [3; 7] ex_qs) [None; Some (3, 2, [44; 52; 18]); None; Some (7, 1, [15; 0])] ex_receiver2 = Ok r' /\
    r_dig Rnum r' 0%nat = [44; 4660] /\ r_status Rnum r' 1%nat = 15.
Proof.
  split; [repeat constructor; cbn; intuition discriminate|]. split; [repeat constructor; cbn; intuition discriminate|].
  split; [repeat constructor; cbn; intuition discriminate|]. split; [reflexivity|]. eexists. split; [reflexivity|]. split; reflexivity.
Qed.
(** A control word and two digital values in one PDO. *)
Definition ex_sender : sender Dnum :=
  {| s_enabled := true; s_in := fun _ => [dofZ 5 : nT Dnum]; s_dig := fun _ => [300; 4294967295]; s_ctrl := fun _ => 15; s_scale := fun _ => (dofZ 1 : nT Dnum); s_pdo := [] |}.
Example C135_example :
  send_pdos Dnum 1 ex_sender [9; 9; 9; 9; 9; 9; 9; 9] (fun _ => false) 1 [{| p_node := 0; p_id := 3; p_nr := 1; p_len := [16; 8; 32]%nat; p_idx := [0; -1; 1] |}]
  = Ok [Pdo 3 1 [15; 0; 44; 5; 0; 0; 0]].
Proof. reflexivity. Qed.

(** C136: packing the configured objects never writes outside the 8 byte buffer. *)
Theorem C136_refuted : exists (s : sender Rnum), s_pdo Rnum s = configure [1] [] 1 1 [32%nat; 32%nat; 32%nat] [0; -1; -2] /\
  s_dig Rnum s 0%nat = [7; 8] /\ forall garbage, length garbage = 8%nat -> send_run Rnum 1 s garbage (fun _ => false) = UB.
Proof. exact send_overrun. Qed.
Print Assumptions C136_refuted.
Theorem C136_fitting_partial : forall (T : num) (N : nat) (s : sender T) (garbage : list Z) (err : nat -> bool),
  length garbage = 8%nat ->
  (forall p, In p (s_pdo T s) ->
     (bytes_of (p_len p) <= 8)%nat /\ (forall l, In l (p_len p) -> (l / 8 <= 4)%nat) /\ (length (p_len p) <= length (p_idx p))%nat /\
     forall i x, In i (p_idx p) -> 0 < i -> nth_error (s_in T s (p_node p)) (Z.to_nat (i - 1)) = Some x ->
       exists z, ntrunc T (nmul T x (s_scale T s (p_node p))) = Some z /\ 0 <= z < 2 ^ 32) ->
  send_run T N s garbage err <> UB.
Proof. exact send_noub. Qed.
Print Assumptions C136_fitting_partial.

(** C137: every signal of every drive is scaled with its own factor. *)
Theorem C137_send_refuted : exists (N : nat) (s : sender Rnum) (k : nat) (i : Z) (x : R), (k < N)%nat /\ 0 < i /\
  nth_error (s_in Rnum s k) (Z.to_nat (i - 1)) = Some x /\
  sig_value Rnum N s k i <> to_u32 Rnum (x * s_scale Rnum s (N * Z.to_nat (i - 1) + k)%nat)%R.
Proof. exact scale_wrong. Qed.
Print Assumptions C137_send_refuted.
Theorem C137_receive_refuted : exists (r : receiver Rnum) (v : Z) (r' : receiver Rnum),
  r_scale Rnum r 0 = 2%R /\ dispatch Rnum 1 [{| p_node := 0; p_id := 1; p_nr := 1; p_len := [8%nat]; p_idx := [1] |}] 1 1 [v] r = Ok r' /\ 0 <= v < 256 /\
  nth_error (r_out Rnum r' 0) 0 <> Some (IZR v * r_scale Rnum r 0)%R.
Proof. exact recv_scale_wrong. Qed.
Print Assumptions C137_receive_refuted.
Theorem C137_first_signal_partial : forall (T : num) (N : nat) (s : sender T) (k : nat) (x : T), nth_error (s_in T s k) 0 = Some x ->
  sig_value T N s k 1 = to_u32 T (nmul T x (s_scale T s (N * 0 + k)%nat)).
Proof. exact scale_first. Qed.
Print Assumptions C137_first_signal_partial.
Theorem C137_unit_scale_partial : forall (N : nat) (k : nat) (i v : Z) (r r' : receiver Rnum), store Rnum N k i v r = Ok r' -> 0 < i ->
  r_scale Rnum r (N * Z.to_nat (i - 1) + k) = 1%R ->
  nth_error (r_out Rnum r' k) (Z.to_nat (i - 1)) = Some (IZR v * r_scale Rnum r (N * Z.to_nat (i - 1) + k))%R.
Proof. exact recv_scale_one. Qed.
Print Assumptions C137_unit_scale_partial.

(** C138: negative set points are transmitted. *)
Theorem C138_refuted : exists (s : sender Rnum), s_in Rnum s 0%nat = [(-1)%R] /\ s_scale Rnum s 0%nat = 1%R /\
  (forall N garbage, length garbage = 8%nat -> send_run Rnum N s garbage (fun _ => false) = UB) /\
  (forall id g, cansend Rnum 0 [id] [(-1)%R] [1%R] [0%R] g (fun _ => false) = UB).
Proof. exact negative_ub. Qed.
Print Assumptions C138_refuted.
Theorem C138_nonnegative_partial : forall (T : num) (N : nat) (s : sender T) (k : nat) (i : Z) (x : T) (z : Z),
  0 < i -> nth_error (s_in T s k) (Z.to_nat (i - 1)) = Some x -> ntrunc T (nmul T x (s_scale T s k)) = Some z -> 0 <= z < 2 ^ 32 ->
  sig_value T N s k i = Ok z.
Proof. exact positive_ok. Qed.
Print Assumptions C138_nonnegative_partial.

(** C139: the received angle of a drive is the angle sent by this drive. *)
Theorem C139_refuted : exists (nodes : list Z) (data : Z -> list Z) (rx : list (option (Z * list Z))) (out : list Rnum) n k,
  NoDup nodes /\ (forall c d, In (Some (c, d)) rx <-> exists m, In m nodes /\ c = 576 + m /\ d = data m) /\
  canrecv Rnum 0 nodes rx [1%R; 1%R] [0%R; 0%R] = Ok out /\ nth_error nodes k = Some n /\
  nth_error out k <> Some (IZR (256 * nth 7 (data n) 0 + nth 6 (data n) 0)%Z * 1)%R.
Proof. exact canrecv_swapped. Qed.
Print Assumptions C139_refuted.
Theorem C139_in_order_partial : forall (T : num) (nodes : list Z) (ident : Z -> Z) (data : Z -> list Z) (scale angle out : list T),
  (forall n, In n nodes -> 0 <= nth 6 (data n) 0 < 256 /\ 0 <= nth 7 (data n) 0 < 256) ->
  canrecv T 0 nodes (map (fun n => Some (ident n, data n)) nodes) scale angle = Ok out ->
  forall k n, nth_error nodes k = Some n -> exists sc, nth_error scale k = Some sc /\
    nth_error out k = Some (nmul T (nofZ T (256 * nth 7 (data n) 0 + nth 6 (data n) 0)) sc).
Proof. exact canrecv_order. Qed.
Print Assumptions C139_in_order_partial.
Example C139_example : canrecv Dnum 0 [1; 2] [Some (577, [0; 0; 0; 0; 0; 0; 1; 0]); Some (578, [0; 0; 0; 0; 0; 0; 0; 1])] [dofZ 1; dofZ 2] [dofZ 0; dofZ 0]
  = Ok [dofZ 1; dofZ 512].
Proof. reflexivity. Qed.

(** C140: one position frame per drive, with content determined by position and speed. *)
Theorem C140_frames_partial : forall (T : num) (g : Z) (nodes : list Z) (i : nat) (inp scale speed : list T),
  (forall k n, nth_error nodes k = Some n -> exists x sc sp z v, nth_error inp (i + k)%nat = Some x /\ nth_error scale (i + k)%nat = Some sc /\ nth_error speed (i + k)%nat = Some sp /\
     ntrunc T (nmul T x sc) = Some z /\ 0 <= z < 2 ^ 32 /\ ntrunc T sp = Some v /\ 0 <= v < 2 ^ 16) ->
  exists fs, cansend T i nodes inp scale speed g (fun _ => false) = Ok fs /\ length fs = length nodes /\
    forall k n, nth_error nodes k = Some n -> exists d x sc sp z v, nth_error fs k = Some (320 + n, d) /\ length d = 8%nat /\ nth 0 d 0 = 165 /\
      nth_error inp (i + k)%nat = Some x /\ nth_error scale (i + k)%nat = Some sc /\ nth_error speed (i + k)%nat = Some sp /\
      ntrunc T (nmul T x sc) = Some z /\ ntrunc T sp = Some v /\
      nth 2 d 0 + 256 * nth 3 d 0 = v /\ nth 4 d 0 + 256 * nth 5 d 0 + 65536 * nth 6 d 0 + 16777216 * nth 7 d 0 = z.
Proof. exact cansend_frames. Qed.
Print Assumptions C140_frames_partial.
Theorem C140_refuted : exists (g1 g2 : Z) (nodes : list Z) (inp scale speed : list Rnum) fs1 fs2,
  cansend Rnum 0 nodes inp scale speed g1 (fun _ => false) = Ok fs1 /\
  cansend Rnum 0 nodes inp scale speed g2 (fun _ => false) = Ok fs2 /\ fs1 <> fs2.
Proof. exact cansend_direction. Qed.
Print Assumptions C140_refuted.
Example C140_example : cansend Dnum 0 [1] [dofZ 258] [dofZ 1] [dofZ 3] 0 (fun _ => false) = Ok [(321, [165; 0; 3; 0; 2; 1; 0; 0])].
Proof. reflexivity. Qed.

(** C141: received PDOs change only the signals configured for them and are never read beyond their length. *)
Theorem C141_unregistered : forall (T : num) (N : nat) (enabled : bool) (ps : list pdo) rx (r : receiver T),
  (enabled = false \/ forall id nr data, In (Some (id, nr, data)) rx -> forall p, In p ps -> ~ (p_id p = id /\ p_nr p = nr)) ->
  recv_run T N enabled ps rx r = Ok r.
Proof. exact recv_unregistered. Qed.
Print Assumptions C141_unregistered.
Theorem C141_refuted : exists (ps : list pdo) (data : list Z) (r : receiver Rnum),
  ps = configure [1] [] 1 1 [16%nat; 32%nat] [0; 1] /\ length data = 2%nat /\ length (r_out Rnum r 0) = 1%nat /\
  recv_run Rnum 1 true ps [Some (1, 1, data)] r = UB.
Proof. exact recv_short. Qed.
Print Assumptions C141_refuted.
Theorem C141_long_enough_partial : forall (T : num) (N : nat) (enabled : bool) (ps : list pdo) rx (r : receiver T),
  (forall p, In p ps -> (forall l, In l (p_len p) -> (l / 8 <= 4)%nat) /\ (length (p_len p) <= length (p_idx p))%nat /\
     forall data, In (Some (p_id p, p_nr p, data)) rx -> (bytes_of (p_len p) <= length data)%nat) ->
  recv_run T N enabled ps rx r <> UB.
Proof. exact recv_noub. Qed.
Print Assumptions C141_long_enough_partial.

(** C142: digital terminals transfer bit i to and from channel i. *)
Theorem C142_inputs : forall (val : Z) (i : nat), (i < 8)%nat -> nth_error (el1008_run val) i = Some (Z.testbit val (Z.of_nat i)).
Proof. exact el1008_bits. Qed.
Print Assumptions C142_inputs.
Theorem C142_outputs_refuted : exists ins, length ins = 8%nat /\ el2008 ins = UB.
Proof. exact el2008_undefined_ex. Qed.
Print Assumptions C142_outputs_refuted.
(** If the uninitialised variable were given any value. *)
Theorem C142_outputs_partial : forall (v : Z) (ins : list bool), length ins = 8%nat ->
  exists w, el2008_run (Some v) ins = Ok w /\
    (forall i, (i < 8)%nat -> nth_error ins i = Some (Z.testbit w (Z.of_nat i))) /\ (forall n, 8 <= n -> Z.testbit w n = Z.testbit v n).
Proof. exact el2008_bits. Qed.
Print Assumptions C142_outputs_partial.
Example C142_example : el1008_run 5 = [true; false; true; false; false; false; false; false].
Proof. reflexivity. Qed.

(** C143: analog terminals convert the whole voltage range without overflow and monotonically. *)
Theorem C143_refuted : exists v : Dnum, dvalid v /\ el4004_conv Dnum (dlit 32767 10) v = UB.
Proof. exact el4004_nan. Qed.
Print Assumptions C143_refuted.
Theorem C143_range_partial : forall v : Dnum, dvalid v -> v <> S754_nan -> exists z, el4004_conv Dnum (dlit 32767 10) v = Ok z /\ 0 <= z <= 32767.
Proof. exact el4004_range. Qed.
Print Assumptions C143_range_partial.
Theorem C143_monotone : forall v w : Dnum, dvalid v -> dvalid w -> nleb Dnum v w = true ->
  exists a b, el4004_conv Dnum (dlit 32767 10) v = Ok a /\ el4004_conv Dnum (dlit 32767 10) w = Ok b /\ a <= b.
Proof. exact el4004_mono. Qed.
Print Assumptions C143_monotone.
Theorem C143_end_points : el4004_conv Dnum (dlit 32767 10) (dofZ 0) = Ok 0 /\ el4004_conv Dnum (dlit 32767 10) (dofZ 10) = Ok 32767.
Proof. exact el4004_ends. Qed.
Print Assumptions C143_end_points.
Theorem C143_input_range : forall raw : Z, -32768 <= raw <= 32767 -> (-10 <= el3004_conv Rnum (32768 / 10) raw < 10)%R.
Proof. exact el3004_range. Qed.
Print Assumptions C143_input_range.
Theorem C143_loop : forall v : R, (0 <= v <= 10)%R -> exists z, el4004_conv Rnum (32767 / 10)%R v = Ok z /\ 0 <= z <= 32767 /\
  (0 <= v - el3004_conv Rnum (32768 / 10) z < 1 / 1600)%R.
Proof. exact el_loop. Qed.
Print Assumptions C143_loop.

(** C144: a drive gets exactly the set point of its present mode, always together with the torque limit. *)
Theorem C144_set_points : forall (m : elmo_mode) (pos vel tor tmax v : Z),
  (In (TargetPosition v) (elmo_run m pos vel tor tmax) <-> m = ProfilePosition /\ v = pos) /\
  (In (TargetVelocity v) (elmo_run m pos vel tor tmax) <-> m = ProfileVelocity /\ v = vel) /\
  (In (TargetTorque v) (elmo_run m pos vel tor tmax) <-> m = ProfileTorque /\ v = tor) /\
  (In (MaximumTorque v) (elmo_run m pos vel tor tmax) <-> m <> OtherMode /\ v = tmax).
Proof. exact elmo_calls. Qed.
Print Assumptions C144_set_points.
Example C144_example : elmo_run ProfileVelocity 1 2 3 4 = [TargetVelocity 2; MaximumTorque 4].
Proof. reflexivity. Qed.
