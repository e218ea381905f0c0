(** Properties C214 to C222: sensor blocks, ROS1 blocks, gamepad events, device
    buttons as safety inputs, control inputs. *)
From Coq Require Import List ZArith Bool String Lia.
From Verif Require Import Prelude Num SensModel SensSpec SensProofs.
Import List ListNotations.
Open Scope list_scope.
Open Scope nat_scope.

(** C214: After a run every output of a sensor or drive block carries the
    measured quantity and the time of the run. *)
Theorem C214_rplidar_refuted : exists (V : Type) (data : nat -> V) ts s o,
  o < sb_outs rplidar_input /\
  sb_step rplidar_input data ts s o = (Some (data o), None).
Proof.
  exists nat, (fun k => k), 5%Z, (fun _ => (None, None)), 1. split; [cbn; lia|reflexivity].
Qed.
Print Assumptions C214_rplidar_refuted.
Theorem C214_odrive_refuted : exists (V : Type) (data : nat -> V) ts s o,
  o < sb_outs odrive_uart_input /\
  sb_step odrive_uart_input data ts s o = (None, None).
Proof.
  exists nat, (fun k => k), 5%Z, (fun _ => (None, None)), 1. split; [cbn; lia|reflexivity].
Qed.
Print Assumptions C214_odrive_refuted.
(** The lidar block stamps only the angles, the UART ODrive block nothing and
    sets its first output only; *)
Theorem C214_rplidar_partial : forall (V : Type) (data : nat -> V) ts s,
  sb_step rplidar_input data ts s 0 = (Some (data 0), Some ts) /\
  sb_step rplidar_input data ts s 1 = (Some (data 1), snd (s 1)).
Proof. exact rplidar_does. Qed.
Print Assumptions C214_rplidar_partial.
Theorem C214_odrive_partial : forall (V : Type) (data : nat -> V) ts s,
  sb_step odrive_uart_input data ts s 0 = (Some (data 0), snd (s 0)) /\
  forall o, 0 < o -> sb_step odrive_uart_input data ts s o = s o.
Proof. exact odrive_does. Qed.
Print Assumptions C214_odrive_partial.
(** the other blocks are complete. *)
Theorem C214_complete_partial : forall b,
  In b [pixy_input; t265_input; sbg_input; baumer_input; elmo_input] -> complete b.
Proof. exact five_complete. Qed.
Print Assumptions C214_complete_partial.
Example C214_ex : sb_step elmo_input (fun k => 10 + k) 7%Z (fun _ => (None, None)) 2
  = (Some 12, Some 7%Z).
Proof. reflexivity. Qed.

(** C215: A vector output by a sensor block is one the sensor delivered. *)
Theorem C215_torn_refuted : exists init samples es,
  length init = 3 /\ Forall (fun x => length x = 3) samples /\
  let g := t_got (t_run (t_start init samples) es) in
  length g = 3 /\ ~ In g (init :: samples).
Proof.
  exists [0; 0; 0]%Z, [[1; 1; 1]%Z], [TW; TR; TR; TR].
  split; [reflexivity|]. split; [repeat constructor|].
  assert (E : t_got (t_run (t_start [0; 0; 0]%Z [[1; 1; 1]%Z]) [TW; TR; TR; TR])
              = [1; 0; 0]%Z) by reflexivity.
  intro g. unfold g. rewrite E. split; [reflexivity|].
  intros [H|[H|[]]]; discriminate H.
Qed.
Print Assumptions C215_torn_refuted.
(** Every element was delivered at its place, *)
Theorem C215_elements_partial : forall init samples es i v,
  nth_error (t_got (t_run (t_start init samples) es)) i = Some v ->
  exists x, In x (init :: samples) /\ nth_error x i = Some v.
Proof. exact t_elements0. Qed.
Print Assumptions C215_elements_partial.
(** and the vector as a whole if the copy does not overlap an assignment. *)
Theorem C215_whole_partial : forall n init samples k post,
  length init = n -> Forall (fun x => length x = n) samples -> k <= length samples ->
  t_got (t_run (t_start init samples) (repeat TW (k * n) ++ repeat TR n ++ post))
  = nth k (init :: samples) [].
Proof. exact t_whole. Qed.
Print Assumptions C215_whole_partial.
Example C215_ex : t_got (t_run (t_start [0; 0]%Z [[1; 2]%Z; [3; 4]%Z])
  [TW; TW; TR; TR; TW; TR]) = [1; 2]%Z.
Proof. reflexivity. Qed.

(** C216: Running a ROS1 subscriber block processes the messages of its own
    topic. *)
Theorem C216_own_refuted : exists (os : list (rop Z)),
  let s := node_run (fun _ => false) node0 os in
  last_for 1 (arrivals os) = Some 7%Z /\
  let s' := node_step (fun _ => false) s (RRun 1) in
  rn_out s' 1 = None /\ rn_out s' 0 = Some 5%Z /\ rn_out s 0 = None.
Proof.
  exists [RArrive 0 5%Z; RArrive 1 7%Z]. repeat split; reflexivity.
Qed.
Print Assumptions C216_own_refuted.
(** What holds: the messages are processed in the order of arrival, every one
    by its own block, *)
Theorem C216_order_partial : forall M newest (os : list (rop M)),
  let s := node_run newest node0 os in
  exists d, arrivals os = d ++ rn_queue s /\ (forall k, rn_out s k = last_for k d).
Proof. exact node_fifo. Qed.
Print Assumptions C216_order_partial.
(** a block with callNewest brings all blocks up to date, *)
Theorem C216_newest_partial : forall M newest (os : list (rop M)) k, newest k = true ->
  let s := node_run newest node0 (os ++ [RRun k]) in
  rn_queue s = [] /\ forall j, rn_out s j = last_for j (arrivals os).
Proof. exact node_newest. Qed.
Print Assumptions C216_newest_partial.
(** a block without takes the oldest message of any topic. *)
Theorem C216_oldest_partial : forall M newest (os : list (rop M)) k c q,
  newest k = false -> rn_queue (node_run newest node0 os) = c :: q ->
  let s := node_run newest node0 (os ++ [RRun k]) in
  rn_queue s = q /\ rn_out s (fst c) = Some (snd c) /\
  forall j, j <> fst c -> rn_out s j = rn_out (node_run newest node0 os) j.
Proof. exact node_oldest. Qed.
Print Assumptions C216_oldest_partial.
Example C216_ex : rn_out (node_run (fun k => k =? 1) node0
    [RArrive 0 5; RArrive 1 7; RArrive 0 6; RRun 0; RRun 1]) 0 = Some 6.
Proof. reflexivity. Qed.

(** C217: Arrays and laser scans are transferred by the ROS1 blocks. *)
Theorem C217_short_refuted : exists (msg : list Z), receive_array 3 msg = UB.
Proof. exists [1; 2]%Z. reflexivity. Qed.
Print Assumptions C217_short_refuted.
Theorem C217_intensities_refuted : exists (r i : list Z),
  snd (snd (publish_scan (Some r) (Some i) [] ([], []))) = r /\ r <> i.
Proof. exists [1]%Z, [2]%Z. split; [reflexivity|discriminate]. Qed.
Print Assumptions C217_intensities_refuted.
Theorem C217_stamps_refuted : exists old stamp,
  scan_stamps old stamp 7 <> stamp /\ scan_stamps old stamp 8 <> stamp.
Proof. exists (fun _ => 0%Z), 1%Z. split; discriminate. Qed.
Print Assumptions C217_stamps_refuted.
(** Arrays arrive unchanged at an output of the same size, *)
Theorem C217_array_partial : forall A (v old : list A),
  receive_array (length v) (publish_array (Some v) old) = Ok v.
Proof. exact array_roundtrip. Qed.
Print Assumptions C217_array_partial.
(** a shorter message, and only a shorter one, is read beyond its end, *)
Theorem C217_short_partial : forall A rows (msg : list A),
  receive_array rows msg = UB <-> length msg < rows.
Proof. exact array_short. Qed.
Print Assumptions C217_short_partial.
(** the ranges of a scan are published, *)
Theorem C217_ranges_partial : forall A (r : list A) intens rv msg,
  fst (snd (publish_scan (Some r) intens rv msg)) = r.
Proof. exact scan_ranges. Qed.
Print Assumptions C217_ranges_partial.
(** the intensities only if they equal the ranges, *)
Theorem C217_intensities_partial : forall A (r i : list A) rv msg,
  snd (snd (publish_scan (Some r) (Some i) rv msg)) = i <-> r = i.
Proof. exact scan_intensities. Qed.
Print Assumptions C217_intensities_partial.
(** and the seven scalars are stamped with the time of the message. *)
Theorem C217_stamps_partial : forall old stamp k,
  k < 7 -> scan_stamps old stamp k = stamp.
Proof. exact scan_scalars. Qed.
Print Assumptions C217_stamps_partial.
Example C217_ex : receive_array 2 (publish_array (Some [4; 5; 6]%Z) []) = Ok [4; 5]%Z.
Proof. reflexivity. Qed.

Open Scope Z_scope.
(** C218: A time stamp keeps its value when converted to a ROS1 time. *)
Theorem C218_jump_refuted : exists ts sec nsec, 0 <= ts < 2 ^ 63 /\
  to_ros1 Dnum ts = Ok (sec, nsec) /\ sec * 1000000000 + nsec = ts + 1000000000.
Proof. exact ros1_jump. Qed.
Print Assumptions C218_jump_refuted.
Theorem C218_range_refuted : exists ts, 0 <= ts < 2 ^ 63 /\ to_ros1 Dnum ts = UB.
Proof. exact ros1_range. Qed.
Print Assumptions C218_range_refuted.
Theorem C218_time_partial : forall ts, 0 <= ts < 2 ^ 53 -> exists sec nsec,
  to_ros1 Dnum ts = Ok (sec, nsec) /\ ts = sec * 1000000000 + nsec /\
  0 <= nsec < 1000000000.
Proof. exact ros1_time. Qed.
Print Assumptions C218_time_partial.
Example C218_ex : to_ros1 Dnum 8999999999999999 = Ok (8999999, 999999999).
Proof. vm_compute. reflexivity. Qed.
Open Scope nat_scope.

(** C219: The button state of the gamepad follows the events. *)
Theorem C219_uninitialised_refuted : exists rs, x_run x0 rs = UB.
Proof. exists [None]. reflexivity. Qed.
Print Assumptions C219_uninitialised_refuted.
Theorem C219_state_partial : forall es, exists s, x_run x0 (map Some es) = Ok s /\
  (forall n, n < 8 ->
     x_state s n = held (reports n es) /\ x_last s n = held (reports n es) /\
     x_down s n = pressed (reports n es) /\ x_up s n = released (reports n es)) /\
  x_calls s = genuine es.
Proof. exact x_run0. Qed.
Print Assumptions C219_state_partial.
Example C219_ex : let press := mkJs JButton false 3 1%Z in
  reports 3 [press; mkJs JButton false 3 0%Z; press] = [true; false; true] /\
  pressed [true; false; true] = true /\ released [true; false] = true.
Proof. repeat split; reflexivity. Qed.

(** C220: A button event is reported once. *)
Theorem C220_once_refuted : exists e s,
  x_run x0 [Some e; None; None] = Ok s /\ length (x_calls s) = 3.
Proof.
  exists (mkJs JButton false 0 1%Z).
  exact (ex_intro _ (mkX (Some (mkJs JButton false 0 1%Z)) _ _ _ _
    [(0, 1%Z); (0, 1%Z); (0, 1%Z)]) (conj eq_refl eq_refl)).
Qed.
Print Assumptions C220_once_refuted.
(** It is reported again with every read that fails, *)
Theorem C220_again_partial : forall k e,
  j_kind e = JButton -> j_init e = false -> j_num e < 8 ->
  exists s, x_run x0 (Some e :: repeat None k) = Ok s /\
    x_calls s = repeat (j_num e, j_val e) (S k).
Proof. exact x_stale0. Qed.
Print Assumptions C220_again_partial.
(** and once as long as no read fails. *)
Theorem C220_once_partial : forall es, exists s,
  x_run x0 (map Some es) = Ok s /\ x_calls s = genuine es.
Proof.
  exact (fun es => match x_run0 es with
    ex_intro _ s (conj A (conj _ C)) => ex_intro _ s (conj A C) end).
Qed.
Print Assumptions C220_once_partial.
Example C220_ex : genuine [mkJs JButton true 1 1%Z; mkJs JButton false 1 0%Z;
  mkJs JAxis false 1 5%Z] = [(1, 0%Z)].
Proof. reflexivity. Qed.

(** C221: The buttons registered as inputs of the safety system deliver the
    button of their name. *)
Theorem C221_xbox : reads_table xbox_get xbox_table.
Proof. exact xbox_reads. Qed.
Print Assumptions C221_xbox.
Theorem C221_mouse : reads_table mouse_get mouse_table.
Proof. exact mouse_reads. Qed.
Print Assumptions C221_mouse.
Theorem C221_spacenav : reads_table spacenav_get spacenav_table.
Proof. exact spacenav_reads. Qed.
Print Assumptions C221_spacenav.
Theorem C221_registered : xbox_ids = map fst xbox_table /\
  mouse_ids = map fst mouse_table /\ spacenav_ids = map fst spacenav_table.
Proof. exact registered. Qed.
Print Assumptions C221_registered.
Theorem C221_distinct : NoDup (xbox_ids ++ mouse_ids ++ spacenav_ids).
Proof. exact ids_nodup. Qed.
Print Assumptions C221_distinct.
Example C221_ex : xbox_get "XBoxButtonLB" (fun k => k =? 4) = true
  /\ xbox_get "XBoxButtonC" (fun _ => true) = false.
Proof. split; reflexivity. Qed.

(** C222: A control input delivers the value of the input it was created for. *)
Theorem C222_reconnect_refuted : exists os s,
  c_run (mkC (fun _ => 0%Z) None None) os = Ok s /\
  c_get s = Some 0%Z /\ c_input s = Some 5%Z.
Proof.
  exists [CConnect 0; CMake; CDisconnect; CConnect 1; CSet 1 5%Z].
  exists (mkC (upd (fun _ => 0%Z) 1 5%Z) (Some 1) (Some 0)).
  split; [reflexivity|]. split; reflexivity.
Qed.
Print Assumptions C222_reconnect_refuted.
Theorem C222_same_partial : forall s os, c_conn s <> None -> ~ In CDisconnect os ->
  exists s', c_run s (CMake :: os) = Ok s' /\ c_get s' = c_input s'.
Proof. exact c_same. Qed.
Print Assumptions C222_same_partial.
(** An input that is not connected is refused. *)
Theorem C222_unconnected_partial : forall s os, c_conn s = None -> c_run s (CMake :: os) = Fault.
Proof. exact c_unconnected. Qed.
Print Assumptions C222_unconnected_partial.
Example C222_ex : c_run (mkC (fun _ => 0%Z) None None) [CMake] = Fault /\
  exists s, c_run (mkC (fun _ => 0%Z) (Some 2) None) [CMake; CSet 2 9%Z] = Ok s
    /\ c_get s = Some 9%Z.
Proof. split; [reflexivity|]. eexists; split; reflexivity. Qed.
