(** Properties C153 to C156: connection to ROS2. *)
From Verif Require Import Prelude Num RosModel RosSpec RosProofs RosProofs2.
Open Scope Z_scope.

(** C153: a time stamp in nanoseconds converted to a ROS time and back is unchanged. *)
Theorem C153_refuted : exists ts t, 0 <= ts < 2 ^ 63 /\ to_ros Dnum ts = Ok t /\ to_eeros t = ts + ns_per_sec.
Proof. exact time_jump. Qed.
Print Assumptions C153_refuted.
Theorem C153_overflow_refuted : exists ts, 0 <= ts < 2 ^ 63 /\ to_ros Dnum ts = UB.
Proof. exact time_range. Qed.
Print Assumptions C153_overflow_refuted.
(** Up to 2^53 ns, about 104 days: time stamps counted from the start of the computer, but not from 1970. *)
Theorem C153_partial : forall ts, 0 <= ts < 2 ^ 53 -> exists t, to_ros Dnum ts = Ok t /\ to_eeros t = ts.
Proof. exact time_roundtrip. Qed.
Print Assumptions C153_partial.
Example C153_example : to_ros Dnum 8999999999999999 = Ok (8999999, 999999999).
Proof. vm_compute. reflexivity. Qed.

Open Scope nat_scope.
(** C154: a subscriber block consumes all pending messages and outputs the newest; outputs keep the order of arrival. *)
Theorem C154_newest : forall (M : Type) (es : list (rev_ M)) s, ros_run ros_start es = Some s ->
  subseq (rs_parsed s) (received es) /\
  forall s', ros_step s ERun = Some s' -> rs_queue s' = [] /\
    forall m f, received es = f ++ [m] -> exists p, rs_parsed s' = p ++ [m].
Proof. exact parsed_newest. Qed.
Print Assumptions C154_newest.
Example C154_example : exists s, ros_run ros_start [EWait; EMsg 1; EMsg 2; EMsg 3; ERun] = Some s /\ rs_parsed s = [3].
Proof. eexists. split; reflexivity. Qed.

(** C155: an executor synchronised to a topic runs one cycle for each message, and handles it in this cycle. *)
Theorem C155_lost_refuted : exists (es : list (rev_ nat)) s, ros_run ros_start es = Some s /\ In 2 (received es) /\ rs_running s = true /\
  forall fs s', Forall own fs -> ros_run s fs = Some s' -> ~ In 2 (rs_parsed s').
Proof. exact message_waits. Qed.
Print Assumptions C155_lost_refuted.
Theorem C155_spurious_refuted : exists (es : list (rev_ nat)) s, ros_run ros_start es = Some s /\ rs_mode s = Late /\ received es = [].
Proof. exact cycle_without_message. Qed.
Print Assumptions C155_spurious_refuted.
Theorem C155_waiting_partial : forall (M : Type) (s : ros M) m, rs_mode s = Waiting ->
  exists s1 s2, ros_step s (EMsg m) = Some s1 /\ rs_mode s1 = Cycle /\ ros_step s1 ERun = Some s2 /\ rs_parsed s2 = rs_parsed s ++ [m] /\ rs_queue s2 = [].
Proof. exact message_waiting_handled. Qed.
Print Assumptions C155_waiting_partial.
Example C155_example : exists s : ros nat, ros_run ros_start [EWait; EMsg 1; ERun; EEnd; EWait] = Some s /\ rs_mode s = Waiting.
Proof. eexists. split; reflexivity. Qed.

(** C156: after stop() an executor synchronised to a topic leaves its loop. *)
Theorem C156_refuted : exists (es : list (rev_ nat)) s, ros_run ros_start (es ++ [EStop; EWait]) = Some s /\
  rs_running s = false /\ rs_mode s = Waiting /\ forall fs s', Forall own fs -> ros_run s fs = Some s' -> rs_mode s' <> Done.
Proof. exact stop_lost. Qed.
Print Assumptions C156_refuted.
Theorem C156_partial : forall (M : Type) (s s1 : ros M), rs_mode s <> Checked -> ros_step s EStop = Some s1 ->
  exists fs s2, Forall own fs /\ length fs <= 2 /\ ros_run s1 fs = Some s2 /\ rs_mode s2 = Done.
Proof. exact stop_elsewhere. Qed.
Print Assumptions C156_partial.
Example C156_example : exists s : ros nat, ros_run ros_start [EWait; EStop; ERun; EEnd] = Some s /\ rs_mode s = Done.
Proof. eexists. split; reflexivity. Qed.
