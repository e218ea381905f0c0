(** Specification of the ODrive over USB. *)
From Coq Require Import List ZArith Bool String.
From Verif Require Import Prelude OdrvModel.
Import List ListNotations.
Local Open Scope list_scope.
Open Scope Z_scope.

(** ** The protocol *)
(** A packet read from the other side: sequence number, endpoint, size of the answer, body, checksum; all numbers are two
    bytes, the lower one first. *)
Definition parse (p : list Z) : option (Z * Z * Z * list Z * Z) :=
  match p with
  | a :: b :: c :: d :: e :: f :: rest =>
    match rev rest with
    | y :: x :: body => Some (a + 256 * b, c + 256 * d, e + 256 * f, rev body, x + 256 * y)
    | _ => None
    end
  | _ => None
  end.
(** Four bytes of a number. *)
Definition four (a : Z) : list Z := [a mod 256; a / 256 mod 256; a / 65536 mod 256; a / 16777216 mod 256].
Definition num4 (l : list Z) : Z := match l with [a; b; c; d] => a + 256 * b + 65536 * c + 16777216 * d | _ => 0 end.
(** A drive answers with the sequence number of the request, its highest bit set, and as many bytes of the value of the
    endpoint as were asked for. *)
Definition drive (val : Z -> list Z) (p : list Z) : list Z :=
  match parse p with
  | Some (s, e, n, _, _) => [s mod 256; s / 256 + 128] ++ firstn (Z.to_nat n) (val (e - 32768))
  | None => []
  end.
(** A drive with description [J], sending at most [c] bytes of it in an answer, from the address in the body of the request. *)
Definition teller (c : nat) (J : list Z) (p : list Z) : list Z :=
  match parse p with
  | Some (s, _, n, body, _) =>
    [s mod 256; s / 256 + 128] ++ firstn (Nat.min c (Z.to_nat n)) (skipn (Z.to_nat (num4 body)) J)
  | None => []
  end.
(** Sequence number of the [n]th request. *)
Definition seqno (n : nat) : Z := Nat.iter n next_seq 0.

(** ** Requests *)
(** A request: event, endpoint, size, address, bytes sent. *)
Definition rq := (ev * Z * Z * option Z * list Z)%type.
Definition talk1 (l : link) (r : rq) : link := let '(e, ep, n, a, i) := r in fst (request l e ep n a i).
Definition talk (l : link) (rs : list rq) : link := fold_left talk1 rs l.
Definition not_late (r : rq) : Prop := match r with (Late _, _, _, _, _) => False | _ => True end.
(** Results of reading the endpoints [rs] with the sizes, all answers in time. *)
Fixpoint results (val : Z -> list Z) (l : link) (rs : list (Z * nat)) : list (outcome res) :=
  match rs with
  | [] => []
  | (ep, n) :: rs => let (l, r) := request l (Timely (drive val)) ep (Z.of_nat n) None [] in r :: results val l rs
  end.
(** The answer to a read request. *)
Definition own (val : Z -> list Z) (r : Z * nat) : outcome res := Ok (RData (firstn (snd r) (val (fst r)))).
Definition short (z : Z) : Prop := 0 <= z < 32768.
(** The values of the drive are complete: velocities of four bytes, end stops of one byte 0 or 1. *)
Definition truth (b : bool) : list Z := [if b then 1 else 0].
Definition complete (val : Z -> list Z) (a b : list Z) (c d : bool) : Prop :=
  length a = 4%nat /\ length b = 4%nat /\ val 249 = a /\ val 478 = b /\ val 291 = truth c /\ val 513 = truth d.
(** All requests of a round are answered in time; as [timely], but the last answer comes late; the [k]th request fails. *)
Definition timely (val : Z -> list Z) : evs :=
  let t := Timely (drive val) in {| v1 := t; v2 := t; v3 := t; v4 := t; v5 := t; v6 := t; v7 := t; v8 := t |}.
Definition last_late (val : Z -> list Z) : evs :=
  let t := Timely (drive val) in {| v1 := t; v2 := t; v3 := t; v4 := t; v5 := t; v6 := t; v7 := t; v8 := Late (drive val) |}.
Definition third_fails (val : Z -> list Z) (c : Z) : evs :=
  let t := Timely (drive val) in {| v1 := t; v2 := t; v3 := NotSent c; v4 := t; v5 := t; v6 := t; v7 := t; v8 := t |}.

(** ** Search *)
(** The number written with hexadecimal digits, capital letters. *)
Definition digit (c : Z) : Z := if c <? 58 then c - 48 else c - 55.
Definition is_digit (c : Z) : Prop := 48 <= c <= 57 \/ 65 <= c <= 70.
Definition hexval (s : list Z) : Z := fold_left (fun v c => 16 * v + digit c) s 0.
(** A device the driver can use. *)
Definition usable (d : usb) : Prop :=
  u_desc d = true /\ u_odrive d = true /\ u_open2 d = true /\ (u_active d = true -> u_detach d = true) /\ u_claim d = true /\ u_serial d <> None.
(** All serial numbers have twelve digits, as those of ODrives have. *)
Definition serials12 (ds : list usb) : Prop :=
  forall d s, In d ds -> u_serial d = Some s -> length s = 12%nat /\ Forall is_digit s.
(** The calls form for device [i] a sequence of uses of its handle, each opened, used and closed; [held]: the handle and
    interface 2 are still held at the end. *)
Inductive used (i : nat) : bool -> list call -> Prop :=
| used_nil : used i false []
| used_held : used i true [COpen i; CClaim i 2]
| used_reset : forall h cs, used i h cs -> used i h (COpen i :: CReset i :: CClose i :: cs)
| used_closed : forall h cs, used i h cs -> used i h (COpen i :: CClose i :: cs)
| used_claimed : forall h cs, used i h cs -> used i h (COpen i :: CClaim i 2 :: CRelease i 2 :: CClose i :: cs).
Definition dev_of (c : call) : nat :=
  match c with COpen i | CReset i | CClaim i _ | CRelease i _ | CClose i => i end.
Definition of_dev (i : nat) (cs : list call) : list call := filter (fun c => Nat.eqb (dev_of c) i) cs.
(** Every claimed interface is released before the handle is closed. *)
Definition released (cs : list call) : Prop :=
  forall i n a b, cs = a ++ CClaim i n :: b -> exists c d, b = c ++ CRelease i n :: d /\ ~ In (CClose i) c.

(** ** Endpoints of the drive as described by itself: external/odrive/include/odrive/odriveEP.hpp 83 ff. (comment) *)
Local Open Scope string_scope.
Definition path (w : what) : string :=
  match w with
  | Feed => "watchdog_feed" | ClearErrors => "clear_errors" | RequestedState => "requested_state"
  | WatchdogTimeout => "config/watchdog_timeout" | EnableWatchdog => "config/enable_watchdog"
  | IsCalibrated => "motor/is_calibrated" | IqSetpoint => "motor/current_control/Iq_setpoint"
  | IqMeasured => "motor/current_control/Iq_measured" | PhaseInductance => "motor/config/phase_inductance"
  | PhaseResistance => "motor/config/phase_resistance" | InputVel => "controller/input_vel"
  | ControlMode => "controller/config/control_mode" | PosGain => "controller/config/pos_gain"
  | VelGain => "controller/config/vel_gain" | VelIntegratorGain => "controller/config/vel_integrator_gain"
  | EncIsReady => "encoder/is_ready" | VelEstimate => "encoder/vel_estimate"
  | EndstopState => "max_endstop/endstop_state" | EndstopGpio => "max_endstop/config/gpio_num"
  | EndstopEnabled => "max_endstop/config/enabled" | EndstopActiveHigh => "max_endstop/config/is_active_high"
  end.
Definition described : list (Z * (bool * string)) := [
  (74, (false, "requested_state"));
  (87, (false, "config/watchdog_timeout"));
  (88, (false, "config/enable_watchdog"));
  (134, (false, "motor/is_calibrated"));
  (149, (false, "motor/current_control/Iq_setpoint"));
  (150, (false, "motor/current_control/Iq_measured"));
  (175, (false, "motor/config/phase_inductance"));
  (176, (false, "motor/config/phase_resistance"));
  (195, (false, "controller/input_vel"));
  (208, (false, "controller/config/control_mode"));
  (210, (false, "controller/config/pos_gain"));
  (211, (false, "controller/config/vel_gain"));
  (212, (false, "controller/config/vel_integrator_gain"));
  (237, (false, "encoder/is_ready"));
  (249, (false, "encoder/vel_estimate"));
  (284, (false, "min_endstop/endstop_state"));
  (285, (false, "min_endstop/config/gpio_num"));
  (291, (false, "max_endstop/endstop_state"));
  (292, (false, "max_endstop/config/gpio_num"));
  (293, (false, "max_endstop/config/enabled"));
  (295, (false, "max_endstop/config/is_active_high"));
  (298, (false, "watchdog_feed"));
  (299, (false, "clear_errors"));
  (303, (true, "requested_state"));
  (316, (true, "config/watchdog_timeout"));
  (317, (true, "config/enable_watchdog"));
  (363, (true, "motor/is_calibrated"));
  (378, (true, "motor/current_control/Iq_setpoint"));
  (379, (true, "motor/current_control/Iq_measured"));
  (404, (true, "motor/config/phase_inductance"));
  (405, (true, "motor/config/phase_resistance"));
  (424, (true, "controller/input_vel"));
  (437, (true, "controller/config/control_mode"));
  (439, (true, "controller/config/pos_gain"));
  (440, (true, "controller/config/vel_gain"));
  (441, (true, "controller/config/vel_integrator_gain"));
  (466, (true, "encoder/is_ready"));
  (478, (true, "encoder/vel_estimate"));
  (513, (true, "min_endstop/endstop_state"));
  (514, (true, "min_endstop/config/gpio_num"));
  (520, (true, "max_endstop/endstop_state"));
  (521, (true, "max_endstop/config/gpio_num"));
  (522, (true, "max_endstop/config/enabled"));
  (524, (true, "max_endstop/config/is_active_high"));
  (527, (true, "watchdog_feed"));
  (528, (true, "clear_errors"))
].
Local Close Scope string_scope.

(** ** End stops *)
(** Whether the request asks for the end stop of the axis. *)
Definition asks (axis : bool) (r : req) : Prop := r = (axis, EndstopState).
