(** ODrive over USB: packets and requests of the endpoint protocol, what one round of the driver reads, the
    description of the drive in JSON, the search for the drive, the requests of run(). *)
From Coq Require Import List ZArith Bool.
From Verif Require Import Prelude.
Import ListNotations.
Open Scope Z_scope.

(** ** Packets *)
(** appendShortToCommBuffer and appendIntToCommBuffer: external/odrive/src/odriveEP.cpp 24-27 and 34-39. *)
Definition le2 (v : Z) : list Z := [Z.land v 255; Z.land (Z.shiftr v 8) 255].
Definition le4 (v : Z) : list Z :=
  [Z.land v 255; Z.land (Z.shiftr v 8) 255; Z.land (Z.shiftr v 16) 255; Z.land (Z.shiftr v 24) 255].
(** createODrivePacket: odriveEP.cpp 68-86; ODRIVE_DEFAULT_CRC_VALUE 0x9b40 and ODRIVE_PROTOCOL_VERION 1:
    odriveEP.hpp 24-25.  [addr]: the address, if read is set (81). *)
Definition packet (seq ep size : Z) (addr : option Z) (input : list Z) : list Z :=
  le2 seq ++ le2 ep ++ le2 size ++ match addr with Some a => le4 a | None => [] end ++ input ++
  le2 (if Z.land ep 32767 =? 0 then 1 else 39744).
(** decodeODrivePacket: odriveEP.cpp 47-56; two bytes are copied without a check of the length of the buffer (50). *)
Definition decode (buf : list Z) : outcome (Z * list Z) :=
  match buf with
  | a :: b :: rest => Ok (Z.land (a + 256 * b) 32767, rest)
  | _ => UB
  end.
(** The next sequence number: odriveEP.cpp 162-163, LIBUSB_ENDPOINT_IN is 0x80. *)
Definition next_seq (s : Z) : Z := Z.lor (Z.land (s + 1) 32767) 128.

(** ** Requests *)
(** The connection: the last sequence number used, and the answers of the drive which were not read yet, oldest first. *)
Record link := { l_seq : Z; l_queue : list (list Z) }.
(** odriveEP.hpp 76: outboundSeqNo is 0 at first. *)
Definition link0 : link := {| l_seq := 0; l_queue := [] |}.
(** What happens to a request.  [dev]: what the drive answers to a packet.
    [Timely]: the answer is there before the time is up (ODRIVE_TIMEOUT, 200 ms); [Late]: it comes after that;
    [Lost]: the drive does not answer, e.g. because not all data was transferred, which is only logged (171-173);
    [NotSent]: the transfer of the request fails with a code not 0. *)
Inductive ev := Timely (dev : list Z -> list Z) | Late (dev : list Z -> list Z) | Lost | NotSent (code : Z).
(** The result of a request: error code, or the payload of the packet which was received. *)
Inductive res := RErr (code : Z) | RData (p : list Z).
(** Read the next answer (180-198): without one the transfer ends with LIBUSB_ERROR_TIMEOUT (-7).  The number in the answer
    is compared with the number of the request, but a difference is only logged (193-195). *)
Definition receive (q : list (list Z)) : list (list Z) * outcome res :=
  match q with
  | [] => ([], Ok (RErr (-7)))
  | buf :: q => (q, bind (decode buf) (fun d => Ok (RData (snd d))))
  end.
(** endpointRequest with ack set, as in all calls: odriveEP.cpp 149-205.  The mutex is taken at the start and given back on
    every way out, so that requests of several threads do not overlap.  Simplification: an answer fits into one USB
    packet (ODRIVE_MAX_BYTES_TO_RECEIVE, 64 bytes). *)
Definition request (l : link) (e : ev) (ep size : Z) (addr : option Z) (input : list Z) : link * outcome res :=
  let s := next_seq (l_seq l) in
  let pkt := packet s (Z.lor ep 32768) size addr input in
  match e with
  | NotSent c => ({| l_seq := s; l_queue := l_queue l |}, Ok (RErr c))
  | Timely dev => let (q, r) := receive (l_queue l ++ [dev pkt]) in ({| l_seq := s; l_queue := q |}, r)
  | Late dev => let (q, r) := receive (l_queue l) in ({| l_seq := s; l_queue := q ++ [dev pkt] |}, r)
  | Lost => let (q, r) := receive (l_queue l) in ({| l_seq := s; l_queue := q |}, r)
  end.
(** getData: odriveEP.cpp 93-105.  [n]: sizeof(value).  The result: the code returned and the value, None if the variable
    was not written (error, or empty answer).  An answer shorter than the variable is read beyond its end (101). *)
Definition getdata (l : link) (e : ev) (ep : Z) (n : nat) : link * outcome (Z * option (list Z)) :=
  let (l, r) := request l e ep (Z.of_nat n) None [] in
  (l, bind r (fun r => match r with
      | RErr c => Ok (c, None)
      | RData [] => Ok (0, None)
      | RData p => if (length p <? n)%nat then UB else Ok (0, Some (firstn n p))
      end)).
(** setData: odriveEP.cpp 126-133 (the bytes [v] of the value), execFunc: 113-117 (no bytes). *)
Definition setdata (l : link) (e : ev) (ep : Z) (v : list Z) : link * outcome res := request l e ep 0 None v.

(** ** Numbers of the endpoints: ODriveUSB.hpp 526-675; those the driver uses.  false: axis 0, true: axis 1. *)
Inductive what := Feed | ClearErrors | RequestedState | WatchdogTimeout | EnableWatchdog | IsCalibrated | IqSetpoint | IqMeasured
  | PhaseInductance | PhaseResistance | InputVel | ControlMode | PosGain | VelGain | VelIntegratorGain | EncIsReady | VelEstimate
  | EndstopState | EndstopGpio | EndstopEnabled | EndstopActiveHigh.
Definition number (axis : bool) (w : what) : Z :=
  let p (a b : Z) := if axis then b else a in
  match w with
  | Feed => p 298 527 | ClearErrors => p 299 528 | RequestedState => p 74 303 | WatchdogTimeout => p 87 316
  | EnableWatchdog => p 88 317 | IsCalibrated => p 134 363 | IqSetpoint => p 149 378 | IqMeasured => p 150 379
  | PhaseInductance => p 175 404 | PhaseResistance => p 176 405 | InputVel => p 195 424 | ControlMode => p 208 437
  | PosGain => p 210 439 | VelGain => p 211 440 | VelIntegratorGain => p 212 441 | EncIsReady => p 237 466
  | VelEstimate => p 249 478 | EndstopState => p 291 513 | EndstopGpio => p 292 521 | EndstopEnabled => p 293 522
  | EndstopActiveHigh => p 295 524
  end.

(** ** One round of the driver: ODriveUSB.hpp 504-513 *)
(** A local variable which was not written is read: undefined. *)
Definition use (v : option (list Z)) : outcome (list Z) := match v with Some b => Ok b | None => UB end.
(** A variable of type bool holds 0 or 1. *)
Definition use_bool (v : option (list Z)) : outcome bool :=
  match v with Some [b] => if b =? 0 then Ok false else if b =? 1 then Ok true else UB | _ => UB end.
(** What the round stores: encoder_vel0, encoder_vel1 (436-437), endpoint_state0, endpoint_state1 (457-458). *)
Record meas := { m_vel0 : list Z; m_vel1 : list Z; m_end0 : bool; m_end1 : bool }.
(** What happens to the eight requests of a round. *)
Record evs := { v1 : ev; v2 : ev; v3 : ev; v4 : ev; v5 : ev; v6 : ev; v7 : ev; v8 : ev }.
(** set_vel_to_odrive 443-448, get_vel_from_odrive 432-438, get_endpoint_state_from_odrive 453-459, watchdog 508-512 (it is
    fed in every round: C169).  Codes returned by the requests are not used.  The numbers of the endpoints: [number]. *)
Definition round (l : link) (v : evs) (ref0 ref1 : list Z) : link * outcome meas :=
  let (l, r1) := setdata l (v1 v) (number false InputVel) ref0 in
  let (l, r2) := setdata l (v2 v) (number true InputVel) ref1 in
  let (l, r3) := getdata l (v3 v) (number false VelEstimate) 4 in
  let (l, r4) := getdata l (v4 v) (number true VelEstimate) 4 in
  let (l, r5) := getdata l (v5 v) (number false EndstopState) 1 in
  let (l, r6) := getdata l (v6 v) (number true EndstopState) 1 in
  let (l, r7) := setdata l (v7 v) (number false Feed) [] in
  let (l, r8) := setdata l (v8 v) (number true Feed) [] in
  (l, bind r1 (fun _ => bind r2 (fun _ => bind r3 (fun a => bind r4 (fun b =>
      bind (use (snd a)) (fun a => bind (use (snd b)) (fun b =>
      bind r5 (fun c => bind r6 (fun d =>
      bind (use_bool (snd c)) (fun c => bind (use_bool (snd d)) (fun d =>
      bind r7 (fun _ => bind r8 (fun _ =>
      Ok {| m_vel0 := a; m_vel1 := b; m_end0 := c; m_end1 := d |}))))))))))))).

(** ** Description of the drive: getJson, ODriveUSB.hpp 186-203 and external/odrive/src/odrive.cpp 108-127 *)
(** [j_len]: the variable len, None while it has no value.  [j_addr]: the next address (int, no overflow modelled).
    Simplification: the address of the first byte of an empty buffer (193) is taken as harmless. *)
Record js := { j_link : link; j_len : option nat; j_rx : list Z; j_addr : Z; j_str : list Z }.
Definition js_start (l : link) : js := {| j_link := l; j_len := None; j_rx := []; j_addr := 0; j_str := [] |}.
(** One pass of the loop (191-194); the code returned by the request is not used.  true: the loop goes on. *)
Definition js_step (s : js) (e : ev) : outcome (js * bool) :=
  let (l, r) := request (j_link s) e 0 512 (Some (j_addr s)) [] in
  bind r (fun r =>
  let len := match r with RErr _ => j_len s | RData p => Some (length p) end in
  let rx := match r with RErr _ => j_rx s | RData p => p end in
  match len with
  | None => UB
  | Some n => Ok ({| j_link := l; j_len := Some n; j_rx := rx; j_addr := j_addr s + Z.of_nat n; j_str := j_str s ++ firstn n rx |},
                  (0 <? n)%nat)
  end).
(** The loop; true: it still runs after the last event. *)
Fixpoint js_run (s : js) (es : list ev) : outcome (js * bool) :=
  match es with
  | [] => Ok (s, true)
  | e :: es => bind (js_step s e) (fun x => if snd x then js_run (fst x) es else Ok (fst x, false))
  end.

(** ** Search for the drive: ODriveUSB.hpp 76-184 (odrive.cpp 19-103 is the same, with the reset in the second loop) *)
(** A USB device: its descriptor can be read; it is an ODrive (vendor and product number); it can be opened in the first
    and in the second loop; a kernel driver is active; it can be detached; interface 2 can be claimed; the serial number,
    if it can be read (not empty). *)
Record usb := { u_desc : bool; u_odrive : bool; u_open1 : bool; u_open2 : bool; u_active : bool; u_detach : bool; u_claim : bool;
                u_serial : option (list Z) }.
(** Calls of libusb, with the number of the device in the list. *)
Inductive call := COpen (i : nat) | CReset (i : nat) | CClaim (i n : nat) | CRelease (i n : nat) | CClose (i : nat).
(** std::uppercase << std::hex (155-156) of a number of at most 16 digits: ASCII codes. *)
Definition hexdigit (d : Z) : Z := if d <? 10 then 48 + d else 55 + d.
Fixpoint hexf (f : nat) (n : Z) (acc : list Z) : list Z :=
  match f with
  | O => acc
  | S f => if n <? 16 then hexdigit n :: acc else hexf f (n / 16) (hexdigit (n mod 16) :: acc)
  end.
Definition hex (n : Z) : list Z := hexf 16 n [].
(** sn.compare(0, strlen(buf), buf) == 0 (158): the first strlen(buf) characters of sn against buf. *)
Definition matches (wanted : Z) (buf : list Z) : bool :=
  if list_eq_dec Z.eq_dec (firstn (length buf) (hex wanted)) buf then true else false.
(** The loop which resets all drives (91-116), for the first drive only. *)
Fixpoint resets (i : nat) (ds : list usb) : list call :=
  match ds with
  | [] => []
  | d :: ds => (if u_desc d && u_odrive d && u_open1 d then [COpen i; CReset i; CClose i] else []) ++ resets (S i) ds
  end.
(** The second loop (119-180): the calls and the device the handle is kept of. *)
Fixpoint search (wanted : Z) (i : nat) (ds : list usb) : list call * option nat :=
  match ds with
  | [] => ([], None)
  | d :: ds =>
    let go cs := let (c, a) := search wanted (S i) ds in (cs ++ c, a) in
    if negb (u_desc d) then go []
    else if negb (u_odrive d) then go []
    else if negb (u_open2 d) then go []
    else if u_active d && negb (u_detach d) then go [COpen i; CClose i]
    else if negb (u_claim d) then go [COpen i; CClose i]
    else match u_serial d with
         | None => go [COpen i; CClaim i 2; CRelease i 2; CClose i]
         | Some buf => if matches wanted buf then ([COpen i; CClaim i 2], Some i)
                       else go [COpen i; CClaim i 2; CRelease i 2; CClose i]
         end
  end.
(** init (76-184): the code returned, the calls, the device the handle of the endpoint is of; [first]: firstDrive.  An empty
    list is not an error: 0 is returned (87-90). *)
Definition init (first : bool) (wanted : Z) (ds : list usb) : Z * list call * option nat :=
  match ds with
  | [] => (0, [], None)
  | _ => let (c, a) := search wanted 0 ds in
         (match a with Some _ => 0 | None => 1 end, (if first then resets 0 ds else []) ++ c, a)
  end.
(** The destructor of the endpoint: odriveEP.cpp 8-17. *)
Definition ep_free (a : option nat) : list call := match a with Some i => [CRelease i 0; CClose i] | None => [] end.
(** The constructor of the driver goes on with config() whatever init returned (50-54); the first transfer (169) with no handle
    dereferences a null pointer in libusb. *)
Definition construct (first : bool) (wanted : Z) (ds : list usb) : outcome nat :=
  let '(_, _, a) := init first wanted ds in match a with Some i => Ok i | None => UB end.

(** ** The requests of run(): ODriveUSB.hpp 479-514 *)
(** One request: axis and endpoint. *)
Notation req := (bool * what)%type.
(** get_endpoint_state_from_odrive 453-459. *)
Definition ask_end : list req := [(false, EndstopState); (true, EndstopState)].
(** What the drive says before the calibration (332-339): motor and encoder of both axes are calibrated. *)
Record calib := { c_mot0 : bool; c_mot1 : bool; c_enc0 : bool; c_enc1 : bool }.
(** calibrateMotors 324-388; [polls]: how often the loop 373-379 is passed. *)
Definition calibrate (c : calib) (polls : nat) : list req :=
  [(false, ClearErrors); (true, ClearErrors);
   (false, PhaseInductance); (false, PhaseResistance); (true, PhaseInductance); (true, PhaseResistance);
   (false, IsCalibrated); (true, IsCalibrated); (false, EncIsReady); (true, EncIsReady)] ++
  (if c_mot0 c then [] else [(false, RequestedState)]) ++ (if c_mot1 c then [] else [(true, RequestedState)]) ++
  [(false, IsCalibrated); (true, IsCalibrated); (false, EncIsReady)] ++ (if c_enc0 c then [] else [(false, RequestedState)]) ++
  [(true, EncIsReady)] ++ (if c_enc1 c then [] else [(true, RequestedState)]) ++
  [(false, IsCalibrated); (true, IsCalibrated)] ++
  concat (repeat [(false, IsCalibrated); (false, EncIsReady); (true, IsCalibrated); (true, EncIsReady)] polls) ++
  [(false, EncIsReady); (true, EncIsReady)].
(** [waits] passes of the first loop (483-486), the calibration, the watchdog (489-491); the loop 493-502 is not entered, as
    calibrateMotors sets calibrated (387); [rounds] rounds of the main loop (504-513). *)
Definition requests (waits : nat) (c : calib) (polls rounds : nat) : list req :=
  concat (repeat ask_end waits) ++ calibrate c polls ++
  [(false, Feed); (true, Feed); (false, EnableWatchdog); (true, EnableWatchdog)] ++
  concat (repeat ([(false, InputVel); (true, InputVel); (false, VelEstimate); (true, VelEstimate)] ++ ask_end ++
                  [(false, Feed); (true, Feed)]) rounds).
(** isEndstopActive: ODriveUSB.hpp 234-236. *)
Definition endstop_active (m : meas) : bool := m_end0 m || m_end1 m.
