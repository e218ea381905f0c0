(** Device driver threads of the HAL: life cycle of the thread, reading of an ODrive reply over UART, one scan of
    the RPLidar, velocity and configuration of the ODrive over USB, transformation of the Realsense T265. *)
From Verif Require Import Prelude Num.
Open Scope Z_scope.

(** ** Life cycle of a driver thread
    BaumerOM70.cpp 5-27 and 81-87, RPLidar.cpp 5-58 and 78-81, RealsenseT265.cpp 6-21, SBGEllipseA.hpp 33-70 and
    90-97, PixyCam.hpp 36-57 and 117-120 ([KJoin]); ODriveUART.hpp 39-65 and 229-241 ([KUart]); ODriveUSB.hpp 45-73
    and 479-515 ([KUsb]).  The base class starts the thread before the members are initialised (Thread.cpp 9-19)
    and joins it after the destructor of the driver has run (Thread.cpp 23). *)
Inductive kind := KJoin | KUart | KUsb.
(** Actions of the thread which constructs, uses and destroys the driver.
    [AInit] starting(true), running(false);  [AReady] starting = false;  [AUse] the constructor is left;
    [ACalib] calibration ordered and finished (startCalibrationCmd, calibrated: ODrive over USB);
    [AZero] the destructor sends velocity 0 to axis 0;  [AStop] running = false;
    [AJoin] join();  [AFree] the handle the thread works with is closed or deleted. *)
Inductive mact := AInit | AReady | AUse | ACalib | AZero | AStop | AJoin | AFree.
(** Where the driver thread is: [TSpin] while(starting); [TCalib] waiting for the calibration; [TEnter] before
    running = true; [TCheck] at while(running); [TBody] in the body of the loop; [TEnd] run() was left. *)
Inductive tpc := TSpin | TCalib | TEnter | TCheck | TBody | TEnd.
Record dev := { d_starting : bool; d_running : bool; d_calib : bool; d_freed : bool; d_ub : bool;
                d_pc : tpc; d_sent : list Z; d_main : list mact }.
(** Destructors: BaumerOM70.cpp 22-27, RPLidar.cpp 51-58, RealsenseT265.cpp 13-16, SBGEllipseA.hpp 65-70,
    PixyCam.hpp 53-57; ODriveUART.hpp 52-65; ODriveUSB.hpp 61-73. *)
Definition dtor (k : kind) : list mact :=
  match k with
  | KJoin => [AStop; AJoin; AFree]
  | KUart => [AZero; AStop; AFree; AJoin]
  | KUsb => [AZero; AFree; AStop; AJoin]
  end.
(** The whole life of a driver; [ok]: the device could be opened (otherwise the constructor of a [KJoin] driver
    returns early, e.g. BaumerOM70.cpp 12-15; the ODrive drivers carry on); [cal]: the calibration was done. *)
Definition life (k : kind) (ok cal : bool) : list mact :=
  [AInit] ++ (if ok then [AReady] else []) ++ [AUse] ++ (if cal then [ACalib] else []) ++ dtor k.
(** [gs], [gr]: what the memory of starting and running contained before they were initialised. *)
Definition dev_start (k : kind) (ok cal gs gr : bool) : dev :=
  {| d_starting := gs; d_running := gr; d_calib := false; d_freed := false; d_ub := false;
     d_pc := TSpin; d_sent := []; d_main := life k ok cal |}.
Inductive dop := OMain | OThread.
(** What one round of the loop sends to axis 0: ODriveUART.hpp 234 always 10000, ODriveUSB.hpp 505 the reference [ref]. *)
Definition round_sends (k : kind) (ref : Z) : list Z :=
  match k with KJoin => [] | KUart => [10000] | KUsb => [ref] end.
Definition dev_step (k : kind) (ref : Z) (s : dev) (o : dop) : dev :=
  let set_pc p := {| d_starting := d_starting s; d_running := d_running s; d_calib := d_calib s; d_freed := d_freed s;
                     d_ub := d_ub s; d_pc := p; d_sent := d_sent s; d_main := d_main s |} in
  match o with
  | OThread => match d_pc s with
    | TSpin => if d_starting s then s else set_pc (match k with KUsb => TCalib | _ => TEnter end)
    | TCalib => if d_freed s
                then {| d_starting := d_starting s; d_running := d_running s; d_calib := d_calib s; d_freed := true;
                        d_ub := true; d_pc := TCalib; d_sent := d_sent s; d_main := d_main s |}
                else if d_calib s then set_pc TEnter else s
    | TEnter => {| d_starting := d_starting s; d_running := true; d_calib := d_calib s; d_freed := d_freed s;
                   d_ub := d_ub s; d_pc := TCheck; d_sent := d_sent s; d_main := d_main s |}
    | TCheck => set_pc (if d_running s then TBody else TEnd)
    | TBody => {| d_starting := d_starting s; d_running := d_running s; d_calib := d_calib s; d_freed := d_freed s;
                  d_ub := d_ub s || d_freed s; d_pc := TCheck;
                  d_sent := d_sent s ++ (if d_freed s then [] else round_sends k ref); d_main := d_main s |}
    | TEnd => s
    end
  | OMain => match d_main s with
    | [] => s
    | a :: m =>
      let mk st rn cl fr sn := {| d_starting := st; d_running := rn; d_calib := cl; d_freed := fr; d_ub := d_ub s;
                                  d_pc := d_pc s; d_sent := sn; d_main := m |} in
      match a with
      | AInit => mk true false (d_calib s) (d_freed s) (d_sent s)
      | AReady => mk false (d_running s) (d_calib s) (d_freed s) (d_sent s)
      | AUse => mk (d_starting s) (d_running s) (d_calib s) (d_freed s) (d_sent s)
      | ACalib => mk (d_starting s) (d_running s) true (d_freed s) (d_sent s)
      | AZero => mk (d_starting s) (d_running s) (d_calib s) (d_freed s) (d_sent s ++ [0])
      | AStop => mk (d_starting s) false (d_calib s) (d_freed s) (d_sent s)
      | AJoin => match d_pc s with
                 | TEnd => mk (d_starting s) (d_running s) (d_calib s) (d_freed s) (d_sent s)
                 | _ => s
                 end
      | AFree => mk (d_starting s) (d_running s) (d_calib s) true (d_sent s)
      end
    end
  end.
(** Any interleaving of the two threads. *)
Definition dev_run (k : kind) (ref : Z) (s : dev) (os : list dop) : dev := fold_left (dev_step k ref) os s.

(** ** Reading the velocity from an ODrive over UART: ODriveUART.hpp 186-224
    The input is the list of results of read(ttyFd, &data, 1): Some b, or None when read fails and leaves data as it
    is.  The result says whether the function returned, waits for more input or leaves the array tmpData. *)
Inductive rres (A : Type) := RDone (v : A) (rest : list (option Z)) | RWait | RFault | RUB.
Arguments RDone {A} v rest. Arguments RWait {A}. Arguments RFault {A}. Arguments RUB {A}.
(** Size of tmpData (197-198). *)
Definition tmp_size : nat := 100.
(** Lines 202-206: [data] is None as long as nothing was read (comparing it is undefined); [acc] what was stored. *)
Fixpoint rd_dot (data : option Z) (acc : list Z) (inp : list (option Z)) : rres (list Z) :=
  match inp with
  | [] => RWait
  | i :: rest =>
    match (match i with Some b => Some b | None => data end) with
    | None => RUB
    | Some d =>
      if (tmp_size <=? length acc)%nat then RUB
      else if d =? 46 then RDone acc rest else rd_dot (Some d) (acc ++ [d]) rest
    end
  end.
(** Lines 218-221: skip to the carriage return; data still holds the last byte. *)
Fixpoint rd_cr (data : Z) (inp : list (option Z)) : rres unit :=
  match inp with
  | [] => RWait
  | i :: rest =>
    let d := match i with Some b => b | None => data end in
    if d =? 13 then RDone tt rest else rd_cr d rest
  end.
(** std::string(tmpData) ends at the first zero byte (209). *)
Fixpoint c_str (l : list Z) : list Z :=
  match l with [] => [] | c :: l => if c =? 0 then [] else c :: c_str l end.
Definition is_dig (c : Z) : bool := (48 <=? c) && (c <=? 57).
Fixpoint digits_val (a : Z) (l : list Z) : Z :=
  match l with [] => a | c :: l => if is_dig c then digits_val (10 * a + (c - 48)) l else a end.
(** std::stod on text without a point; simplification: leading blanks, exponents, "inf", "nan" and hexadecimal
    numbers are not recognised.  None: std::invalid_argument. *)
Definition stod_int (l : list Z) : option Z :=
  let num l := match l with [] => None | c :: _ => if is_dig c then Some (digits_val 0 l) else None end in
  match l with
  | c :: r => if c =? 45 then option_map Z.opp (num r) else if c =? 43 then num r else num l
  | [] => None
  end.
(** The whole function; the last read (223) stores up to two bytes from the position of the point on. *)
Definition get_vel (inp : list (option Z)) : rres Z :=
  match rd_dot None [] inp with
  | RDone acc rest =>
    match stod_int (c_str acc) with
    | None => RFault
    | Some v =>
      match rd_cr 46 rest with
      | RDone _ rest2 =>
        if (tmp_size <? length acc + length (firstn 2 rest2))%nat then RUB else RDone v (skipn 2 rest2)
      | RWait => RWait | RFault => RFault | RUB => RUB
      end
    end
  | RWait => RWait | RFault => RFault | RUB => RUB
  end.

(** ** One scan of the RPLidar: RPLidar.cpp 82-118, LASER_COUNT_MAX: RPLidar.hpp 13
    The nodes which grabScanDataHq delivered: distance in quarter millimetres, quality, angle.  The elements of the
    local array behind them are not initialised, hence the search of 94 must not get there; nor may that of 97 get
    below index 0.  float is not distinguished from double. *)
Record lnode := { n_dist : Z; n_qual : Z; n_angle : Z }.
Definition laser_max : nat := 380.
Fixpoint has_valid (ns : list lnode) : bool :=
  match ns with [] => false | n :: ns => negb (n_dist n =? 0) || has_valid ns end.
Section Scan.
Context (N : num) (inf pi : N).
Let lit (n d : Z) : N := ndiv N (nofZ N n) (nofZ N d).
(** Lines 105-109, 110, 111. *)
Definition sc_range (n : lnode) : N :=
  let r := ndiv N (ndiv N (nofZ N (n_dist n)) (nofZ N 4)) (nofZ N 1000) in
  if nltb N (nabs N r) (lit 1 100) then inf else r.
Definition sc_int (n : lnode) : N := nofZ N (n_qual n / 4).
Definition sc_ang (n : lnode) : N :=
  ndiv N (nmul N (ndiv N (nmul N (nofZ N (n_angle n)) (nofZ N 90)) (nofZ N 16384)) pi) (nofZ N 180).
Definition scan (ns : list lnode) : outcome (list (N * N * N)) :=
  if has_valid ns && has_valid (rev ns) then
    Ok (map (fun n => (sc_range n, sc_int n, sc_ang n)) ns ++ repeat (inf, inf, inf) (laser_max - length ns))
  else UB.
End Scan.

(** ** ODrive over USB *)
Section Usb.
Context (N : num).
(** The argument 1/6.28 is converted to the int parameter turns_per_rev: ODriveUSBInput.hpp 47-48, 50-51;
    ODriveUSB.hpp 205, 214. *)
Definition turns : outcome Z := to_int N (ndiv N (nofZ N 1) (ndiv N (nofZ N 628) (nofZ N 100))).
(** setRefVel and getEncoderVel: ODriveUSB.hpp 214-218 and 205-212. *)
Definition usb_ref (v : N) : outcome N := omap (fun t => nmul N (nofZ N t) v) turns.
Definition usb_vel (v : N) : outcome N := omap (fun t => ndiv N v (nofZ N t)) turns.
End Usb.
(** The end stop settings written by config(): ODriveUSB.hpp 309-314, in order. *)
Inductive eparam := Gpio (m : nat) | ActiveHigh (m : nat) | Enabled (m : nat).
Definition eparam_eqb (a b : eparam) : bool :=
  match a, b with
  | Gpio m, Gpio n | ActiveHigh m, ActiveHigh n | Enabled m, Enabled n => Nat.eqb m n
  | _, _ => false
  end.
Definition cfg_writes : list (eparam * Z) :=
  [(Gpio 0, 5); (Gpio 0, 6); (ActiveHigh 0, 0); (ActiveHigh 0, 0); (Enabled 0, 1); (Enabled 1, 1)].
(** What the drive holds after the writes, [d] before. *)
Fixpoint after_writes (d : eparam -> Z) (ws : list (eparam * Z)) : eparam -> Z :=
  match ws with
  | [] => d
  | (p, v) :: ws => after_writes (fun q => if eparam_eqb q p then v else d q) ws
  end.
(** The loops of run() feed the watchdog when count % 500 == 0 (ODriveUSB.hpp 496-500 and 508-512): one round. *)
Definition feed_round (count : Z) : bool * Z :=
  if count mod 500 =? 0 then (true, 0) else (false, count + 1).
Fixpoint feed_run (count : Z) (n : nat) : list bool :=
  match n with O => [] | S n => let '(b, c) := feed_round count in b :: feed_run c n end.
(** The measured values the block outputs: velocities and currents (292, 464-474); None: never assigned.  One round
    of the loop (504-514) reads the velocities only. *)
Record usbvals (T : Type) := { u_vel : option T; u_iq : option T }.
Arguments u_vel {T}. Arguments u_iq {T}.
Definition usb_round {T : Type} (s : usbvals T) (vel iq : T) : usbvals T := {| u_vel := Some vel; u_iq := u_iq s |}.
Definition usb_rounds {T : Type} (ms : list (T * T)) : usbvals T :=
  fold_left (fun s m => usb_round s (fst m) (snd m)) ms {| u_vel := None; u_iq := None |}.

(** ** Transformation of the Realsense T265: RealsenseT265.cpp 47-55, column-major, upper three rows. *)
Section T265.
Context (N : num) (w x y z : N).
Let two := nofZ N 2.
Let one := nofZ N 1.
Let neg (a : N) : N := nsub N (nofZ N 0) a.
Let p2 (a b : N) : N := nmul N (nmul N two a) b.
Definition t265 (r c : nat) : N :=
  match c, r with
  | 0, 0 => neg (nsub N (nsub N one (p2 y y)) (p2 z z))
  | 0, 1 => neg (nadd N (p2 x y) (p2 z w))
  | 0, _ => neg (nsub N (p2 x z) (p2 y w))
  | 1, 0 => nsub N (p2 x y) (p2 z w)
  | 1, 1 => nsub N (nsub N one (p2 x x)) (p2 z z)
  | 1, _ => nadd N (p2 y z) (p2 x w)
  | _, 0 => neg (nadd N (p2 x z) (p2 y w))
  | _, 1 => neg (nsub N (p2 y z) (p2 x w))
  | _, _ => neg (nsub N (nsub N one (p2 x x)) (p2 y y))
  end%nat.
End T265.
