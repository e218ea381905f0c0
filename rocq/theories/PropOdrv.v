(** Properties C237-C248: ODrive over USB. *)
From Coq Require Import List ZArith Bool String.
From Verif Require Import Prelude OdrvModel OdrvSpec OdrvProofs OdrvProofs2.
Import List ListNotations.
Local Open Scope list_scope.
Open Scope Z_scope.

(** C237: A packet read by the protocol contains the number, endpoint, size, address and bytes of the request. *)
Theorem C237_packet : forall s e n a input, short s -> short e -> short n ->
  parse (packet s (Z.lor e 32768) n a input) =
  Some (s, e + 32768, n, match a with Some a => four a | None => [] end ++ input, if e =? 0 then 1 else 39744).
Proof. exact packet_parsed. Qed.
Print Assumptions C237_packet.
Theorem C237_bytes : forall s e n a input, Forall (fun b => 0 <= b < 256) input ->
  Forall (fun b => 0 <= b < 256) (packet s e n a input).
Proof. exact packet_bytes. Qed.
Print Assumptions C237_bytes.
Theorem C237_address : forall a, 0 <= a < 2 ^ 32 -> num4 (four a) = a.
Proof. exact four_back. Qed.
Print Assumptions C237_address.
Example C237_ex : packet 129 (Z.lor 249 32768) 4 None [] = [129; 0; 249; 128; 4; 0; 64; 155] /\
  packet 129 (Z.lor 0 32768) 512 (Some 62) [] = [129; 0; 0; 128; 0; 2; 62; 0; 0; 0; 1; 0].
Proof. split; reflexivity. Qed.

(** C238: Requests less than 2^14 apart have different sequence numbers; all have bit 7 set. *)
Theorem C238_distinct : forall m n, (0 < m < n)%nat -> Z.of_nat n < Z.of_nat m + 16384 -> seqno m <> seqno n.
Proof. exact seqno_distinct. Qed.
Print Assumptions C238_distinct.
Theorem C238_range : forall n, (0 < n)%nat -> 128 <= seqno n < 32768 /\ Z.testbit (seqno n) 7 = true.
Proof. exact seqno_range. Qed.
Print Assumptions C238_range.
Theorem C238_used : forall l e ep n a i, l_seq (fst (request l e ep n a i)) = next_seq (l_seq l).
Proof. exact request_seq. Qed.
Print Assumptions C238_used.
Example C238_ex : seqno 1 = 129 /\ seqno 127 = 255 /\ seqno 128 = 384.
Proof. repeat split; vm_compute; reflexivity. Qed.

(** C239: The data returned by a request is the answer to this request.  Refuted: after one late answer every later request
    returns the answer to the request before it. *)
Theorem C239_own_answer_refuted : exists ep n, forall val rs, Forall (fun r => short (fst r) /\ short (Z.of_nat (snd r))) rs ->
  results val (fst (request link0 (Late (drive val)) ep (Z.of_nat n) None [])) rs = map (own val) (removelast ((ep, n) :: rs)).
Proof. exists 291, 1%nat. intros val rs H. apply one_late_shifts; [sh|sh|exact H]. Qed.
Print Assumptions C239_own_answer_refuted.
Theorem C239_own_answer_partial : forall rs val ep n a i, Forall not_late rs -> short ep -> short n ->
  snd (request (talk link0 rs) (Timely (drive val)) ep n a i) = Ok (RData (firstn (Z.to_nat n) (val ep))).
Proof. exact own_answer. Qed.
Print Assumptions C239_own_answer_partial.
(** After a late answer a request which is not answered at all succeeds with the old answer; without one it reports the error. *)
Theorem C239_lost_refuted : exists ep n, forall val ep' n', short ep' -> short n' ->
  snd (request (fst (request link0 (Late (drive val)) ep (Z.of_nat n) None [])) Lost ep' n' None []) = Ok (RData (firstn n (val ep))).
Proof.
  exists 291, 1%nat. intros val ep' n' _ _. unfold request at 2. cbn [link0 l_seq l_queue receive fst app].
  unfold request. cbn [l_seq l_queue receive snd].
  rewrite drive_answer; [reflexivity|apply next_short; apply Z.le_refl|sh|sh].
Qed.
Print Assumptions C239_lost_refuted.
Theorem C239_lost_partial : forall rs ep n a i, Forall not_late rs ->
  snd (request (talk link0 rs) Lost ep n a i) = Ok (RErr (-7)).
Proof.
  intros rs ep n a i H. destruct (talk_clean rs link0) as [_ Q]; [apply Z.le_refl|reflexivity|exact H|].
  unfold request. now rewrite Q.
Qed.
Print Assumptions C239_lost_partial.
Example C239_ex : let val := fun e => if e =? 291 then [1] else [0] in
  results val (fst (request link0 (Late (drive val)) 513 1 None [])) [(291, 1%nat); (513, 1%nat)] = [Ok (RData [0]); Ok (RData [1])] /\
  results val link0 [(291, 1%nat); (513, 1%nat)] = [Ok (RData [1]); Ok (RData [0])].
Proof. split; vm_compute; reflexivity. Qed.

(** C240: A round stores the values of the drive.  Refuted: an answer which comes late, or a transfer which fails, leaves a
    local variable without a value, which is then stored. *)
Theorem C240_round_refuted : exists l, okl l /\ forall val a b c d ref0 ref1, complete val a b c d ->
  snd (round l (last_late val) ref0 ref1) = Ok {| m_vel0 := a; m_vel1 := b; m_end0 := c; m_end1 := d |} /\
  snd (round (fst (round l (last_late val) ref0 ref1)) (timely val) ref0 ref1) = UB.
Proof.
  exists link0. split; [unfold okl; apply Z.le_refl|]. intros val a b c d ref0 ref1 H.
  destruct (round_late link0 val a b c d ref0 ref1 (Z.le_refl 0) eq_refl H) as (l' & s & E & O & buf & Q & D). rewrite E. cbn [fst snd].
  split; [reflexivity|]. exact (round_shifted l' val a b c d ref0 ref1 buf s O H Q D).
Qed.
Print Assumptions C240_round_refuted.
Theorem C240_failure_refuted : exists l, okl l /\ forall val a b c d ref0 ref1 code, complete val a b c d ->
  snd (round l (third_fails val code) ref0 ref1) = UB.
Proof.
  exists link0. split; [unfold okl; apply Z.le_refl|]. intros val a b c d ref0 ref1 code H.
  exact (round_fails link0 val a b c d ref0 ref1 code (Z.le_refl 0) H eq_refl).
Qed.
Print Assumptions C240_failure_refuted.
(** An empty answer is reported as success, and the variable has no value. *)
Theorem C240_empty_refuted : exists l e, forall n, (0 < n)%nat -> short (Z.of_nat n) -> snd (getdata l e 249 n) = Ok (0, None).
Proof.
  exists link0, (Timely (drive (fun _ => []))). intros n _ N. unfold getdata.
  rewrite request_own; [|apply Z.le_refl|reflexivity|sh|exact N]. now rewrite firstn_nil.
Qed.
Print Assumptions C240_empty_refuted.
Theorem C240_round_partial : forall l val a b c d ref0 ref1, 0 <= l_seq l -> l_queue l = [] -> complete val a b c d ->
  exists l', round l (timely val) ref0 ref1 = (l', Ok {| m_vel0 := a; m_vel1 := b; m_end0 := c; m_end1 := d |}) /\
  0 <= l_seq l' /\ l_queue l' = [].
Proof. exact round_good. Qed.
Print Assumptions C240_round_partial.
Definition C240_val (e : Z) : list Z :=
  if e =? 249 then [0; 0; 128; 63] else if e =? 478 then [0; 0; 0; 64] else if e =? 291 then [1] else [0].
Example C240_ex : complete C240_val [0; 0; 128; 63] [0; 0; 0; 64] true false /\
  snd (round link0 (timely C240_val) [0; 0; 0; 0] [0; 0; 0; 0]) =
  Ok {| m_vel0 := [0; 0; 128; 63]; m_vel1 := [0; 0; 0; 64]; m_end0 := true; m_end1 := false |}.
Proof. split; [repeat split|vm_compute; reflexivity]. Qed.

(** C241: The description of the drive is read completely, and reading ends.  Refuted: a failing transfer is not noticed; at the
    first request the length is undefined, later the loop goes on for ever and its text grows. *)
Theorem C241_ends_refuted : exists e1 e2, forall n, exists s,
  js_run (js_start link0) (e1 :: repeat e2 n) = Ok (s, true) /\ length (j_str s) = S n.
Proof.
  exists (Timely (teller 1 [91])), (NotSent (-4)). intros n. cbn [js_run].
  set (s0 := {| j_link := {| l_seq := 129; l_queue := [] |}; j_len := Some 1%nat; j_rx := [91]; j_addr := 1; j_str := [91] |}).
  assert (E : js_step (js_start link0) (Timely (teller 1 [91])) = Ok (s0, true)) by (vm_compute; reflexivity). rewrite E. cbn [bind fst snd].
  destruct (js_stale (-4) n s0 0 eq_refl eq_refl) as (s & R & L). exists s. split; [exact R|]. rewrite L. cbn. now rewrite Nat.mul_1_r.
Qed.
Print Assumptions C241_ends_refuted.
Theorem C241_first_refuted : exists e, js_run (js_start link0) [e] = UB.
Proof. exists (NotSent (-4)). reflexivity. Qed.
Print Assumptions C241_first_refuted.
Theorem C241_description_partial : forall c J n, (0 < c)%nat -> Z.of_nat (length J) < 2 ^ 31 -> (length J < n)%nat ->
  exists s, js_run (js_start link0) (repeat (Timely (teller c J)) n) = Ok (s, false) /\ j_str s = J.
Proof. exact js_good. Qed.
Print Assumptions C241_description_partial.
Example C241_ex : exists s, js_run (js_start link0) (repeat (Timely (teller 2 [91; 123; 125; 44; 93])) 4) = Ok (s, false) /\
  j_str s = [91; 123; 125; 44; 93].
Proof. eexists. split; vm_compute; reflexivity. Qed.

(** C242: The drive used is the one with the serial number asked for.  Refuted: a device whose serial number is the beginning of
    that number is taken; a drive whose serial number begins with 0 is not found. *)
Definition C242_dev (s : list Z) : usb :=
  {| u_desc := true; u_odrive := true; u_open1 := true; u_open2 := true; u_active := false; u_detach := false; u_claim := true; u_serial := Some s |}.
Theorem C242_wrong_drive_refuted : exists w ds i d s, 16 ^ 11 <= w < 16 ^ 12 /\ snd (init false w ds) = Some i /\ nth_error ds i = Some d /\
  u_serial d = Some s /\ Forall is_digit s /\ hexval s <> w.
Proof.
  exists 35184372088833, [C242_dev [50; 48]; C242_dev [50; 48; 48; 48; 48; 48; 48; 48; 48; 48; 48; 49] ], 0%nat, (C242_dev [50; 48]), [50; 48].
  split; [split; vm_compute; congruence|]. split; [vm_compute; reflexivity|]. split; [reflexivity|]. split; [reflexivity|].
  split; [repeat (apply Forall_cons; [left; split; vm_compute; congruence|]); apply Forall_nil|vm_compute; discriminate].
Qed.
Print Assumptions C242_wrong_drive_refuted.
Theorem C242_zero_refuted : exists w ds d s, In d ds /\ usable d /\ u_serial d = Some s /\ length s = 12%nat /\ Forall is_digit s /\ hexval s = w /\
  snd (init false w ds) = None.
Proof.
  exists 1, [C242_dev [48; 48; 48; 48; 48; 48; 48; 48; 48; 48; 48; 49] ], (C242_dev [48; 48; 48; 48; 48; 48; 48; 48; 48; 48; 48; 49]),
    [48; 48; 48; 48; 48; 48; 48; 48; 48; 48; 48; 49].
  split; [now left|]. split; [repeat split; discriminate|]. split; [reflexivity|]. split; [reflexivity|].
  split; [repeat (apply Forall_cons; [left; split; vm_compute; congruence|]); apply Forall_nil|]. split; vm_compute; reflexivity.
Qed.
Print Assumptions C242_zero_refuted.
Theorem C242_right_drive_partial : forall first w ds r cs a, 16 ^ 11 <= w < 16 ^ 12 -> serials12 ds -> init first w ds = (r, cs, a) ->
  (forall i, a = Some i -> exists d s, nth_error ds i = Some d /\ usable d /\ u_serial d = Some s /\ hexval s = w) /\
  (a = None -> forall d s, In d ds -> usable d -> u_serial d = Some s -> hexval s <> w).
Proof. exact right_drive. Qed.
Print Assumptions C242_right_drive_partial.
Example C242_ex : snd (init true 35184372088833 [C242_dev [51; 48; 48; 48; 48; 48; 48; 48; 48; 48; 48; 49];
  C242_dev [50; 48; 48; 48; 48; 48; 48; 48; 48; 48; 48; 49] ]) = Some 1%nat /\ hexval [50; 48; 48; 48; 48; 48; 48; 48; 48; 48; 48; 49] = 35184372088833.
Proof. split; vm_compute; reflexivity. Qed.

(** C243: After the search every handle opened is closed, its claimed interface released before, except the one kept. *)
Theorem C243_handles : forall first w ds r cs a i, init first w ds = (r, cs, a) ->
  used i match a with Some j => Nat.eqb j i | None => false end (of_dev i cs).
Proof. exact handles. Qed.
Print Assumptions C243_handles.
Example C243_ex : init true 35184372088833 [C242_dev [51]; C242_dev [50] ] =
  (0, [COpen 0; CReset 0; CClose 0; COpen 1; CReset 1; CClose 1; COpen 0; CClaim 0 2; CRelease 0 2; CClose 0; COpen 1; CClaim 1 2], Some 1%nat).
Proof. vm_compute. reflexivity. Qed.

(** C244: When the driver is destroyed every claimed interface has been released.  Refuted: 2 is claimed, 0 is released. *)
Theorem C244_released_refuted : exists w ds r cs a, init false w ds = (r, cs, a) /\ ~ released (cs ++ ep_free a).
Proof.
  exists 35184372088833, [C242_dev [50] ], 0, [COpen 0; CClaim 0 2], (Some 0%nat). split; [vm_compute; reflexivity|].
  intros H. destruct (H 0%nat 2%nat [COpen 0] [CRelease 0 0; CClose 0] eq_refl) as (c & d & E & _).
  destruct c as [|? [|? [|? c] ] ]; discriminate.
Qed.
Print Assumptions C244_released_refuted.
Theorem C244_released_partial : forall first w ds r cs, init first w ds = (r, cs, None) -> released (cs ++ ep_free None).
Proof. exact no_drive_released. Qed.
Print Assumptions C244_released_partial.
Example C244_ex : init false 35184372088833 [C242_dev [51] ] = (1, [COpen 0; CClaim 0 2; CRelease 0 2; CClose 0], None).
Proof. vm_compute. reflexivity. Qed.

(** C245: A drive which is not found is reported and not used.  Refuted: with an empty list of devices 0 is returned; the
    constructor goes on with a null handle. *)
Theorem C245_reported_refuted : exists w ds cs, init false w ds = (0, cs, None).
Proof. exists 35184372088833, [], []. reflexivity. Qed.
Print Assumptions C245_reported_refuted.
Theorem C245_not_used_refuted : exists w ds cs, init false w ds = (1, cs, None) /\ construct false w ds = UB.
Proof. exists 35184372088833, [C242_dev [51] ], [COpen 0; CClaim 0 2; CRelease 0 2; CClose 0]. split; vm_compute; reflexivity. Qed.
Print Assumptions C245_not_used_refuted.
Theorem C245_reported_partial : forall first w ds r cs a, ds <> [] -> init first w ds = (r, cs, a) -> (r = 0 <-> a <> None).
Proof. exact init_code. Qed.
Print Assumptions C245_reported_partial.
Example C245_ex : construct false 35184372088833 [C242_dev [50] ] = Ok 0%nat.
Proof. vm_compute. reflexivity. Qed.

(** C246: The numbers of the endpoints are those the drive describes for both axes.  Refuted: the end stop of axis 1 which is read
    is not the one which is configured and enabled. *)
Theorem C246_numbers_refuted : exists axis, In (number axis EndstopState, (axis, "min_endstop/endstop_state"%string)) described /\
  In (number axis EndstopGpio, (axis, "max_endstop/config/gpio_num"%string)) described /\
  In (number axis EndstopEnabled, (axis, "max_endstop/config/enabled"%string)) described.
Proof. exists true. unfold described. cbn [number In]. repeat split; repeat (first [left; reflexivity | right]). Qed.
Print Assumptions C246_numbers_refuted.
Theorem C246_numbers_partial : forall axis w, (axis, w) <> (true, EndstopState) -> In (number axis w, (axis, path w)) described.
Proof. exact numbers_described. Qed.
Print Assumptions C246_numbers_partial.
Example C246_ex : number true VelEstimate = 478 /\ number true EndstopState = 513.
Proof. split; reflexivity. Qed.

(** C247: A pressed emergency button at either axis is reported after a round.  Refuted for axis 1 (endpoint 520 is active). *)
Theorem C247_button_refuted : exists val m, val 520 = [1] /\ snd (round link0 (timely val) [0; 0; 0; 0] [0; 0; 0; 0]) = Ok m /\ endstop_active m = false.
Proof.
  exists (fun e => if e =? 520 then [1] else if (e =? 249) || (e =? 478) then [0; 0; 0; 0] else [0]),
    {| m_vel0 := [0; 0; 0; 0]; m_vel1 := [0; 0; 0; 0]; m_end0 := false; m_end1 := false |}.
  repeat split; vm_compute; reflexivity.
Qed.
Print Assumptions C247_button_refuted.
Theorem C247_button_partial : forall l val a b c d ref0 ref1, 0 <= l_seq l -> l_queue l = [] -> complete val a b c d ->
  exists m, snd (round l (timely val) ref0 ref1) = Ok m /\ endstop_active m = c || d.
Proof.
  intros l val a b c d ref0 ref1 O Q C. destruct (round_good l val a b c d ref0 ref1 O Q C) as (l' & E & _). rewrite E.
  eexists. split; [reflexivity|]. reflexivity.
Qed.
Print Assumptions C247_button_partial.
Example C247_ex : exists m, snd (round link0 (timely C240_val) [0; 0; 0; 0] [0; 0; 0; 0]) = Ok m /\ endstop_active m = true.
Proof. eexists. split; vm_compute; reflexivity. Qed.

(** C248: The driver asks for the end stops again and again.  Refuted: not during the calibration, which may take any time. *)
Theorem C248_asked_refuted : exists c, forall axis K, exists a mid b, requests 0 c K 0 = a ++ mid ++ b /\ (K <= length mid)%nat /\
  ~ In (axis, EndstopState) mid.
Proof. exists {| c_mot0 := false; c_mot1 := false; c_enc0 := false; c_enc1 := false |}. intros axis K. apply not_asked. Qed.
Print Assumptions C248_asked_refuted.
Theorem C248_asked_partial : forall axis waits c polls rounds a mid b, requests waits c polls rounds = a ++ mid ++ b ->
  ~ In (axis, EndstopState) mid -> (length mid <= 4 * polls + 36)%nat.
Proof. exact asked. Qed.
Print Assumptions C248_asked_partial.
Example C248_ex : In (true, EndstopState) (requests 0 {| c_mot0 := true; c_mot1 := true; c_enc0 := true; c_enc1 := true |} 0 1).
Proof. vm_compute. repeat (first [left; reflexivity | right]). Qed.
