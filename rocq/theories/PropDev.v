(** Property theorems: device drivers (C159 to C170). *)
From Coq Require Import Reals Lra Floats.SpecFloat.
From Verif Require Import Prelude Num DevModel DevSpec DevProofs.
Open Scope Z_scope.

(** C159: destroying a driver ends its thread and returns. *)
Theorem C159_failed_connection_refuted : exists s, s = dev_start KJoin false false true false /\
  forall ref os, ~ destroyed (dev_run KJoin ref s os).
Proof. exists (dev_start KJoin false false true false). split; [reflexivity|]. intros ref os. exact (spin_inv ref os false). Qed.
Print Assumptions C159_failed_connection_refuted.
Theorem C159_late_start_refuted : exists os, forall ref os',
  ~ destroyed (dev_run KJoin ref (dev_start KJoin true false true false) (os ++ os')).
Proof. exists late_os. intros ref os' H. unfold destroyed in H. rewrite (late_hangs ref os') in H. discriminate H. Qed.
Print Assumptions C159_late_start_refuted.
Theorem C159_uncalibrated_refuted : exists s, s = dev_start KUsb true false true false /\
  forall ref os, ~ destroyed (dev_run KUsb ref s os).
Proof. exists (dev_start KUsb true false true false). split; [reflexivity|]. intros ref os. exact (uncal_inv ref os false). Qed.
Print Assumptions C159_uncalibrated_refuted.
(** Once the thread measures, the destructor ends it, whatever the scheduling, if both threads get enough steps. *)
Theorem C159_destroy_partial : forall ref s os1 os2,
  measuring s -> d_freed s = false -> d_main s = dtor KJoin ->
  (2 <= steps_of OThread os1)%nat -> (2 <= steps_of OMain os2)%nat ->
  let s' := dev_run KJoin ref s (OMain :: os1 ++ os2) in
  destroyed s' /\ d_pc s' = TEnd /\ d_ub s' = d_ub s.
Proof. exact regular_stop. Qed.
Print Assumptions C159_destroy_partial.
Example C159_example :
  let s := dev_run KJoin 0 (dev_start KJoin true false true false) [OMain; OThread; OMain; OThread; OThread; OMain; OThread] in
  measuring s /\ d_freed s = false /\ d_main s = dtor KJoin /\
  destroyed (dev_run KJoin 0 s [OMain; OThread; OThread; OMain; OMain]).
Proof. vm_compute. auto. Qed.

(** C160: the thread never uses a handle which was closed or deleted. *)
Theorem C160_closed_port_refuted : exists os, d_ub (dev_run KUart 0 (dev_start KUart true false true false) os) = true.
Proof. exists [OMain; OMain; OThread; OThread; OThread; OMain; OMain; OMain; OMain; OThread]. vm_compute. reflexivity. Qed.
Print Assumptions C160_closed_port_refuted.
Theorem C160_deleted_endpoint_refuted : exists os, d_ub (dev_run KUsb 0 (dev_start KUsb true true true false) os) = true.
Proof. exists [OMain; OMain; OMain; OMain; OThread; OThread; OThread; OThread; OMain; OMain; OThread]. vm_compute. reflexivity. Qed.
Print Assumptions C160_deleted_endpoint_refuted.
Theorem C160_joining_drivers_partial : forall ref ok cal gs gr os,
  d_ub (dev_run KJoin ref (dev_start KJoin ok cal gs gr) os) = false.
Proof. exact join_safe. Qed.
Print Assumptions C160_joining_drivers_partial.
Example C160_example : d_freed (dev_run KJoin 0 (dev_start KJoin true false true false)
  [OMain; OMain; OThread; OThread; OMain; OMain; OThread; OMain; OMain]) = true.
Proof. reflexivity. Qed.

(** C161: the thread of a driver which was constructed and is not being destroyed measures. *)
Theorem C161_uninitialised_flag_refuted : exists os, forall ref,
  let s := dev_run KJoin ref (dev_start KJoin true false false false) os in
  in_use s /\ d_pc s = TEnd.
Proof.
  exists [OThread; OThread; OMain; OThread; OMain]. intros ref. cbn. unfold in_use. cbn. auto.
Qed.
Print Assumptions C161_uninitialised_flag_refuted.
(** When the flags are initialised before the thread reads them, the thread does not end before it is told to. *)
Theorem C161_initialised_first_partial : forall ref gs gr os,
  let s := dev_run KJoin ref (dev_start KJoin true false gs gr) (OMain :: os) in
  in_use s -> d_pc s <> TEnd.
Proof. exact used_measures. Qed.
Print Assumptions C161_initialised_first_partial.
Example C161_example :
  let s := dev_run KJoin 0 (dev_start KJoin true false false true) [OMain; OThread; OMain; OThread; OThread; OThread] in
  in_use s /\ d_pc s = TBody.
Proof. unfold in_use. cbn. auto. Qed.

(** C162: the last velocity an ODrive is given when its driver is destroyed is zero. *)
Theorem C162_uart_refuted : exists os, let s := dev_run KUart 0 (dev_start KUart true false true false) os in
  destroyed s /\ last_sent s = Some 10000.
Proof. exists [OMain; OMain; OThread; OThread; OThread; OMain; OMain; OThread; OMain; OThread; OMain; OMain]. vm_compute. auto. Qed.
Print Assumptions C162_uart_refuted.
Theorem C162_usb_refuted : exists os, let s := dev_run KUsb 7 (dev_start KUsb true true true false) os in
  destroyed s /\ last_sent s = Some 7.
Proof. exists [OMain; OMain; OMain; OMain; OThread; OThread; OThread; OThread; OMain; OThread; OMain; OMain; OThread; OMain]. vm_compute. auto. Qed.
Print Assumptions C162_usb_refuted.
(** It is zero when the thread is between two rounds and gets no step before running is cleared. *)
Theorem C162_between_rounds_partial : forall ref s os, d_pc s = TCheck -> d_main s = dtor KUart ->
  last_sent (dev_run KUart ref s (OMain :: OMain :: os)) = Some 0.
Proof. exact zero_last. Qed.
Print Assumptions C162_between_rounds_partial.
Example C162_example :
  let s := dev_run KUart 0 (dev_start KUart true false true false) [OMain; OMain; OThread; OThread; OThread; OThread; OMain] in
  d_pc s = TCheck /\ d_main s = dtor KUart /\ last_sent s = Some 10000.
Proof. vm_compute. auto. Qed.

(** C163: the velocity stored is the number the drive sent. *)
Theorem C163_fraction_refuted : exists s ds fs v, all_digits ds /\ all_digits fs /\
  get_vel (reply s ds fs) = RDone v [] /\ v * 10 ^ Z.of_nat (length fs) <> sent_scaled s ds fs.
Proof.
  exists Plain, [1], [9], 1. split; [|split; [|split]].
  - repeat constructor; discriminate.
  - repeat constructor; discriminate.
  - vm_compute. reflexivity.
  - vm_compute. discriminate.
Qed.
Print Assumptions C163_fraction_refuted.
(** It is the number without its fraction. *)
Theorem C163_integer_part_partial : forall s ds fs, all_digits ds -> all_digits fs -> ds <> [] -> (length ds <= 98)%nat ->
  get_vel (reply s ds fs) = RDone ((match s with Minus => -1 | _ => 1 end) * place_value ds) [].
Proof. exact get_vel_ok. Qed.
Print Assumptions C163_integer_part_partial.
Example C163_example : get_vel (reply Minus [1; 2; 0] [7; 5]) = RDone (-120) [].
Proof. vm_compute. reflexivity. Qed.

(** C164: reading a reply stays inside the array, whatever the drive sends. *)
Theorem C164_long_reply_refuted : exists l, Forall (fun c => 0 <= c <= 255) l /\ get_vel (map Some l) = RUB.
Proof.
  exists (repeat 49 101). split.
  - apply Forall_forall. intros c H. apply repeat_spec in H. subst c. split; discriminate.
  - vm_compute. reflexivity.
Qed.
Print Assumptions C164_long_reply_refuted.
Theorem C164_no_byte_refuted : exists l, get_vel (None :: l) = RUB.
Proof. exists []. reflexivity. Qed.
Print Assumptions C164_no_byte_refuted.
(** Every reply with more than 100 bytes before the first point leaves the array; a well formed one does not. *)
Theorem C164_replies_partial :
  (forall l, Forall (fun c => c <> 46) l -> (100 < length l)%nat -> get_vel (map Some l) = RUB) /\
  (forall s ds fs, all_digits ds -> all_digits fs -> ds <> [] -> (length ds <= 98)%nat -> get_vel (reply s ds fs) <> RUB).
Proof. exact get_vel_replies. Qed.
Print Assumptions C164_replies_partial.
Example C164_example : get_vel (reply Plain [5] []) = RDone 5 [].
Proof. vm_compute. reflexivity. Qed.

(** C165: the outputs of the lidar show the distances of the scan. *)
Theorem C165_nothing_in_range_refuted : exists ns, (0 < length ns <= 380)%nat /\
  forall (N : num) (inf pi : N), scan N inf pi ns = UB.
Proof.
  exists [{| n_dist := 0; n_qual := 0; n_angle := 0 |}]. split; [cbn; lia|]. intros N inf pi. reflexivity.
Qed.
Print Assumptions C165_nothing_in_range_refuted.
Theorem C165_scan_partial : forall (inf pi : R) ns,
  (exists n, In n ns /\ n_dist n <> 0) -> (forall n, In n ns -> 0 <= n_dist n) -> (length ns <= 380)%nat ->
  exists l, scan Rnum inf pi ns = Ok l /\ length l = 380%nat /\
    (forall i n, nth_error ns i = Some n -> nth_error l i =
       Some ((if Z.ltb (n_dist n) 40 then inf else (IZR (n_dist n) / 4000)%R), IZR (n_qual n / 4),
             (IZR (n_angle n) * 90 / 16384 * pi / 180)%R)) /\
    (forall i, (length ns <= i < 380)%nat -> nth_error l i = Some (inf, inf, inf)).
Proof. exact scan_R. Qed.
Print Assumptions C165_scan_partial.
Example C165_example : exists n, In n [{| n_dist := 0; n_qual := 0; n_angle := 0 |}; {| n_dist := 4000; n_qual := 188; n_angle := 16384 |}] /\ n_dist n <> 0.
Proof. exists {| n_dist := 4000; n_qual := 188; n_angle := 16384 |}. cbn. split; [auto|discriminate]. Qed.

(** C166: the reference velocity reaches the ODrive and its measured velocity the output of the block. *)
Theorem C166_reference_refuted : exists t, turns Dnum = Ok t /\
  (forall s m e, usb_ref Dnum (S754_finite s m e) = Ok (S754_zero s)).
Proof. exists 0. split; [exact turns_zero|]. intros s m e. unfold usb_ref. rewrite turns_zero. destruct s; reflexivity. Qed.
Print Assumptions C166_reference_refuted.
Theorem C166_velocity_refuted : exists t, turns Dnum = Ok t /\
  (forall s m e, usb_vel Dnum (S754_finite s m e) = Ok (S754_infinity s)) /\
  (forall s, usb_vel Dnum (S754_zero s) = Ok S754_nan).
Proof.
  exists 0. split; [exact turns_zero|]. split; intros; unfold usb_vel; rewrite turns_zero; cbn.
  - destruct s; reflexivity.
  - reflexivity.
Qed.
Print Assumptions C166_velocity_refuted.
(** Exact arithmetic does not change this. *)
Theorem C166_exact_refuted : exists t, turns Rnum = Ok t /\ forall v : R, usb_ref Rnum v = Ok 0%R.
Proof.
  exists 0. split; [exact turns_zero_R|]. intros v. unfold usb_ref. rewrite turns_zero_R. cbn. f_equal. apply Rmult_0_l.
Qed.
Print Assumptions C166_exact_refuted.

(** C167: the configuration sets the input of both end stops. *)
Theorem C167_second_endstop_refuted : exists p, p = Gpio 1 /\ forall d, after_writes d cfg_writes p = d p.
Proof. exists (Gpio 1). split; [reflexivity|]. intros d. reflexivity. Qed.
Print Assumptions C167_second_endstop_refuted.
Theorem C167_settings_partial : forall d,
  after_writes d cfg_writes (Gpio 0) = 6 /\ after_writes d cfg_writes (ActiveHigh 0) = 0 /\
  after_writes d cfg_writes (Enabled 0) = 1 /\ after_writes d cfg_writes (Enabled 1) = 1.
Proof. exact (fun d => conj eq_refl (conj eq_refl (conj eq_refl eq_refl))). Qed.
Print Assumptions C167_settings_partial.
Example C167_example : after_writes (fun _ => 9) cfg_writes (Gpio 1) = 9 /\ after_writes (fun _ => 9) cfg_writes (Gpio 0) = 6.
Proof. split; reflexivity. Qed.

(** C168: the outputs of the ODrive block show the values measured last. *)
Theorem C168_currents_refuted : exists T : Type, T = Z /\ forall ms : list (T * T), u_iq (usb_rounds ms) = None.
Proof. exists Z. split; [reflexivity|]. intros ms. exact (proj1 (usb_rounds_ok Z ms)). Qed.
Print Assumptions C168_currents_refuted.
Theorem C168_velocity_partial : forall (T : Type) (ms : list (T * T)) vel iq, u_vel (usb_rounds (ms ++ [(vel, iq)])) = Some vel.
Proof. exact (fun T ms vel iq => eq_trans (proj2 (usb_rounds_ok T (ms ++ [(vel, iq)])))
  (f_equal (fun l => match l with [] => None | m :: _ => Some (fst m) end) (rev_app_distr ms [(vel, iq)]))). Qed.
Print Assumptions C168_velocity_partial.
Example C168_example : usb_rounds [(1, 2); (3, 4)] = {| u_vel := Some 3; u_iq := None |}.
Proof. reflexivity. Qed.

(** C169: the watchdog of the ODrive is fed in every round. *)
Theorem C169_watchdog : forall n, feed_run 0 n = repeat true n.
Proof. exact feed_all. Qed.
Print Assumptions C169_watchdog.
Example C169_example : feed_run 0 3 = [true; true; true] /\ feed_run 1 2 = [false; false].
Proof. split; reflexivity. Qed.

(** C170: a unit quaternion gives a rotation. *)
Theorem C170_rotation : forall w x y z : R, (w * w + x * x + y * y + z * z = 1)%R ->
  let m := t265 Rnum w x y z in
  (forall a b, (a < 3)%nat -> (b < 3)%nat -> rot_col m a b = if Nat.eqb a b then 1%R else 0%R) /\ det3 m = 1%R.
Proof. exact t265_rot. Qed.
Print Assumptions C170_rotation.
Example C170_example : (1 * 1 + 0 * 0 + 0 * 0 + 0 * 0 = 1)%R.
Proof. ring. Qed.
