(** Properties C145 to C148: mouse and keyboard blocks. *)
From Coq Require Import Ascii Reals Lra.
From Verif Require Import Prelude Num InputModel InputSpec InputProofs InputProofs2.

(** C145: every output of the mouse block lies between the limits of its axis. *)
Theorem C145_refuted : exists (a : axis Dnum) (c : Z), nleb Dnum (a_min Dnum a) (a_max Dnum a) = true /\
  nltb Dnum (snd (axis_step Dnum a (dofZ 0) c)) (a_min Dnum a) = true.
Proof. exact limit_missed. Qed.
Print Assumptions C145_refuted.
Theorem C145_real_partial : forall sel, is_comp sel -> forall (ax : quad (axis Rnum)) (m : minput Rnum) (c : quad Z),
  (a_min Rnum (sel _ ax) <= a_max Rnum (sel _ ax))%R ->
  (a_min Rnum (sel _ ax) <= sel _ (mi_out Rnum (minput_run Rnum ax m c)) <= a_max Rnum (sel _ ax))%R.
Proof. exact mouse_limits. Qed.
Print Assumptions C145_real_partial.
(** The output is limited and the offset adapted: 200 counts with limit 100. *)
Example C145_example : snd (axis_step Dnum (Build_axis Dnum (dofZ 1) (dofZ (-100)) (dofZ 100)) (dofZ 0) 200) = (dofZ 100 : nT Dnum).
Proof. vm_compute. reflexivity. Qed.

(** C146: between two runs the output moves by the scaled movement of the mouse, limited to the range; counts beyond a limit
    are forgotten. *)
Theorem C146_movement : forall sel, is_comp sel -> forall (ax : quad (axis Rnum)) (m : minput Rnum) (c c' : quad Z),
  (a_min Rnum (sel _ ax) <= a_max Rnum (sel _ ax))%R ->
  let m1 := minput_run Rnum ax m c in
  let m2 := minput_run Rnum ax m1 c' in
  sel _ (mi_out Rnum m2) = limited (a_min Rnum (sel _ ax)) (a_max Rnum (sel _ ax))
     (sel _ (mi_out Rnum m1) + a_scale Rnum (sel _ ax) * (IZR (sel _ c') - IZR (sel _ c)))%R.
Proof. exact mouse_antiwindup. Qed.
Print Assumptions C146_movement.
(** 200 counts forward, then 30 back: the output leaves the limit at once. *)
Example C146_example :
  let a := Build_axis Dnum (dofZ 1) (dofZ (-100)) (dofZ 100) in
  snd (axis_step Dnum a (fst (axis_step Dnum a (dofZ 0) 200)) 170) = (dofZ 70 : nT Dnum).
Proof. vm_compute. reflexivity. Qed.

(** C147: after setInitPos the output stays at the position set until the mouse moves. *)
Theorem C147_swapped_refuted : exists (ax : quad (axis Rnum)) (m : minput Rnum) (p : quad R) (c : quad Z), mi_first Rnum m = false /\
  (a_min Rnum (q_x ax) <= q_x p <= a_max Rnum (q_x ax))%R /\
  q_x (mi_out Rnum (minput_run Rnum ax (minput_init Rnum ax m p c) c)) <> q_x p.
Proof. exact init_swapped. Qed.
Print Assumptions C147_swapped_refuted.
Theorem C147_first_run_refuted : exists (ax : quad (axis Rnum)) (p : quad R), let m := minput_init Rnum ax (minput_new Rnum ax c0) p c0 in
  (a_min Rnum (q_z ax) <= q_z p <= a_max Rnum (q_z ax))%R /\
  q_z (mi_out Rnum m) = q_z p /\ q_z (mi_out Rnum (minput_run Rnum ax m c0)) <> q_z p.
Proof. exact init_forgotten. Qed.
Print Assumptions C147_first_run_refuted.
Theorem C147_equal_counts_partial : forall sel, is_comp sel -> forall (ax : quad (axis Rnum)) (m : minput Rnum) (p : quad R) (c : quad Z),
  mi_first Rnum m = false -> q_x c = q_y c ->
  (a_min Rnum (sel _ ax) <= sel _ p <= a_max Rnum (sel _ ax))%R ->
  sel _ (mi_out Rnum (minput_run Rnum ax (minput_init Rnum ax m p c) c)) = sel _ p.
Proof. exact init_then_run. Qed.
Print Assumptions C147_equal_counts_partial.
Theorem C147_z_r_partial : forall sel, sel = @q_z \/ sel = @q_r -> forall (ax : quad (axis Rnum)) (m : minput Rnum) (p : quad R) (c : quad Z),
  mi_first Rnum m = false -> (a_min Rnum (sel _ ax) <= sel _ p <= a_max Rnum (sel _ ax))%R ->
  sel _ (mi_out Rnum (minput_run Rnum ax (minput_init Rnum ax m p c) c)) = sel _ p.
Proof. exact init_then_run_zr. Qed.
Print Assumptions C147_z_r_partial.
Theorem C147_first_zero_partial : forall sel, sel = @q_z \/ sel = @q_r -> forall (ax : quad (axis Rnum)) (m : minput Rnum) (c : quad Z),
  mi_first Rnum m = true -> (a_min Rnum (sel _ ax) <= a_max Rnum (sel _ ax))%R ->
  sel _ (mi_out Rnum (minput_run Rnum ax m c)) = limited (a_min Rnum (sel _ ax)) (a_max Rnum (sel _ ax)) 0%R.
Proof. exact first_run_zr. Qed.
Print Assumptions C147_first_zero_partial.
Example C147_example : exists m : minput Rnum, mi_first Rnum m = false /\ (a_min Rnum (q_z axR) <= q_z pR <= a_max Rnum (q_z axR))%R.
Proof. exists (minput_run Rnum axR (minput_new Rnum axR c0) c0). split; [reflexivity|cbn; lra]. Qed.

Open Scope nat_scope.
(** C148: the outputs of a keyboard block tell for each of its keys whether it was pressed since the last reset. *)
Theorem C148_second_block_refuted : exists codes1 names1 codes2 names2 s1, length names1 = length codes1 /\ length names2 = length codes2 /\
  NoDup (names1 ++ names2) /\ kb_construct codes1 names1 ([], klist0) = Ok s1 /\ kb_construct codes2 names2 s1 = Fault.
Proof. exact keyboard_second_witness. Qed.
Print Assumptions C148_second_block_refuted.
Theorem C148_too_many_keys_refuted : exists N codes names s, length names = length codes /\ NoDup names /\
  kb_construct codes names ([], klist0) = Ok s /\ kb_run N (snd s) = UB.
Proof. exact keyboard_too_many. Qed.
Print Assumptions C148_too_many_keys_refuted.
(** No second block can be constructed, whatever its keys are. *)
Theorem C148_every_second_partial : forall codes1 names1 codes2 names2 hal0 s1,
  codes1 <> [] -> length codes1 <= 255 -> length codes1 <= length names1 -> codes2 <> [] -> length codes2 <= 255 ->
  kb_construct codes1 names1 (hal0, klist0) = Ok s1 -> length codes2 <= length names2 ->
  kb_construct codes2 names2 s1 = Fault.
Proof. exact keyboard_second. Qed.
Print Assumptions C148_every_second_partial.
Theorem C148_single_partial : forall N codes names hal0, length codes <= N -> length codes <= 255 -> length names = length codes ->
  NoDup names -> (forall n, In n names -> ~ In n hal0) ->
  exists hal l, kb_construct codes names (hal0, klist0) = Ok (hal, l) /\
  forall es l', kb_events l (map ev_of es) = Ok l' ->
  exists outs, kb_run N l' = Ok outs /\ length outs = length codes /\
    forall i c, nth_error codes i = Some c -> nth_error outs i = Some (last_is_stroke c i es).
Proof. exact keyboard_single. Qed.
Print Assumptions C148_single_partial.
(** Two keys; a pressed, b pressed, a reset, x ignored. *)
Example C148_example :
  bind (kb_construct ["a"; "b"]%char [1; 2] ([], klist0)) (fun s =>
  bind (kb_events (snd s) [KbPress "a"; KbPress "b"; KbReset 0; KbPress "x"]%char) (kb_run 2)) = Ok [false; true].
Proof. reflexivity. Qed.
