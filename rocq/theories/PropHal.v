(** Properties C67-C70, C75, C118-C124: hardware abstraction layer. *)
From Coq Require Import String Ascii Reals.
From Verif Require Import Prelude Num HalModel HalSpec HalProofs HalExamples ScaleModel ScaleSpec ScaleProofs ScaleExamples KeyModel KeyProofs.
Open Scope list_scope.
Open Scope nat_scope.

(** C67.  [hist Ob side0 os] is the history of the calls [os] with their results; [next_get Ob os w n e] the result of one more request. *)
Theorem C67_claims_partial : forall Ob os n a, registered Ob (hist Ob side0 os) n a ->
  match track n (hist Ob side0 os) with
  | Free => forall w e, fits w (kind_of Ob a) -> next_get Ob os w n e = Ret (Some a)
  | Exclusive => forall w e, next_get Ob os w n e = Exc
  | Shared => forall w, next_get Ob os w n true = Exc /\ (fits w (kind_of Ob a) -> next_get Ob os w n false = Ret (Some a))
  end.
Proof. exact claims_ok. Qed.
Print Assumptions C67_claims_partial.
Theorem C67_release : forall Ob os n a, registered Ob (hist Ob side0 os) n a ->
  next_release Ob os n = match track n (hist Ob side0 os) with Free => Exc | _ => Ret None end.
Proof. exact release_registered. Qed.
Print Assumptions C67_release.
(** Names that were never registered: all of them share one claim. *)
Theorem C67_claims_refuted : exists Ob os n, track n (hist Ob side0 os) = Exclusive /\ next_get Ob os RAny n true = Ret None.
Proof. exact (ex_intro _ demo (ex_intro _ [Get RAny "x"%string true; Release "y"%string] (ex_intro _ "x"%string unknown_shared))). Qed.
Print Assumptions C67_claims_refuted.
Example C67_example : let os := [Add (Some 0); Add (Some 1); Get RLogic "led"%string true] in
  registered demo (hist demo side0 os) "led"%string 0 /\ track "led"%string (hist demo side0 os) = Exclusive /\ track "enc"%string (hist demo side0 os) = Free /\
  next_get demo os RAny "led"%string false = Exc /\ next_get demo os RScalable "enc"%string false = Ret (Some 1).
Proof. exact demo_claims. Qed.

(** C68 *)
Theorem C68_shared_refuted : exists Ob os n a w, registered Ob (hist Ob side0 os) n a /\ users n (hist Ob side0 os) = 1 /\ next_get Ob os w n true = Ret (Some a).
Proof. exact (ex_intro _ demo (ex_intro _ _ (ex_intro _ "led"%string (ex_intro _ 0 (ex_intro _ RLogic two_users))))). Qed.
Print Assumptions C68_shared_refuted.
Theorem C68_shared_partial : forall Ob os n a w, registered Ob (hist Ob side0 os) n a -> (forall r, ~ In (Release n, r) (hist Ob side0 os)) ->
  0 < users n (hist Ob side0 os) -> next_get Ob os w n true = Exc.
Proof. exact shared_kept. Qed.
Print Assumptions C68_shared_partial.
(** How the code behaves in general: one release frees the signal. *)
Theorem C68_one_release_frees : forall Ob os n a w e, registered Ob (hist Ob side0 os) n a -> track n (hist Ob side0 os) <> Free -> fits w (kind_of Ob a) ->
  next_get Ob (os ++ [Release n]) w n e = Ret (Some a).
Proof. exact one_release. Qed.
Print Assumptions C68_one_release_frees.
Example C68_example : users "led"%string (hist demo side0 [Add (Some 0); Get RLogic "led"%string false; Get RAny "led"%string false]) = 2.
Proof. reflexivity. Qed.

(** C69 *)
Theorem C69_unknown_partial : forall Ob os n w e, w <> RAny -> unknown Ob os n -> next_get Ob os w n e = Exc.
Proof. exact typed_unknown. Qed.
Print Assumptions C69_unknown_partial.
Theorem C69_no_trace_partial : forall Ob os n w e os', w <> RAny -> unknown Ob os n -> (forall o, In o os' -> ~ adds Ob n o) ->
  snd (run Ob (fst (run Ob side0 (os ++ [Get w n e]))) os') = snd (run Ob (fst (run Ob side0 os)) os').
Proof. exact typed_unknown_trace. Qed.
Print Assumptions C69_no_trace_partial.
Theorem C69_unknown_refuted : exists Ob n, unknown Ob [] n /\ next_get Ob [] RAny n true = Ret None.
Proof. exact (ex_intro _ demo (ex_intro _ "led"%string unknown_null)). Qed.
Print Assumptions C69_unknown_refuted.
Theorem C69_no_trace_refuted : exists Ob n a, next_get Ob [] RLogic n true = Exc /\
  snd (run Ob side0 [Add (Some a)]) = [Ret None] /\ snd (run Ob side0 [Get RLogic n true; Add (Some a)]) = [Exc; Exc].
Proof. exact (ex_intro _ demo (ex_intro _ "led"%string (ex_intro _ 0 unknown_blocks))). Qed.
Print Assumptions C69_no_trace_refuted.
Example C69_example : unknown demo [Add (Some 1)] "led"%string.
Proof. intros a [H [H'|[]]]. injection H' as <-. discriminate. Qed.

(** C118 *)
Theorem C118_typed_access : forall Ob os n w e p, w <> RAny -> next_get Ob os w n e = Ret p ->
  exists a, p = Some a /\ registered Ob (hist Ob side0 os) n a /\ fits w (kind_of Ob a).
Proof. exact typed_ok. Qed.
Print Assumptions C118_typed_access.
Theorem C118_failed_request_claims_nothing : forall Ob s w n e, snd (step Ob s (Get w n e)) = Exc -> let s' := fst (step Ob s (Get w n e)) in
  excl s' = excl s /\ shared s' = shared s /\ forall m a, tbl s' m = Some (Some a) <-> tbl s m = Some (Some a).
Proof. exact get_fault. Qed.
Print Assumptions C118_failed_request_claims_nothing.
Theorem C118_unique_registration : forall Ob os n a b, registered Ob (hist Ob side0 os) n a -> registered Ob (hist Ob side0 os) n b -> a = b.
Proof. exact registered_once. Qed.
Print Assumptions C118_unique_registration.
Theorem C118_inputs_and_outputs : forall Oi Oo h o, outs (fst (hal_step Oi Oo h (inl o))) = outs h /\ ins (fst (hal_step Oi Oo h (inr o))) = ins h.
Proof. exact sides_independent. Qed.
Print Assumptions C118_inputs_and_outputs.
Example C118_example : next_get demo [Add (Some 0)] RLogic "led"%string true = Ret (Some 0) /\ next_get demo [Add (Some 0)] RScalable "led"%string true = Exc.
Proof. split; reflexivity. Qed.

(** C70 *)
Theorem C70_scale_partial : forall dmin dmax rs its, (forall it, In it its -> exists r, range_for rs it r /\ encloses_zero it r) ->
  exists s, calcR dmin dmax rs its = Ok s /\ forall x, (x * s_scale Rnum s + s_offset Rnum s = chain its x)%R.
Proof. exact calc_ok. Qed.
Print Assumptions C70_scale_partial.
Theorem C70_end_points : forall i a b c d, a <> b -> conv (Ends i a b c d) a = c /\ conv (Ends i a b c d) b = d.
Proof. exact conv_ends. Qed.
Print Assumptions C70_end_points.
Theorem C70_scale_refuted : exists rs i a b c d, (a < b)%R /\ (c < d)%R /\ forall dmin dmax, exists s, calcR dmin dmax rs [Ends i a b c d] = Ok s /\ (a * s_scale Rnum s + s_offset Rnum s <> c)%R.
Proof.
  exact (ex_intro _ off_range (ex_intro _ "a"%string (ex_intro _ 0%R (ex_intro _ 10%R (ex_intro _ 1%R (ex_intro _ 11%R
    (conj (IZR_lt 0 10 eq_refl) (conj (IZR_lt 1 11 eq_refl) off_wrong)))))))).
Qed.
Print Assumptions C70_scale_refuted.
Theorem C70_unknown_property : forall T fin dmin dmax rs es ps, In ps es -> In (PUnknown T) ps -> forall s, calc_scale T fin dmin dmax rs es <> Ok s.
Proof. exact calc_unknown_prop. Qed.
Print Assumptions C70_unknown_property.
Theorem C70_missing_range : forall T fin dmin dmax rs es ps e, In ps es -> read_entry T ps = Ok e -> (forall r, In r rs -> r_id T r <> e_id T e) ->
  forall s, calc_scale T fin dmin dmax rs es <> Ok s.
Proof. exact calc_no_range. Qed.
Print Assumptions C70_missing_range.
(** A scale that is not finite is refused. *)
Theorem C70_finite : forall T fin dmin dmax rs es s, es <> [] -> calc_scale T fin dmin dmax rs es = Ok s ->
  fin (s_scale T s) = true /\ fin (s_offset T s) = true.
Proof. exact calc_finite. Qed.
Print Assumptions C70_finite.
Example C70_example : (forall it, In it good_items -> exists r, range_for good_ranges it r /\ encloses_zero it r /\ r_nolimit Rnum r = false /\ rising it) /\ chain good_items 12 = 16%R.
Proof. exact (conj good_ok good_chain). Qed.
Example C70_example_double : match calc_scale Dnum dfinite (dofZ 0) (dofZ 0) [Build_range Dnum "a" false (dofZ 0) (dofZ 10) (dofZ 1) (dofZ 11)]
    [[PId Dnum "a"; PMinIn Dnum (dofZ 0); PMaxIn Dnum (dofZ 10); PMinOut Dnum (dofZ 1); PMaxOut Dnum (dofZ 11)]] with
  | Ok s => nltb Dnum (dofZ 3) (s_offset Dnum s) | _ => false end = true.
Proof. exact off_dbl. Qed.

(** C119 *)
Theorem C119_range_partial : forall dmin dmax rs its, its <> [] ->
  (forall it, In it its -> exists r, range_for rs it r /\ encloses_zero it r /\ r_nolimit Rnum r = false /\ rising it) ->
  exists s, calcR dmin dmax rs its = Ok s /\ forall x, (s_min Rnum s <= x <= s_max Rnum s)%R <-> within rs its x.
Proof. exact range_ok. Qed.
Print Assumptions C119_range_partial.
Theorem C119_range_refuted : exists rs its, within rs its 5 /\ forall dmin dmax, exists s, calcR dmin dmax rs its = Ok s /\ s_min Rnum s = 10%R /\ s_max Rnum s = 0%R.
Proof. exact (ex_intro _ neg_range (ex_intro _ neg_item (conj neg_within neg_empty))). Qed.
Print Assumptions C119_range_refuted.
Theorem C119_no_limit_refuted : exists rs its, forall dmin dmax, exists s, calcR dmin dmax rs its = Ok s /\ s_min Rnum s = dmin /\ s_max Rnum s = dmax.
Proof. exact (ex_intro _ two_ranges (ex_intro _ two_items two_discards)). Qed.
Print Assumptions C119_no_limit_refuted.
Example C119_example : good_items <> [].
Proof. discriminate. Qed.

(** C75 *)
Theorem C75_keys_partial : forall codes names es i n c, length codes <= length names -> length codes < 256 -> NoDup names ->
  nth_error names i = Some n -> nth_error codes i = Some c ->
  exists l, add_keys codes names keys0 = Ok l /\ snd (read_key n (krun l es)) = pending n c es.
Proof. exact key_reported. Qed.
Print Assumptions C75_keys_partial.
(** After a second addKeys with fewer keys the first ones are forgotten. *)
Theorem C75_two_calls_refuted : exists codes names codes' names' n c, exists l l', add_keys codes names keys0 = Ok l /\ add_keys codes' names' l = Ok l' /\
  In c codes /\ In n names /\ snd (read_key n (krun l' [Press c])) = false.
Proof.
  exact (ex_intro _ ["a"%char; "b"%char] (ex_intro _ ["A"%string; "B"%string] (ex_intro _ ["c"%char] (ex_intro _ ["C"%string] (ex_intro _ "B"%string (ex_intro _ "b"%char
    (ex_intro _ _ (ex_intro _ _ (conj eq_refl (conj eq_refl (conj (or_intror (or_introl eq_refl)) (conj (or_intror (or_introl eq_refl)) eq_refl)))))))))))).
Qed.
Print Assumptions C75_two_calls_refuted.
Theorem C75_short_names_refuted : exists codes names, add_keys codes names keys0 = UB.
Proof. exact (ex_intro _ ["a"%char] (ex_intro _ [] eq_refl)). Qed.
Print Assumptions C75_short_names_refuted.
Example C75_example : pending "A" "a" [Press "a"; Press "b"; ReadKey "B"] = true /\ pending "A" "a" [Press "a"; ReadKey "A"] = false.
Proof. split; reflexivity. Qed.

(** C120 *)
Theorem C120_state : forall T es b, b < 8 ->
  x_state T (xbox_run T (xbox0 T) es) b = match last_of (is_button b) es with Some e => negb (j_value e =? 0)%Z | None => false end /\
  x_axis T (xbox_run T (xbox0 T) es) b = match last_of (is_axis b) es with Some e => ndiv T (nofZ T (j_value e)) (nofZ T 32767) | None => nofZ T 0 end.
Proof. exact (fun T es b H => conj (xbox_state T es b H) (xbox_axis T es b H)). Qed.
Print Assumptions C120_state.
Theorem C120_edges_partial : forall T es e b, b < 8 -> is_button b e = true ->
  let before := x_state T (xbox_run T (xbox0 T) es) b in let after := x_state T (xbox_run T (xbox0 T) (es ++ [e])) b in
  x_down T (xbox_run T (xbox0 T) (es ++ [e])) b = after && negb before /\ x_up T (xbox_run T (xbox0 T) (es ++ [e])) b = negb after && before.
Proof. exact xbox_edges. Qed.
Print Assumptions C120_edges_partial.
(** The edge flags of a button stay set while other events arrive. *)
Theorem C120_edges_refuted : exists es e b, b < 8 /\ forall T,
  x_state T (xbox_run T (xbox0 T) (es ++ [e])) b = x_state T (xbox_run T (xbox0 T) es) b /\ x_down T (xbox_run T (xbox0 T) (es ++ [e])) b = true.
Proof.
  exact (ex_intro _ [{| j_type := 1; j_number := 0; j_value := 1 |}%Z] (ex_intro _ {| j_type := 2; j_number := 3; j_value := 5 |}%Z (ex_intro _ 0
    (conj (proj1 (Nat.ltb_lt 0 8) eq_refl) (fun T => conj eq_refl eq_refl))))).
Qed.
Print Assumptions C120_edges_refuted.
Example C120_example : x_state Dnum (xbox_run Dnum (xbox0 Dnum) [{| j_type := 1; j_number := 7; j_value := 1 |}%Z; {| j_type := 1; j_number := 8; j_value := 1 |}%Z]) 7 = true.
Proof. reflexivity. Qed.

(** C121 *)
Theorem C121_mouse : forall es m, mouse_run mouse0 es = Ok m ->
  (m_x m = total 0 es /\ m_y m = total 1 es /\ m_z m = total 8 es /\ m_r m = total 6 es) /\
  (m_left m = last_key 272 es /\ m_right m = last_key 273 es /\ m_middle m = last_key 274 es).
Proof. exact mouse_ok. Qed.
Print Assumptions C121_mouse.
Example C121_example : mouse_run mouse0 [{| i_type := 2; i_code := 0; i_value := 5 |}; {| i_type := 2; i_code := 0; i_value := -7 |}; {| i_type := 1; i_code := 273; i_value := 1 |}]%Z =
  Ok {| m_left := 0; m_right := 1; m_middle := 0; m_x := -2; m_y := 0; m_z := 0; m_r := 0 |}%Z.
Proof. reflexivity. Qed.

(** C122 *)
Theorem C122_decode : forall x, (-32768 <= x <= 32767)%Z -> sn_decode (x mod 256) ((x / 256) mod 256) = x.
Proof. exact decode_ok. Qed.
Print Assumptions C122_decode.
Example C122_example : sn_decode 162 254 = (-350)%Z /\ sn_decode 94 1 = 350%Z.
Proof. split; reflexivity. Qed.

(** C123 *)
Theorem C123_pin_refuted : exists content inverted, sysfs_get (sysfs_new true content inverted) = UB.
Proof. exact (ex_intro _ ["1"%char; "010"%char] (ex_intro _ true (sysfs_ub _ _))). Qed.
Print Assumptions C123_pin_refuted.
(** In fact every read of an open pin: the member [inverted] is never initialised. *)
Theorem C123_always_undefined : forall content inverted, sysfs_get (sysfs_new true content inverted) = UB.
Proof. exact sysfs_ub. Qed.
Print Assumptions C123_always_undefined.
(** With [inverted] set the first read is right and the second is undefined. *)
Theorem C123_first_read_partial : forall v i, exists s, sysfs_get (pin v i) = Ok (s, xorb i v) /\ sysfs_get s = UB.
Proof. exact sysfs_twice. Qed.
Print Assumptions C123_first_read_partial.
Example C123_example : exists s, sysfs_get (pin true false) = Ok (s, true).
Proof. exact (ex_intro _ _ eq_refl). Qed.
